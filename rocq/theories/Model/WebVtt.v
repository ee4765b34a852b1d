(** /repo/src/web_vtt_reader.{h,cc}. *)
From Coq Require Import ZArith List Bool Ascii String.
From Verif.Model Require Import Base Strings Float TimeModel Types Lines Subrip.
Import ListNotations.
Local Open Scope Z_scope.

(** The states of the loop, web_vtt_reader.cc 55-64. *)
Inductive vtt_state : Type := VHEADER | VDATA | VSUBTITLE | VNOTE.

(** The loop over sub_lines, web_vtt_reader.cc 139-143. *)
Fixpoint vtt_sub_lines (l : list str) (rs : raw) (subs : list raw) : res (raw * list raw) :=
  match l with
  | [] => Ok (rs, subs)
  | s :: t =>
      let rs := set_text s rs in
      let* n := opt_get (v_line (r_vpos rs)) in
      vtt_sub_lines t (set_line (Some (n + 1)) rs) (subs ++ [rs])
  end.

(** WebVTTReader::read, web_vtt_reader.cc 52-154, on the lines that get_line delivers. *)
Fixpoint vtt_loop (lines : list str) (st : vtt_state) (ctx : list str) (rs : raw) (subs : list raw)
  : res (list raw) :=
  match lines with
  | [] => Ok subs
  | l :: rest =>
      let line := clean_line l in
      let ctx := push_context ctx line in
      match st with
      | VHEADER =>
          if starts_with line (lit "WEBVTT") then vtt_loop rest VDATA ctx rs subs
          else Throw EWebVttHeader
      | VDATA =>
          if starts_with line (lit "NOTE") then vtt_loop rest VNOTE ctx rs subs
          else if is_some (find_sub line (lit "-->")) then
            let line := trim_right_if (is_any_of (lit " ")) line in
            let p := split_compress (is_any_of (lit " ")) line in
            if negb (Nat.eqb (List.length p) 3) && negb (Nat.eqb (List.length p) 7) then
              Throw (EWebVtt line (lit "a time line") (error_context ctx rest))
            else
              let p0 := nth 0 p [] in
              let p2 := nth 2 p [] in
              let* from := convert_time p0 (lit ".") in
              match from with
              | CExpected e => Throw (EWebVtt p0 e ctx)
              | CTime from =>
                  let* to := convert_time p2 (lit ".") in
                  match to with
                  | CExpected e => Throw (EWebVtt p2 e ctx)
                  | CTime to =>
                      vtt_loop rest VSUBTITLE ctx (set_line (Some 0) (set_to to (set_from from rs))) subs
                  end
              end
          else vtt_loop rest VDATA ctx rs subs
      | VSUBTITLE =>
          match line with
          | [] => vtt_loop rest VDATA ctx rs subs
          | _ =>
              let* x := vtt_sub_lines (split_lit line_separator line) rs subs in
              let '(rs', subs') := x in
              vtt_loop rest VSUBTITLE ctx rs' subs'
          end
      | VNOTE =>
          match line with
          | [] => vtt_loop rest VDATA ctx rs subs
          | _ => vtt_loop rest VNOTE ctx rs subs
          end
      end
  end.

(** The initial RawSubtitle, web_vtt_reader.cc 66-69. *)
Definition vtt_read (lines : list str) : res (list raw) :=
  vtt_loop lines VHEADER [] (set_vref (Some TOP_OF_SUBTITLE) (set_line (Some 0) raw_default)) [].

(** WebVTTReader::WebVTTReader (string) and (FILE pointer), web_vtt_reader.cc 40-49. *)
Definition vtt_reader_string (s : str) : res (list raw) := vtt_read (lines_of_string s).
(** WebVTTReader::WebVTTReader (FILE pointer), web_vtt_reader.cc 40-43. *)
Definition vtt_reader_file (s : str) : res (list raw) := vtt_read (lines_of_file s).
