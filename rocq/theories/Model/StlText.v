(** /repo/src/stl_text_reader.cc. *)
From Coq Require Import ZArith List Bool Ascii String.
From Verif.Model Require Import Base Strings Float TimeModel Types Lines Compose.
Import ListNotations.
Local Open Scope Z_scope.

(** The lines getline delivers while the stream stays good (stl_text_reader.cc 47-52): those that end in a newline. *)
Fixpoint getlines (fuel : nat) (s : str) : list str :=
  match fuel with
  | O => []
  | S k => match break_nl s with
           | None => []
           | Some (l, rest) => l :: getlines k rest
           end
  end.

(** STLTextReader::time, stl_text_reader.cc 135-146. *)
Definition stlt_time (t : str) : res (option time) :=
  match split (is_any_of (lit ":")) t with
  | [b0; b1; b2; b3] =>
      let* h := lexical_cast_int b0 in
      let* m := lexical_cast_int b1 in
      let* s := lexical_cast_int b2 in
      let* f := lexical_cast_int b3 in
      let* x := from_hmsf h m s f None in
      Ok (Some x)
  | _ => Ok None
  end.

(** STLTextReader::set, stl_text_reader.cc 148-162. *)
Definition stlt_set (sub : raw) (name value : str) : res raw :=
  if str_eqb name (lit "$FontName") then Ok (set_font (Some value) sub)
  else if str_eqb name (lit "$Bold") then Ok (set_bold (str_eqb value (lit "True")) sub)
  else if str_eqb name (lit "$Italic") then Ok (set_italic (str_eqb value (lit "True")) sub)
  else if str_eqb name (lit "$Underlined") then Ok (set_underline (str_eqb value (lit "True")) sub)
  else if str_eqb name (lit "$FontSize") then
    let* p := lexical_cast_int value in Ok (set_font_size (set_points (r_font_size sub) p) sub)
  else Ok sub.

(** STLTextReader::maybe_push, stl_text_reader.cc 164-172. *)
Definition stlt_push (sub : raw) (subs : list raw) : raw * list raw :=
  match r_text sub with
  | [] => (sub, subs)
  | _ => (set_line (Some 0) (set_text [] sub), subs ++ [sub])
  end.

(** The text loop, stl_text_reader.cc 104-130. *)
Fixpoint stlt_text (text : str) (sub : raw) (subs : list raw) : res (raw * list raw) :=
  match text with
  | [] => Ok (stlt_push sub subs)
  | c :: t =>
      if Ascii.eqb c "|"%char then
        let '(sub', subs') := stlt_push sub subs in
        let* n := opt_get (v_line (r_vpos sub')) in
        stlt_text t (set_line (Some (n + 1)) sub') subs'
      else if Ascii.eqb c "^"%char then
        let '(sub', subs') := stlt_push sub subs in
        match t with
        | [] => Ok (stlt_push sub' subs')
        | d :: t' =>
            let sub'' :=
              if Ascii.eqb d "B"%char then set_bold (negb (r_bold sub')) sub'
              else if Ascii.eqb d "I"%char then set_italic (negb (r_italic sub')) sub'
              else if Ascii.eqb d "U"%char then set_underline (negb (r_underline sub')) sub'
              else sub' in
            stlt_text t' sub'' subs'
        end
      else stlt_text t (set_text (r_text sub ++ [c]) sub) subs
  end.

(** The start time, end time and text of a "normal" line if it has them, stl_text_reader.cc 75-89 and 104; size_t is
    not bounded. *)
Definition stlt_fields (line : str) : option (str * str * str) :=
  match find_sub line (lit ",") with
  | None => None
  | Some d0 =>
      match find_sub (skipn (d0 + 1) line) (lit ",") with
      | None => None
      | Some d1' =>
          let d1 := (d0 + 1 + d1')%nat in
          if Nat.leb d0 1 || Nat.leb (List.length line - 1) d1 then None
          else Some (trim (firstn (d0 - 1) line), trim (firstn (d1 - d0 - 1) (skipn (d0 + 1) line)), skipn (d1 + 1) line)
      end
  end.

(** One line, stl_text_reader.cc 54-131. *)
Definition stlt_line (sub : raw) (subs : list raw) (raw_line : str) : res (raw * list raw) :=
  let line := trim raw_line in
  if starts_with line (lit "//") then Ok (sub, subs)
  else if starts_with line (lit "$") then
    match split (is_any_of (lit "=")) line with
    | [name; value] => let* sub' := stlt_set sub (trim name) (trim value) in Ok (sub', subs)
    | _ => Ok (sub, subs)
    end
  else
    match stlt_fields line with
    | None => Ok (sub, subs)
    | Some (from_string, to_string, text) =>
        let* from := stlt_time from_string in
        let* to := stlt_time to_string in
        match from, to with
        | Some f, Some t => stlt_text text (set_to t (set_from f sub)) subs
        | _, _ => Ok (sub, subs)
        end
    end.

(** The loop over the lines, stl_text_reader.cc 47-132. *)
Fixpoint stlt_lines (sub : raw) (subs : list raw) (lines : list str) : res (list raw) :=
  match lines with
  | [] => Ok subs
  | l :: t => let* x := stlt_line sub subs l in let '(sub', subs') := x in stlt_lines sub' subs' t
  end.

(** STLTextReader::STLTextReader, stl_text_reader.cc 39-133; [good] is whether the stream is good at the start. *)
Definition stl_text_read (good : bool) (s : str) : res (list raw) :=
  if good then
    stlt_lines (set_vref (Some TOP_OF_SUBTITLE) (set_line (Some 0) raw_default)) []
               (getlines (List.length s) s)
  else Ok [].

(** * What the reader writes to standard output *)

(** Reader::warn, reader.cc 28-33. *)
Definition warn (m : str) : str := m ++ [chr 10].

(** stl_text_reader.cc 139-143. *)
Definition stlt_time_output (t : str) : str :=
  match split (is_any_of (lit ":")) t with
  | [_; _; _; _] => []
  | _ => warn (compose (lit "Unrecognised time %1") [t])
  end.

(** stl_text_reader.cc 54-98: the warnings of a line, up to where it throws if it does. *)
Definition stlt_line_output (raw_line : str) : str :=
  let line := trim raw_line in
  if starts_with line (lit "//") then []
  else if starts_with line (lit "$") then
    match split (is_any_of (lit "=")) line with
    | [_; _] => []
    | _ => warn (compose (lit "Unrecognised line %1") [line])
    end
  else
    match stlt_fields line with
    | None => warn (compose (lit "Unrecognised line %1") [line])
    | Some (from_string, to_string, _) =>
        stlt_time_output from_string ++
        match stlt_time from_string with
        | Ok from =>
            stlt_time_output to_string ++
            match stlt_time to_string with
            | Ok to => if is_some from && is_some to then [] else warn (compose (lit "Unrecognised line %1") [line])
            | _ => []
            end
        | _ => []
        end
    end.

(** The lines are read until one throws. *)
Fixpoint stlt_lines_output (sub : raw) (subs : list raw) (lines : list str) : str :=
  match lines with
  | [] => []
  | l :: t =>
      stlt_line_output l ++
      match stlt_line sub subs l with
      | Ok (sub', subs') => stlt_lines_output sub' subs' t
      | _ => []
      end
  end.

(** What STLTextReader::STLTextReader, stl_text_reader.cc 39-133, writes. *)
Definition stl_text_output (good : bool) (s : str) : str :=
  if good then
    stlt_lines_output (set_vref (Some TOP_OF_SUBTITLE) (set_line (Some 0) raw_default)) []
                      (getlines (List.length s) s)
  else [].
