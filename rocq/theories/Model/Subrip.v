(** /repo/src/subrip_reader.{h,cc}. *)
From Coq Require Import ZArith List Bool Ascii String.
From Verif.Model Require Import Base Strings Float TimeModel Types Lines RawConvert Compose Ssa.
Import ListNotations.
Local Open Scope Z_scope.

(** Result of SubripReader::convert_time: a Time, or the text stored in *expected. *)
Inductive ctime : Type := CTime (t : time) | CExpected (s : str).

(** lexical_cast<int> with bad_lexical_cast caught, as at subrip_reader.cc 194-220. *)
Definition cast_or (s expected : str) (k : Z -> res ctime) : res ctime :=
  match lexical_cast_int s with
  | Ok z => k z
  | _ => Ok (CExpected expected)
  end.

(** SubripReader::convert_time, subrip_reader.cc 169-223; [sep] is the milliseconds separator. *)
Definition convert_time (t sep : str) : res ctime :=
  match split (is_any_of (lit ":")) t with
  | [a0; a1; a2] =>
      match split (is_any_of sep) a2 with
      | [b0; b1] =>
          cast_or a0 (lit "integer hour value") (fun h =>
          cast_or a1 (lit "integer minute value") (fun m =>
          cast_or b0 (lit "integer second value") (fun s =>
          cast_or b1 (lit "integer millisecond value") (fun ms =>
          let* x := from_hms h m s ms in Ok (CTime x)))))
      | _ => Ok (CExpected (compose (lit "time in the format h:m:s%1ms") [sep]))
      end
  | _ => Ok (CExpected (lit "time in the format h:m:s,ms"))
  end.

(** has_next, subrip_reader.cc 231-241: the rest of the line after [s], compared without regard to case. *)
Definition has_next (t s : str) : option str :=
  if str_eqb (to_lower (firstn (List.length s) t)) (to_lower s) then Some (skipn (List.length s) t) else None.

(** has_next (..., a) || has_next (..., b), subrip_reader.cc 245-263. *)
Definition has_either (t a b : str) : option str :=
  match has_next t a with Some r => Some r | None => has_next t b end.

(** maybe_content, subrip_reader.cc 330-338: p with its text cleared, and _subs. *)
Definition maybe_content (p : raw) (subs : list raw) : raw * list raw :=
  match r_text p with
  | [] => (p, subs)
  | _ => (set_text [] p, subs ++ [p])
  end.

(** Reading up to a closing character: (what is before it, what is after it), as at 268-272 and 310-314. *)
Definition until (stop : ascii) (t : str) : str * str :=
  (take_while (fun c => negb (Ascii.eqb c stop)) t, tl (drop_while (fun c => negb (Ascii.eqb c stop)) t)).

(** Match of the regex color= then an optional quote then a hash then ([[:xdigit:]]+), at the front of s: group 1 (subrip_reader.cc 265). *)
Definition match_hex_here (s : str) : option str :=
  if starts_with s (lit "color=") then
    let r := skipn 6 s in
    let r := match r with
             | c :: t => if Ascii.eqb c (chr 34) || Ascii.eqb c (chr 39) then t else r
             | [] => r
             end in
    match r with
    | c :: t => if Ascii.eqb c "#"%char then
                  match take_while is_xdigit t with [] => None | ds => Some ds end
                else None
    | [] => None
    end
  else None.

(** Match of the regex color= quote rgba( d+ , d+ , d+ , d+ ) quote, with white space allowed around the numbers, at the front of s: groups 1 to 4 (284-291). *)
Definition rgba_number (s : str) : option (str * str) :=
  let r := drop_while is_space s in
  match take_while is_digit r with
  | [] => None
  | ds => Some (ds, drop_while is_space (drop_while is_digit r))
  end.
(** The comma between two numbers of the pattern, subrip_reader.cc 286-288. *)
Definition rgba_comma (s : str) : option str :=
  match s with c :: t => if Ascii.eqb c ","%char then Some t else None | [] => None end.
(** The whole pattern, subrip_reader.cc 284-291. *)
Definition match_rgba_here (s : str) : option (str * str * str) :=
  if starts_with s (lit "color=" ++ [chr 34] ++ lit "rgba(") then
    match rgba_number (skipn 12 s) with
    | None => None
    | Some (r, s1) =>
    match rgba_comma s1 with
    | None => None
    | Some s2 =>
    match rgba_number s2 with
    | None => None
    | Some (g, s3) =>
    match rgba_comma s3 with
    | None => None
    | Some s4 =>
    match rgba_number s4 with
    | None => None
    | Some (b, s5) =>
    match rgba_comma s5 with
    | None => None
    | Some s6 =>
    match rgba_number s6 with
    | None => None
    | Some (_, s7) => if starts_with s7 (lit ")" ++ [chr 34]) then Some (r, g, b) else None
    end end end end end end end
  else None.

(** boost::regex_search with a pattern that starts with a greedy ".*": the match at the last possible position. *)
Fixpoint search_last {A : Type} (m : str -> option A) (s : str) : option A :=
  match s with
  | [] => m []
  | _ :: t => match search_last m t with Some a => Some a | None => m s end
  end.

(** The text of the exception, subrip_reader.cc 298. *)
Definition colour_expected : str :=
  lit "a colour in the format #rrggbb #rrggbbaa or rgba(rr,gg,bb,aa)".

(** The colour of a font tag, subrip_reader.cc 273-300. [saw] is the text between "<font" and ">". *)
Definition font_colour (line_number : Z) (ctx : list str) (saw : str) : res colour :=
  match search_last match_hex_here saw with
  | Some ds =>
      if Nat.eqb (List.length ds) 6 then from_rgb_hex ds
      else if Nat.eqb (List.length ds) 8 then from_rgba_hex ds
      else Throw (ESubrip line_number saw colour_expected ctx)
  | None =>
      match search_last match_rgba_here saw with
      | Some (r, g, b) =>
          let* r' := raw_convert_int r in
          let* g' := raw_convert_int g in
          let* b' := raw_convert_int b in
          Ok (mkC (over_255 r') (over_255 g') (over_255 b'))
      | None => Throw (ESubrip line_number saw colour_expected ctx)
      end
  end.

(** The context SubRip passes to SSAReader::parse_tag, subrip_reader.cc 315. *)
Definition subrip_ssa_context : ssa_context := mkCtx 288 288 white 0 0.

(** The loop of SubripReader::convert_line, subrip_reader.cc 243-320.  [colours] is the stack, its back() first.
    Returns p and _subs. *)
Fixpoint convert_chars (fuel : nat) (line_number : Z) (ctx : list str) (t : str) (p : raw)
         (colours : list colour) (subs : list raw) : res (raw * list raw) :=
  match t with
  | [] => Ok (p, subs)
  | c :: t1 =>
      match fuel with
      | O => Undef UbFuel
      | S k =>
          let styled rest (f : raw -> raw) :=
            let '(p', subs') := maybe_content p subs in
            convert_chars k line_number ctx rest (f p') colours subs' in
          match has_either t (lit "<b>") (lit "{b}") with Some r => styled r (set_bold true) | None =>
          match has_either t (lit "</b>") (lit "{/b}") with Some r => styled r (set_bold false) | None =>
          match has_either t (lit "<i>") (lit "{i}") with Some r => styled r (set_italic true) | None =>
          match has_either t (lit "</i>") (lit "{/i}") with Some r => styled r (set_italic false) | None =>
          match has_either t (lit "<u>") (lit "{u}") with Some r => styled r (set_underline true) | None =>
          match has_either t (lit "</u>") (lit "{/u}") with Some r => styled r (set_underline false) | None =>
          match has_either t (lit "<font") (lit "<Font") with
          | Some r =>
              let '(p', subs') := maybe_content p subs in
              let '(tag, rest) := until ">"%char r in
              let* col := font_colour line_number ctx tag in
              convert_chars k line_number ctx rest (set_colour col p') (col :: colours) subs'
          | None =>
          match has_next t (lit "</font>") with
          | Some rest =>
              let '(p', subs') := maybe_content p subs in
              match colours with
              | [] => convert_chars k line_number ctx rest p' colours subs'
              | _ :: [] => Undef UbEmptyVector
              | _ :: ((col :: _) as colours') =>
                  convert_chars k line_number ctx rest (set_colour col p') colours' subs'
              end
          | None =>
          match has_next t ("{"%char :: [backslash]) with
          | Some r =>
              let '(tag, rest) := until "}"%char r in
              let* p' := parse_tag p (backslash :: tag) subrip_ssa_context in
              convert_chars k line_number ctx rest p' colours subs
          | None =>
              convert_chars k line_number ctx t1 (set_text (r_text p ++ [c]) p) colours subs
          end end end end end end end end end
      end
  end.

(** U+202B RIGHT-TO-LEFT EMBEDDING in UTF-8, subrip_reader.cc 325. *)
Definition rtl_embedding : str := [chr 226; chr 128; chr 171].

(** SubripReader::convert_line, subrip_reader.cc 225-328: p and _subs afterwards. *)
Definition convert_line (line_number : Z) (ctx : list str) (t : str) (p : raw) (subs : list raw)
  : res (raw * list raw) :=
  let* x := convert_chars (List.length t) line_number ctx t p [white] subs in
  let '(p', subs') := x in
  let p'' := set_text (replace_all (r_text p') rtl_embedding []) p' in
  Ok (maybe_content p'' subs').

(** The loop over sub_lines, subrip_reader.cc 158-162.  int overflow of the line number is not modelled. *)
Fixpoint convert_sub_lines (line_number : Z) (ctx : list str) (l : list str) (rs : raw) (subs : list raw)
  : res (raw * list raw) :=
  match l with
  | [] => Ok (rs, subs)
  | s :: t =>
      let* x := convert_line line_number ctx s rs subs in
      let '(rs', subs') := x in
      let* n := opt_get (v_line (r_vpos rs')) in
      convert_sub_lines line_number ctx t (set_text [] (set_line (Some (n + 1)) rs')) subs'
  end.

(** A new RawSubtitle after prepare, subrip_reader.cc 75-78. *)
Definition subrip_new : raw := set_vref (Some TOP_OF_SUBTITLE) (set_line (Some 0) raw_default).

(** The states of the loop, subrip_reader.cc 68-72. *)
Inductive subrip_state : Type := COUNTER | METADATA | CONTENT.

(** The two extra get_line calls when reporting an error, subrip_reader.cc 122-127. *)
Definition error_context (ctx rest : list str) : list str := ctx ++ firstn 2 rest.

(** SubripReader::read, subrip_reader.cc 65-167, on the lines that get_line delivers.
    int overflow of line_number is not modelled. *)
Fixpoint subrip_loop (lines : list str) (line_number : Z) (st : subrip_state) (ctx : list str)
         (rs : raw) (subs : list raw) : res (list raw) :=
  match lines with
  | [] => Ok subs
  | l :: rest =>
      let line_number := line_number + 1 in
      let line := clean_line l in
      let ctx := push_context ctx line in
      match st with
      | COUNTER =>
          match line with
          | [] => subrip_loop rest line_number COUNTER ctx rs subs
          | _ => subrip_loop rest line_number METADATA ctx subrip_new subs
          end
      | METADATA =>
          let line := trim_right_if (is_any_of (lit " ")) line in
          let p := split_compress (is_any_of (lit " ")) line in
          if negb (Nat.eqb (List.length p) 3) && negb (Nat.eqb (List.length p) 7) then
            Throw (ESubrip line_number line (lit "a time/position line") (error_context ctx rest))
          else
            let p0 := nth 0 p [] in
            let p2 := nth 2 p [] in
            let* from := convert_time p0 (lit ",") in
            match from with
            | CExpected e => Throw (ESubrip line_number p0 e ctx)
            | CTime from =>
                let* to := convert_time p2 (lit ",") in
                match to with
                | CExpected e => Throw (ESubrip line_number p2 e ctx)
                | CTime to => subrip_loop rest line_number CONTENT ctx (set_to to (set_from from rs)) subs
                end
            end
      | CONTENT =>
          match line with
          | [] => subrip_loop rest line_number COUNTER ctx rs subs
          | _ =>
              let* x := convert_sub_lines line_number ctx (split_lit line_separator line) rs subs in
              let '(rs', subs') := x in
              subrip_loop rest line_number CONTENT ctx rs' subs'
          end
      end
  end.

(** SubripReader::read, subrip_reader.cc 65-167, on the lines that get_line delivers; returns _subs. *)
Definition subrip_read (lines : list str) : res (list raw) := subrip_loop lines 0 COUNTER [] subrip_new [].

(** SubripReader::SubripReader (string) and (FILE pointer), subrip_reader.cc 53-63. *)
Definition subrip_reader_string (s : str) : res (list raw) := subrip_read (lines_of_string s).
(** SubripReader::SubripReader (FILE pointer), subrip_reader.cc 59-63. *)
Definition subrip_reader_file (s : str) : res (list raw) := subrip_read (lines_of_file s).
