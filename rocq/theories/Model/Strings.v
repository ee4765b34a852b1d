(** The string algorithms the library uses from boost and the C/C++ standard library,
    in the classic locale.  They are library behaviour, so each comment says which call in
    /repo uses it rather than which lines it translates. *)
From Coq Require Import ZArith List Bool Ascii String.
From Verif.Model Require Import Base.
Import ListNotations.
Local Open Scope Z_scope.

(** isspace in the "C" locale: used by boost::trim and sscanf. *)
Definition is_space (c : ascii) : bool := ((9 <=? code c) && (code c <=? 13)) || (code c =? 32).
(** isdigit *)
Definition is_digit (c : ascii) : bool := (48 <=? code c) && (code c <=? 57).
(** isxdigit *)
Definition is_xdigit (c : ascii) : bool :=
  is_digit c || ((65 <=? code c) && (code c <=? 70)) || ((97 <=? code c) && (code c <=? 102)).
(** tolower in the "C" locale: boost::to_lower (subrip_reader.cc 235, reader_factory.cc). *)
Definition lower (c : ascii) : ascii := if (65 <=? code c) && (code c <=? 90) then chr (code c + 32) else c.
(** The whole string: reader_factory.cc 38, subrip_reader.cc 231-241. *)
Definition to_lower (s : str) : str := map lower s.

(** boost::is_any_of *)
Definition is_any_of (set : str) (c : ascii) : bool := existsb (Ascii.eqb c) set.

(** Adding a character to the first word of what [split] has made. *)
Definition cons_head (c : ascii) (l : list str) : list str :=
  match l with [] => [[c]] | w :: ws => (c :: w) :: ws end.

(** boost::split with token_compress_off. *)
Fixpoint split (p : ascii -> bool) (s : str) : list str :=
  match s with
  | [] => [[]]
  | c :: t => if p c then [] :: split p t else cons_head c (split p t)
  end.

(** boost::split with token_compress_on: a run of separators counts as one. *)
Fixpoint split_compress (p : ascii -> bool) (s : str) : list str :=
  match s with
  | [] => [[]]
  | c :: t =>
      if p c then
        match t with
        | [] => [[]; []]
        | c' :: _ => if p c' then split_compress p t else [] :: split_compress p t
        end
      else cons_head c (split_compress p t)
  end.

(** boost::starts_with *)
Fixpoint starts_with (s pat : str) : bool :=
  match pat, s with
  | [], _ => true
  | _ :: _, [] => false
  | a :: pat', b :: s' => Ascii.eqb a b && starts_with s' pat'
  end.

(** std::string::find (pat): index of the first occurrence. *)
Fixpoint find_sub (s pat : str) : option nat :=
  if starts_with s pat then Some 0%nat else
  match s with
  | [] => None
  | _ :: t => option_map S (find_sub t pat)
  end.

(** boost::split_regex with a pattern that is a plain non-empty literal
    (subrip_reader.cc 150, web_vtt_reader.cc 139). [skip] counts the bytes left of a match. *)
Fixpoint split_lit_aux (pat : str) (skip : nat) (s : str) : list str :=
  match s with
  | [] => [[]]
  | c :: t =>
      match skip with
      | S k => split_lit_aux pat k t
      | O => if starts_with s pat then [] :: split_lit_aux pat (List.length pat - 1) t
             else cons_head c (split_lit_aux pat 0 t)
      end
  end.
(** boost::split_regex with a literal pattern, subrip_reader.cc 157, web_vtt_reader.cc 138. *)
Definition split_lit (pat s : str) : list str := split_lit_aux pat 0 s.

(** boost::replace_all (s, pat, rep): left to right, without rescanning.  An empty pattern changes nothing. *)
Fixpoint replace_all_aux (pat rep : str) (skip : nat) (s : str) : str :=
  match s with
  | [] => []
  | c :: t =>
      match skip with
      | S k => replace_all_aux pat rep k t
      | O => if starts_with s pat then rep ++ replace_all_aux pat rep (List.length pat - 1) t
             else c :: replace_all_aux pat rep 0 t
      end
  end.
(** boost::replace_all, subrip_reader.cc 325, raw_convert.cc 31-44. *)
Definition replace_all (s pat rep : str) : str :=
  match pat with [] => s | _ => replace_all_aux pat rep 0 s end.

(** What is left after the characters at the front that satisfy p (the work of trim_left_if and of sscanf). *)
Fixpoint drop_while (p : ascii -> bool) (s : str) : str :=
  match s with
  | [] => []
  | c :: t => if p c then drop_while p t else s
  end.
(** The characters at the front that satisfy p. *)
Fixpoint take_while (p : ascii -> bool) (s : str) : str :=
  match s with
  | [] => []
  | c :: t => if p c then c :: take_while p t else []
  end.

(** boost::trim_left_if, trim_right_if, trim *)
Definition trim_left_if (p : ascii -> bool) (s : str) : str := drop_while p s.
(** boost::trim_right_if, subrip_reader.cc 91 and 118, web_vtt_reader.cc 77 and 98. *)
Definition trim_right_if (p : ascii -> bool) (s : str) : str := rev (drop_while p (rev s)).
(** boost::trim, ssa_reader.cc 113-114, 448, 471, 494, 519, stl_text_reader.cc 54-90. *)
Definition trim (s : str) : str := trim_left_if is_space (trim_right_if is_space s).

(** Value of a run of decimal digits. *)
Definition digit_val (c : ascii) : Z := code c - 48.
(** The value of the whole run (sscanf, raw_convert.h). *)
Definition dec_val (s : str) : Z := fold_left (fun a c => a * 10 + digit_val c) s 0.
(** Value of a hex digit, and of a run of them. *)
Definition xdigit_val (c : ascii) : Z :=
  if is_digit c then code c - 48 else if code c <=? 70 then code c - 55 else code c - 87.
(** The value of the whole run (sscanf "%2x", colour.cc 33 and 45, ssa_reader.cc 69). *)
Definition hex_val (s : str) : Z := fold_left (fun a c => a * 16 + xdigit_val c) s 0.

(** The sign -. *)
Definition cminus : ascii := "-"%char.
(** The sign +. *)
Definition cplus : ascii := "+"%char.

(** Optional sign in front of a number: (is negative, rest). *)
Definition take_sign (s : str) : bool * str :=
  match s with
  | c :: t => if Ascii.eqb c cminus then (true, t) else if Ascii.eqb c cplus then (false, t) else (false, s)
  | [] => (false, s)
  end.

(** boost::lexical_cast<int> (subrip_reader.cc 188-217, stl_text_reader.cc 141-144): the whole
    string must be an optional sign and at least one digit, in int range. *)
Definition lexical_cast_int (s : str) : res Z :=
  let '(neg, d) := take_sign s in
  match d with
  | [] => Throw EBadLexicalCast
  | _ => if forallb is_digit d then
           let v := if neg then - dec_val d else dec_val d in
           if in_int v then Ok v else Throw EBadLexicalCast
         else Throw EBadLexicalCast
  end.

(** sscanf (s, "%d", &y) with y initially 0 (locale_convert.cc 76-83).  A value that does not
    fit an int is undefined behaviour in C. *)
Definition scan_int (s : str) : res Z :=
  let '(neg, d) := take_sign (drop_while is_space s) in
  match take_while is_digit d with
  | [] => Ok 0
  | ds => let v := if neg then - dec_val ds else dec_val ds in chk v
  end.

(** atoi, used on at most five bytes (stl_binary_reader.cc): same conversion. *)
Definition atoi (s : str) : res Z := scan_int s.

(** Decimal digits of a non-negative number. *)
Fixpoint digits_aux (fuel : nat) (n : Z) (acc : str) : str :=
  match fuel with
  | O => acc
  | S f => let acc' := chr (48 + n mod 10) :: acc in
           if n <? 10 then acc' else digits_aux f (n / 10) acc'
  end.
(** The decimal digits of n >= 0 (printf "%lu", locale_convert.cc 52). *)
Definition digits (n : Z) : str := digits_aux (S (Z.to_nat (Z.log2 n))) n [].

(** printf "%d" *)
Definition print_int (z : Z) : str :=
  if z <? 0 then cminus :: digits (- z) else digits z.

(** printf "%0<w>d": pad with zeros after the sign, never truncate. *)
Definition print_int_pad (w : nat) (z : Z) : str :=
  if z <? 0 then
    let d := digits (- z) in cminus :: repeat "0"%char (w - 1 - List.length d) ++ d
  else
    let d := digits z in repeat "0"%char (w - List.length d) ++ d.

(** operator<< (ostream, int) after setw (w) << setfill ('0') (sub_time.cc 100-102): the fill goes
    in front of everything, including a sign. *)
Definition print_setw (w : nat) (z : Z) : str :=
  let d := print_int z in repeat "0"%char (w - List.length d) ++ d.
