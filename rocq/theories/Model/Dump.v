(** sub::dump, /repo/src/util.cc 100-171, as the text written to the stream. *)
From Coq Require Import ZArith List Bool Ascii String.
From Coq.Floats Require Import SpecFloat.
From Verif.Model Require Import Base Strings Float TimeModel Types Collect.
Import ListNotations.
Local Open Scope Z_scope.

(** operator<< (ostream&, float) with the default format (%g, six significant digits).  Library code. *)
Fixpoint strip_zeros_rev (s : str) : str :=
  match s with
  | c :: t => if Ascii.eqb c "0"%char then strip_zeros_rev t else s
  | [] => []
  end.
(** What %g does with the zeros at the end (util.cc 117). *)
Definition strip_trailing_zeros (s : str) : str := rev (strip_zeros_rev (rev s)).

(** num/den, both positive, scaled by 10^k and rounded to nearest even. *)
Definition scaled (num den k : Z) : Z :=
  if 0 <=? k then div_rne (num * 10 ^ k) den else div_rne num (den * 10 ^ (- k)).

(** num/den is at least 10^x. *)
Definition at_least (num den x : Z) : bool :=
  if 0 <=? x then den * 10 ^ x <=? num else den <=? num * 10 ^ (- x).

(** The decimal exponent of num/den: the greatest x with 10^x at most num/den, searched downwards. *)
Fixpoint find_exponent (fuel : nat) (num den x : Z) : Z :=
  match fuel with
  | O => x
  | S k => if at_least num den x then x else find_exponent k num den (x - 1)
  end.

(** The exponent as operator<< (ostream, float) writes it: a sign and at least two digits (util.cc 116-137). *)
Definition print_exponent (x : Z) : str :=
  (if x <? 0 then lit "e-" else lit "e+") ++ print_int_pad 2 (Z.abs x).

(** Digits before and after the decimal point, without trailing zeros and without a bare point (util.cc 116-137). *)
Definition with_point (int_part frac : str) : str :=
  match strip_trailing_zeros frac with
  | [] => int_part
  | f => int_part ++ lit "." ++ f
  end.

(** operator<< (ostream, float) on num/den > 0, with the six significant digits of the default precision (util.cc 116-137). *)
Definition print_g_positive (num den : Z) : str :=
  let x := find_exponent (Z.to_nat (Z.log2 num + Z.log2 den + 2)) num den (Z.log2 num) in
  let n := scaled num den (5 - x) in   (* six digits, or 10^6 if it was rounded up *)
  let '(x, n) := if n =? 1000000 then (x + 1, 100000) else (x, n) in
  let ds := digits n in
  if (x <? -4) || (6 <=? x) then with_point (firstn 1 ds) (skipn 1 ds) ++ print_exponent x
  else if x <? 0 then with_point (lit "0") (repeat "0"%char (Z.to_nat (- x - 1)) ++ ds)
  else with_point (firstn (Z.to_nat (x + 1)) ds) (skipn (Z.to_nat (x + 1)) ds).

(** operator<< (ostream, float), used at util.cc 116-137.  Library code, modelled from the definition of %g. *)
Definition print_float (f : flt) : str :=
  match f with
  | S754_zero s => if s then lit "-0" else lit "0"
  | S754_infinity s => if s then lit "-inf" else lit "inf"
  | S754_nan => lit "nan"
  | S754_finite s m e =>
      (if s then lit "-" else []) ++
      (if 0 <=? e then print_g_positive (Z.pos m * 2 ^ e) 1 else print_g_positive (Z.pos m) (2 ^ (- e)))
  end.

(** util.cc 116-137. *)
Definition dump_position (v : vpos) : str :=
  (match v_prop v with
   | Some p => print_float p ++ lit " of screen"
   | None => match v_line v, v_lines v with
             | Some l, Some ls => print_int l ++ lit " lines of " ++ print_int ls
             | _, _ => []
             end
   end)
  ++
  (match v_ref v with
   | Some TOP_OF_SCREEN => lit " from top"
   | Some VERTICAL_CENTRE_OF_SCREEN => lit " from centre"
   | Some BOTTOM_OF_SCREEN => lit " from bottom"
   | Some TOP_OF_SUBTITLE => lit " from top of subtitle"
   | None => []
   end).

(** util.cc 142-165. *)
Fixpoint dump_blocks (bs : list block) (italic underline : bool) : str :=
  match bs with
  | [] => (if italic then lit "</i>" else []) ++ (if underline then lit "</u>" else [])
  | k :: t =>
      (if b_italic k && negb italic then lit "<i>" else if italic && negb (b_italic k) then lit "</i>" else []) ++
      (if b_underline k && negb underline then lit "<u>"
       else if underline && negb (b_underline k) then lit "</u>" else []) ++
      b_text k ++ dump_blocks t (b_italic k) (b_underline k)
  end.

(** The tabulator, util.cc 114 and 139. *)
Definition tab : str := [chr 9].
(** The end of a line, util.cc 105-167. *)
Definition nl : str := [chr 10].

(** util.cc 112-167. *)
Definition dump_line (l : line) : str :=
  tab ++ dump_position (l_vpos l) ++ tab ++ dump_blocks (l_blocks l) false false ++ nl.

(** util.cc 110-170. *)
Fixpoint dump_subtitles (n : Z) (ss : list subtitle) : str :=
  match ss with
  | [] => []
  | s :: t =>
      lit "Subtitle " ++ print_int n ++ lit " at " ++ print_time (s_from s) ++ lit " -> " ++ print_time (s_to s) ++ nl
      ++ flat_map dump_line (s_lines s) ++ dump_subtitles (n + 1) t
  end.

(** The metadata, one line each, util.cc 103-106. *)
Definition dump_metadata (m : list (str * str)) : str :=
  flat_map (fun kv => fst kv ++ lit ": " ++ snd kv ++ nl) m.

(** sub::dump, util.cc 100-171. *)
Definition dump (sort : sorter) (metadata : list (str * str)) (subs : list raw) : res str :=
  let* ss := collect sort subs in
  Ok (dump_metadata metadata ++ dump_subtitles 0 ss).
