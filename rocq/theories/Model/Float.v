(** C++ float and double as IEEE-754 binary32 and binary64, round to nearest even,
    with no excess precision (FLT_EVAL_METHOD 0, as on x86-64) and no fast-math
    (/repo/wscript passes only -O3).  Built on Coq's executable SpecFloat. *)
From Coq Require Import ZArith List Bool Ascii String.
From Coq.Floats Require Import SpecFloat.
From Verif.Model Require Import Base Strings.
Import ListNotations.
Local Open Scope Z_scope.

(** The type of both float and double values; an operation's name says which format it rounds to. *)
Definition flt : Type := spec_float.

(** The precision of float (vertical_position.h 35, horizontal_position.h 37, ...). *)
Definition p32 : Z := 24.
(** The exponent range of float. *)
Definition e32 : Z := 128.
(** The precision of double (sub_time.cc 137, 190-195, ssa_reader.cc 326-424). *)
Definition p64 : Z := 53.
(** The exponent range of double. *)
Definition e64 : Z := 1024.

(** Arithmetic in float. *)
Definition fadd (a b : flt) : flt := SFadd p32 e32 a b.
(** Subtraction in float (vertical_position.cc 40). *)
Definition fsub (a b : flt) : flt := SFsub p32 e32 a b.
(** Multiplication in float (stl_binary_writer.cc 117-123). *)
Definition fmul (a b : flt) : flt := SFmul p32 e32 a b.
(** Division in float (vertical_position.cc 32, ssa_reader.cc 540 and 557, colour.cc 37 and 49). *)
Definition fdiv (a b : flt) : flt := SFdiv p32 e32 a b.
(** Arithmetic in double. *)
Definition dadd (a b : flt) : flt := SFadd p64 e64 a b.
(** Subtraction in double (sub_time.cc 195). *)
Definition dsub (a b : flt) : flt := SFsub p64 e64 a b.
(** Multiplication in double (sub_time.cc 137, 195). *)
Definition dmul (a b : flt) : flt := SFmul p64 e64 a b.
(** Division in double (sub_time.cc 137, ssa_reader.cc 72-76, subrip_reader.cc 293-295). *)
Definition ddiv (a b : flt) : flt := SFdiv p64 e64 a b.

(** Comparison (the same in both formats; false on NaN). *)
Definition flt_eq (a b : flt) : bool := SFeqb a b.
(** The comparison < (vertical_position.cc 65). *)
Definition flt_lt (a b : flt) : bool := SFltb a b.
(** fabs, horizontal_position.cc 31. *)
Definition flt_abs (a : flt) : flt := SFabs a.

(** int to float, int to double. *)
Definition f_of_int (z : Z) : flt := binary_normalize p32 e32 z 0 false.
(** int to double (sub_time.cc 137). *)
Definition d_of_int (z : Z) : flt := binary_normalize p64 e64 z 0 false.

(** double to float (rounds), float to double (exact). *)
Definition f_of_d (a : flt) : flt :=
  match a with
  | S754_finite s m e => binary_normalize p32 e32 (cond_Zopp s (Zpos m)) e s
  | _ => a
  end.
(** float to double: exact. *)
Definition d_of_f (a : flt) : flt :=
  match a with
  | S754_finite s m e => binary_normalize p64 e64 (cond_Zopp s (Zpos m)) e s
  | _ => a
  end.

(** The correctly rounded quotient of two integers, b > 0: the value of a decimal literal in the source. *)
Definition dec_lit (prec emax a b : Z) : flt :=
  SFdiv prec emax
    (match a with Z0 => S754_zero false | Zpos m => S754_finite false m 0 | Zneg m => S754_finite true m 0 end)
    (match b with Zpos m => S754_finite false m 0 | _ => S754_nan end).
(** A literal used as a float (for example 1.0f). *)
Definition f_lit (a b : Z) : flt := dec_lit p32 e32 a b.
(** A literal used as a double (for example 1.2, ssa_reader.cc 350). *)
Definition d_lit (a b : Z) : flt := dec_lit p64 e64 a b.

(** Integer part towards zero, floor, and C's rint (nearest, ties to even), of a finite value. *)
Definition trunc_Z (a : flt) : option Z :=
  match a with
  | S754_zero _ => Some 0
  | S754_finite s m e =>
      let v := cond_Zopp s (Zpos m) in
      Some (if 0 <=? e then v * 2 ^ e else Z.quot v (2 ^ (- e)))
  | _ => None
  end.
(** floor, sub_time.cc 194. *)
Definition floor_Z (a : flt) : option Z :=
  match a with
  | S754_zero _ => Some 0
  | S754_finite s m e =>
      let v := cond_Zopp s (Zpos m) in
      Some (if 0 <=? e then v * 2 ^ e else v / 2 ^ (- e))
  | _ => None
  end.

(** Nearest integer to v / d, d > 0, ties to even. *)
Definition div_rne (v d : Z) : Z :=
  let q := v / d in
  let r := v mod d in
  match (2 * r) ?= d with
  | Lt => q
  | Gt => q + 1
  | Eq => if Z.even q then q else q + 1
  end.

(** rint, sub_time.cc 137 and 195, stl_binary_writer.cc 117-123. *)
Definition rint_Z (a : flt) : option Z :=
  match a with
  | S754_zero _ => Some 0
  | S754_finite s m e =>
      let v := cond_Zopp s (Zpos m) in
      Some (if 0 <=? e then v * 2 ^ e else div_rne v (2 ^ (- e)))
  | _ => None
  end.

(** Conversion of the result to int: undefined when it does not fit. *)
Definition to_int (o : option Z) : res Z :=
  match o with
  | Some z => if in_int z then Ok z else Undef UbFloatToInt
  | None => Undef UbFloatToInt
  end.

(** (+/-) d * 10^e correctly rounded to float. *)
Definition f_of_decimal (neg : bool) (d : Z) (e : Z) : flt :=
  match d with
  | Zpos m =>
      if 0 <=? e then binary_normalize p32 e32 (cond_Zopp neg (Zpos m * 10 ^ e)) 0 neg
      else match 10 ^ (- e) with
           | Zpos q => SFdiv p32 e32 (S754_finite neg m 0) (S754_finite false q 0)
           | _ => S754_nan
           end
  | _ => S754_zero neg
  end.

(** Optional exponent [eE][+-]digits; 0 when the part after e is not a number. *)
Definition scan_exponent (marker : ascii) (s : str) : Z :=
  match s with
  | c :: t =>
      if Ascii.eqb (lower c) marker then
        let '(neg, d) := take_sign t in
        match take_while is_digit d with
        | [] => 0
        | ds => if neg then - dec_val ds else dec_val ds
        end
      else 0
  | [] => 0
  end.

(** sscanf (s, "%f", &y) with y initially 0 (locale_convert.cc 85-92), in a locale whose decimal point is
    the single byte [dp]; as glibc reads it: decimal, hexadecimal, inf and nan forms. *)
Definition scan_float (dp : ascii) (s : str) : flt :=
  let '(neg, r) := take_sign (drop_while is_space s) in
  let l := to_lower r in
  if starts_with l (lit "nan") then S754_nan
  else if starts_with l (lit "inf") then
    (match skipn 3 l with
     | c :: _ => if Ascii.eqb c "i"%char then
                   if starts_with l (lit "infinity") then S754_infinity neg else S754_zero false
                 else S754_infinity neg
     | [] => S754_infinity neg
     end)
  else if starts_with l (lit "0x") then
    let h := skipn 2 r in
    let ip := take_while is_xdigit h in
    let rest := drop_while is_xdigit h in
    let '(fp, rest') :=
      match rest with
      | c :: t => if Ascii.eqb c dp then (take_while is_xdigit t, drop_while is_xdigit t) else ([], rest)
      | [] => ([], rest)
      end in
    match ip ++ fp with
    | [] => S754_zero false
    | ds => match hex_val ds with
            | Zpos m => binary_normalize p32 e32 (cond_Zopp neg (Zpos m))
                          (scan_exponent "p"%char rest' - 4 * Z.of_nat (List.length fp)) neg
            | _ => S754_zero neg
            end
    end
  else
    let ip := take_while is_digit r in
    let rest := drop_while is_digit r in
    let '(fp, rest') :=
      match rest with
      | c :: t => if Ascii.eqb c dp then (take_while is_digit t, drop_while is_digit t) else ([], rest)
      | [] => ([], rest)
      end in
    match ip ++ fp with
    | [] => S754_zero false
    | ds => f_of_decimal neg (dec_val ds) (scan_exponent "e"%char rest' - Z.of_nat (List.length fp))
    end.
