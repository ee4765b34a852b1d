(** What any text is when it is read as a float, as scanf does it: as much of it as is a number. *)
From Coq Require Import ZArith Reals List Bool Ascii String.
From Coq.Floats Require Import SpecFloat.
From Flocq Require Import Core BinarySingleNaN.
From Verif.Model Require Import Base Float.
From Verif.Spec Require Import TextSpec LinesSpec StlFileSpec SubripSpec SsaTagSpec PositionSpec NumberSpec.
Import ListNotations.
Local Open Scope R_scope.

(** Digits with or without a point among them: all digits, how many are after the point, and what follows. *)
Inductive mantissa (digit : ascii -> Prop) : str -> str -> nat -> str -> Prop :=
| mantissa_whole d rest : Forall digit d -> ~ begins digit rest -> ~ begins (eq "."%char) rest -> mantissa digit (d ++ rest) d 0 rest
| mantissa_point d f rest : Forall digit d -> Forall digit f -> ~ begins digit rest ->
    mantissa digit (d ++ "."%char :: f ++ rest) (d ++ f) (List.length f) rest.

Inductive signed : str -> Z -> Prop :=
| signed_plain d v : numeral d v -> signed d v
| signed_plus d v : numeral d v -> signed ("+"%char :: d) v
| signed_minus d v : numeral d v -> signed ("-"%char :: d) (- v).
(** An exponent after the letter [e] (of either case) at the beginning of a text. *)
Inductive power (e : ascii) : str -> Z -> Prop :=
| power_none s : ~ begins (fun c => same_letter c e) s -> power e s 0
| power_some c k v rest : same_letter c e -> signed k v -> ~ begins is_digit_char rest -> power e (c :: k ++ rest) v
| power_empty c s : same_letter c e -> (forall k v rest, signed k v -> s <> k ++ rest) -> power e (c :: s) 0.

Inductive reading : Type := NotNumber | Infinity | Value (x : R) | Nothing.
Definition begins_word (w : string) (s : str) : Prop := exists p rest, same_letters p (lit w) /\ s = p ++ rest.

(** Without white space and sign. *)
Inductive unsigned_reads : str -> reading -> Prop :=
| reads_nan s : begins_word "nan" s -> unsigned_reads s NotNumber
| reads_inf s : begins_word "inf" s -> ~ begins_word "infi" s -> unsigned_reads s Infinity
| reads_infinity s : begins_word "infinity" s -> unsigned_reads s Infinity
| reads_bad_inf s : begins_word "infi" s -> ~ begins_word "infinity" s -> unsigned_reads s Nothing
| reads_hex p s ds places rest v k : same_letters p (lit "0x") -> mantissa is_hex_char s ds places rest -> ds <> [] -> hex_numeral ds v ->
    power "p" rest k -> unsigned_reads (p ++ s) (Value (IZR v * powerRZ 2 (k - 4 * Z.of_nat places)))
| reads_no_hex p s places rest : same_letters p (lit "0x") -> mantissa is_hex_char s [] places rest -> unsigned_reads (p ++ s) Nothing
| reads_decimal s ds places rest v k : ~ begins_word "0x" s -> mantissa is_digit_char s ds places rest -> numeral ds v ->
    power "e" rest k -> unsigned_reads s (Value (IZR v * powerRZ 10 (k - Z.of_nat places)))
| reads_nothing s places rest : ~ begins_word "nan" s -> ~ begins_word "inf" s -> mantissa is_digit_char s [] places rest ->
    unsigned_reads s Nothing.

Definition is_sign (c : ascii) : Prop := c = "+"%char \/ c = "-"%char.
(** The boolean says whether there is a minus sign. *)
Inductive float_reads : str -> bool -> reading -> Prop :=
| float_plain sp s r : Forall white sp -> ~ begins white s -> ~ begins is_sign s -> unsigned_reads s r -> float_reads (sp ++ s) false r
| float_plus sp s r : Forall white sp -> unsigned_reads s r -> float_reads (sp ++ "+"%char :: s) false r
| float_minus sp s r : Forall white sp -> unsigned_reads s r -> float_reads (sp ++ "-"%char :: s) true r.

Definition sign_of (f : flt) : bool :=
  match f with S754_zero s => s | S754_infinity s => s | S754_nan => false | S754_finite s _ _ => s end.
(** The float for it: the nearest one, or an infinity if it is too large. *)
Definition float_for (minus : bool) (r : reading) (f : flt) : Prop :=
  match r with
  | NotNumber => f = S754_nan
  | Infinity => f = S754_infinity minus
  | Nothing => f = S754_zero false
  | Value x =>
      let y := if minus then - x else x in
      Rabs (nearest_float y) < bpow radix2 128 /\ float_value f (nearest_float y) /\ sign_of f = minus \/
      bpow radix2 128 <= Rabs (nearest_float y) /\ f = S754_infinity minus
  end.
