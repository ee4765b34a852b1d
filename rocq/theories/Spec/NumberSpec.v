(** Decimal numbers. *)
From Coq Require Import ZArith Reals List Bool Ascii.
From Flocq Require Import Core.
From Verif.Model Require Import Base.
From Verif.Spec Require Import TextSpec LinesSpec StlFileSpec PositionSpec.
Import ListNotations.
Local Open Scope R_scope.

(** 12, 12.5, .5 and 5. *)
Inductive decimal : str -> R -> Prop :=
| decimal_whole d v : numeral d v -> decimal d (IZR v)
| decimal_fraction ip fp v : numeral (ip ++ fp) v -> decimal (ip ++ "."%char :: fp) (IZR v / 10 ^ List.length fp).
(** ... with an exponent, as in 1.25e-3. *)
Inductive exponent : str -> Z -> Prop :=
| exponent_none : exponent [] 0
| exponent_plain e d v : e = "e"%char \/ e = "E"%char -> numeral d v -> exponent (e :: d) v
| exponent_plus e d v : e = "e"%char \/ e = "E"%char -> numeral d v -> exponent (e :: "+"%char :: d) v
| exponent_minus e d v : e = "e"%char \/ e = "E"%char -> numeral d v -> exponent (e :: "-"%char :: d) (- v).
Inductive scientific : str -> R -> Prop :=
| scientific_plain d x e k : decimal d x -> exponent e k -> scientific (d ++ e) (x * powerRZ 10 k).
(** ... after white space, with a sign. *)
Inductive number : str -> R -> Prop :=
| number_plain sp s x : Forall white sp -> scientific s x -> number (sp ++ s) x
| number_plus sp s x : Forall white sp -> scientific s x -> number (sp ++ "+"%char :: s) x
| number_minus sp s x : Forall white sp -> scientific s x -> number (sp ++ "-"%char :: s) (- x).
(** A character that could continue a number. *)
Definition goes_on (c : ascii) : Prop :=
  is_digit_char c \/ c = "."%char \/ c = "e"%char \/ c = "E"%char \/ c = "x"%char \/ c = "X"%char.
