(** What Rational means. *)
From Coq Require Import ZArith Reals Bool.
From Coq.Floats Require Import SpecFloat.
From Flocq Require Import Core BinarySingleNaN.
From Verif.Model Require Import Base Float TimeModel.
Local Open Scope Z_scope.

(** A fraction with a quotient that is an int. *)
Definition divisible (r : rational) : Prop := den r <> 0 /\ ~ (num r = -2147483648 /\ den r = -1).
(** The quotient without its fractional part. *)
Definition whole_part (r : rational) (q : Z) : Prop :=
  exists rest, num r = q * den r + rest /\ Z.abs rest < Z.abs (den r) /\ (0 <= num r /\ 0 <= rest \/ num r <= 0 /\ rest <= 0).
(** [f] is a finite double with value [x]; the double nearest to [x]. *)
Definition double_value (f : flt) (x : R) : Prop := valid_binary 53 1024 f = true /\ is_finite_SF f = true /\ SF2R radix2 f = x.
Definition nearest_double (x : R) : R := round radix2 (FLT_exp (-1074) 53) ZnearestE x.
