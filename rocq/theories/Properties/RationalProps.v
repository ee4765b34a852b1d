(** C92: Rational.  Statements only; proofs are in theories/Proofs. *)
From Coq Require Import ZArith Reals Lia Bool.
From Verif.Model Require Import Base Float TimeModel.
From Verif.Spec Require Import Outcome TimeSpec RationalSpec.
From Verif.Proofs Require Import RationalProofs.
Local Open Scope Z_scope.

(** C92.  Equality compares numerators and denominators; integer() and integer_fraction() give the quotient, where
    there is one; fraction() is the nearest double. *)
Theorem C92_equality : forall a b, rational_eqb a b = true <-> num a = num b /\ den a = den b.
Proof. exact rational_eqb_iff. Qed.
Print Assumptions C92_equality.
Theorem C92_integer : forall r, is_int (num r) -> is_int (den r) -> divisible r -> decides (r_integer r) (exists k, whole_rate r k).
Proof. exact r_integer_ok. Qed.
Print Assumptions C92_integer.
Example C92_integer_case : is_int 60000 /\ is_int 1001 /\ divisible (mkR 60000 1001) /\ r_integer (mkR 60000 1001) = Ok false /\ r_integer (mkR 48000 2000) = Ok true.
Proof. unfold is_int, divisible. cbn [num den]. repeat split; try lia. Qed.
Theorem C92_integer_fraction : forall r, is_int (num r) -> is_int (den r) -> divisible r ->
  exists q, r_integer_fraction r = Ok q /\ whole_part r q.
Proof. exact r_integer_fraction_ok. Qed.
Print Assumptions C92_integer_fraction.
Theorem C92_undefined : forall r, is_int (num r) -> is_int (den r) -> ~ divisible r ->
  (exists u, r_integer r = Undef u) /\ (exists u, r_integer_fraction r = Undef u).
Proof. exact r_undefined. Qed.
Print Assumptions C92_undefined.
Example C92_undefined_case : is_int (- 2 ^ 31) /\ is_int (-1) /\ ~ divisible (mkR (- 2 ^ 31) (-1)) /\ ~ divisible (mkR 25 0).
Proof. unfold is_int, divisible. cbn [num den]. repeat split; try lia. Qed.
Theorem C92_fraction : forall r, is_int (num r) -> is_int (den r) -> den r <> 0 ->
  double_value (r_fraction r) (nearest_double (IZR (num r) / IZR (den r))).
Proof. exact r_fraction_ok. Qed.
Print Assumptions C92_fraction.
Example C92_case : is_int 60000 /\ is_int (-1001) /\ divisible (mkR 60000 (-1001)) /\ whole_part (mkR 60000 (-1001)) (-59).
Proof. unfold is_int, divisible, whole_part. cbn [num den]. split; [lia|]. split; [lia|]. split; [lia|]. exists 941. lia. Qed.
(** max() gives the second if it is at least the first, *)
Theorem C92_max_second : forall a b, is_int (num a) -> is_int (den a) -> 0 < den a -> is_int (num b) -> is_int (den b) -> 0 < den b ->
  num a * den b <= num b * den a -> r_max a b = b.
Proof. exact r_max_second. Qed.
Print Assumptions C92_max_second.
Example C92_max_second_case : is_int 30000 /\ is_int 1001 /\ 0 < 1001 /\ is_int 60 /\ is_int 2 /\ 30000 * 2 <= 60 * 1001.
Proof. unfold is_int. lia. Qed.
(** and otherwise the first if the numbers are less than 2^26, *)
Theorem C92_max_first_partial : forall a b, Z.abs (num a) < 2 ^ 26 -> 0 < den a < 2 ^ 26 -> Z.abs (num b) < 2 ^ 26 -> 0 < den b < 2 ^ 26 ->
  num b * den a < num a * den b -> r_max a b = a.
Proof. exact r_max_first. Qed.
Print Assumptions C92_max_first_partial.
Example C92_max_case : Z.abs 60000 < 2 ^ 26 /\ 0 < 1001 < 2 ^ 26 /\ 24 * 1001 < 60000 * 1.
Proof. lia. Qed.
(** but not for all. *)
Theorem C92_max_refuted : exists a b, is_int (num a) /\ is_int (den a) /\ 0 < den a /\ is_int (num b) /\ is_int (den b) /\ 0 < den b /\
  num b * den a < num a * den b /\ r_max a b = b.
Proof. exact r_max_wrong. Qed.
Print Assumptions C92_max_refuted.
(** What decides is the doubles nearest to the fractions, whatever the signs; between equal doubles the second is taken. *)
Theorem C92_max_as_is : forall a b, is_int (num a) -> is_int (den a) -> den a <> 0 -> is_int (num b) -> is_int (den b) -> den b <> 0 ->
  ((nearest_double (IZR (num b) / IZR (den b)) < nearest_double (IZR (num a) / IZR (den a)))%R -> r_max a b = a) /\
  ((nearest_double (IZR (num a) / IZR (den a)) <= nearest_double (IZR (num b) / IZR (den b)))%R -> r_max a b = b).
Proof. exact r_max_as_is. Qed.
Print Assumptions C92_max_as_is.
Example C92_max_as_is_case : r_max (mkR 30 (-1)) (mkR 24 (-1)) = mkR 24 (-1) /\ r_max (mkR 25 1) (mkR 50 2) = mkR 50 2.
Proof. split; vm_compute; reflexivity. Qed.
