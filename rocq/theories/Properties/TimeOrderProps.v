(** C115-C118: scaling by 1, and the order of scaled and added times.  Statements only; proofs are in theories/Proofs. *)
From Coq Require Import ZArith QArith Qreals Reals Lra Lia List.
From Coq.Floats Require Import SpecFloat.
From Flocq Require Import Core BinarySingleNaN.
From Verif.Model Require Import Base Float TimeModel.
From Verif.Spec Require Import Outcome TimeSpec.
From Verif.Proofs Require Import TimeOrderProofs.
Import ListNotations.
Local Open Scope Z_scope.

(** C115: scaling by 1 changes nothing. *)
Theorem C115_scale_one_partial : forall t r k,
  t_rate t = Some r -> positive_rate r -> whole_rate r k -> is_int (num r) -> is_int (den r) ->
  normalised_at r t -> 0 <= t_seconds t <= 2147483640 -> k <= 1000 ->
  time_scale t (f_of_int 1) = Ok t.
Proof. exact scale_one. Qed.
Print Assumptions C115_scale_one_partial.
Example C115_case : let r := mkR 50 2 in positive_rate r /\ whole_rate r 25 /\ normalised_at r (mkT 7199 24 (Some r)).
Proof. cbv zeta. split; [split; reflexivity|]. split; [split; [cbn; lia | reflexivity]|]. split; [cbn; lia | now vm_compute]. Qed.

(** That is all there is: at every finer rate there are two times that scaling by 1 makes the same. *)
Theorem C115_fine_refuted : forall r k, positive_rate r -> whole_rate r k -> is_int (num r) -> is_int (den r) -> 1000 < k ->
  exists t u, t_rate t = Some r /\ t_rate u = Some r /\ normalised_at r t /\ normalised_at r u /\ t <> u /\
    time_scale t (f_of_int 1) = time_scale u (f_of_int 1) /\ exists v, time_scale t (f_of_int 1) = Ok v.
Proof. exact scale_one_fine. Qed.
Print Assumptions C115_fine_refuted.
Example C115_fine_case : let r := mkR 2000 1 in positive_rate r /\ whole_rate r 2000 /\ is_int (num r) /\ is_int (den r).
Proof. cbv zeta. split; [split; reflexivity|]. split; [split; [cbn; lia | reflexivity]|]. split; now vm_compute. Qed.

(** C116: of two times, the one that is not later is not later after both are scaled, or the same is added to both. *)
Theorem C116_scale : forall a b r k f phi,
  t_rate a = Some r -> t_rate b = Some r -> positive_rate r -> whole_rate r k -> is_int (num r) -> is_int (den r) ->
  normalised_at r a -> normalised_at r b -> 0 <= t_seconds a -> is_int (t_seconds b) ->
  valid_binary 24 128 f = true -> is_finite_SF f = true -> SF2R radix2 f = phi -> (0 <= phi)%R ->
  (phi * (Q2R (instant_at r b) + / 2000) <= 2147483646)%R ->
  (instant_at r a <= instant_at r b)%Q ->
  exists a' b', time_scale a f = Ok a' /\ time_scale b f = Ok b' /\ t_rate a' = Some r /\ t_rate b' = Some r /\ (instant_at r a' <= instant_at r b')%Q.
Proof. exact scale_monotone. Qed.
Print Assumptions C116_scale.
Example C116_scale_case : let f := f_of_d (d_lit 959 1000) in let r := mkR 24 1 in
  valid_binary 24 128 f = true /\ is_finite_SF f = true /\ normalised_at r (mkT 1 23 (Some r)) /\ (instant_at r (mkT 1 23 (Some r)) <= instant_at r (mkT 2 0 (Some r)))%Q.
Proof. cbv zeta. split; [vm_compute; reflexivity|]. split; [vm_compute; reflexivity|]. split; [split; [cbn; lia | now vm_compute]|]. now vm_compute. Qed.

Theorem C116_add : forall a a' b ra rb ka kb,
  t_rate a = Some ra -> t_rate a' = Some ra -> t_rate b = Some rb ->
  positive_rate ra -> positive_rate rb -> whole_rate ra ka -> whole_rate rb kb ->
  is_int (num ra) -> is_int (den ra) -> is_int (num rb) -> is_int (den rb) ->
  normalised_at ra a -> normalised_at ra a' -> normalised_at rb b -> 0 <= t_seconds a -> 0 <= t_seconds b ->
  is_int ((t_seconds a' + t_seconds b + 2) * Z.max ka kb) ->
  (instant_at ra a <= instant_at ra a')%Q ->
  exists t t' r, time_add a b = Ok t /\ time_add a' b = Ok t' /\ t_rate t = Some r /\ t_rate t' = Some r /\ (instant_at r t <= instant_at r t')%Q.
Proof. exact add_monotone. Qed.
Print Assumptions C116_add.
Example C116_add_case : let r := mkR 24 1 in let s := mkR 25 1 in normalised_at r (mkT 1 23 (Some r)) /\ normalised_at s (mkT 3 7 (Some s)) /\
  is_int ((2 + 3 + 2) * Z.max 24 25) /\ (instant_at r (mkT 1 23 (Some r)) <= instant_at r (mkT 2 0 (Some r)))%Q.
Proof. cbv zeta. split; [split; [cbn; lia | now vm_compute]|]. split; [split; [cbn; lia | now vm_compute]|]. split; [unfold is_int; cbn; lia|]. now vm_compute. Qed.

(** C117: add gives the same in either order: the same seconds and frames at the same rate. *)
Theorem C117_add_commutes : forall a b ra rb ka kb,
  t_rate a = Some ra -> t_rate b = Some rb ->
  positive_rate ra -> positive_rate rb -> whole_rate ra ka -> whole_rate rb kb ->
  is_int (num ra) -> is_int (den ra) -> is_int (num rb) -> is_int (den rb) ->
  normalised_at ra a -> normalised_at rb b -> 0 <= t_seconds a -> 0 <= t_seconds b ->
  is_int ((t_seconds a + t_seconds b + 2) * Z.max ka kb) ->
  exists t u, time_add a b = Ok t /\ time_add b a = Ok u /\ t_seconds t = t_seconds u /\ t_frames t = t_frames u /\
    exists r s, t_rate t = Some r /\ t_rate u = Some s /\ equivalent_rates r s.
Proof. exact add_commutes. Qed.
Print Assumptions C117_add_commutes.
Example C117_case : let r := mkR 24 1 in let s := mkR 25 1 in
  time_add (mkT 1 23 (Some r)) (mkT 3 7 (Some s)) = Ok (mkT 5 5 (Some s)) /\ time_add (mkT 3 7 (Some s)) (mkT 1 23 (Some r)) = Ok (mkT 5 5 (Some s)).
Proof. split; vm_compute; reflexivity. Qed.

(** C118.  Adding zero may take a frame away; it never adds one, and never takes more. *)
Theorem C118_add_zero_refuted : exists t r, t_rate t = Some r /\ positive_rate r /\ whole_rate r 24 /\ normalised_at r t /\ 0 <= t_seconds t /\
  time_add t (mkT 0 0 (Some r)) = Ok (mkT 0 1 (Some r)) /\ t = mkT 0 2 (Some r).
Proof. exact add_zero_short. Qed.
Print Assumptions C118_add_zero_refuted.
Theorem C118_add_zero_as_is : forall t r k,
  t_rate t = Some r -> positive_rate r -> whole_rate r k -> is_int (num r) -> is_int (den r) ->
  normalised_at r t -> 0 <= t_seconds t -> is_int ((t_seconds t + 2) * k) -> k <= 1000 ->
  exists u, time_add t (mkT 0 0 (Some r)) = Ok u /\ t_rate u = Some r /\ 0 <= t_frames u < k /\
    t_seconds t * k + t_frames t - 1 <= t_seconds u * k + t_frames u <= t_seconds t * k + t_frames t.
Proof. exact add_zero. Qed.
Print Assumptions C118_add_zero_as_is.
(** The frame is kept if its milliseconds are rounded up, and lost if they are rounded down. *)
Theorem C118_add_zero_rounds : forall t r k m,
  t_rate t = Some r -> positive_rate r -> whole_rate r k -> is_int (num r) -> is_int (den r) ->
  normalised_at r t -> 0 <= t_seconds t -> is_int ((t_seconds t + 2) * k) -> k <= 1000 ->
  nearest_even (t_frames t * den r * 1000) (num r) m ->
  exists u, time_add t (mkT 0 0 (Some r)) = Ok u /\ t_rate u = Some r /\ 0 <= t_frames u < k /\
    (m * k > t_frames t * 1000 -> u = t) /\
    (m * k < t_frames t * 1000 -> t_seconds u * k + t_frames u = t_seconds t * k + t_frames t - 1).
Proof. exact add_zero_rounds. Qed.
Print Assumptions C118_add_zero_rounds.
(** If it is a whole number of milliseconds, it may still be lost. *)
Theorem C118_add_zero_25_refuted : time_add (mkT 1 4 (Some (mkR 25 1))) (mkT 0 0 (Some (mkR 25 1))) = Ok (mkT 1 3 (Some (mkR 25 1))).
Proof. exact add_zero_25. Qed.
Print Assumptions C118_add_zero_25_refuted.
Example C118_rounds_case : nearest_even (1 * 1 * 1000) 24 42 /\ 42 * 24 > 1 * 1000 /\ nearest_even (2 * 1 * 1000) 24 83 /\ 83 * 24 < 2 * 1000.
Proof. unfold nearest_even. cbn. repeat split; lia. Qed.
Example C118_case : let r := mkR 25 1 in positive_rate r /\ whole_rate r 25 /\ normalised_at r (mkT 3599 24 (Some r)) /\ is_int ((3599 + 2) * 25).
Proof. cbv zeta. split; [split; reflexivity|]. split; [split; [cbn; lia | reflexivity]|]. split; [split; [cbn; lia | now vm_compute]|]. unfold is_int. lia. Qed.
