(** Rational. *)
From Coq Require Import ZArith Reals Lra Lia Bool List.
From Coq.Floats Require Import SpecFloat.
From Flocq Require Import Core BinarySingleNaN.
From Verif.Model Require Import Base Float TimeModel.
From Verif.Spec Require Import Outcome TimeSpec RationalSpec.
From Verif.Proofs Require Import FloatProofs.
Import ListNotations.
Local Open Scope Z_scope.

Lemma rational_eqb_iff a b : rational_eqb a b = true <-> num a = num b /\ den a = den b.
Proof. unfold rational_eqb. rewrite andb_true_iff, !Z.eqb_eq. reflexivity. Qed.

Lemma quot_int r : is_int (num r) -> is_int (den r) -> den r <> 0 ->
  in_int (num r ÷ den r) = negb ((num r =? -2147483648) && (den r =? -1)).
Proof.
  unfold is_int, in_int, int_min, int_max. intros N D Z.
  destruct (Z.eqb_spec (num r) (-2147483648)) as [E|E]; cbn [andb negb].
  - destruct (Z.eqb_spec (den r) (-1)) as [F|F]; cbn [andb negb]; [now rewrite E, F|].
    rewrite E. apply andb_true_iff. rewrite !Z.leb_le.
    pose proof (Z.quot_rem' (-2147483648) (den r)). pose proof (Z.rem_bound_abs (-2147483648) (den r) Z).
    assert (Z.abs (-2147483648 ÷ den r) <= 2147483648).
    { rewrite <- Z.quot_abs by exact Z. apply Z.quot_le_upper_bound; lia. }
    destruct (Z_lt_le_dec (den r) 0).
    + assert (den r <= -2) by lia.
      assert (Z.abs (-2147483648 ÷ den r) <= 1073741824).
      { rewrite <- Z.quot_abs by exact Z. apply Z.quot_le_upper_bound; lia. }
      lia.
    + assert (-2147483648 ÷ den r <= 0) by (change (-2147483648) with (- (2147483648)); rewrite Z.quot_opp_l by exact Z; assert (0 <= 2147483648 ÷ den r) by (apply Z.quot_pos; lia); lia).
      lia.
  - apply andb_true_iff. rewrite !Z.leb_le.
    assert (Z.abs (num r ÷ den r) <= 2147483647).
    { rewrite <- Z.quot_abs by exact Z. apply Z.quot_le_upper_bound; lia || nia. }
    lia.
Qed.
Lemma is_defined r : is_int (num r) -> is_int (den r) -> divisible r -> den r <> 0 /\ in_int (num r ÷ den r) = true.
Proof.
  intros N D (Z & M). split; [exact Z|]. rewrite quot_int by assumption. apply negb_true_iff, andb_false_iff. rewrite !Z.eqb_neq. tauto.
Qed.
Lemma r_integer_ok r : is_int (num r) -> is_int (den r) -> divisible r -> decides (r_integer r) (exists k, whole_rate r k).
Proof.
  intros N D V. destruct (is_defined r N D V) as (Z & I). unfold r_integer, imod, chk. rewrite I.
  destruct (Z.eqb_spec (den r) 0) as [|_]; [contradiction|]. cbn [bind]. unfold decides.
  destruct (Z.eqb_spec (Z.rem (num r) (den r)) 0) as [E|E].
  - left. split; [reflexivity|]. exists (num r ÷ den r). split; [exact Z|]. rewrite Z.mul_comm.
    pose proof (Z.quot_rem' (num r) (den r)). lia.
  - right. split; [reflexivity|]. intros (k & _ & K). apply E. rewrite K. apply Z.rem_mul. exact Z.
Qed.
Lemma r_integer_fraction_ok r : is_int (num r) -> is_int (den r) -> divisible r ->
  exists q, r_integer_fraction r = Ok q /\ whole_part r q.
Proof.
  intros N D V. destruct (is_defined r N D V) as (Z & I). unfold r_integer_fraction, idiv, chk. rewrite I.
  destruct (Z.eqb_spec (den r) 0) as [|_]; [contradiction|]. eexists. split; [reflexivity|].
  exists (Z.rem (num r) (den r)). split; [pose proof (Z.quot_rem' (num r) (den r)); lia|].
  split; [apply Z.rem_bound_abs; exact Z|].
  destruct (Z_le_gt_dec 0 (num r)) as [L|L].
  - left. split; [exact L|]. now apply Z.rem_nonneg.
  - right. split; [lia|]. apply Z.rem_nonpos; [exact Z | lia].
Qed.
Lemma r_undefined r : is_int (num r) -> is_int (den r) -> ~ divisible r ->
  (exists u, r_integer r = Undef u) /\ (exists u, r_integer_fraction r = Undef u).
Proof.
  intros N D V. unfold r_integer, r_integer_fraction, imod, idiv, chk.
  destruct (Z.eqb_spec (den r) 0) as [|Z]; [split; eexists; reflexivity|].
  rewrite quot_int by assumption.
  destruct (Z.eqb_spec (num r) (-2147483648)) as [E|E]; [destruct (Z.eqb_spec (den r) (-1)) as [F|F]|]; cbn [andb negb bind].
  - split; eexists; reflexivity.
  - destruct V. split; [exact Z | tauto].
  - destruct V. split; [exact Z | tauto].
Qed.

Local Open Scope R_scope.
Lemma r_fraction_ok r : is_int (num r) -> is_int (den r) -> (den r <> 0)%Z -> double_value (r_fraction r) (nearest_double (IZR (num r) / IZR (den r))).
Proof.
  intros N D Z. unfold r_fraction, is_int in *. apply ddiv_ok.
  - apply d_of_int_ok. lia.
  - apply d_of_int_ok. lia.
  - now apply not_0_IZR.
  - apply small_lt_1024. unfold Rdiv. rewrite Rabs_mult, Rabs_inv, <- !abs_IZR.
    assert (1 <= IZR (Z.abs (den r))) by (apply IZR_le; lia).
    apply Rle_trans with (IZR (Z.abs (num r)) * 1).
    + apply Rmult_le_compat_l; [apply IZR_le; lia|]. rewrite <- Rinv_1. apply Rinv_le; lra.
    + rewrite Rmult_1_r. apply IZR_le. lia.
Qed.
Lemma r_max_is a b : is_int (num a) -> is_int (den a) -> (0 < den a)%Z -> is_int (num b) -> is_int (den b) -> (0 < den b)%Z ->
  r_max a b = if Rlt_bool (rnd64 (IZR (num b) / IZR (den b))) (rnd64 (IZR (num a) / IZR (den a))) then a else b.
Proof.
  intros. unfold r_max, flt_lt. rewrite (ltb_flt 53 1024 _ _ _ _ (r_fraction_ok b ltac:(assumption) ltac:(assumption) ltac:(lia))
    (r_fraction_ok a ltac:(assumption) ltac:(assumption) ltac:(lia))). reflexivity.
Qed.
Lemma r_max_as_is a b : is_int (num a) -> is_int (den a) -> (den a <> 0)%Z -> is_int (num b) -> is_int (den b) -> (den b <> 0)%Z ->
  (nearest_double (IZR (num b) / IZR (den b)) < nearest_double (IZR (num a) / IZR (den a)) -> r_max a b = a) /\
  (nearest_double (IZR (num a) / IZR (den a)) <= nearest_double (IZR (num b) / IZR (den b)) -> r_max a b = b).
Proof.
  intros NA DA PA NB DB PB. unfold r_max, flt_lt.
  rewrite (ltb_flt 53 1024 _ _ _ _ (r_fraction_ok b NB DB PB) (r_fraction_ok a NA DA PA)). split; intros H.
  - now rewrite Rlt_bool_true.
  - now rewrite Rlt_bool_false.
Qed.
Lemma cross_le a b : (0 < den a)%Z -> (0 < den b)%Z -> (num a * den b <= num b * den a)%Z ->
  IZR (num a) / IZR (den a) <= IZR (num b) / IZR (den b).
Proof.
  intros A B H. apply IZR_lt in A, B. apply IZR_le in H. rewrite !mult_IZR in H.
  apply Rmult_le_reg_r with (IZR (den a)); [exact A|]. unfold Rdiv. rewrite Rmult_assoc, Rinv_l, Rmult_1_r by lra.
  apply Rmult_le_reg_r with (IZR (den b)); [exact B|].
  replace (IZR (num b) * / IZR (den b) * IZR (den a) * IZR (den b)) with (IZR (num b) * IZR (den a)) by (field; lra). exact H.
Qed.
Lemma r_max_second a b : is_int (num a) -> is_int (den a) -> (0 < den a)%Z -> is_int (num b) -> is_int (den b) -> (0 < den b)%Z ->
  (num a * den b <= num b * den a)%Z -> r_max a b = b.
Proof.
  intros NA DA PA NB DB PB H. rewrite r_max_is by assumption. rewrite Rlt_bool_false; [reflexivity|].
  apply round_le; [apply FLT_exp_valid; reflexivity | apply valid_rnd_N | now apply cross_le].
Qed.
Lemma rel0 v : v = 0 \/ bpow radix2 (-1022) <= Rabs v -> Rabs (rnd64 v - v) <= bpow radix2 (-53) * Rabs v.
Proof.
  intros [->|H]; [|now apply rnd64_rel]. rewrite round_0 by apply valid_rnd_N. rewrite Rminus_0_r, Rabs_R0, Rmult_0_r. lra.
Qed.
Lemma fraction_size r : is_int (num r) -> is_int (den r) -> (0 < den r)%Z ->
  IZR (num r) / IZR (den r) = 0 \/ bpow radix2 (-1022) <= Rabs (IZR (num r) / IZR (den r)).
Proof.
  intros N D P. unfold is_int in *. destruct (Z.eq_dec (num r) 0) as [->|Z]; [left; unfold Rdiv; lra|right].
  apply Rle_trans with (bpow radix2 (-53)); [apply bpow_le; lia|].
  unfold Rdiv. rewrite Rabs_mult, Rabs_inv, <- !abs_IZR.
  assert (1 <= IZR (Z.abs (num r))) by (apply IZR_le; lia).
  assert (0 < IZR (Z.abs (den r))) by (apply IZR_lt; lia).
  apply Rle_trans with (1 * / IZR (Z.abs (den r))); [|apply Rmult_le_compat_r; [left; now apply Rinv_0_lt_compat | assumption]].
  rewrite Rmult_1_l. change (-53)%Z with (- (53))%Z. rewrite bpow_opp. apply Rinv_le; [assumption|].
  rewrite <- IZR_Zpower by lia. apply IZR_le. cbn. lia.
Qed.
Lemma r_max_first a b : (Z.abs (num a) < 2 ^ 26)%Z -> (0 < den a < 2 ^ 26)%Z -> (Z.abs (num b) < 2 ^ 26)%Z -> (0 < den b < 2 ^ 26)%Z ->
  (num b * den a < num a * den b)%Z -> r_max a b = a.
Proof.
  intros NA DA NB DB H. rewrite r_max_is by (unfold is_int; lia). rewrite Rlt_bool_true; [reflexivity|].
  pose proof (rel0 _ (fraction_size a ltac:(unfold is_int; lia) ltac:(unfold is_int; lia) ltac:(lia))) as EA.
  pose proof (rel0 _ (fraction_size b ltac:(unfold is_int; lia) ltac:(unfold is_int; lia) ltac:(lia))) as EB.
  assert (PA : 0 < IZR (den a)) by (apply IZR_lt; lia). assert (PB : 0 < IZR (den b)) by (apply IZR_lt; lia).
  set (x := IZR (num a) / IZR (den a)) in *. set (y := IZR (num b) / IZR (den b)) in *.
  assert (G : 1 <= (x - y) * (IZR (den a) * IZR (den b))).
  { unfold x, y. replace ((IZR (num a) / IZR (den a) - IZR (num b) / IZR (den b)) * (IZR (den a) * IZR (den b)))
      with (IZR (num a * den b - num b * den a)) by (rewrite minus_IZR, !mult_IZR; field; lra). apply IZR_le. lia. }
  assert (S : bpow radix2 (-53) * (Rabs x + Rabs y) * (IZR (den a) * IZR (den b)) < 1).
  { rewrite Rmult_assoc, (Rmult_plus_distr_r (Rabs x)).
    replace (Rabs x * (IZR (den a) * IZR (den b))) with (IZR (Z.abs (num a) * den b)).
    2:{ unfold x, Rdiv. rewrite Rabs_mult, Rabs_inv, (Rabs_pos_eq (IZR (den a))), <- abs_IZR, mult_IZR by lra. field. lra. }
    replace (Rabs y * (IZR (den a) * IZR (den b))) with (IZR (Z.abs (num b) * den a)).
    2:{ unfold y, Rdiv. rewrite Rabs_mult, Rabs_inv, (Rabs_pos_eq (IZR (den b))), <- abs_IZR, mult_IZR by lra. field. lra. }
    rewrite <- plus_IZR. apply Rmult_lt_reg_l with (bpow radix2 53); [apply bpow_gt_0|].
    rewrite <- Rmult_assoc, <- bpow_plus, Rmult_1_r. cbn [Z.add]. change (53 + -53)%Z with 0%Z. cbn [bpow]. rewrite Rmult_1_l.
    change (Z.pow_pos radix2 53) with (2 ^ 53)%Z. apply IZR_lt.
    assert (Z.abs (num a) * den b <= (2 ^ 26 - 1) * (2 ^ 26 - 1))%Z by (apply Z.mul_le_mono_nonneg; lia).
    assert (Z.abs (num b) * den a <= (2 ^ 26 - 1) * (2 ^ 26 - 1))%Z by (apply Z.mul_le_mono_nonneg; lia).
    lia. }
  apply Rabs_le_inv in EA, EB.
  assert (0 < IZR (den a) * IZR (den b)) by (now apply Rmult_lt_0_compat).
  apply Rmult_lt_reg_r with (IZR (den a) * IZR (den b)); [assumption|].
  assert (LA : (x - bpow radix2 (-53) * Rabs x) * (IZR (den a) * IZR (den b)) <= rnd64 x * (IZR (den a) * IZR (den b))) by (apply Rmult_le_compat_r; lra).
  assert (LB : rnd64 y * (IZR (den a) * IZR (den b)) <= (y + bpow radix2 (-53) * Rabs y) * (IZR (den a) * IZR (den b))) by (apply Rmult_le_compat_r; lra).
  lra.
Qed.
Lemma r_max_wrong : exists a b, is_int (num a) /\ is_int (den a) /\ (0 < den a)%Z /\ is_int (num b) /\ is_int (den b) /\ (0 < den b)%Z /\
  (num b * den a < num a * den b)%Z /\ r_max a b = b.
Proof.
  exists (mkR 2147483646 2147483645), (mkR 2147483647 2147483646). unfold is_int. cbn [num den].
  repeat split; lia.
Qed.
