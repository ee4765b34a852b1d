(** How floats are printed. *)
From Coq Require Import ZArith Reals List Bool Ascii String Lia Lra.
From Coq.Floats Require Import SpecFloat.
From Flocq Require Import Core BinarySingleNaN.
From Verif.Model Require Import Base Strings Float TimeModel Types Dump.
From Verif.Spec Require Import Outcome TextSpec TimeSpec DumpSpec.
From Verif.Proofs Require Import StringProofs StlWriteProofs StlFileProofs TimeFloatProofs.
Import ListNotations.
Local Open Scope Z_scope.
Local Notation length := List.length.

Local Notation p10 := (powerRZ 10).
Lemma p10_pos k : (0 < p10 k)%R.
Proof. apply powerRZ_lt. lra. Qed.
Lemma p10_add a b : (p10 (a + b) = p10 a * p10 b)%R.
Proof. apply powerRZ_add. lra. Qed.
Lemma p10_Z k : 0 <= k -> (p10 k = IZR (10 ^ k))%R.
Proof.
  intros P. rewrite <- (Z2Nat.id k P). generalize (Z.to_nat k). intros n. rewrite <- pow_powerRZ, <- pow_IZR. reflexivity.
Qed.
Lemma p10_opp k : (p10 (- k) = / p10 k)%R.
Proof. apply powerRZ_neg'. Qed.

Lemma div_rounds A B : 0 < B -> rounds (div_rne A B) (IZR A / IZR B).
Proof.
  intros P. destruct (div_rne_nearest A B P) as [N T]. set (z := div_rne A B) in *. assert (PR : (0 < IZR B)%R) by now apply IZR_lt.
  assert (E : (IZR z - IZR A / IZR B = IZR (z * B - A) / IZR B)%R) by (rewrite minus_IZR, mult_IZR; field; lra).
  assert (EA : (Rabs (IZR z - IZR A / IZR B) = IZR (Z.abs (z * B - A)) / IZR B)%R).
  { rewrite E. unfold Rdiv. rewrite Rabs_mult, (Rabs_pos_eq (/ IZR B)), abs_IZR; [reflexivity|]. left. now apply Rinv_0_lt_compat. }
  unfold rounds. rewrite EA. split.
  - apply (Rmult_le_reg_r (2 * IZR B)); [lra|]. replace (IZR (Z.abs (z * B - A)) / IZR B * (2 * IZR B))%R with (IZR (2 * Z.abs (z * B - A))) by (rewrite mult_IZR; field; lra).
    replace (1 / 2 * (2 * IZR B))%R with (IZR B) by field. apply IZR_le. lia.
  - intros H. apply T. apply (f_equal (fun r => r * (2 * IZR B)))%R in H.
    replace (IZR (Z.abs (z * B - A)) / IZR B * (2 * IZR B))%R with (IZR (2 * Z.abs (z * B - A))) in H by (rewrite mult_IZR; field; lra).
    replace (1 / 2 * (2 * IZR B))%R with (IZR B) in H by field. apply eq_IZR in H. lia.
Qed.

Section Positive.
Variables num den : Z.
Hypothesis N : 0 < num.
Hypothesis D : 0 < den.
Let v := (IZR num / IZR den)%R.
Lemma v_pos : (0 < v)%R.
Proof. unfold v. apply Rdiv_lt_0_compat; now apply IZR_lt. Qed.

Lemma scaled_rounds k : rounds (scaled num den k) (v * p10 k).
Proof.
  unfold scaled. assert (DR : (0 < IZR den)%R) by now apply IZR_lt. destruct (Z.leb_spec 0 k) as [K|K].
  - replace (v * p10 k)%R with (IZR (num * 10 ^ k) / IZR den)%R; [now apply div_rounds|]. rewrite mult_IZR, p10_Z by exact K. unfold v. field. lra.
  - assert (PP : 0 < 10 ^ (- k)) by (apply Z.pow_pos_nonneg; lia).
    replace (v * p10 k)%R with (IZR num / IZR (den * 10 ^ (- k)))%R; [apply div_rounds; nia|].
    rewrite mult_IZR, <- p10_Z by lia. rewrite p10_opp. unfold v. pose proof (p10_pos k). field. lra.
Qed.
Lemma at_least_iff x : at_least num den x = true <-> (p10 x <= v)%R.
Proof.
  unfold at_least. assert (DR : (0 < IZR den)%R) by now apply IZR_lt. destruct (Z.leb_spec 0 x) as [K|K]; rewrite Z.leb_le.
  - rewrite p10_Z by exact K. unfold v. split; intros H.
    + apply (Rmult_le_reg_r (IZR den)); [exact DR|]. replace (IZR num / IZR den * IZR den)%R with (IZR num) by (field; lra). rewrite <- mult_IZR. apply IZR_le. lia.
    + apply (Rmult_le_compat_r (IZR den)) in H; [|lra]. replace (IZR num / IZR den * IZR den)%R with (IZR num) in H by (field; lra). rewrite <- mult_IZR in H. apply le_IZR in H. lia.
  - pose proof (p10_pos x) as PX. assert (E : (IZR (10 ^ (- x)) = / p10 x)%R) by (rewrite <- p10_Z by lia; apply p10_opp). unfold v. split; intros H.
    + apply IZR_le in H. rewrite mult_IZR, E in H. apply (Rmult_le_compat_r (p10 x)) in H; [|lra]. replace (IZR num * / p10 x * p10 x)%R with (IZR num) in H by (field; lra).
      apply (Rmult_le_reg_r (IZR den)); [exact DR|]. replace (IZR num / IZR den * IZR den)%R with (IZR num) by (field; lra). lra.
    + apply le_IZR. rewrite mult_IZR, E. apply (Rmult_le_reg_r (p10 x)); [exact PX|]. replace (IZR num * / p10 x * p10 x)%R with (IZR num) by (field; lra).
      apply (Rmult_le_compat_r (IZR den)) in H; [|lra]. replace (IZR num / IZR den * IZR den)%R with (IZR num) in H by (field; lra). lra.
Qed.
Lemma find_ok fuel : forall x, (v < p10 (x + 1))%R -> (p10 (x + 1 - Z.of_nat fuel) <= v)%R ->
  (p10 (find_exponent fuel num den x) <= v < p10 (find_exponent fuel num den x + 1))%R.
Proof.
  induction fuel as [|f IH]; intros x A B; cbn [find_exponent].
  - exfalso. replace (x + 1 - Z.of_nat 0) with (x + 1) in B by lia. lra.
  - destruct (at_least num den x) eqn:E; [apply at_least_iff in E; lra|]. apply IH.
    + replace (x - 1 + 1) with x by lia. apply Rnot_le_lt. rewrite <- at_least_iff. congruence.
    + replace (x - 1 + 1 - Z.of_nat f) with (x + 1 - Z.of_nat (S f)) by lia. exact B.
Qed.
Lemma pow_log a : 0 < a -> (IZR a < p10 (Z.log2 a + 1))%R.
Proof.
  intros P. pose proof (Z.log2_nonneg a). rewrite p10_Z by lia. apply IZR_lt. pose proof (Z.log2_spec a P) as [_ L].
  replace (Z.succ (Z.log2 a)) with (Z.log2 a + 1) in L by lia. pose proof (Z.pow_le_mono_l 2 10 (Z.log2 a + 1) ltac:(lia)). lia.
Qed.
Lemma exponent_found : let j := find_exponent (Z.to_nat (Z.log2 num + Z.log2 den + 2)) num den (Z.log2 num) in (p10 j <= v < p10 (j + 1))%R.
Proof.
  pose proof (Z.log2_nonneg num) as L1. pose proof (Z.log2_nonneg den) as L2. assert (DR : (1 <= IZR den)%R) by (apply IZR_le; lia). assert (NR : (1 <= IZR num)%R) by (apply IZR_le; lia).
  apply find_ok.
  - eapply Rle_lt_trans; [|apply (pow_log num N)]. unfold v. apply (Rmult_le_reg_r (IZR den)); [lra|]. replace (IZR num / IZR den * IZR den)%R with (IZR num) by (field; lra). nra.
  - rewrite Z2Nat.id by lia. replace (Z.log2 num + 1 - (Z.log2 num + Z.log2 den + 2)) with (- (Z.log2 den + 1)) by lia. rewrite p10_opp.
    pose proof (pow_log den D) as L. pose proof (p10_pos (Z.log2 den + 1)) as PP. apply (Rle_trans _ (/ IZR den)); [apply Rinv_le; lra|]. unfold v.
    apply (Rmult_le_reg_r (IZR den)); [lra|]. replace (IZR num / IZR den * IZR den)%R with (IZR num) by (field; lra). replace (/ IZR den * IZR den)%R with 1%R by (field; lra). exact NR.
Qed.

Lemma strip_rev s : exists z, s = repeat "0"%char z ++ strip_zeros_rev s /\ forall p, strip_zeros_rev s <> "0"%char :: p.
Proof.
  induction s as [|c s (z & E & F)]; cbn [strip_zeros_rev]; [exists 0%nat; split; [reflexivity|discriminate]|].
  destruct (Ascii.eqb_spec c "0"%char) as [->|NE].
  - exists (S z). split; [cbn; now f_equal|exact F].
  - exists 0%nat. split; [reflexivity|]. intros p [= H]. contradiction.
Qed.
Lemma strip_trimmed s : trimmed s (strip_trailing_zeros s).
Proof.
  unfold strip_trailing_zeros. destruct (strip_rev (rev s)) as (z & E & F). exists z. split.
  - apply (f_equal (@rev ascii)) in E. rewrite rev_involutive, rev_app_distr in E. rewrite E at 1. f_equal.
    clear. induction z as [|z IH]; [reflexivity|]. cbn [repeat rev]. rewrite IH. clear. induction z as [|z IH]; [reflexivity|]. cbn. now f_equal.
  - intros p H. apply (F (rev p)). rewrite <- (rev_involutive (strip_zeros_rev (rev s))), H, rev_app_distr. reflexivity.
Qed.
Lemma with_point_text i f : point_text i f (with_point i f).
Proof.
  unfold with_point. pose proof (strip_trimmed f) as T. destruct (strip_trailing_zeros f) as [|c t] eqn:E; [now constructor|]. apply (point_some i f (c :: t)); [exact T|discriminate].
Qed.
Lemma six_digits n : 100000 <= n < 1000000 -> numeral (digits n) n /\ length (digits n) = 6%nat.
Proof.
  intros B. pose proof (digits_is_numeral n ltac:(lia)) as NU. split; [exact NU|].
  pose proof (numeral_range _ _ NU) as R. destruct (digits_head n ltac:(lia)) as (c & t & E & C).
  assert (L : 10 ^ (Z.of_nat (length (digits n)) - 1) <= n) by (apply (numeral_leading _ _ NU); rewrite E; cbn; congruence).
  assert (U : Z.of_nat (length (digits n)) <= 6).
  { destruct (Z.le_gt_cases (Z.of_nat (length (digits n))) 6) as [|G]; [assumption|]. pose proof (Z.pow_le_mono_r 10 6 (Z.of_nat (length (digits n)) - 1) ltac:(lia) ltac:(lia)) as PW. change (10 ^ 6) with 1000000 in PW. lia. }
  assert (V : 6 <= Z.of_nat (length (digits n))).
  { destruct (Z.le_gt_cases 6 (Z.of_nat (length (digits n)))) as [|G]; [assumption|]. pose proof (Z.pow_le_mono_r 10 (Z.of_nat (length (digits n))) 5 ltac:(lia) ltac:(lia)) as PW. change (10 ^ 5) with 100000 in PW. lia. }
  lia.
Qed.
Lemma pad_two k : 0 <= k -> two_digits (print_int_pad 2 k) k.
Proof.
  intros P. exists (digits k). split.
  - left. split; [exact P|]. split; [now apply digits_is_numeral|]. destruct (Z.eq_dec k 0) as [->|NZ]; [now left|]. right. apply digits_head. lia.
  - unfold print_int_pad. replace (k <? 0) with false by lia. pose proof (digits_is_numeral k P) as NU. apply numeral_digits in NU. destruct NU as (_ & _ & NE & _).
    destruct (digits k) as [|a [|b t]]; [congruence|right; now split|left]. split; [reflexivity|cbn; lia].
Qed.

Lemma positive_text : exists n k, six_figures v n k /\ figures_text n k (print_g_positive num den).
Proof.
  unfold print_g_positive. pose proof exponent_found as EF. cbv zeta in EF. set (j := find_exponent _ num den _) in *.
  pose proof (scaled_rounds (5 - j)) as SR. set (m := scaled num den (5 - j)) in *. cbv zeta.
  assert (MB : 100000 <= m <= 1000000).
  { destruct SR as [S _]. pose proof (p10_pos (5 - j)) as PP. assert (A : (p10 5 <= v * p10 (5 - j))%R).
    { replace 5 with (j + (5 - j)) at 1 by lia. rewrite p10_add. apply Rmult_le_compat_r; lra. }
    assert (B : (v * p10 (5 - j) < p10 6)%R).
    { replace 6 with (j + 1 + (5 - j)) by lia. rewrite p10_add. apply Rmult_lt_compat_r; lra. }
    rewrite (p10_Z 5) in A by lia. rewrite (p10_Z 6) in B by lia. change (10 ^ 5) with 100000 in A. change (10 ^ 6) with 1000000 in B.
    apply Rabs_le_inv in S. split.
    - apply Z.lt_succ_r. apply lt_IZR. rewrite succ_IZR. lra.
    - apply Z.lt_succ_r. apply lt_IZR. rewrite succ_IZR. lra. }
  assert (X : exists n k, (if m =? 1000000 then (j + 1, 100000) else (j, m)) = (k, n) /\ 100000 <= n < 1000000 /\ (IZR n * p10 k = IZR m * p10 j)%R).
  { destruct (Z.eqb_spec m 1000000) as [E|NE].
    - exists 100000, (j + 1). split; [reflexivity|]. split; [lia|]. rewrite E, p10_add. change (p10 1) with (10 ^ 1)%R. rewrite pow_1. lra.
    - exists m, j. split; [reflexivity|]. split; [lia|reflexivity]. }
  destruct X as (n & k & -> & NB & EQ). exists n, k. split; [exists j, m; auto|]. destruct (six_digits n NB) as [NU LN].
  destruct (Z.ltb_spec k (-4)) as [K1|K1]; [|destruct (Z.leb_spec 6 k) as [K2|K2]]; cbn [orb].
  - destruct (digits n) as [|d f]; [discriminate LN|]. cbn [firstn skipn]. unfold print_exponent. replace (k <? 0) with true by lia.
    apply (figures_exponent n k d f (with_point [d] f) "-"%char); [exact NU|exact LN|left; now split|apply with_point_text|apply pad_two; lia].
  - destruct (digits n) as [|d f]; [discriminate LN|]. cbn [firstn skipn]. unfold print_exponent. replace (k <? 0) with false by lia.
    apply (figures_exponent n k d f (with_point [d] f) "+"%char); [exact NU|exact LN|right; now split|apply with_point_text|apply pad_two; lia].
  - destruct (Z.ltb_spec k 0) as [K3|K3].
    + apply (figures_small n k (digits n)); [exact NU|exact LN|lia|apply with_point_text].
    + apply (figures_plain n k (firstn (Z.to_nat (k + 1)) (digits n)) (skipn (Z.to_nat (k + 1)) (digits n))); rewrite ?firstn_skipn; [exact NU|exact LN|lia| |apply with_point_text].
      rewrite firstn_length, LN. lia.
Qed.
End Positive.

Lemma print_float_text f : float_text f (print_float f).
Proof.
  destruct f as [[]|[]| |s m e]; cbn [print_float]; try solve [constructor].
  assert (X : exists num den, 0 < num /\ 0 < den /\ (IZR num / IZR den = F2R (Float radix2 (Zpos m) e))%R /\
    (if 0 <=? e then print_g_positive (Z.pos m * 2 ^ e) 1 else print_g_positive (Z.pos m) (2 ^ (- e))) = print_g_positive num den).
  { destruct (Z.leb_spec 0 e) as [E|E].
    - exists (Zpos m * 2 ^ e), 1. pose proof (Z.pow_pos_nonneg 2 e ltac:(lia) E). split; [lia|]. split; [lia|]. split; [|reflexivity].
      unfold F2R. cbn [Fnum Fexp]. rewrite mult_IZR, <- (IZR_Zpower radix2 e E). cbn [radix_val radix2]. field.
    - exists (Zpos m), (2 ^ (- e)). pose proof (Z.pow_pos_nonneg 2 (- e) ltac:(lia) ltac:(lia)) as PP. split; [lia|]. split; [lia|]. split; [|reflexivity].
      unfold F2R. cbn [Fnum Fexp]. pose proof (IZR_Zpower radix2 (- e) ltac:(lia)) as Q. cbn [radix_val radix2] in Q. rewrite Q, bpow_opp. pose proof (bpow_gt_0 radix2 e). field. lra. }
  destruct X as (num & den & N & D & V & PG). match goal with |- float_text _ (_ ++ ?t) => replace t with (print_g_positive num den) by (symmetry; exact PG) end. destruct (positive_text num den N D) as (n & k & SF & FT). rewrite V in SF.
  pose proof (F2R_gt_0 radix2 (Float radix2 (Zpos m) e) eq_refl) as POS.
  destruct s.
  - assert (EQ : (SF2R radix2 (S754_finite true m e) = - F2R (Float radix2 (Zpos m) e))%R) by (cbn [SF2R cond_Zopp]; now rewrite <- F2R_Zopp).
    change (lit "-" ++ print_g_positive num den) with ("-"%char :: print_g_positive num den).
    apply (float_negative _ n k); [reflexivity|lra| |exact FT]. rewrite EQ, Ropp_involutive. exact SF.
  - cbn [app]. apply (float_positive _ n k); [reflexivity|exact POS|exact SF|exact FT].
Qed.
