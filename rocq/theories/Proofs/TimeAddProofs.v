(** Proofs about Time::all_as_seconds, add and scale. *)
From Coq Require Import ZArith QArith Qreals Reals Lra Lia Psatz Bool List.
From Coq.Floats Require Import SpecFloat.
From Flocq Require Import Core BinarySingleNaN Relative.
From Verif.Model Require Import Base Float TimeModel.
From Verif.Spec Require Import Outcome TimeSpec.
From Verif.Proofs Require Import FloatProofs TimeProofs TimeFloatProofs.
Import ListNotations.
Local Open Scope R_scope.
Notation is_d := (is_flt 53 1024).
Notation is_f := (is_flt 24 128).
Notation rnd64 := (round radix2 (SpecFloat.fexp 53 1024) ZnearestE).

(** Zero, or well inside the normal range. *)
Definition big (v : R) : Prop := v = 0 \/ / 1024 <= v.
Definition u53 : R := / 9007199254740992.

Lemma u53_eq : bpow radix2 (-53) = u53.
Proof. unfold u53. change (-53)%Z with (- (53))%Z. rewrite bpow_opp. now rewrite <- IZR_Zpower by lia. Qed.

Lemma big_nonneg v : big v -> 0 <= v.
Proof. intros [->|H]; lra. Qed.

Local Instance fexp64_valid : Valid_exp (SpecFloat.fexp 53 1024).
Proof. apply (@FLT_exp_valid (-1074) 53 p53). Qed.

Lemma rnd_big_rel v : big v -> Rabs (rnd64 v - v) <= u53 * v.
Proof.
  intros [->|H].
  - rewrite round_0 by typeclasses eauto. rewrite Rminus_0_r, Rabs_R0. lra.
  - rewrite <- u53_eq. rewrite <- (Rabs_pos_eq v) at 3 by lra. apply rnd64_rel.
    rewrite Rabs_pos_eq by lra. eapply Rle_trans; [|exact H].
    replace (/ 1024) with (bpow radix2 (-10)).
    + apply bpow_le. lia.
    + change (-10)%Z with (- (10))%Z. rewrite bpow_opp. now rewrite <- IZR_Zpower by lia.
Qed.

Lemma big_rnd v : big v -> big (rnd64 v).
Proof.
  intros [->|H].
  - left. apply round_0. typeclasses eauto.
  - right. replace (/ 1024) with (rnd64 (/ 1024)).
    + apply round_le; [typeclasses eauto..|exact H].
    + replace (/ 1024) with (bpow radix2 (-10)).
      * apply (rnd_format 53 1024). apply generic_format_bpow. now vm_compute.
      * change (-10)%Z with (- (10))%Z. rewrite bpow_opp. now rewrite <- IZR_Zpower by lia.
Qed.

Lemma big_add v w : big v -> big w -> big (v + w).
Proof. intros [->|H] [->|H']; [left | right..]; lra. Qed.
Lemma big_int z : (0 <= z)%Z -> big (IZR z).
Proof.
  intros H. destruct (Z.eq_dec z 0) as [->|N]; [now left|right].
  assert (1 <= z)%Z as K by lia. apply IZR_le in K. lra.
Qed.
Lemma big_mul_int v k : big v -> (1 <= k)%Z -> big (v * IZR k).
Proof. intros [->|H] K; [left; lra | right]. apply IZR_le in K. nra. Qed.

(** Milliseconds of a normalised Time. *)
Definition ms_of (t : time) (r : rational) : Z := div_rne (t_frames t * den r * 1000) (num r).

Lemma ms_of_bound t r : positive_rate r -> normalised_at r t -> (0 <= ms_of t r <= 1000)%Z.
Proof.
  intros P N. destruct (normalised_cross _ _ P N) as [N1 N2]. destruct P as [Pn Pd].
  unfold ms_of. destruct (div_rne_nearest (t_frames t * den r * 1000) (num r) Pn) as [E _].
  assert (0 <= t_frames t * den r)%Z by nia. nia.
Qed.

Lemma milliseconds_ok t r : t_rate t = Some r -> positive_rate r -> normalised_at r t -> is_int (num r) -> is_int (den r) ->
  milliseconds t = Ok (ms_of t r).
Proof.
  intros Hr P N I1 I2.
  pose proof (ms_of_bound t r P N) as B.
  destruct (normalised_cross _ _ P N) as [N1 N2]. pose proof P as [Pn Pd].
  unfold is_int in *. assert (0 <= t_frames t * den r)%Z by nia.
  assert (t_frames t <= t_frames t * den r)%Z by nia.
  unfold milliseconds. apply (frames_at_eq t r); try assumption; unfold is_int; cbn [num den]; try lia.
  - split; cbn; lia.
  - rewrite Z.mul_1_r. apply div_rne_nearest. exact Pn.
Qed.

Lemma all_as_seconds_ok t r : t_rate t = Some r -> positive_rate r -> normalised_at r t -> is_int (num r) -> is_int (den r) ->
  (0 <= t_seconds t)%Z -> is_int (t_seconds t) ->
  exists x w, all_as_seconds t = Ok x /\ is_d x w /\ big w /\
    Rabs (w - (IZR (t_seconds t) + IZR (ms_of t r) / 1000)) <= 3 * u53 * (IZR (t_seconds t) + IZR (ms_of t r) / 1000).
Proof.
  intros Hr P N I1 I2 S Is.
  pose proof (ms_of_bound t r P N) as B.
  unfold all_as_seconds. rewrite (milliseconds_ok t r) by assumption. cbn [bind].
  set (ms := ms_of t r) in *. set (s := t_seconds t) in *. clearbody ms s.
  unfold is_int in *.
  assert (Dm : is_d (d_of_int ms) (IZR ms)) by (apply d_of_int_ok; lia).
  assert (Dk : is_d (d_of_int 1000) 1000) by (apply (d_of_int_ok 1000); lia).
  assert (Ds : is_d (d_of_int s) (IZR s)) by (apply d_of_int_ok; lia).
  destruct B as [B1 B2]. pose proof (IZR_le _ _ B1) as R1. pose proof (IZR_le _ _ B2) as R2.
  pose proof (IZR_le _ _ S) as R3. assert (IZR s <= 2147483647) as R4 by (apply IZR_le; lia).
  assert (Bq : big (IZR ms / 1000)).
  { destruct (Z.eq_dec ms 0) as [->|NZ]; [left; lra|right].
    assert (1 <= IZR ms) by (apply IZR_le; lia). lra. }
  set (p := rnd64 (IZR ms / 1000)).
  assert (Dp : is_d (ddiv (d_of_int ms) (d_of_int 1000)) p).
  { apply ddiv_ok; [assumption.. | lra |]. apply small_lt_1024. rewrite Rabs_pos_eq by lra. simpl. lra. }
  pose proof (rnd_big_rel _ Bq) as Ep. fold p in Ep.
  pose proof (big_rnd _ Bq) as Bp. fold p in Bp.
  assert (Bs : big (IZR s + p)) by (apply big_add; [now apply big_int | exact Bp]).
  pose proof (big_nonneg _ Bp) as Pp.
  assert (Pu : 0 < u53 < / 1000000) by (unfold u53; lra).
  assert (Ub : p <= 2). { apply Rabs_le_inv in Ep. nra. }
  exists (dadd (d_of_int s) (ddiv (d_of_int ms) (d_of_int 1000))), (rnd64 (IZR s + p)).
  split; [reflexivity|]. split; [|split].
  - apply dadd_ok; [assumption..|]. apply small_lt_1024. rewrite Rabs_pos_eq by lra. simpl. lra.
  - now apply big_rnd.
  - pose proof (rnd_big_rel _ Bs) as Es.
    apply Rabs_le_inv in Ep. apply Rabs_le_inv in Es. apply Rabs_le.
    assert (0 <= u53 * IZR s) by nra. assert (0 <= u53 * (IZR ms / 1000)) by nra.
    assert (u53 * p <= u53 * (IZR ms / 1000) + u53 * (IZR ms / 1000)) by nra.
    lra.
Qed.

Lemma r_fraction_whole r k : whole_rate r k -> (0 < k)%Z -> is_int k -> is_int (num r) -> is_int (den r) ->
  is_d (r_fraction r) (IZR k).
Proof.
  intros [Hd Hn] Hk Ik In Id. unfold r_fraction, is_int in *.
  assert (E : IZR (num r) / IZR (den r) = IZR k).
  { rewrite Hn, mult_IZR. field. now apply not_0_IZR. }
  assert (R : rnd64 (IZR (num r) / IZR (den r)) = IZR k) by (rewrite E; apply rnd64_int; lia).
  rewrite <- R. apply ddiv_ok.
  - apply d_of_int_ok. lia.
  - apply d_of_int_ok. lia.
  - now apply not_0_IZR.
  - rewrite R. apply (int_lt_emax 53 1024 p53 e53). lia.
Qed.

Lemma r_max_whole ra rb ka kb : whole_rate ra ka -> whole_rate rb kb -> (0 < ka)%Z -> (0 < kb)%Z ->
  is_int ka -> is_int kb -> is_int (num ra) -> is_int (den ra) -> is_int (num rb) -> is_int (den rb) ->
  r_max ra rb = if (kb <? ka)%Z then ra else rb.
Proof.
  intros. unfold r_max, flt_lt.
  rewrite (ltb_flt 53 1024 _ _ (IZR kb) (IZR ka)) by (apply r_fraction_whole; assumption).
  destruct (Z.ltb_spec kb ka) as [L|L].
  - rewrite Rlt_bool_true by (now apply IZR_lt). reflexivity.
  - rewrite Rlt_bool_false by (now apply IZR_le). reflexivity.
Qed.

Lemma floor_near N d : (0 <= N)%Z -> 0 <= d -> Rabs (d - IZR N / 1000) < / 1000 ->
  (Ztrunc d = N / 1000 \/ N mod 1000 = 0 /\ Ztrunc d = N / 1000 - 1)%Z.
Proof.
  intros HN Hd E. rewrite Ztrunc_floor by exact Hd.
  pose proof (Z.div_mod N 1000 ltac:(lia)) as D. pose proof (Z.mod_pos_bound N 1000 ltac:(lia)) as M.
  set (q := (N / 1000)%Z) in *. set (r := (N mod 1000)%Z) in *.
  assert (IN : IZR N / 1000 = IZR q + IZR r / 1000).
  { rewrite D, plus_IZR, mult_IZR. simpl. lra. }
  rewrite IN in E. apply Rabs_lt_inv in E.
  assert (Mr : IZR r <= 999) by (apply IZR_le; lia).
  destruct (Z.eq_dec r 0) as [Z0|NZ].
  - rewrite Z0 in *. simpl in E.
    destruct (Rle_or_lt (IZR q) d) as [L|L].
    + left. apply Zfloor_imp. rewrite plus_IZR. lra.
    + right. split; [reflexivity|]. apply Zfloor_imp. rewrite plus_IZR, minus_IZR. lra.
  - left. assert (1 <= IZR r) by (apply IZR_le; lia).
    apply Zfloor_imp. rewrite plus_IZR. lra.
Qed.

Lemma time_add_spec a b ra rb ka kb :
  t_rate a = Some ra -> t_rate b = Some rb ->
  positive_rate ra -> positive_rate rb -> whole_rate ra ka -> whole_rate rb kb ->
  is_int (num ra) -> is_int (den ra) -> is_int (num rb) -> is_int (den rb) ->
  normalised_at ra a -> normalised_at rb b -> (0 <= t_seconds a)%Z -> (0 <= t_seconds b)%Z ->
  is_int ((t_seconds a + t_seconds b + 2) * Z.max ka kb) ->
  exists t, time_add a b = Ok t /\
    t_rate t = Some (if (kb <? ka)%Z then ra else rb) /\
    (0 <= t_frames t < Z.max ka kb)%Z /\
    let N := (Z.max ka kb * (1000 * (t_seconds a + t_seconds b) + ms_of a ra + ms_of b rb))%Z in
    (t_seconds t * Z.max ka kb + t_frames t = N / 1000 \/
     N mod 1000 = 0 /\ t_seconds t * Z.max ka kb + t_frames t = N / 1000 - 1)%Z.
Proof.
  intros Ha Hb Pa Pb Wa Wb I1 I2 I3 I4 Na Nb Sa Sb Fit.
  assert (Ka : (1 <= ka)%Z) by (destruct Pa, Wa as [_ W]; nia).
  assert (Kb : (1 <= kb)%Z) by (destruct Pb, Wb as [_ W]; nia).
  set (k := Z.max ka kb) in *. assert (K1 : (1 <= k)%Z) by lia.
  pose proof (ms_of_bound a ra Pa Na) as Ma. pose proof (ms_of_bound b rb Pb Nb) as Mb.
  assert (Ik : is_int k) by (unfold is_int in *; nia).
  assert (Ika : is_int ka) by (unfold is_int in *; lia).
  assert (Ikb : is_int kb) by (unfold is_int in *; lia).
  assert (Isa : is_int (t_seconds a)) by (unfold is_int in *; nia).
  assert (Isb : is_int (t_seconds b)) by (unfold is_int in *; nia).
  unfold time_add. rewrite Ha, Hb. cbn [is_some sub_assert bind opt_get].
  destruct (all_as_seconds_ok a ra Ha Pa Na I1 I2 Sa Isa) as (x & w & -> & Dx & Bw & Ew).
  destruct (all_as_seconds_ok b rb Hb Pb Nb I3 I4 Sb Isb) as (y & v & -> & Dy & Bv & Ev).
  cbn [bind]. rewrite (r_max_whole ra rb ka kb) by (assumption || lia).
  set (r := if (kb <? ka)%Z then ra else rb).
  assert (Wr : whole_rate r k).
  { unfold r, k. destruct (Z.ltb_spec kb ka); [now rewrite Z.max_l by lia | now rewrite Z.max_r by lia]. }
  assert (Dr : is_d (r_fraction r) (IZR k)).
  { unfold r, k. destruct (Z.ltb_spec kb ka);
      [rewrite Z.max_l by lia | rewrite Z.max_r by lia]; apply r_fraction_whole; assumption || lia. }
  set (N := (k * (1000 * (t_seconds a + t_seconds b) + ms_of a ra + ms_of b rb))%Z).
  set (A := IZR (t_seconds a) + IZR (ms_of a ra) / 1000) in *.
  set (B := IZR (t_seconds b) + IZR (ms_of b rb) / 1000) in *.
  assert (EN : IZR N / 1000 = (A + B) * IZR k).
  { unfold N, A, B. rewrite mult_IZR, !plus_IZR, mult_IZR, plus_IZR. simpl (IZR 1000). lra. }
  assert (PA : 0 <= A).
  { unfold A. assert (0 <= IZR (t_seconds a)) by (apply IZR_le; lia). assert (0 <= IZR (ms_of a ra)) by (apply IZR_le; lia). lra. }
  assert (PB : 0 <= B).
  { unfold B. assert (0 <= IZR (t_seconds b)) by (apply IZR_le; lia). assert (0 <= IZR (ms_of b rb)) by (apply IZR_le; lia). lra. }
  assert (NB : (0 <= N /\ N <= 1000 * ((t_seconds a + t_seconds b + 2) * k))%Z).
  { unfold N. split; nia. }
  assert (KR : 1 <= IZR k) by (now apply IZR_le).
  assert (XB : (A + B) * IZR k <= 2147483647).
  { rewrite <- EN. unfold is_int in Fit. assert (IZR N <= IZR (1000 * 2147483647)) by (apply IZR_le; lia).
    rewrite mult_IZR in H. simpl (IZR 1000) in H. lra. }
  assert (SB : A + B <= 2147483647) by nra.
  pose proof (big_nonneg _ Bw) as Pw. pose proof (big_nonneg _ Bv) as Pv.
  assert (Pu : 0 < u53) by (unfold u53; lra).
  assert (Ub : u53 * (A + B) <= / 4000000) by (unfold u53; lra).
  assert (Uk : u53 * ((A + B) * IZR k) <= / 4000000) by (unfold u53; lra).
  assert (Uab : 0 <= u53 * A /\ 0 <= u53 * B) by (split; nra).
  apply Rabs_le_inv in Ew. apply Rabs_le_inv in Ev.
  (* the sum *)
  pose proof (big_add _ _ Bw Bv) as Bs. pose proof (rnd_big_rel _ Bs) as Ec. pose proof (big_rnd _ Bs) as Bc.
  set (c := rnd64 (w + v)) in *. pose proof (big_nonneg _ Bc) as Pc.
  assert (Dc : is_d (dadd x y) c).
  { apply dadd_ok; [assumption..|]. apply small_lt_1024. rewrite Rabs_pos_eq by lra. simpl. lra. }
  apply Rabs_le_inv in Ec.
  assert (Uwv : 0 <= u53 * (w + v) <= 2 * (u53 * (A + B))) by (split; [nra | unfold u53 in *; lra]).
  assert (Ec' : - (5 * (u53 * (A + B))) <= c - (A + B) <= 5 * (u53 * (A + B))) by lra.
  (* the product *)
  pose proof (big_mul_int _ _ Bc K1) as Bm. pose proof (rnd_big_rel _ Bm) as Ed. pose proof (big_rnd _ Bm) as Bd.
  assert (Eck : - (5 * (u53 * ((A + B) * IZR k))) <= c * IZR k - (A + B) * IZR k <= 5 * (u53 * ((A + B) * IZR k))).
  { replace (c * IZR k - (A + B) * IZR k) with ((c - (A + B)) * IZR k) by ring.
    replace (5 * (u53 * ((A + B) * IZR k))) with ((5 * (u53 * (A + B))) * IZR k) by ring.
    split; nra. }
  set (d := rnd64 (c * IZR k)) in *. pose proof (big_nonneg _ Bd) as Pd.
  assert (Pck : 0 <= c * IZR k) by nra.
  assert (Dd : is_d (dmul (dadd x y) (r_fraction r)) d).
  { apply dmul_ok; [assumption..|]. apply small_lt_1024. rewrite Rabs_pos_eq by exact Pck. simpl. lra. }
  apply Rabs_le_inv in Ed.
  assert (Uck : 0 <= u53 * (c * IZR k) <= 2 * (u53 * ((A + B) * IZR k))) by (split; [nra | unfold u53 in *; lra]).
  assert (Fin : Rabs (d - IZR N / 1000) < / 1000).
  { rewrite EN. apply Rabs_lt. lra. }
  destruct Dd as (_ & Fd & Vd). rewrite trunc_Z_correct by exact Fd. rewrite Vd.
  pose proof (floor_near N d (proj1 NB) Pd Fin) as FN.
  assert (IF : is_int (Ztrunc d)).
  { unfold is_int in *. assert (0 <= Ztrunc d)%Z by (rewrite Ztrunc_floor by exact Pd; apply Zfloor_lub; exact Pd).
    assert (N / 1000 <= 2147483647)%Z by (apply Z.div_le_upper_bound; lia). lia. }
  unfold to_int. rewrite (proj2 (in_int_iff _) IF). cbn [bind].
  destruct (from_frames_ok (Ztrunc d) r k Wr ltac:(lia) IF Ik) as (t & -> & Rt & Et & Pt & _).
  exists t. split; [reflexivity|]. split; [exact Rt|].
  assert (F0 : (0 <= Ztrunc d)%Z) by (rewrite Ztrunc_floor by exact Pd; apply Zfloor_lub; exact Pd).
  split; [now apply Pt|]. cbv zeta. rewrite <- Et. exact FN.
Qed.

(** ** scale *)
Definition tiny : R := / 1000000000000.

Lemma rnd_abs_err v : 0 <= v -> Rabs (rnd64 v - v) <= u53 * v + tiny.
Proof.
  intros P.
  destruct (error_N_FLT radix2 (-1074) 53 p53 (fun z => negb (Z.even z)) v) as (eps & eta & E1 & E2 & _ & E).
  change (FLT_exp (-1074) 53) with (SpecFloat.fexp 53 1024) in E. rewrite E.
  replace (v * (1 + eps) + eta - v) with (v * eps + eta) by ring.
  eapply Rle_trans; [apply Rabs_triang|].
  apply Rplus_le_compat.
  - rewrite Rabs_mult, (Rabs_pos_eq v) by exact P. rewrite Rmult_comm. apply Rmult_le_compat_r; [exact P|].
    eapply Rle_trans; [exact E1|]. rewrite <- u53_eq.
    change (-53)%Z with (- (53) + 1 + -1)%Z. rewrite (bpow_plus radix2 _ (-1)).
    change (bpow radix2 (-1)) with (/ 2). apply Req_le. rewrite Rmult_comm. reflexivity.
  - eapply Rle_trans; [exact E2|].
    apply Rle_trans with (bpow radix2 (-60)).
    + apply Rle_trans with (bpow radix2 (-1074)); [pose proof (bpow_gt_0 radix2 (-1074)); lra|]. apply bpow_le. lia.
    + change (-60)%Z with (- (60))%Z. rewrite bpow_opp. rewrite <- IZR_Zpower by lia. unfold tiny.
      apply Rinv_le; [lra|]. apply IZR_le. now vm_compute.
Qed.

Lemma rnd64_nonneg v : 0 <= v -> 0 <= rnd64 v.
Proof.
  intros P. rewrite <- (round_0 radix2 (SpecFloat.fexp 53 1024) ZnearestE).
  apply round_le; [typeclasses eauto..|exact P].
Qed.
Lemma rnd64_le_int v z : (Z.abs z < 2 ^ 53)%Z -> v <= IZR z -> rnd64 v <= IZR z.
Proof.
  intros B P. rewrite <- (rnd64_int z B). apply round_le; [typeclasses eauto..|exact P].
Qed.

Lemma time_scale_spec t r k f phi :
  t_rate t = Some r -> positive_rate r -> whole_rate r k -> is_int (num r) -> is_int (den r) ->
  normalised_at r t -> (0 <= t_seconds t)%Z -> is_int (t_seconds t) -> is_f f phi -> 0 <= phi ->
  phi * (IZR (t_seconds t) + IZR (ms_of t r) / 1000) <= 2147483646 ->
  exists t', time_scale t f = Ok t' /\ t_rate t' = Some r /\ (0 <= t_seconds t')%Z /\ (0 <= t_frames t' <= k)%Z /\
    Rabs (IZR (t_seconds t') + IZR (t_frames t') / IZR k - phi * (IZR (t_seconds t) + IZR (ms_of t r) / 1000))
      <= / (2 * IZR k) + / 200000.
Proof.
  intros Hr P W I1 I2 N S Is Hf Pf Fit.
  assert (K1 : (1 <= k)%Z) by (destruct P, W as [_ W]; nia).
  assert (Ik : is_int k) by (destruct P, W as [_ W]; unfold is_int in *; nia).
  unfold time_scale. rewrite Hr. cbn [is_some sub_assert bind opt_get].
  destruct W as [Wd Wn].
  destruct (Z.eqb_spec (den r) 0) as [E|_]; [contradiction|]. cbn [negb sub_assert bind].
  unfold r_integer, imod.
  destruct (Z.eqb_spec (den r) 0) as [E|_]; [contradiction|].
  replace (Z.quot (num r) (den r)) with k by (rewrite Wn; symmetry; now apply Z.quot_mul).
  rewrite chk_ok by exact Ik. cbn [bind].
  replace (Z.rem (num r) (den r)) with 0%Z by (rewrite Wn; symmetry; now apply Z.rem_mul).
  cbn [Z.eqb sub_assert bind].
  destruct (all_as_seconds_ok t r Hr P N I1 I2 S Is) as (x & w & -> & Dx & Bw & Ew). cbn [bind].
  pose proof (ms_of_bound t r P N) as Mb.
  set (A := IZR (t_seconds t) + IZR (ms_of t r) / 1000) in *.
  assert (PA : 0 <= A).
  { unfold A. assert (0 <= IZR (t_seconds t)) by (apply IZR_le; lia). assert (0 <= IZR (ms_of t r)) by (apply IZR_le; lia). lra. }
  assert (Pu : 0 < u53) by (unfold u53; lra).
  pose proof (big_nonneg _ Bw) as Pw. apply Rabs_le_inv in Ew.
  assert (Df : is_d (d_of_f f) phi) by (now apply d_of_f_ok).
  (* the product *)
  assert (PA' : 0 <= phi * A) by nra.
  assert (Uk : u53 * (phi * A) <= / 4000000) by (unfold u53; lra).
  assert (Ewp : - (3 * (u53 * (phi * A))) <= w * phi - phi * A <= 3 * (u53 * (phi * A))) by (split; nra).
  assert (Pwp : 0 <= w * phi) by nra.
  pose proof (rnd_abs_err _ Pwp) as Es. apply Rabs_le_inv in Es.
  pose proof (rnd64_nonneg _ Pwp) as Ps.
  set (s := rnd64 (w * phi)) in *.
  assert (Tn : 0 < tiny <= / 1000000000000) by (unfold tiny; lra).
  assert (Uwp : u53 * (w * phi) <= 2 * (u53 * (phi * A))) by (unfold u53 in *; lra).
  assert (Es' : Rabs (s - phi * A) <= / 600000) by (apply Rabs_le; lra).
  assert (Ds : is_d (dmul x (d_of_f f)) s).
  { apply dmul_ok; [assumption..|]. apply small_lt_1024. rewrite Rabs_pos_eq by exact Pwp. simpl. lra. }
  (* whole seconds *)
  pose proof Ds as (_ & Fs & Vs). rewrite floor_Z_correct by exact Fs. rewrite Vs.
  pose proof (Zfloor_lb s) as F1. pose proof (Zfloor_ub s) as F2.
  assert (F0 : (0 <= Zfloor s)%Z) by (apply Zfloor_lub; exact Ps).
  set (q := Zfloor s) in *.
  assert (Iq : is_int q).
  { unfold is_int. split; [lia|]. apply Rabs_le_inv in Es'.
    assert (IZR q < IZR 2147483648) by lra. apply lt_IZR in H. lia. }
  unfold to_int at 1. rewrite (proj2 (in_int_iff _) Iq). cbn [bind].
  (* frames *)
  assert (Dq : is_d (d_of_int q) (IZR q)) by (apply d_of_int_ok; unfold is_int in *; lia).
  assert (P1 : 0 <= s - IZR q) by lra.
  assert (Dg : is_d (dsub (dmul x (d_of_f f)) (d_of_int q)) (rnd64 (s - IZR q))).
  { apply dsub_ok; [assumption..|]. apply small_lt_1024. rewrite Rabs_pos_eq by exact P1. simpl. lra. }
  pose proof (rnd64_nonneg _ P1) as Pg. pose proof (rnd_abs_err _ P1) as Eg. apply Rabs_le_inv in Eg.
  assert (Ug : rnd64 (s - IZR q) <= 1) by (apply (rnd64_le_int _ 1); [now vm_compute | lra]).
  set (g := rnd64 (s - IZR q)) in *.
  assert (Dr : is_d (r_fraction r) (IZR k)) by (apply r_fraction_whole; try assumption; [now split | lia]).
  assert (KR : 1 <= IZR k) by (now apply IZR_le).
  assert (KM : IZR k <= 2147483647) by (apply IZR_le; unfold is_int in *; lia).
  assert (Pgk : 0 <= g * IZR k <= IZR k) by nra.
  assert (Dh : is_d (dmul (dsub (dmul x (d_of_f f)) (d_of_int q)) (r_fraction r)) (rnd64 (g * IZR k))).
  { apply dmul_ok; [assumption..|]. apply small_lt_1024. rewrite Rabs_pos_eq by lra. simpl. lra. }
  pose proof (rnd64_nonneg _ (proj1 Pgk)) as Ph. pose proof (rnd_abs_err _ (proj1 Pgk)) as Eh. apply Rabs_le_inv in Eh.
  assert (Uh : rnd64 (g * IZR k) <= IZR k) by (apply rnd64_le_int; [unfold is_int in *; lia | lra]).
  set (h := rnd64 (g * IZR k)) in *.
  destruct Dh as (_ & Fh & Vh). rewrite rint_Z_correct by exact Fh. rewrite Vh.
  assert (R0 : (0 <= ZnearestE h <= k)%Z).
  { assert (Z0 : ZnearestE 0 = 0%Z) by (apply (Znearest_imp _ 0%R 0%Z); simpl; rewrite Rminus_0_r, Rabs_R0; lra).
    assert (Zk : ZnearestE (IZR k) = k) by (apply Znearest_imp; rewrite Rminus_diag_eq by reflexivity; rewrite Rabs_R0; lra).
    split; [rewrite <- Z0 | rewrite <- Zk]; apply Zrnd_le; (typeclasses eauto || assumption). }
  assert (H2 : Rabs (h - IZR (ZnearestE h)) <= / 2) by apply Znearest_half.
  unfold to_int. rewrite (proj2 (in_int_iff _)) by (unfold is_int in *; lia). cbn [bind].
  eexists. split; [reflexivity|]. cbn [t_rate t_seconds t_frames]. split; [reflexivity|]. split; [exact F0|].
  split; [exact R0|].
  set (fr := ZnearestE h) in *. apply Rabs_le_inv in H2. apply Rabs_le_inv in Es'.
  (* everything times k *)
  assert (PK : 0 < IZR k) by lra.
  assert (Ugs : u53 * (s - IZR q) <= / 1000000000000) by (unfold u53; lra).
  assert (Ugk : u53 * (g * IZR k) <= IZR k * / 1000000000000).
  { apply Rle_trans with (u53 * IZR k); [apply Rmult_le_compat_l; lra|]. unfold u53. lra. }
  assert (Eg' : - (IZR k * (2 * / 1000000000000)) <= g * IZR k - (s - IZR q) * IZR k <= IZR k * (2 * / 1000000000000)).
  { unfold tiny in *. split; nra. }
  assert (Es'' : - (IZR k * / 600000) <= s * IZR k - phi * A * IZR k <= IZR k * / 600000) by (split; nra).
  assert (T : Rabs (IZR q * IZR k + IZR fr - phi * A * IZR k) <= / 2 + IZR k * / 200000).
  { apply Rabs_le. unfold tiny in *.
    assert ((s - IZR q) * IZR k = s * IZR k - IZR q * IZR k) by ring. lra. }
  replace (IZR q + IZR fr / IZR k - phi * A) with ((IZR q * IZR k + IZR fr - phi * A * IZR k) * / IZR k) by (field; lra).
  rewrite Rabs_mult, (Rabs_pos_eq (/ IZR k)) by (left; now apply Rinv_0_lt_compat).
  apply Rmult_le_reg_r with (IZR k); [exact PK|].
  rewrite Rmult_assoc, Rinv_l, Rmult_1_r by lra.
  eapply Rle_trans; [exact T|]. apply Req_le. field. lra.
Qed.

(** Distance between the millisecond value and the instant. *)
Lemma instant_real t r : positive_rate r ->
  Q2R (instant_at r t) = IZR (t_seconds t) + IZR (t_frames t * den r) / IZR (num r).
Proof.
  intros [P _]. unfold instant_at, frames_duration. rewrite Q2R_plus.
  assert (K : forall z, Q2R (inject_Z z) = IZR z) by (intros z; unfold Q2R, inject_Z; cbn; lra).
  rewrite Q2R_div, !K; [reflexivity|].
  intros E. unfold Qeq in E. cbn in E. lia.
Qed.

Lemma ms_close t r : positive_rate r ->
  Rabs (IZR (t_seconds t) + IZR (ms_of t r) / 1000 - Q2R (instant_at r t)) <= / 2000.
Proof.
  intros P. rewrite instant_real by exact P. destruct P as [P _].
  destruct (div_rne_nearest (t_frames t * den r * 1000) (num r) P) as [E _]. fold (ms_of t r) in E.
  assert (PR : 0 < IZR (num r)) by (now apply IZR_lt).
  set (F := (t_frames t * den r)%Z) in *. set (n := num r) in *. set (m := ms_of t r) in *.
  assert (E' : (Z.abs (m * n - F * 1000) * 2 <= n)%Z) by lia.
  apply IZR_le in E'. rewrite mult_IZR, abs_IZR, minus_IZR, !mult_IZR in E'. simpl (IZR 1000) in E'. simpl (IZR 2) in E'.
  replace (IZR (t_seconds t) + IZR m / 1000 - (IZR (t_seconds t) + IZR F / IZR n))
    with ((IZR m * IZR n - IZR F * 1000) * / (1000 * IZR n)) by (field; lra).
  rewrite Rabs_mult, (Rabs_pos_eq (/ (1000 * IZR n))) by (left; apply Rinv_0_lt_compat; lra).
  apply Rmult_le_reg_r with (1000 * IZR n); [lra|].
  rewrite Rmult_assoc, Rinv_l, Rmult_1_r by lra. lra.
Qed.

Lemma all_as_seconds_close t r : t_rate t = Some r -> positive_rate r -> normalised_at r t -> is_int (num r) -> is_int (den r) ->
  (0 <= t_seconds t)%Z -> is_int (t_seconds t) ->
  exists x, all_as_seconds t = Ok x /\ is_finite_SF x = true /\
    Rabs (SF2R radix2 x - Q2R (instant_at r t)) <= / 2000 + / 1000000.
Proof.
  intros Hr P N I1 I2 S Is.
  destruct (all_as_seconds_ok t r Hr P N I1 I2 S Is) as (x & w & E & (_ & F & V) & _ & B).
  exists x. split; [exact E|]. split; [exact F|]. rewrite V.
  pose proof (ms_close t r P) as C. pose proof (ms_of_bound t r P N) as Mb.
  set (A := IZR (t_seconds t) + IZR (ms_of t r) / 1000) in *.
  assert (AB : 0 <= A <= 2147483648).
  { unfold A, is_int in *.
    assert (0 <= IZR (t_seconds t) <= 2147483647) by (split; apply IZR_le; lia).
    assert (0 <= IZR (ms_of t r) <= 1000) by (split; apply IZR_le; lia). lra. }
  apply Rabs_le_inv in C. apply Rabs_le_inv in B. apply Rabs_le. unfold u53 in B. lra.
Qed.
