(** Time::add and scale keep the order; scaling by 1 changes nothing; add in the other order. *)
From Coq Require Import ZArith QArith Qreals Reals Lra Lia Psatz Bool List.
From Coq.Floats Require Import SpecFloat.
From Flocq Require Import Core BinarySingleNaN Relative.
From Verif.Model Require Import Base Float TimeModel.
From Verif.Spec Require Import Outcome TimeSpec.
From Verif.Proofs Require Import FloatProofs TimeProofs TimeFloatProofs TimeAddProofs.
Import ListNotations.
Local Open Scope R_scope.
Local Existing Instance fexp64_valid.

(** * What the functions compute *)

Definition secs (t : time) (r : rational) : R := rnd64 (IZR (t_seconds t) + rnd64 (IZR (ms_of t r) / 1000)).

Lemma rnd64_le v w : v <= w -> rnd64 v <= rnd64 w.
Proof. intros H. apply round_le; [typeclasses eauto..|exact H]. Qed.
Lemma secs_ok t r : t_rate t = Some r -> positive_rate r -> normalised_at r t -> is_int (num r) -> is_int (den r) ->
  (0 <= t_seconds t)%Z -> is_int (t_seconds t) ->
  exists x, all_as_seconds t = Ok x /\ is_d x (secs t r) /\ big (secs t r) /\
    Rabs (secs t r - (IZR (t_seconds t) + IZR (ms_of t r) / 1000)) <= 3 * u53 * (IZR (t_seconds t) + IZR (ms_of t r) / 1000).
Proof.
  intros Hr P N I1 I2 S Is.
  pose proof (ms_of_bound t r P N) as B. unfold secs.
  unfold all_as_seconds. rewrite (milliseconds_ok t r) by assumption. cbn [bind].
  set (ms := ms_of t r) in *. set (s := t_seconds t) in *. clearbody ms s.
  unfold is_int in *.
  assert (Dm : is_d (d_of_int ms) (IZR ms)) by (apply d_of_int_ok; lia).
  assert (Dk : is_d (d_of_int 1000) 1000) by (apply (d_of_int_ok 1000); lia).
  assert (Ds : is_d (d_of_int s) (IZR s)) by (apply d_of_int_ok; lia).
  destruct B as [B1 B2]. pose proof (IZR_le _ _ B1) as R1. pose proof (IZR_le _ _ B2) as R2.
  pose proof (IZR_le _ _ S) as R3. assert (IZR s <= 2147483647) as R4 by (apply IZR_le; lia).
  assert (Bq : big (IZR ms / 1000)).
  { destruct (Z.eq_dec ms 0) as [->|NZ]; [left; lra|right].
    assert (1 <= IZR ms) by (apply IZR_le; lia). lra. }
  set (p := rnd64 (IZR ms / 1000)).
  assert (Dp : is_d (ddiv (d_of_int ms) (d_of_int 1000)) p).
  { apply ddiv_ok; [assumption.. | lra |]. apply small_lt_1024. rewrite Rabs_pos_eq by lra. simpl. lra. }
  pose proof (rnd_big_rel _ Bq) as Ep. fold p in Ep.
  pose proof (big_rnd _ Bq) as Bp. fold p in Bp.
  assert (Bs : big (IZR s + p)) by (apply big_add; [now apply big_int | exact Bp]).
  pose proof (big_nonneg _ Bp) as Pp.
  assert (Pu : 0 < u53 < / 1000000) by (unfold u53; lra).
  assert (Ub : p <= 2). { apply Rabs_le_inv in Ep. nra. }
  exists (dadd (d_of_int s) (ddiv (d_of_int ms) (d_of_int 1000))).
  split; [reflexivity|]. split; [|split].
  - apply dadd_ok; [assumption..|]. apply small_lt_1024. rewrite Rabs_pos_eq by lra. simpl. lra.
  - now apply big_rnd.
  - pose proof (rnd_big_rel _ Bs) as Es.
    apply Rabs_le_inv in Ep. apply Rabs_le_inv in Es. apply Rabs_le.
    assert (0 <= u53 * IZR s) by nra. assert (0 <= u53 * (IZR ms / 1000)) by nra.
    assert (u53 * p <= u53 * (IZR ms / 1000) + u53 * (IZR ms / 1000)) by nra.
    lra.
Qed.

Definition scaled (t : time) (r : rational) (k : Z) (phi : R) : time :=
  let s := rnd64 (secs t r * phi) in
  mkT (Zfloor s) (ZnearestE (rnd64 (rnd64 (s - IZR (Zfloor s)) * IZR k))) (Some r).

Lemma scale_is t r k f phi :
  t_rate t = Some r -> positive_rate r -> whole_rate r k -> is_int (num r) -> is_int (den r) ->
  normalised_at r t -> (0 <= t_seconds t)%Z -> is_int (t_seconds t) -> is_f f phi -> 0 <= phi ->
  phi * (IZR (t_seconds t) + IZR (ms_of t r) / 1000) <= 2147483646 ->
  time_scale t f = Ok (scaled t r k phi).
Proof.
  intros Hr P W I1 I2 N S Is Hf Pf Fit.
  assert (K1 : (1 <= k)%Z) by (destruct P, W as [_ W]; nia).
  assert (Ik : is_int k) by (destruct P, W as [_ W]; unfold is_int in *; nia).
  unfold time_scale. rewrite Hr. cbn [is_some sub_assert bind opt_get].
  destruct W as [Wd Wn].
  destruct (Z.eqb_spec (den r) 0) as [E|_]; [contradiction|]. cbn [negb sub_assert bind].
  unfold r_integer, imod.
  destruct (Z.eqb_spec (den r) 0) as [E|_]; [contradiction|].
  replace (Z.quot (num r) (den r)) with k by (rewrite Wn; symmetry; now apply Z.quot_mul).
  rewrite chk_ok by exact Ik. cbn [bind].
  replace (Z.rem (num r) (den r)) with 0%Z by (rewrite Wn; symmetry; now apply Z.rem_mul).
  cbn [Z.eqb sub_assert bind].
  destruct (secs_ok t r Hr P N I1 I2 S Is) as (x & -> & Dx & Bw & Ew). cbn [bind]. unfold scaled.
  set (w := secs t r) in *.
  pose proof (ms_of_bound t r P N) as Mb.
  set (A := IZR (t_seconds t) + IZR (ms_of t r) / 1000) in *.
  assert (PA : 0 <= A).
  { unfold A. assert (0 <= IZR (t_seconds t)) by (apply IZR_le; lia). assert (0 <= IZR (ms_of t r)) by (apply IZR_le; lia). lra. }
  assert (Pu : 0 < u53) by (unfold u53; lra).
  pose proof (big_nonneg _ Bw) as Pw. apply Rabs_le_inv in Ew.
  assert (Df : is_d (d_of_f f) phi) by (now apply d_of_f_ok).
  assert (PA' : 0 <= phi * A) by nra.
  assert (Uk : u53 * (phi * A) <= / 4000000) by (unfold u53; lra).
  assert (Ewp : - (3 * (u53 * (phi * A))) <= w * phi - phi * A <= 3 * (u53 * (phi * A))) by (split; nra).
  assert (Pwp : 0 <= w * phi) by nra.
  pose proof (rnd_abs_err _ Pwp) as Es. apply Rabs_le_inv in Es.
  pose proof (rnd64_nonneg _ Pwp) as Ps.
  set (s := rnd64 (w * phi)) in *.
  assert (Tn : 0 < tiny <= / 1000000000000) by (unfold tiny; lra).
  assert (Uwp : u53 * (w * phi) <= 2 * (u53 * (phi * A))) by (unfold u53 in *; lra).
  assert (Es' : Rabs (s - phi * A) <= / 600000) by (apply Rabs_le; lra).
  assert (Ds : is_d (dmul x (d_of_f f)) s).
  { apply dmul_ok; [assumption..|]. apply small_lt_1024. rewrite Rabs_pos_eq by exact Pwp. simpl. lra. }
  pose proof Ds as (_ & Fs & Vs). rewrite floor_Z_correct by exact Fs. rewrite Vs.
  pose proof (Zfloor_lb s) as F1. pose proof (Zfloor_ub s) as F2.
  assert (F0 : (0 <= Zfloor s)%Z) by (apply Zfloor_lub; exact Ps).
  set (q := Zfloor s) in *.
  assert (Iq : is_int q).
  { unfold is_int. split; [lia|]. apply Rabs_le_inv in Es'.
    assert (IZR q < IZR 2147483648) by lra. apply lt_IZR in H. lia. }
  unfold to_int at 1. rewrite (proj2 (in_int_iff _) Iq). cbn [bind].
  assert (Dq : is_d (d_of_int q) (IZR q)) by (apply d_of_int_ok; unfold is_int in *; lia).
  assert (P1 : 0 <= s - IZR q) by lra.
  assert (Dg : is_d (dsub (dmul x (d_of_f f)) (d_of_int q)) (rnd64 (s - IZR q))).
  { apply dsub_ok; [assumption..|]. apply small_lt_1024. rewrite Rabs_pos_eq by exact P1. simpl. lra. }
  pose proof (rnd64_nonneg _ P1) as Pg.
  assert (Ug : rnd64 (s - IZR q) <= 1) by (apply (rnd64_le_int _ 1); [now vm_compute | lra]).
  set (g := rnd64 (s - IZR q)) in *.
  assert (Dr : is_d (r_fraction r) (IZR k)) by (apply r_fraction_whole; try assumption; [now split | lia]).
  assert (KR : 1 <= IZR k) by (now apply IZR_le).
  assert (KM : IZR k <= 2147483647) by (apply IZR_le; unfold is_int in *; lia).
  assert (Pgk : 0 <= g * IZR k <= IZR k) by nra.
  assert (Dh : is_d (dmul (dsub (dmul x (d_of_f f)) (d_of_int q)) (r_fraction r)) (rnd64 (g * IZR k))).
  { apply dmul_ok; [assumption..|]. apply small_lt_1024. rewrite Rabs_pos_eq by lra. simpl. lra. }
  pose proof (rnd64_nonneg _ (proj1 Pgk)) as Ph.
  assert (Uh : rnd64 (g * IZR k) <= IZR k) by (apply rnd64_le_int; [unfold is_int in *; lia | lra]).
  set (h := rnd64 (g * IZR k)) in *.
  destruct Dh as (_ & Fh & Vh). rewrite rint_Z_correct by exact Fh. rewrite Vh.
  assert (R0 : (0 <= ZnearestE h <= k)%Z).
  { assert (Z0 : ZnearestE 0 = 0%Z) by (apply (Znearest_imp _ 0%R 0%Z); simpl; rewrite Rminus_0_r, Rabs_R0; lra).
    assert (Zk : ZnearestE (IZR k) = k) by (apply Znearest_imp; rewrite Rminus_diag_eq by reflexivity; rewrite Rabs_R0; lra).
    split; [rewrite <- Z0 | rewrite <- Zk]; apply Zrnd_le; (typeclasses eauto || assumption). }
  unfold to_int. rewrite (proj2 (in_int_iff _)) by (unfold is_int in *; lia). reflexivity.
Qed.

Definition added (a : time) (ra : rational) (b : time) (rb : rational) (k : Z) : Z := Ztrunc (rnd64 (rnd64 (secs a ra + secs b rb) * IZR k)).

Lemma add_is a b ra rb ka kb :
  t_rate a = Some ra -> t_rate b = Some rb ->
  positive_rate ra -> positive_rate rb -> whole_rate ra ka -> whole_rate rb kb ->
  is_int (num ra) -> is_int (den ra) -> is_int (num rb) -> is_int (den rb) ->
  normalised_at ra a -> normalised_at rb b -> (0 <= t_seconds a)%Z -> (0 <= t_seconds b)%Z ->
  is_int ((t_seconds a + t_seconds b + 2) * Z.max ka kb) ->
  (0 <= added a ra b rb (Z.max ka kb))%Z /\
  time_add a b = Ok (mkT (added a ra b rb (Z.max ka kb) / Z.max ka kb) (added a ra b rb (Z.max ka kb) mod Z.max ka kb)
    (Some (if (kb <? ka)%Z then ra else rb))).
Proof.
  intros Ha Hb Pa Pb Wa Wb I1 I2 I3 I4 Na Nb Sa Sb Fit.
  assert (Ka : (1 <= ka)%Z) by (destruct Pa, Wa as [_ W]; nia).
  assert (Kb : (1 <= kb)%Z) by (destruct Pb, Wb as [_ W]; nia).
  set (k := Z.max ka kb) in *. assert (K1 : (1 <= k)%Z) by lia.
  pose proof (ms_of_bound a ra Pa Na) as Ma. pose proof (ms_of_bound b rb Pb Nb) as Mb.
  assert (Ik : is_int k) by (unfold is_int in *; nia).
  assert (Ika : is_int ka) by (unfold is_int in *; lia).
  assert (Ikb : is_int kb) by (unfold is_int in *; lia).
  assert (Isa : is_int (t_seconds a)) by (unfold is_int in *; nia).
  assert (Isb : is_int (t_seconds b)) by (unfold is_int in *; nia).
  unfold time_add. rewrite Ha, Hb. cbn [is_some sub_assert bind opt_get].
  destruct (secs_ok a ra Ha Pa Na I1 I2 Sa Isa) as (x & -> & Dx & Bw & Ew).
  destruct (secs_ok b rb Hb Pb Nb I3 I4 Sb Isb) as (y & -> & Dy & Bv & Ev).
  unfold added. set (w := secs a ra) in *. set (v := secs b rb) in *.
  cbn [bind]. rewrite (r_max_whole ra rb ka kb) by (assumption || lia).
  set (r := if (kb <? ka)%Z then ra else rb).
  assert (Wr : whole_rate r k).
  { unfold r, k. destruct (Z.ltb_spec kb ka); [now rewrite Z.max_l by lia | now rewrite Z.max_r by lia]. }
  assert (Dr : is_d (r_fraction r) (IZR k)).
  { unfold r, k. destruct (Z.ltb_spec kb ka);
      [rewrite Z.max_l by lia | rewrite Z.max_r by lia]; apply r_fraction_whole; assumption || lia. }
  set (N := (k * (1000 * (t_seconds a + t_seconds b) + ms_of a ra + ms_of b rb))%Z).
  set (A := IZR (t_seconds a) + IZR (ms_of a ra) / 1000) in *.
  set (B := IZR (t_seconds b) + IZR (ms_of b rb) / 1000) in *.
  assert (EN : IZR N / 1000 = (A + B) * IZR k).
  { unfold N, A, B. rewrite mult_IZR, !plus_IZR, mult_IZR, plus_IZR. simpl (IZR 1000). lra. }
  assert (PA : 0 <= A).
  { unfold A. assert (0 <= IZR (t_seconds a)) by (apply IZR_le; lia). assert (0 <= IZR (ms_of a ra)) by (apply IZR_le; lia). lra. }
  assert (PB : 0 <= B).
  { unfold B. assert (0 <= IZR (t_seconds b)) by (apply IZR_le; lia). assert (0 <= IZR (ms_of b rb)) by (apply IZR_le; lia). lra. }
  assert (NB : (0 <= N /\ N <= 1000 * ((t_seconds a + t_seconds b + 2) * k))%Z).
  { unfold N. split; nia. }
  assert (KR : 1 <= IZR k) by (now apply IZR_le).
  assert (XB : (A + B) * IZR k <= 2147483647).
  { rewrite <- EN. unfold is_int in Fit. assert (IZR N <= IZR (1000 * 2147483647)) by (apply IZR_le; lia).
    rewrite mult_IZR in H. simpl (IZR 1000) in H. lra. }
  assert (SB : A + B <= 2147483647) by nra.
  pose proof (big_nonneg _ Bw) as Pw. pose proof (big_nonneg _ Bv) as Pv.
  assert (Pu : 0 < u53) by (unfold u53; lra).
  assert (Ub : u53 * (A + B) <= / 4000000) by (unfold u53; lra).
  assert (Uk : u53 * ((A + B) * IZR k) <= / 4000000) by (unfold u53; lra).
  assert (Uab : 0 <= u53 * A /\ 0 <= u53 * B) by (split; nra).
  apply Rabs_le_inv in Ew. apply Rabs_le_inv in Ev.
  pose proof (big_add _ _ Bw Bv) as Bs. pose proof (rnd_big_rel _ Bs) as Ec. pose proof (big_rnd _ Bs) as Bc.
  set (c := rnd64 (w + v)) in *. pose proof (big_nonneg _ Bc) as Pc.
  assert (Dc : is_d (dadd x y) c).
  { apply dadd_ok; [assumption..|]. apply small_lt_1024. rewrite Rabs_pos_eq by lra. simpl. lra. }
  apply Rabs_le_inv in Ec.
  assert (Uwv : 0 <= u53 * (w + v) <= 2 * (u53 * (A + B))) by (split; [nra | unfold u53 in *; lra]).
  assert (Ec' : - (5 * (u53 * (A + B))) <= c - (A + B) <= 5 * (u53 * (A + B))) by lra.
  pose proof (big_mul_int _ _ Bc K1) as Bm. pose proof (rnd_big_rel _ Bm) as Ed. pose proof (big_rnd _ Bm) as Bd.
  assert (Eck : - (5 * (u53 * ((A + B) * IZR k))) <= c * IZR k - (A + B) * IZR k <= 5 * (u53 * ((A + B) * IZR k))).
  { replace (c * IZR k - (A + B) * IZR k) with ((c - (A + B)) * IZR k) by ring.
    replace (5 * (u53 * ((A + B) * IZR k))) with ((5 * (u53 * (A + B))) * IZR k) by ring.
    split; nra. }
  set (d := rnd64 (c * IZR k)) in *. pose proof (big_nonneg _ Bd) as Pd.
  assert (Pck : 0 <= c * IZR k) by nra.
  assert (Dd : is_d (dmul (dadd x y) (r_fraction r)) d).
  { apply dmul_ok; [assumption..|]. apply small_lt_1024. rewrite Rabs_pos_eq by exact Pck. simpl. lra. }
  apply Rabs_le_inv in Ed.
  assert (Uck : 0 <= u53 * (c * IZR k) <= 2 * (u53 * ((A + B) * IZR k))) by (split; [nra | unfold u53 in *; lra]).
  assert (Fin : Rabs (d - IZR N / 1000) < / 1000).
  { rewrite EN. apply Rabs_lt. lra. }
  destruct Dd as (_ & Fd & Vd). rewrite trunc_Z_correct by exact Fd. rewrite Vd.
  pose proof (floor_near N d (proj1 NB) Pd Fin) as FN.
  assert (F0 : (0 <= Ztrunc d)%Z) by (rewrite Ztrunc_floor by exact Pd; apply Zfloor_lub; exact Pd).
  assert (IF : is_int (Ztrunc d)).
  { unfold is_int in *. assert (N / 1000 <= 2147483647)%Z by (apply Z.div_le_upper_bound; lia). lia. }
  split; [exact F0|].
  unfold to_int. rewrite (proj2 (in_int_iff _) IF). cbn [bind].
  destruct (from_frames_ok (Ztrunc d) r k Wr ltac:(lia) IF Ik) as (t & -> & Rt & Et & Pt & _).
  specialize (Pt F0). destruct t as [ts tf tr]. cbn [t_rate t_seconds t_frames] in *. subst tr. f_equal. f_equal.
  - rewrite Et. apply (Z.div_unique _ _ _ tf); lia.
  - rewrite Et. apply (Z.mod_unique _ _ ts); lia.
Qed.

(** * Order *)

Lemma div_rne_exact v d : (0 < d)%Z -> div_rne (v * d) d = v.
Proof.
  intros P. rewrite <- div_rne_correct by exact P. rewrite mult_IZR. apply IZR_lt in P.
  replace (IZR v * IZR d / IZR d) with (IZR v) by (field; lra). apply Znearest_imp. rewrite Rminus_diag_eq by reflexivity. rewrite Rabs_R0. lra.
Qed.
Lemma ms_of_mono a b r : positive_rate r -> (t_frames a <= t_frames b)%Z -> (ms_of a r <= ms_of b r)%Z.
Proof.
  intros [Pn Pd] L. unfold ms_of. rewrite <- !div_rne_correct by exact Pn. apply Zrnd_le; [typeclasses eauto|].
  apply Rmult_le_compat_r; [left; apply Rinv_0_lt_compat; now apply IZR_lt|]. apply IZR_le. nia.
Qed.
Lemma instants_lex r a b : positive_rate r -> normalised_at r a -> normalised_at r b -> (instant_at r a <= instant_at r b)%Q ->
  (t_seconds a < t_seconds b \/ t_seconds a = t_seconds b /\ t_frames a <= t_frames b)%Z.
Proof.
  intros P Na Nb L. apply Qle_Rle in L. rewrite !instant_real in L by exact P.
  destruct (normalised_cross _ _ P Na) as [A1 A2]. destruct (normalised_cross _ _ P Nb) as [B1 B2]. destruct P as [Pn Pd].
  assert (PR : 0 < IZR (num r)) by (now apply IZR_lt).
  apply (Rmult_le_compat_r (IZR (num r))) in L; [|lra]. rewrite !Rmult_plus_distr_r in L. unfold Rdiv in L. rewrite !Rmult_assoc, Rinv_l, !Rmult_1_r in L by lra.
  rewrite <- !mult_IZR, <- !plus_IZR in L. apply le_IZR in L. nia.
Qed.
Lemma secs_mono a b r : positive_rate r -> normalised_at r a -> normalised_at r b -> (instant_at r a <= instant_at r b)%Q -> secs a r <= secs b r.
Proof.
  intros P Na Nb L. pose proof (ms_of_bound a r P Na) as Ma. pose proof (ms_of_bound b r P Nb) as Mb.
  unfold secs. apply rnd64_le. destruct (instants_lex r a b P Na Nb L) as [Q|[-> Q]].
  - assert (rnd64 (IZR (ms_of a r) / 1000) <= 1).
    { apply (rnd64_le_int _ 1); [now vm_compute|]. assert (IZR (ms_of a r) <= 1000) by (apply IZR_le; lia). lra. }
    assert (0 <= rnd64 (IZR (ms_of b r) / 1000)) by (apply rnd64_nonneg; assert (0 <= IZR (ms_of b r)) by (apply IZR_le; lia); lra).
    assert (IZR (t_seconds a) + 1 <= IZR (t_seconds b)) by (rewrite <- plus_IZR; apply IZR_le; lia). lra.
  - apply Rplus_le_compat_l, rnd64_le. pose proof (ms_of_mono a b r P Q) as M. apply IZR_le in M. lra.
Qed.
Lemma whole_instant r k t : positive_rate r -> whole_rate r k -> (0 < k)%Z -> Q2R (instant_at r t) = IZR (t_seconds t * k + t_frames t) / IZR k.
Proof.
  intros P [Wd Wn] K. rewrite instant_real by exact P. rewrite Wn. rewrite plus_IZR, !mult_IZR. destruct P as [_ Pd]. apply IZR_lt in Pd, K. field. lra.
Qed.
Lemma whole_instants r k a b : positive_rate r -> whole_rate r k -> (0 < k)%Z ->
  (t_seconds a * k + t_frames a <= t_seconds b * k + t_frames b)%Z -> (instant_at r a <= instant_at r b)%Q.
Proof.
  intros P W K L. apply Rle_Qle. rewrite !(whole_instant r k) by assumption. apply Rmult_le_compat_r; [left; apply Rinv_0_lt_compat; now apply IZR_lt|]. now apply IZR_le.
Qed.

Lemma scaled_mono a b r k phi : positive_rate r -> whole_rate r k -> (0 < k)%Z -> is_int k -> normalised_at r a -> normalised_at r b -> 0 <= phi ->
  0 <= secs a r -> (instant_at r a <= instant_at r b)%Q -> (instant_at r (scaled a r k phi) <= instant_at r (scaled b r k phi))%Q.
Proof.
  intros P W K Ik Na Nb Pf Pa L. apply (whole_instants r k); auto. unfold scaled. cbn [t_seconds t_frames].
  pose proof (secs_mono a b r P Na Nb L) as M. set (x := secs a r) in *. set (y := secs b r) in *.
  assert (S : rnd64 (x * phi) <= rnd64 (y * phi)) by (apply rnd64_le; nra). set (s := rnd64 (x * phi)) in *. set (u := rnd64 (y * phi)) in *.
  assert (KR : 0 < IZR k) by now apply IZR_lt.
  assert (Fr : forall v, (0 <= ZnearestE (rnd64 (rnd64 (v - IZR (Zfloor v)) * IZR k)) <= k)%Z).
  { intros v. pose proof (Zfloor_lb v) as F1. pose proof (Zfloor_ub v) as F2.
    assert (G0 : 0 <= rnd64 (v - IZR (Zfloor v))) by (apply rnd64_nonneg; lra).
    assert (G1 : rnd64 (v - IZR (Zfloor v)) <= 1) by (apply (rnd64_le_int _ 1); [now vm_compute | lra]).
    set (g := rnd64 (v - IZR (Zfloor v))) in *.
    assert (H0 : 0 <= rnd64 (g * IZR k)) by (apply rnd64_nonneg; nra).
    assert (H1 : rnd64 (g * IZR k) <= IZR k) by (apply rnd64_le_int; [unfold is_int in *; lia|nra]).
    set (h := rnd64 (g * IZR k)) in *. clearbody h.
    assert (Z0 : ZnearestE 0 = 0%Z) by (apply (Znearest_imp _ 0%R 0%Z); simpl; rewrite Rminus_0_r, Rabs_R0; lra).
    assert (Zk : ZnearestE (IZR k) = k) by (apply Znearest_imp; rewrite Rminus_diag_eq by reflexivity; rewrite Rabs_R0; lra).
    split; [rewrite <- Z0 | rewrite <- Zk]; apply Zrnd_le; (typeclasses eauto || assumption). }
  pose proof (Zfloor_le _ _ S) as FL. apply Zle_lt_or_eq in FL as [FL|FL].
  - pose proof (Fr s). pose proof (Fr u). nia.
  - rewrite FL. apply Z.add_le_mono_l. apply Zrnd_le; [typeclasses eauto|]. apply rnd64_le. apply Rmult_le_compat_r; [lra|]. apply rnd64_le. lra.
Qed.

Lemma fit_bound r t : positive_rate r -> normalised_at r t -> forall phi, 0 <= phi -> phi * (Q2R (instant_at r t) + / 2000) <= 2147483646 ->
  phi * (IZR (t_seconds t) + IZR (ms_of t r) / 1000) <= 2147483646.
Proof. intros P N phi Pf H. pose proof (ms_close t r P) as C. apply Rabs_le_inv in C. nra. Qed.
Lemma secs_nonneg t r : positive_rate r -> normalised_at r t -> (0 <= t_seconds t)%Z -> 0 <= secs t r.
Proof.
  intros P N S. pose proof (ms_of_bound t r P N) as B. unfold secs. apply rnd64_nonneg.
  assert (0 <= rnd64 (IZR (ms_of t r) / 1000)) by (apply rnd64_nonneg; assert (0 <= IZR (ms_of t r)) by (apply IZR_le; lia); lra).
  apply IZR_le in S. lra.
Qed.

Theorem scale_monotone a b r k f phi :
  t_rate a = Some r -> t_rate b = Some r -> positive_rate r -> whole_rate r k -> is_int (num r) -> is_int (den r) ->
  normalised_at r a -> normalised_at r b -> (0 <= t_seconds a)%Z -> is_int (t_seconds b) ->
  valid_binary 24 128 f = true -> is_finite_SF f = true -> SF2R radix2 f = phi -> 0 <= phi ->
  phi * (Q2R (instant_at r b) + / 2000) <= 2147483646 ->
  (instant_at r a <= instant_at r b)%Q ->
  exists a' b', time_scale a f = Ok a' /\ time_scale b f = Ok b' /\ t_rate a' = Some r /\ t_rate b' = Some r /\ (instant_at r a' <= instant_at r b')%Q.
Proof.
  intros Ra Rb P W I1 I2 Na Nb Sa Ib V F E Pf Fit L.
  assert (K1 : (1 <= k)%Z) by (destruct P, W as [_ W]; nia).
  assert (Ik : is_int k) by (destruct P, W as [_ W]; unfold is_int in *; nia).
  assert (D : is_f f phi) by (now repeat split).
  assert (SL : (t_seconds a <= t_seconds b)%Z) by (destruct (instants_lex r a b P Na Nb L); lia).
  assert (Ia : is_int (t_seconds a)) by (unfold is_int in *; lia).
  assert (Fa : phi * (Q2R (instant_at r a) + / 2000) <= 2147483646) by (apply Qle_Rle in L; nra).
  exists (scaled a r k phi), (scaled b r k phi).
  split; [apply scale_is; auto; now apply fit_bound|]. split; [apply scale_is; auto; [lia|now apply fit_bound]|].
  split; [reflexivity|]. split; [reflexivity|]. apply scaled_mono; auto; [lia|]. now apply secs_nonneg.
Qed.

Theorem add_commutes a b ra rb ka kb :
  t_rate a = Some ra -> t_rate b = Some rb ->
  positive_rate ra -> positive_rate rb -> whole_rate ra ka -> whole_rate rb kb ->
  is_int (num ra) -> is_int (den ra) -> is_int (num rb) -> is_int (den rb) ->
  normalised_at ra a -> normalised_at rb b -> (0 <= t_seconds a)%Z -> (0 <= t_seconds b)%Z ->
  is_int ((t_seconds a + t_seconds b + 2) * Z.max ka kb) ->
  exists t u, time_add a b = Ok t /\ time_add b a = Ok u /\ t_seconds t = t_seconds u /\ t_frames t = t_frames u /\
    exists r s, t_rate t = Some r /\ t_rate u = Some s /\ equivalent_rates r s.
Proof.
  intros Ha Hb Pa Pb Wa Wb I1 I2 I3 I4 Na Nb Sa Sb Fit.
  destruct (add_is a b ra rb ka kb) as [_ E1]; try assumption.
  destruct (add_is b a rb ra kb ka) as [_ E2]; try assumption; [now rewrite (Z.add_comm (t_seconds b)), Z.max_comm|].
  assert (C : added b rb a ra (Z.max kb ka) = added a ra b rb (Z.max ka kb)) by (unfold added; now rewrite Rplus_comm, Z.max_comm).
  rewrite E1, E2, C, (Z.max_comm kb). do 2 eexists. split; [reflexivity|]. split; [reflexivity|]. cbn [t_seconds t_frames t_rate]. split; [reflexivity|]. split; [reflexivity|].
  do 2 eexists. split; [reflexivity|]. split; [reflexivity|]. unfold equivalent_rates. destruct Wa as [_ Wa], Wb as [_ Wb].
  destruct (Z.ltb_spec kb ka), (Z.ltb_spec ka kb); try lia. assert (ka = kb) as -> by lia. rewrite Wa, Wb. ring.
Qed.

Lemma added_mono a a' r b rb k : (0 < k)%Z -> secs a r <= secs a' r -> (added a r b rb k <= added a' r b rb k)%Z.
Proof.
  intros K L. unfold added. apply Ztrunc_le. apply rnd64_le. apply Rmult_le_compat_r; [left; now apply IZR_lt|]. apply rnd64_le. lra.
Qed.
Theorem add_monotone a a' b ra rb ka kb :
  t_rate a = Some ra -> t_rate a' = Some ra -> t_rate b = Some rb ->
  positive_rate ra -> positive_rate rb -> whole_rate ra ka -> whole_rate rb kb ->
  is_int (num ra) -> is_int (den ra) -> is_int (num rb) -> is_int (den rb) ->
  normalised_at ra a -> normalised_at ra a' -> normalised_at rb b -> (0 <= t_seconds a)%Z -> (0 <= t_seconds b)%Z ->
  is_int ((t_seconds a' + t_seconds b + 2) * Z.max ka kb) ->
  (instant_at ra a <= instant_at ra a')%Q ->
  exists t t' r, time_add a b = Ok t /\ time_add a' b = Ok t' /\ t_rate t = Some r /\ t_rate t' = Some r /\ (instant_at r t <= instant_at r t')%Q.
Proof.
  intros Ha Ha' Hb Pa Pb Wa Wb I1 I2 I3 I4 Na Na' Nb Sa Sb Fit L.
  assert (Ka : (1 <= ka)%Z) by (destruct Pa, Wa as [_ W]; nia).
  assert (Kb : (1 <= kb)%Z) by (destruct Pb, Wb as [_ W]; nia).
  assert (SL : (t_seconds a <= t_seconds a')%Z) by (destruct (instants_lex ra a a' Pa Na Na' L); lia).
  destruct (add_is a b ra rb ka kb) as [_ E1]; try assumption; [unfold is_int in *; nia|].
  destruct (add_is a' b ra rb ka kb) as [_ E2]; try assumption; [lia|].
  set (k := Z.max ka kb) in *. rewrite E1, E2. do 3 eexists. split; [reflexivity|]. split; [reflexivity|]. cbn [t_rate]. split; [reflexivity|]. split; [reflexivity|].
  apply (whole_instants _ k); [destruct (kb <? ka)%Z; assumption| |lia|].
  - unfold k. destruct (Z.ltb_spec kb ka); [now rewrite Z.max_l by lia | now rewrite Z.max_r by lia].
  - cbn [t_seconds t_frames]. pose proof (added_mono a a' ra b rb k ltac:(lia) (secs_mono a a' ra Pa Na Na' L)) as M.
    rewrite (Z.mul_comm _ k), <- Z.div_mod by lia. rewrite (Z.mul_comm _ k), <- Z.div_mod by lia. exact M.
Qed.

(** * Scaling by 1 *)

Lemma ms_error t r k : positive_rate r -> whole_rate r k -> (0 < k)%Z -> (2 * Z.abs (ms_of t r * k - t_frames t * 1000) <= k)%Z.
Proof.
  intros P [_ Wn] K. pose proof (div_rne_nearest (t_frames t * den r * 1000) (num r) (proj1 P)) as [H _].
  change (div_rne (t_frames t * den r * 1000) (num r)) with (ms_of t r) in H. rewrite Wn in H.
  destruct P as [_ Pd]. replace (t_frames t * den r * 1000 - ms_of t r * (k * den r))%Z with ((t_frames t * 1000 - ms_of t r * k) * den r)%Z in H by ring.
  rewrite Z.abs_mul, (Z.abs_eq (den r)) in H by lia. nia.
Qed.

Theorem scale_one t r k :
  t_rate t = Some r -> positive_rate r -> whole_rate r k -> is_int (num r) -> is_int (den r) ->
  normalised_at r t -> (0 <= t_seconds t <= 2147483640)%Z -> (k <= 1000)%Z ->
  time_scale t (f_of_int 1) = Ok t.
Proof.
  intros Hr P W I1 I2 N S K. assert (K1 : (1 <= k)%Z) by (destruct P, W as [_ W]; nia).
  assert (Is : is_int (t_seconds t)) by (unfold is_int; lia).
  pose proof (ms_of_bound t r P N) as Mb.
  assert (D : is_f (f_of_int 1) 1) by (apply (f_of_int_ok 1); now vm_compute).
  assert (Sr : 0 <= IZR (t_seconds t) <= 2147483640) by (split; apply IZR_le; lia).
  assert (Mr : 0 <= IZR (ms_of t r) <= 1000) by (split; apply IZR_le; lia).
  assert (Fit : 1 * (IZR (t_seconds t) + IZR (ms_of t r) / 1000) <= 2147483646) by lra.
  pose proof (scale_is t r k _ 1 Hr P W I1 I2 N ltac:(lia) Is D ltac:(lra) Fit) as E.
  rewrite E. f_equal.
  assert (KR : 1 <= IZR k <= 1000) by (split; now apply IZR_le).
  destruct (secs_ok t r Hr P N I1 I2 ltac:(lia) Is) as (_ & _ & _ & Bw & Ew).
  (* the frames are less than one apart *)
  pose proof (ms_error t r k P W ltac:(lia)) as Me.
  assert (Ms : Rabs ((IZR (t_seconds t) + IZR (ms_of t r) / 1000) * IZR k - IZR (t_seconds t * k + t_frames t)) <= 499 / 1000).
  { assert (Z1 : (Z.abs (ms_of t r * k - t_frames t * 1000) <= 499)%Z).
    { destruct (Z.eq_dec k 1000) as [Kk|]; [|lia]. rewrite Kk in *. lia. }
    apply IZR_le in Z1. rewrite abs_IZR, minus_IZR, !mult_IZR in Z1. rewrite plus_IZR, mult_IZR.
    replace ((IZR (t_seconds t) + IZR (ms_of t r) / 1000) * IZR k - (IZR (t_seconds t) * IZR k + IZR (t_frames t)))
      with ((IZR (ms_of t r) * IZR k - IZR (t_frames t) * 1000) / 1000) by field.
    unfold Rdiv. rewrite Rabs_mult, (Rabs_pos_eq (/ 1000)) by lra. lra. }
  set (A := IZR (t_seconds t) + IZR (ms_of t r) / 1000) in *.
  pose proof (big_nonneg _ Bw) as Pw.
  assert (Ww : rnd64 (secs t r * 1) = secs t r).
  { rewrite Rmult_1_r. apply round_generic; [typeclasses eauto|]. apply generic_format_round; typeclasses eauto. }
  set (w := secs t r) in *.
  assert (Tn : 0 < tiny <= / 1000000000000) by (unfold tiny; lra). assert (Pu : 0 < u53 <= / 9000000000000000) by (unfold u53; lra).
  pose proof (Zfloor_lb w) as F1. pose proof (Zfloor_ub w) as F2.
  assert (P1 : 0 <= w - IZR (Zfloor w)) by lra.
  pose proof (rnd_abs_err _ P1) as Eg. pose proof (rnd64_nonneg _ P1) as Pg.
  assert (Ug : rnd64 (w - IZR (Zfloor w)) <= 1) by (apply (rnd64_le_int _ 1); [now vm_compute | lra]).
  unfold scaled. fold w. rewrite Ww. cbv zeta.
  set (q := Zfloor w) in *. set (g := rnd64 (w - IZR q)) in *.
  assert (Pgk : 0 <= g * IZR k <= 1000) by nra.
  pose proof (rnd_abs_err _ (proj1 Pgk)) as Eh. set (h := rnd64 (g * IZR k)) in *.
  pose proof (Znearest_half (fun x => negb (Z.even x)) h) as En. change (Znearest (fun x => negb (Z.even x)) h) with (ZnearestE h) in En.
  assert (Near : (q * k + ZnearestE h = t_seconds t * k + t_frames t)%Z).
  { assert (X : Rabs (IZR (q * k + ZnearestE h) - IZR (t_seconds t * k + t_frames t)) < 1).
    { replace (IZR (q * k + ZnearestE h) - IZR (t_seconds t * k + t_frames t)) with
        (- (h - IZR (ZnearestE h)) + (h - g * IZR k) + (g - (w - IZR q)) * IZR k + (w - A) * IZR k + (A * IZR k - IZR (t_seconds t * k + t_frames t)))
        by (rewrite (plus_IZR (q * k)), (mult_IZR q); ring).
      assert (X3 : Rabs ((g - (w - IZR q)) * IZR k) <= (u53 * 1 + tiny) * 1000).
      { rewrite Rabs_mult, (Rabs_pos_eq (IZR k)) by lra. apply Rmult_le_compat; [apply Rabs_pos|lra| |lra]. eapply Rle_trans; [exact Eg|]. nra. }
      assert (X4 : Rabs ((w - A) * IZR k) <= (3 * u53 * 2147483641) * 1000).
      { rewrite Rabs_mult, (Rabs_pos_eq (IZR k)) by lra. apply Rmult_le_compat; [apply Rabs_pos|lra| |lra]. eapply Rle_trans; [exact Ew|]. assert (A <= 2147483641) by (unfold A; lra). nra. }
      assert (X2 : Rabs (h - g * IZR k) <= u53 * 1000 + tiny) by (eapply Rle_trans; [exact Eh|]; nra).
      apply Rabs_le_inv in X2, X3, X4, Ms, En. apply Rabs_lt. lra. }
    rewrite <- minus_IZR, <- abs_IZR in X. apply lt_IZR in X. lia. }
  assert (Fr : (0 <= ZnearestE h <= k)%Z).
  { assert (Ph : 0 <= h) by (apply rnd64_nonneg; lra).
    assert (Uh : h <= IZR k) by (apply rnd64_le_int; [lia | nra]).
    assert (Z0 : ZnearestE 0 = 0%Z) by (apply (Znearest_imp _ 0%R 0%Z); simpl; rewrite Rminus_0_r, Rabs_R0; lra).
    assert (Zk : ZnearestE (IZR k) = k) by (apply Znearest_imp; rewrite Rminus_diag_eq by reflexivity; rewrite Rabs_R0; lra).
    clearbody h. split; [rewrite <- Z0 | rewrite <- Zk]; apply Zrnd_le; (typeclasses eauto || assumption). }
  destruct (normalised_cross _ _ P N) as [N1 N2]. assert (NF : (t_frames t < k)%Z) by (destruct W as [_ Wn]; destruct P; nia).
  assert (Q : (q = t_seconds t /\ ZnearestE h = t_frames t)%Z).
  { set (n := ZnearestE h) in *. clearbody n. destruct (Z.eq_dec (t_frames t) 0) as [Z0|NZ].
    2:{ assert (SE : q = t_seconds t); [|split; [exact SE|rewrite SE in Near; lia]]. destruct (Z.lt_trichotomy q (t_seconds t)) as [?|[?|?]]; [|assumption|]; exfalso;
        [assert ((q + 1) * k <= t_seconds t * k)%Z by nia | assert ((t_seconds t + 1) * k <= q * k)%Z by nia]; lia. }
    (* whole seconds are exact *)
    assert (M0 : ms_of t r = 0%Z) by (unfold ms_of; rewrite Z0; cbn [Z.mul]; apply (div_rne_exact 0); apply P).
    assert (X : w = IZR (t_seconds t)).
    { unfold w, secs. rewrite M0. unfold Rdiv. rewrite Rmult_0_l. rewrite round_0 by typeclasses eauto. rewrite Rplus_0_r.
      rewrite !rnd64_int; [reflexivity|..]; lia. }
    assert (ST : q = t_seconds t) by (unfold q; rewrite X; apply Zfloor_IZR). nia. }
  destruct t as [ts tf tr]. cbn [t_seconds t_frames t_rate] in *. destruct Q as [-> ->]. congruence.
Qed.

(** Two frames with the same milliseconds are scaled to the same time. *)
Lemma scaled_same a b r k phi : t_seconds a = t_seconds b -> ms_of a r = ms_of b r -> scaled a r k phi = scaled b r k phi.
Proof. intros E M. unfold scaled, secs. now rewrite E, M. Qed.
Lemma whole_normalised r k s f : positive_rate r -> whole_rate r k -> (0 <= f < k)%Z -> normalised_at r (mkT s f (Some r)).
Proof.
  intros [Pn Pd] [_ Wn] F. split; [cbn; lia|]. cbn [t_frames]. unfold frames_duration.
  assert (Q : (0 < inject_Z (num r))%Q) by (change 0%Q with (inject_Z 0); now rewrite <- Zlt_Qlt).
  apply Qlt_shift_div_r; [exact Q|]. rewrite Qmult_1_l. rewrite <- Zlt_Qlt. nia.
Qed.
Lemma same_ms r k : positive_rate r -> whole_rate r k -> (1000 < k)%Z ->
  exists f, (0 <= f)%Z /\ (f + 1 < k)%Z /\ ms_of (mkT 0 f (Some r)) r = ms_of (mkT 0 (f + 1) (Some r)) r.
Proof.
  intros P W K. set (m := fun f => ms_of (mkT 0 f (Some r)) r).
  assert (Me : forall f, (2 * Z.abs (m f * k - f * 1000) <= k)%Z) by (intros f; apply (ms_error (mkT 0 f (Some r)) r k P W ltac:(lia))).
  assert (Mm : forall f, (m f <= m (f + 1))%Z) by (intros f; apply ms_of_mono; [exact P|cbn; lia]).
  assert (M0 : (0 <= m 0)%Z) by (specialize (Me 0%Z); nia).
  assert (G : forall n, (exists f, (0 <= f)%Z /\ (f + 1 <= Z.of_nat n)%Z /\ m f = m (f + 1)%Z) \/ (Z.of_nat n <= m (Z.of_nat n))%Z).
  { induction n as [|n IH]; [now right|]. destruct IH as [(f & F1 & F2 & F3)|IH]; [left; exists f; split; [exact F1|split; [lia|exact F3]]|].
    rewrite Nat2Z.inj_succ. unfold Z.succ. destruct (Z.eq_dec (m (Z.of_nat n)) (m (Z.of_nat n + 1)%Z)) as [Q|Q].
    - left. exists (Z.of_nat n). split; [lia|]. split; [lia|exact Q].
    - right. specialize (Mm (Z.of_nat n)). lia. }
  destruct (G (Z.to_nat (k - 1))) as [(f & F1 & F2 & F3)|B]; [exists f; split; [exact F1|split; [lia|exact F3]]|].
  rewrite Z2Nat.id in B by lia.
  destruct (Z.eq_dec k 1001) as [Kk|NK].
  - exists 500%Z. split; [lia|]. split; [lia|]. change (m 500 = m (500 + 1))%Z. pose proof (Me 500%Z). pose proof (Me (500 + 1)%Z). lia.
  - exfalso. specialize (Me (k - 1)%Z). nia.
Qed.

Lemma scale_one_fine : forall r k, positive_rate r -> whole_rate r k -> is_int (num r) -> is_int (den r) -> (1000 < k)%Z ->
  exists t u, t_rate t = Some r /\ t_rate u = Some r /\ normalised_at r t /\ normalised_at r u /\ t <> u /\
    time_scale t (f_of_int 1) = time_scale u (f_of_int 1) /\ exists v, time_scale t (f_of_int 1) = Ok v.
Proof.
  intros r k P W I1 I2 K. destruct (same_ms r k P W K) as (f & F1 & F2 & E).
  assert (N1 : normalised_at r (mkT 0 f (Some r))) by (apply whole_normalised with k; auto; lia).
  assert (N2 : normalised_at r (mkT 0 (f + 1) (Some r))) by (apply whole_normalised with k; auto; lia).
  exists (mkT 0 f (Some r)), (mkT 0 (f + 1) (Some r)). split; [reflexivity|]. split; [reflexivity|]. split; [exact N1|]. split; [exact N2|].
  split; [intros X; injection X; lia|].
  assert (D : is_f (f_of_int 1) 1) by (apply (f_of_int_ok 1); now vm_compute).
  assert (Fit : forall t, t_seconds t = 0%Z -> normalised_at r t -> 1 * (IZR (t_seconds t) + IZR (ms_of t r) / 1000) <= 2147483646).
  { intros t -> N. pose proof (ms_of_bound t r P N) as [_ B]. apply IZR_le in B. lra. }
  rewrite (scale_is (mkT 0 f (Some r)) r k _ 1); try assumption; try reflexivity; try lra; try (unfold is_int; cbn; lia); try (apply Fit; [reflexivity|assumption]).
  rewrite (scale_is (mkT 0 (f + 1) (Some r)) r k _ 1); try assumption; try reflexivity; try lra; try (unfold is_int; cbn; lia); try (apply Fit; [reflexivity|assumption]).
  split; [|eexists; reflexivity]. f_equal. apply scaled_same; [reflexivity|exact E].
Qed.

(** * Adding zero *)

Lemma add_zero_short : exists t r, t_rate t = Some r /\ positive_rate r /\ whole_rate r 24 /\ normalised_at r t /\ (0 <= t_seconds t)%Z /\
  time_add t (mkT 0 0 (Some r)) = Ok (mkT 0 1 (Some r)) /\ t = mkT 0 2 (Some r).
Proof.
  exists (mkT 0 2 (Some (mkR 24 1))), (mkR 24 1). split; [reflexivity|]. split; [split; reflexivity|]. split; [split; [cbn; lia|reflexivity]|].
  split; [split; [cbn; lia|now vm_compute]|]. split; [cbn; lia|]. split; [vm_compute; reflexivity|]. reflexivity.
Qed.
Theorem add_zero t r k :
  t_rate t = Some r -> positive_rate r -> whole_rate r k -> is_int (num r) -> is_int (den r) ->
  normalised_at r t -> (0 <= t_seconds t)%Z -> is_int ((t_seconds t + 2) * k) -> (k <= 1000)%Z ->
  exists u, time_add t (mkT 0 0 (Some r)) = Ok u /\ t_rate u = Some r /\ (0 <= t_frames u < k)%Z /\
    (t_seconds t * k + t_frames t - 1 <= t_seconds u * k + t_frames u <= t_seconds t * k + t_frames t)%Z.
Proof.
  intros Hr P W I1 I2 N S Fit K. assert (K1 : (1 <= k)%Z) by (destruct P, W as [_ W]; nia).
  assert (Nz : normalised_at r (mkT 0 0 (Some r))) by (split; [cbn; lia|]; cbn; destruct P; unfold Qlt; cbn; lia).
  destruct (time_add_spec t (mkT 0 0 (Some r)) r r k k) as (u & E & Ru & Fu & B); try assumption; try reflexivity; [rewrite Z.max_id; cbn [t_seconds]; now rewrite Z.add_0_r|].
  rewrite Z.max_id in *. exists u. split; [exact E|]. split; [now rewrite Ru, Z.ltb_irrefl|]. split; [exact Fu|].
  assert (M0 : ms_of (mkT 0 0 (Some r)) r = 0%Z) by (unfold ms_of; cbn [t_frames Z.mul]; apply (div_rne_exact 0); apply P).
  cbv zeta in B. rewrite M0, !Z.add_0_r in B. cbn [t_seconds] in B.
  pose proof (ms_error t r k P W ltac:(lia)) as M.
  set (F := (t_seconds t * k + t_frames t)%Z). set (e := (ms_of t r * k - t_frames t * 1000)%Z) in *.
  replace (k * (1000 * t_seconds t + ms_of t r))%Z with (F * 1000 + e)%Z in B by (unfold F, e; ring).
  fold F. clearbody F e. set (x := (t_seconds u * k + t_frames u)%Z) in *. clearbody x.
  pose proof (Z.div_mod (F * 1000 + e) 1000 ltac:(lia)) as D. pose proof (Z.mod_pos_bound (F * 1000 + e) 1000 ltac:(lia)). lia.
Qed.

(** In which direction the milliseconds are rounded decides. *)
Theorem add_zero_rounds t r k m :
  t_rate t = Some r -> positive_rate r -> whole_rate r k -> is_int (num r) -> is_int (den r) ->
  normalised_at r t -> (0 <= t_seconds t)%Z -> is_int ((t_seconds t + 2) * k) -> (k <= 1000)%Z ->
  nearest_even (t_frames t * den r * 1000) (num r) m ->
  exists u, time_add t (mkT 0 0 (Some r)) = Ok u /\ t_rate u = Some r /\ (0 <= t_frames u < k)%Z /\
    ((m * k > t_frames t * 1000)%Z -> u = t) /\
    ((m * k < t_frames t * 1000)%Z -> (t_seconds u * k + t_frames u = t_seconds t * k + t_frames t - 1)%Z).
Proof.
  intros Hr P W I1 I2 N S Fit K Nm. assert (K1 : (1 <= k)%Z) by (destruct P, W as [_ W]; nia).
  assert (Nz : normalised_at r (mkT 0 0 (Some r))) by (split; [cbn; lia|]; cbn; destruct P; unfold Qlt; cbn; lia).
  destruct (time_add_spec t (mkT 0 0 (Some r)) r r k k) as (u & E & Ru & Fu & B); try assumption; try reflexivity; [rewrite Z.max_id; cbn [t_seconds]; now rewrite Z.add_0_r|].
  rewrite Z.max_id in *. exists u. split; [exact E|]. assert (Ru' : t_rate u = Some r) by now rewrite Ru, Z.ltb_irrefl. split; [exact Ru'|]. split; [exact Fu|].
  assert (M0 : ms_of (mkT 0 0 (Some r)) r = 0%Z) by (unfold ms_of; cbn [t_frames Z.mul]; apply (div_rne_exact 0); apply P).
  cbv zeta in B. rewrite M0, !Z.add_0_r in B. cbn [t_seconds] in B.
  assert (Em : ms_of t r = m).
  { unfold ms_of. eapply nearest_even_unique; [| |exact Nm]; [apply P|apply div_rne_nearest; apply P]. }
  pose proof (ms_error t r k P W ltac:(lia)) as M. rewrite Em in *.
  assert (Ft : (0 <= t_frames t < k)%Z).
  { destruct (normalised_cross r t P N) as [N1 N2]. destruct W as [W0 W]. split; [exact N1|]. destruct P. nia. }
  set (F := (t_seconds t * k + t_frames t)%Z). set (e := (m * k - t_frames t * 1000)%Z) in *.
  replace (k * (1000 * t_seconds t + m))%Z with (F * 1000 + e)%Z in B by (unfold F, e; ring).
  pose proof (Z.div_mod (F * 1000 + e) 1000 ltac:(lia)) as D. pose proof (Z.mod_pos_bound (F * 1000 + e) 1000 ltac:(lia)) as Q.
  split; intros H.
  - assert (X : (t_seconds u * k + t_frames u = F)%Z) by (unfold e in *; lia). unfold F in X. assert (Y : t_seconds u = t_seconds t) by nia.
    assert (Z1 : t_frames u = t_frames t) by nia. destruct t as [ts tf tr], u as [us uf ur]; cbn in *. congruence.
  - unfold e in *. lia.
Qed.
Lemma add_zero_25 : time_add (mkT 1 4 (Some (mkR 25 1))) (mkT 0 0 (Some (mkR 25 1))) = Ok (mkT 1 3 (Some (mkR 25 1))).
Proof. vm_compute. reflexivity. Qed.
