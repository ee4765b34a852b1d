(** The Time theorems in the form used by Properties/TimeProps.v. *)
From Coq Require Import ZArith QArith Qreals Reals Lra Lia Psatz Bool List.
From Coq.Floats Require Import SpecFloat.
From Flocq Require Import Core BinarySingleNaN.
From Verif.Model Require Import Base Float TimeModel.
From Verif.Spec Require Import Outcome TimeSpec AsIsSpec.
From Verif.Proofs Require Import FloatProofs TimeProofs TimeFloatProofs TimeAddProofs.
Import ListNotations.
Local Open Scope Z_scope.

Lemma decides_ne a b P : decides (time_eq a b) P -> decides (time_ne a b) (~ P).
Proof.
  intros [[E H]|[E H]]; unfold time_ne; rewrite E; cbn [bind negb]; [right|left]; split; auto.
Qed.

Lemma same_rate_all r a b :
  positive_rate r -> t_rate a = Some r -> t_rate b = Some r -> normalised_at r a -> normalised_at r b ->
  product_fits r a -> product_fits r b ->
  decides (time_lt a b) (instant_at r a < instant_at r b)%Q /\
  decides (time_gt a b) (instant_at r b < instant_at r a)%Q /\
  decides (time_eq a b) (instant_at r a == instant_at r b)%Q /\
  decides (time_ne a b) (~ instant_at r a == instant_at r b)%Q.
Proof.
  intros. split; [now apply lt_same_rate|]. split; [rewrite gt_is_lt; now apply lt_same_rate|].
  split; [now apply eq_same_rate | apply decides_ne; now apply eq_same_rate].
Qed.

Lemma products_fit r t : positive_rate r -> normalised_at r t -> num r <= 46340 -> product_fits r t.
Proof.
  intros P N B. destruct (normalised_cross _ _ P N) as [N1 N2]. destruct P as [Pn Pd].
  unfold product_fits, is_int.
  assert (t_frames t * num r * den r <= num r * num r) by nia.
  assert (num r * num r <= 46340 * 46340) by nia.
  assert (0 <= t_frames t * num r) by nia.
  assert (t_frames t * num r <= t_frames t * num r * den r) by nia. lia.
Qed.

Lemma no_rate_all r a b :
  positive_rate r -> t_rate a = None -> t_rate b = None -> normalised_at r a -> normalised_at r b ->
  decides (time_lt a b) (instant_at r a < instant_at r b)%Q /\
  decides (time_gt a b) (instant_at r b < instant_at r a)%Q /\
  decides (time_eq a b) (instant_at r a == instant_at r b)%Q /\
  decides (time_ne a b) (~ instant_at r a == instant_at r b)%Q.
Proof.
  intros P Ha Hb Na Nb. destruct (lt_no_rate r a b P Ha Hb Na Nb) as [L E].
  destruct (lt_no_rate r b a P Hb Ha Nb Na) as [L' _].
  split; [exact L|]. split; [rewrite gt_is_lt; exact L'|]. split; [exact E | now apply decides_ne].
Qed.

Lemma same_rate_overflow : exists r a b,
  positive_rate r /\ t_rate a = Some r /\ t_rate b = Some r /\ normalised_at r a /\ normalised_at r b /\
  time_lt a b = Undef UbIntOverflow /\ time_eq a b = Undef UbIntOverflow.
Proof.
  exists (mkR 60000 1001), (mkT 0 40 (Some (mkR 60000 1001))), (mkT 0 41 (Some (mkR 60000 1001))).
  unfold positive_rate, normalised_at. repeat split; first [now vm_compute | vm_compute; congruence].
Qed.

Lemma different_rates_lt_wrong : exists ra rb a b,
  positive_rate ra /\ positive_rate rb /\ t_rate a = Some ra /\ t_rate b = Some rb /\
  normalised_at ra a /\ normalised_at rb b /\
  time_lt a b = Ok true /\ (instant_at rb b < instant_at ra a)%Q.
Proof.
  exists (mkR 24 1), (mkR 1000 1), (mkT 0 12 (Some (mkR 24 1))), (mkT 0 300 (Some (mkR 1000 1))).
  unfold positive_rate, normalised_at. repeat split; first [now vm_compute | vm_compute; congruence].
Qed.
Lemma different_rates_eq_wrong : exists ra rb a b,
  positive_rate ra /\ positive_rate rb /\ t_rate a = Some ra /\ t_rate b = Some rb /\
  normalised_at ra a /\ normalised_at rb b /\
  time_eq a b = Ok false /\ (instant_at rb b == instant_at ra a)%Q.
Proof.
  exists (mkR 25 1), (mkR 1000 1), (mkT 0 1 (Some (mkR 25 1))), (mkT 0 40 (Some (mkR 1000 1))).
  unfold positive_rate, normalised_at. repeat split; first [now vm_compute | vm_compute; congruence].
Qed.

Lemma other_rate_all ra rb a b :
  positive_rate ra -> positive_rate rb -> t_rate a = Some ra -> t_rate b = Some rb ->
  normalised_at ra a -> normalised_at rb b ->
  (t_seconds a <> t_seconds b \/ equivalent_rates ra rb /\ cross_fits a b) ->
  decides (time_lt a b) (instant_at ra a < instant_at rb b)%Q /\
  decides (time_gt a b) (instant_at rb b < instant_at ra a)%Q /\
  decides (time_eq a b) (instant_at ra a == instant_at rb b)%Q /\
  decides (time_ne a b) (~ instant_at ra a == instant_at rb b)%Q.
Proof.
  intros Pa Pb Ha Hb Na Nb C.
  destruct (lt_other_rate ra rb a b Pa Pb Ha Hb Na Nb) as [L E].
  { destruct C as [C|[C F]]; [now left | right]. specialize (F _ _ Ha Hb). tauto. }
  destruct (lt_other_rate rb ra b a Pb Pa Hb Ha Nb Na) as [L' _].
  { destruct C as [C|[C F]]; [left; congruence | right]. specialize (F _ _ Ha Hb). split; [symmetry; exact C|]. tauto. }
  split; [exact L|]. split; [rewrite gt_is_lt; exact L'|]. split; [exact E | now apply decides_ne].
Qed.

Lemma upside_down_cross ra rb f g : positive_rate ra -> positive_rate rb ->
  ((frames_duration f (upside_down ra) < frames_duration g (upside_down rb))%Q <-> f * num ra * den rb < g * num rb * den ra) /\
  ((frames_duration f (upside_down ra) == frames_duration g (upside_down rb))%Q <-> f * num ra * den rb = g * num rb * den ra).
Proof.
  intros [Na Da] [Nb Db]. unfold frames_duration, upside_down. cbn [num den].
  assert (Pa : (0 < inject_Z (den ra))%Q) by (change 0%Q with (inject_Z 0); now rewrite <- Zlt_Qlt).
  assert (Pb : (0 < inject_Z (den rb))%Q) by (change 0%Q with (inject_Z 0); now rewrite <- Zlt_Qlt).
  assert (Xa : (inject_Z (f * num ra) / inject_Z (den ra) == inject_Z (f * num ra * den rb) / inject_Z (den ra * den rb))%Q).
  { rewrite !inject_Z_mult. field. split; intros H; [rewrite H in Pb|rewrite H in Pa]; now apply Qlt_irrefl in Pa || now apply Qlt_irrefl in Pb. }
  assert (Xb : (inject_Z (g * num rb) / inject_Z (den rb) == inject_Z (g * num rb * den ra) / inject_Z (den ra * den rb))%Q).
  { rewrite !inject_Z_mult. field. split; intros H; [rewrite H in Pb|rewrite H in Pa]; now apply Qlt_irrefl in Pa || now apply Qlt_irrefl in Pb. }
  assert (P : (0 < inject_Z (den ra * den rb))%Q) by (change 0%Q with (inject_Z 0); rewrite <- Zlt_Qlt; nia).
  rewrite Xa, Xb. unfold Qdiv. split.
  - rewrite Qmult_lt_r by now apply Qinv_lt_0_compat. now rewrite <- Zlt_Qlt.
  - rewrite Qmult_inj_r; [apply inject_Z_injective|]. intros H. apply Qinv_lt_0_compat in P. rewrite H in P. now apply Qlt_irrefl in P.
Qed.
Lemma other_rate_as_is ra rb a b :
  positive_rate ra -> positive_rate rb -> t_rate a = Some ra -> t_rate b = Some rb -> t_seconds a = t_seconds b -> cross_fits a b ->
  let da := frames_duration (t_frames a) (upside_down ra) in let db := frames_duration (t_frames b) (upside_down rb) in
  decides (time_lt a b) (da < db)%Q /\ decides (time_gt a b) (db < da)%Q /\
  decides (time_eq a b) (da == db)%Q /\ decides (time_ne a b) (~ da == db)%Q.
Proof.
  intros Pa Pb Ha Hb S F. cbn zeta. destruct (F _ _ Ha Hb) as (F1 & F2 & F3 & F4).
  destruct (upside_down_cross ra rb (t_frames a) (t_frames b) Pa Pb) as [L E].
  destruct (upside_down_cross rb ra (t_frames b) (t_frames a) Pb Pa) as [L' _].
  assert (X : time_lt a b = Ok (t_frames a * num ra * den rb <? t_frames b * num rb * den ra)).
  { unfold time_lt. rewrite S, Z.eqb_refl, Ha, Hb. cbn [negb]. now rewrite !imul3_ok by assumption. }
  assert (Y : time_gt a b = Ok (t_frames b * num rb * den ra <? t_frames a * num ra * den rb)).
  { unfold time_gt. rewrite S, Z.eqb_refl, Ha, Hb. cbn [negb]. now rewrite !imul3_ok by assumption. }
  assert (Z : time_eq a b = Ok (t_frames a * num ra * den rb =? t_frames b * num rb * den ra)).
  { unfold time_eq. rewrite S, Z.eqb_refl, Ha, Hb. cbn [negb]. now rewrite !imul3_ok by assumption. }
  assert (Q : decides (time_eq a b) (frames_duration (t_frames a) (upside_down ra) == frames_duration (t_frames b) (upside_down rb))%Q).
  { rewrite Z. destruct (Z.eqb_spec (t_frames a * num ra * den rb) (t_frames b * num rb * den ra)) as [D|D]; [left|right]; (split; [reflexivity|]); rewrite E; assumption. }
  split; [|split; [|split; [exact Q|now apply decides_ne]]].
  - rewrite X. destruct (Z.ltb_spec (t_frames a * num ra * den rb) (t_frames b * num rb * den ra)) as [D|D]; [left|right]; (split; [reflexivity|]); rewrite L; lia.
  - rewrite Y. destruct (Z.ltb_spec (t_frames b * num rb * den ra) (t_frames a * num ra * den rb)) as [D|D]; [left|right]; (split; [reflexivity|]); rewrite L'; lia.
Qed.

Lemma mixed_sym a b : mixed_rates a b <-> mixed_rates b a.
Proof. unfold mixed_rates. tauto. Qed.

Lemma ne_throw a b e : time_ne a b = Throw e <-> time_eq a b = Throw e.
Proof. unfold time_ne. destruct (time_eq a b); cbn [bind]; split; congruence. Qed.
Lemma ne_undef a b u : time_ne a b = Undef u <-> time_eq a b = Undef u.
Proof. unfold time_ne. destruct (time_eq a b); cbn [bind]; split; congruence. Qed.

Lemma comparison_errors a b :
  (time_eq a b = Throw EUnknownFrameRate <-> mixed_rates a b) /\
  (time_ne a b = Throw EUnknownFrameRate <-> mixed_rates a b) /\
  (time_lt a b = Throw EUnknownFrameRate <-> mixed_rates a b /\ t_seconds a = t_seconds b) /\
  (time_gt a b = Throw EUnknownFrameRate <-> mixed_rates a b /\ t_seconds a = t_seconds b) /\
  (forall e, time_eq a b = Throw e \/ time_ne a b = Throw e \/ time_lt a b = Throw e \/ time_gt a b = Throw e -> e = EUnknownFrameRate).
Proof.
  rewrite gt_is_lt, ne_throw.
  destruct (eq_outcome a b) as [E1 E2]. destruct (lt_outcome a b) as [L1 L2]. destruct (lt_outcome b a) as [G1 G2].
  split; [exact E1|]. split; [exact E1|]. split; [rewrite L1; tauto|].
  split; [rewrite G1, mixed_sym; intuition congruence|].
  intros e. rewrite ne_throw. intros [H|[H|[H|H]]]; auto.
Qed.

Lemma cross_fits_sym a b : cross_fits a b <-> cross_fits b a.
Proof. unfold cross_fits. split; intros H ra rb H1 H2; specialize (H _ _ H2 H1); tauto. Qed.

Lemma comparison_overflow a b :
  ((exists u, time_lt a b = Undef u) <-> t_seconds a = t_seconds b /\ ~ cross_fits a b) /\
  ((exists u, time_gt a b = Undef u) <-> t_seconds a = t_seconds b /\ ~ cross_fits a b) /\
  ((exists u, time_eq a b = Undef u) <-> t_seconds a = t_seconds b /\ ~ cross_fits a b) /\
  ((exists u, time_ne a b = Undef u) <-> t_seconds a = t_seconds b /\ ~ cross_fits a b).
Proof.
  split; [apply lt_undef|]. split.
  - rewrite gt_is_lt, lt_undef, cross_fits_sym. intuition congruence.
  - split; [apply eq_undef|]. rewrite <- eq_undef. split; intros [u H]; exists u; now apply ne_undef.
Qed.

Lemma strict_weak_order a b c : rate_ok a -> rate_ok b -> rate_ok c ->
  (forall x, time_lt a a = Ok x -> x = false) /\
  (time_lt a b = Ok true -> forall x, time_lt b a = Ok x -> x = false) /\
  (time_lt a b = Ok true -> time_lt b c = Ok true -> forall x, time_lt a c = Ok x -> x = true) /\
  (time_lt a b = Ok false -> time_lt b a = Ok false -> time_lt b c = Ok false -> time_lt c b = Ok false ->
   forall x, time_lt a c = Ok x \/ time_lt c a = Ok x -> x = false).
Proof.
  intros Ra Rb Rc. split; [intros x; apply lt_irrefl|]. split; [|split].
  - intros H1 x H2. destruct x; [|reflexivity]. exfalso.
    apply lt_key in H1 as [H1 _]. apply lt_key in H2 as [H2 _]. specialize (H1 eq_refl). specialize (H2 eq_refl).
    destruct (t_rate a), (t_rate b); lia.
  - intros H1 H2 x. now apply (lt_trans a b c).
  - intros H1 H2 H3 H4 x [H|H]; [now apply (lt_negtrans a b c) | now apply (lt_negtrans c b a)].
Qed.

Lemma gt_and_ne a b :
  time_gt a b = time_lt b a /\
  (forall x, time_eq a b = Ok x -> time_ne a b = Ok (negb x)) /\ (forall x, time_ne a b = Ok x -> time_eq a b = Ok (negb x)).
Proof.
  split; [apply gt_is_lt|]. unfold time_ne. split; intros x.
  - intros ->. reflexivity.
  - destruct (time_eq a b); cbn [bind]; try discriminate. intros [= <-]. now rewrite negb_involutive.
Qed.

Lemma add_not_exact : exists r a b t,
  positive_rate r /\ t_rate a = Some r /\ t_rate b = Some r /\ normalised_at r a /\ normalised_at r b /\
  time_add a b = Ok t /\ t_rate t = Some r /\ (instant_at r t < instant_at r a + instant_at r b)%Q.
Proof.
  exists (mkR 25 1), (mkT 0 1 (Some (mkR 25 1))), (mkT 0 6 (Some (mkR 25 1))), (mkT 0 6 (Some (mkR 25 1))).
  unfold positive_rate, normalised_at. repeat split; first [now vm_compute | vm_compute; congruence].
Qed.

Lemma add_rounds_down a b ra rb ka kb ma mb :
  t_rate a = Some ra -> t_rate b = Some rb ->
  positive_rate ra -> positive_rate rb -> whole_rate ra ka -> whole_rate rb kb ->
  is_int (num ra) -> is_int (den ra) -> is_int (num rb) -> is_int (den rb) ->
  normalised_at ra a -> normalised_at rb b -> 0 <= t_seconds a -> 0 <= t_seconds b ->
  nearest_even (t_frames a * den ra * 1000) (num ra) ma -> nearest_even (t_frames b * den rb * 1000) (num rb) mb ->
  is_int ((t_seconds a + t_seconds b + 2) * Z.max ka kb) ->
  exists t, time_add a b = Ok t /\
    t_rate t = Some (if kb <? ka then ra else rb) /\
    0 <= t_frames t < Z.max ka kb /\
    let N := Z.max ka kb * (1000 * (t_seconds a + t_seconds b) + ma + mb) in
    (t_seconds t * Z.max ka kb + t_frames t = N / 1000 \/
     N mod 1000 = 0 /\ t_seconds t * Z.max ka kb + t_frames t = N / 1000 - 1).
Proof.
  intros Ha Hb Pa Pb Wa Wb I1 I2 I3 I4 Na Nb Sa Sb Ma Mb Fit.
  assert (Ea : ma = ms_of a ra).
  { destruct Pa as [Pa _]. apply (nearest_even_unique _ _ _ _ Pa Ma). now apply div_rne_nearest. }
  assert (Eb : mb = ms_of b rb).
  { destruct Pb as [Pb _]. apply (nearest_even_unique _ _ _ _ Pb Mb). now apply div_rne_nearest. }
  subst ma mb. now apply time_add_spec.
Qed.

Lemma add_needs_rates a b : ~ has_rate a \/ ~ has_rate b -> time_add a b = Throw EProgramming.
Proof.
  unfold has_rate, time_add. destruct (t_rate a), (t_rate b); intros [H|H]; try reflexivity; exfalso; apply H; discriminate.
Qed.

Lemma scale_not_normalised : exists r k t f t',
  whole_rate r k /\ t_rate t = Some r /\ normalised_at r t /\ time_scale t f = Ok t' /\ t_frames t' = k.
Proof.
  exists (mkR 25 1), 25, (mkT 1 24 (Some (mkR 25 1))), (f_lit 51 100), (mkT 0 25 (Some (mkR 25 1))).
  unfold whole_rate, normalised_at. repeat split; first [now vm_compute | vm_compute; congruence].
Qed.
Lemma frames_at_not_normalised : exists t tr,
  t_rate t = Some tr /\ positive_rate tr /\ normalised_at tr t /\ frames_at t (mkR 25 1) = Ok 25.
Proof.
  exists (mkT 0 999 (Some (mkR 1000 1))), (mkR 1000 1).
  unfold positive_rate, normalised_at. repeat split; first [now vm_compute | vm_compute; congruence].
Qed.

Lemma scale_close t r k f phi :
  t_rate t = Some r -> positive_rate r -> whole_rate r k -> is_int (num r) -> is_int (den r) ->
  normalised_at r t -> 0 <= t_seconds t -> is_int (t_seconds t) ->
  valid_binary 24 128 f = true -> is_finite_SF f = true -> SF2R radix2 f = phi -> (0 <= phi)%R ->
  (phi * (Q2R (instant_at r t) + / 2000) <= 2147483646)%R ->
  exists t', time_scale t f = Ok t' /\ t_rate t' = Some r /\ 0 <= t_seconds t' /\ 0 <= t_frames t' <= k /\
    (Rabs (Q2R (instant_at r t') - phi * Q2R (instant_at r t)) <= / (2 * IZR k) + phi / 2000 + / 200000)%R.
Proof.
  intros Hr P W I1 I2 N S Is Vf Ff Rf Pf Fit.
  assert (K1 : 1 <= k) by (destruct P, W as [_ W]; nia).
  pose proof (ms_close t r P) as C. apply Rabs_le_inv in C.
  destruct (time_scale_spec t r k f phi Hr P W I1 I2 N S Is) as (t' & E & Rt & S' & F' & B).
  - now split.
  - exact Pf.
  - eapply Rle_trans; [|exact Fit]. apply Rmult_le_compat_l; [exact Pf|]. lra.
  - exists t'. split; [exact E|]. split; [exact Rt|]. split; [exact S'|]. split; [exact F'|].
    rewrite (instant_real t' r P).
    assert (Q : (IZR (t_frames t' * den r) / IZR (num r) = IZR (t_frames t') / IZR k)%R).
    { destruct P as [P1 P2], W as [W1 W2]. rewrite W2, !mult_IZR. field.
      split; apply not_0_IZR; lia. }
    rewrite Q. apply Rabs_le_inv in B. apply Rabs_le.
    set (X := (IZR (t_seconds t) + IZR (ms_of t r) / 1000)%R) in *.
    assert (- (phi / 2000) <= phi * X - phi * Q2R (instant_at r t) <= phi / 2000)%R by (split; nra).
    lra.
Qed.

Lemma frames_at_le_rate t tr k :
  t_rate t = Some tr -> positive_rate tr -> normalised_at tr t -> is_int (num tr) -> is_int (den tr) -> 0 < k <= 1000000 ->
  exists z, frames_at t (mkR k 1) = Ok z /\ 0 <= z <= k.
Proof.
  intros Hr P N I1 I2 K. destruct (normalised_cross _ _ P N) as [N1 N2]. pose proof P as [Pn Pd].
  assert (F0 : 0 <= t_frames t * den tr) by nia.
  assert (F1 : t_frames t <= t_frames t * den tr) by nia.
  set (z := div_rne (t_frames t * den tr * k) (num tr * 1)).
  assert (Nz : nearest_even (t_frames t * den tr * k) (num tr * 1) z) by (apply div_rne_nearest; lia).
  clearbody z.
  assert (A0 : 0 <= t_frames t * den tr * k) by nia.
  assert (A1 : t_frames t * den tr * k <= num tr * k) by nia.
  assert (Bz : 0 <= z <= k).
  { destruct Nz as [Nz _]. rewrite Z.mul_1_r in Nz. split; nia. }
  exists z. split; [|exact Bz].
  unfold is_int in *.
  apply (frames_at_eq t tr (mkR k 1)); cbn [num den]; unfold is_int, positive_rate; cbn [num den]; try lia; try assumption.
  assert (num tr * k <= 2147483647 * 1000000) by nia. lia.
Qed.

Lemma frames_at_as_is t tr k :
  t_rate t = Some tr -> positive_rate tr -> normalised_at tr t -> is_int (num tr) -> is_int (den tr) -> 0 < k <= 1000000 ->
  exists z, frames_at t (mkR k 1) = Ok z /\ 0 <= z <= k /\ (z = k <-> last_half_frame k t).
Proof.
  intros Hr P N I1 I2 K. destruct (frames_at_le_rate t tr k Hr P N I1 I2 K) as (z & E & B). exists z. split; [exact E|]. split; [exact B|].
  destruct (normalised_cross _ _ P N) as [N1 N2]. pose proof P as [Pn Pd]. unfold is_int in *.
  assert (F0 : 0 <= t_frames t * den tr) by nia. assert (F1 : t_frames t <= t_frames t * den tr) by nia.
  assert (A1 : t_frames t * den tr * k <= num tr * k) by nia. assert (A2 : num tr * k <= 2147483647 * 1000000) by nia.
  destruct (frames_at_spec t tr (mkR k 1)) as (z' & NE & A); cbn [num den] in *; unfold is_int, positive_rate; cbn [num den]; try lia; try assumption.
  assert (z' = z). { unfold as_int in A. rewrite E in A. destruct A as [[_ A]|[_ (u & A)]]; congruence. } subst z'.
  destruct NE as [NE TIE]. rewrite Z.mul_1_r in *. set (x := t_frames t * den tr) in *. set (y := num tr) in *.
  split.
  - intros ->. exists tr. split; [exact Hr|]. fold x y. rewrite Z.abs_neq in NE, TIE by nia.
    destruct (Z.eq_dec ((2 * k - 1) * y) (2 * k * x)) as [Q|Q]; [right; split; [exact Q|]; apply TIE; nia|left; nia].
  - intros (tr' & R'' & H). assert (tr' = tr) by congruence. subst tr'. fold x y in H.
    destruct (Z.eq_dec z k) as [Q|Q]; [exact Q|exfalso]. assert (z <= k - 1) by lia.
    assert (zy : z * y <= (k - 1) * y) by nia. rewrite Z.abs_eq in NE, TIE by nia.
    destruct H as [H|[H EV]]; [nia|]. assert (z = k - 1) by nia. subst z. assert (X : Z.even (k - 1) = true) by (apply TIE; nia).
    rewrite Z.even_sub, EV in X. discriminate.
Qed.

(** The comparison of two Times with one rate is right, or undefined. *)
Lemma same_rate_as_is r a b :
  positive_rate r -> t_rate a = Some r -> t_rate b = Some r -> normalised_at r a -> normalised_at r b ->
  ((t_seconds a <> t_seconds b \/ product_fits r a /\ product_fits r b) ->
    decides (time_lt a b) (instant_at r a < instant_at r b)%Q /\
    decides (time_gt a b) (instant_at r b < instant_at r a)%Q /\
    decides (time_eq a b) (instant_at r a == instant_at r b)%Q /\
    decides (time_ne a b) (~ instant_at r a == instant_at r b)%Q) /\
  (~ (t_seconds a <> t_seconds b \/ product_fits r a /\ product_fits r b) ->
    (exists u, time_lt a b = Undef u) /\ (exists u, time_gt a b = Undef u) /\
    (exists u, time_eq a b = Undef u) /\ (exists u, time_ne a b = Undef u)).
Proof.
  intros P Ha Hb Na Nb. split.
  - intros [H|[H1 H2]]; [|now apply same_rate_all].
    apply (other_rate_all r r a b P P Ha Hb Na Nb). now left.
  - intros H. destruct (comparison_overflow a b) as (L & G & E & N).
    assert (X : t_seconds a = t_seconds b /\ ~ cross_fits a b).
    { split; [destruct (Z.eq_dec (t_seconds a) (t_seconds b)) as [X|X]; [exact X|exfalso; apply H; now left]|].
      intros C. apply H. right. destruct (C r r Ha Hb) as (C1 & C2 & C3 & C4). split; split; assumption. }
    split; [now apply L|]. split; [now apply G|]. split; [now apply E|now apply N].
Qed.

Lemma scale_errors t f :
  (~ has_rate t -> time_scale t f = Throw EProgramming) /\
  (forall r, t_rate t = Some r -> den r = 0 -> time_scale t f = Throw EProgramming) /\
  (forall r, t_rate t = Some r -> is_int (num r) -> is_int (den r) -> den r <> 0 -> (forall k, ~ whole_rate r k) -> time_scale t f = Throw EProgramming).
Proof.
  unfold has_rate, time_scale. split; [|split].
  - destruct (t_rate t); [intros H; exfalso; apply H; discriminate | reflexivity].
  - intros r -> E. cbn [is_some sub_assert bind opt_get]. rewrite E. reflexivity.
  - intros r -> In Id E W. cbn [is_some sub_assert bind opt_get].
    destruct (Z.eqb_spec (den r) 0) as [D|_]; [contradiction|]. cbn [negb].
    unfold r_integer, imod. destruct (Z.eqb_spec (den r) 0) as [D|_]; [contradiction|].
    unfold chk. destruct (in_int (Z.quot (num r) (den r))) eqn:C.
    2: { exfalso. destruct (Z.eq_dec (den r) (-1)) as [D|D]; [apply (W (- num r)); split; [exact E|]; rewrite D; lia|].
         apply Bool.not_true_iff_false in C. apply C. apply in_int_iff. unfold is_int in *.
         destruct (Z.eq_dec (den r) 1) as [D1|D1]; [rewrite D1, Z.quot_1_r; lia|].
         pose proof (Z.quot_abs (num r) (den r) E) as QA.
         assert (Z.quot (Z.abs (num r)) (Z.abs (den r)) <= Z.quot (2 ^ 31) 2).
         { etransitivity; [apply (Z.quot_le_mono _ (2 ^ 31)); lia|]. apply Z.quot_le_compat_l; lia. }
         change (Z.quot (2 ^ 31) 2) with 1073741824 in *. lia. }
    cbn [bind]. destruct (Z.eqb_spec (Z.rem (num r) (den r)) 0) as [R|_]; [|reflexivity].
    exfalso. apply (W (Z.quot (num r) (den r))). split; [exact E|]. pose proof (Z.quot_rem' (num r) (den r)). lia.
Qed.
