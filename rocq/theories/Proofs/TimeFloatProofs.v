(** Proofs about the part of TimeModel that goes through double arithmetic. *)
From Coq Require Import ZArith QArith Qreals Reals Lra Lia Psatz Bool List.
From Coq.Floats Require Import SpecFloat.
From Flocq Require Import Core BinarySingleNaN Relative.
From Verif.Model Require Import Base Float TimeModel.
From Verif.Spec Require Import Outcome TimeSpec.
From Verif.Proofs Require Import FloatProofs TimeProofs.
Import ListNotations.
Local Open Scope Z_scope.
Notation is_d := (is_flt 53 1024).
Notation is_f := (is_flt 24 128).
Notation rnd64 := (round radix2 (SpecFloat.fexp 53 1024) ZnearestE).

(** ** nearest_even *)
Lemma div_rne_nearest A B : 0 < B -> nearest_even A B (div_rne A B).
Proof.
  intros P. unfold nearest_even, div_rne.
  pose proof (Z.div_mod A B ltac:(lia)) as D. pose proof (Z.mod_pos_bound A B P) as M.
  set (q := A / B) in *. set (r := A mod B) in *.
  destruct (Z.compare_spec (2 * r) B) as [C|C|C].
  - destruct (Z.even q) eqn:E.
    + replace (A - q * B) with r by lia. split; [lia | auto].
    + replace (A - (q + 1) * B) with (r - B) by lia. split; [lia|].
      intros _. rewrite Z.even_add, E. reflexivity.
  - replace (A - q * B) with r by lia. split; lia.
  - replace (A - (q + 1) * B) with (r - B) by lia. split; lia.
Qed.

Lemma nearest_even_unique A B y z : 0 < B -> nearest_even A B y -> nearest_even A B z -> y = z.
Proof.
  intros P [Y1 Y2] [Z1 Z2].
  destruct (Z.eq_dec y z) as [E|E]; [exact E|exfalso].
  assert (K : forall y z, y < z -> 2 * Z.abs (A - y * B) <= B -> 2 * Z.abs (A - z * B) <= B ->
     z = y + 1 /\ 2 * Z.abs (A - y * B) = B /\ 2 * Z.abs (A - z * B) = B) by nia.
  destruct (Z.lt_ge_cases y z) as [L|L].
  - destruct (K y z L Y1 Z1) as (-> & Ty & Tz). specialize (Y2 Ty). specialize (Z2 Tz).
    rewrite Z.even_add, Y2 in Z2. discriminate Z2.
  - destruct (K z y ltac:(lia) Z1 Y1) as (-> & Tz & Ty). specialize (Y2 Ty). specialize (Z2 Tz).
    rewrite Z.even_add, Z2 in Y2. discriminate Y2.
Qed.

(** ** frames_at *)
Lemma frames_at_nearest t tr r : t_rate t = Some tr -> positive_rate tr -> positive_rate r ->
  is_int (t_frames t) -> is_int (num tr) -> is_int (den tr) -> is_int (num r) -> is_int (den r) ->
  is_int (num tr * den r) -> Z.abs (t_frames t * den tr * num r) < 2 ^ 52 ->
  frames_at t r = to_int (Some (div_rne (t_frames t * den tr * num r) (num tr * den r))).
Proof.
  intros Hr [Pn Pd] [Qn Qd] I1 I2 I3 I4 I5 I6 B. unfold frames_at. rewrite Hr.
  unfold imul. rewrite chk_ok by exact I6. cbn [bind]. f_equal.
  unfold is_int in *.
  apply rint_ddiv_int.
  - apply dmul_int; [apply dmul_int| |]; try (apply d_of_int_ok).
    + lia.
    + lia.
    + rewrite Z.abs_mul in B. assert (Z.abs (t_frames t * den tr) * 1 <= Z.abs (t_frames t * den tr) * Z.abs (num r)); [|lia].
      apply Z.mul_le_mono_nonneg_l; lia.
    + lia.
    + lia.
  - apply d_of_int_ok. lia.
  - nia.
  - exact B.
Qed.

Lemma frames_at_spec t tr r : t_rate t = Some tr -> positive_rate tr -> positive_rate r ->
  is_int (t_frames t) -> is_int (num tr) -> is_int (den tr) -> is_int (num r) -> is_int (den r) ->
  is_int (num tr * den r) -> Z.abs (t_frames t * den tr * num r) < 2 ^ 52 ->
  exists z, nearest_even (t_frames t * den tr * num r) (num tr * den r) z /\ as_int z (frames_at t r).
Proof.
  intros Hr [Pn Pd] [Qn Qd] I1 I2 I3 I4 I5 I6 B.
  exists (div_rne (t_frames t * den tr * num r) (num tr * den r)). split; [apply div_rne_nearest; nia|].
  rewrite (frames_at_nearest t tr r) by (try assumption; split; assumption).
  unfold as_int, to_int. destruct (in_int _) eqn:E.
  - left. apply in_int_iff in E. auto.
  - right. apply in_int_false in E. eauto.
Qed.


Lemma frames_at_eq t tr r z : t_rate t = Some tr -> positive_rate tr -> positive_rate r ->
  is_int (t_frames t) -> is_int (num tr) -> is_int (den tr) -> is_int (num r) -> is_int (den r) ->
  is_int (num tr * den r) -> Z.abs (t_frames t * den tr * num r) < 2 ^ 52 ->
  nearest_even (t_frames t * den tr * num r) (num tr * den r) z -> is_int z -> frames_at t r = Ok z.
Proof.
  intros Hr P Q I1 I2 I3 I4 I5 I6 B N Iz.
  destruct (frames_at_spec t tr r Hr P Q I1 I2 I3 I4 I5 I6 B) as (y & Ny & A).
  destruct P as [P1 P2], Q as [Q1 Q2]. assert (BP : 0 < num tr * den r) by (now apply Z.mul_pos_pos).
  rewrite (nearest_even_unique _ _ _ _ BP Ny N) in A.
  destruct A as [[_ A]|[A _]]; [exact A | contradiction].
Qed.

Lemma frames_at_other t r :
  (t_rate t = None -> frames_at t r = Throw EUnknownFrameRate) /\
  (forall tr, t_rate t = Some tr -> ~ is_int (num tr * den r) -> frames_at t r = Undef UbIntOverflow).
Proof.
  unfold frames_at. split.
  - intros ->. reflexivity.
  - intros tr -> N. unfold imul. now rewrite chk_undef.
Qed.

(** ** C01 *)
Lemma hms_seconds_ok h m s : 0 <= h -> 0 <= m < 60 -> 0 <= s < 60 -> is_int (h * 3600 + m * 60 + s) ->
  hms_seconds h m s = Ok (h * 3600 + m * 60 + s).
Proof.
  intros Hh Hm Hs I. unfold hms_seconds, imul, iadd, is_int in *.
  rewrite (chk_ok (h * 3600)) by (unfold is_int; lia). cbn [bind].
  rewrite (chk_ok (m * 60)) by (unfold is_int; lia). cbn [bind].
  rewrite (chk_ok (h * 3600 + m * 60)) by (unfold is_int; lia). cbn [bind].
  now apply chk_ok.
Qed.

Lemma components h m s t : 0 <= h -> 0 <= m < 60 -> 0 <= s < 60 -> t_seconds t = h * 3600 + m * 60 + s ->
  hours t = h /\ minutes t = m /\ seconds t = s.
Proof.
  intros Hh Hm Hs E.
  assert (H : hours t = h).
  { unfold hours. rewrite E, Z.quot_div_nonneg by lia.
    symmetry. apply (Z.div_unique _ _ _ (m * 60 + s)); lia. }
  assert (M : minutes t = m).
  { unfold minutes. rewrite H, E. rewrite Z.quot_div_nonneg by lia.
    symmetry. apply (Z.div_unique _ _ _ s); lia. }
  unfold seconds. rewrite H, M, E. lia.
Qed.

Lemma from_hms_components h m s ms : 0 <= h -> 0 <= m < 60 -> 0 <= s < 60 ->
  is_int (h * 3600 + m * 60 + s) -> is_int ms ->
  exists t, from_hms h m s ms = Ok t /\ hours t = h /\ minutes t = m /\ seconds t = s /\ milliseconds t = Ok ms /\
            t_rate t = Some (mkR 1000 1).
Proof.
  intros Hh Hm Hs I Ims. unfold from_hms. rewrite hms_seconds_ok by assumption. cbn [bind].
  exists (mkT (h * 3600 + m * 60 + s) ms (Some (mkR 1000 1))).
  split; [reflexivity|].
  destruct (components h m s (mkT (h * 3600 + m * 60 + s) ms (Some (mkR 1000 1))) Hh Hm Hs eq_refl) as (A & B & C).
  repeat split; [exact A | exact B | exact C |].
  unfold milliseconds. apply (frames_at_eq _ (mkR 1000 1)); cbn [t_rate t_frames num den]; unfold is_int, positive_rate in *; cbn [num den]; try lia; auto.
  split; [lia | intros; lia].
Qed.

Lemma from_hmsf_components h m s f r : 0 <= h -> 0 <= m < 60 -> 0 <= s < 60 ->
  is_int (h * 3600 + m * 60 + s) ->
  exists t, from_hmsf h m s f r = Ok t /\ hours t = h /\ minutes t = m /\ seconds t = s /\ t_frames t = f /\ t_rate t = r.
Proof.
  intros Hh Hm Hs I. unfold from_hmsf. rewrite hms_seconds_ok by assumption. cbn [bind].
  exists (mkT (h * 3600 + m * 60 + s) f r).
  split; [reflexivity|].
  destruct (components h m s (mkT (h * 3600 + m * 60 + s) f r) Hh Hm Hs eq_refl) as (A & B & C). auto.
Qed.

(** ** C07 *)
Lemma frame_ms_frame s s' f fps : 1 <= fps <= 1000 -> 0 <= f < fps ->
  exists ms, milliseconds (mkT s f (Some (mkR fps 1))) = Ok ms /\ 0 <= ms <= 1000 /\
             frames_at (mkT s' ms (Some (mkR 1000 1))) (mkR fps 1) = Ok f.
Proof.
  intros Hp Hf.
  set (z := div_rne (f * 1 * 1000) (fps * 1)).
  assert (N : nearest_even (f * 1 * 1000) (fps * 1) z) by (apply div_rne_nearest; lia).
  assert (Bz : 0 <= z <= 1000) by (destruct N as [N _]; nia).
  exists z. split; [|split; [exact Bz|]].
  - clearbody z. unfold milliseconds. apply (frames_at_eq _ (mkR fps 1)); cbn [t_rate t_frames num den]; unfold is_int, positive_rate; cbn [num den]; try lia; auto.
  - clearbody z. assert (0 <= z * fps <= 1000 * 1000) by nia.
    apply (frames_at_eq _ (mkR 1000 1)); cbn [t_rate t_frames num den]; unfold is_int, positive_rate; cbn [num den]; try lia; auto.
    destruct N as [N1 N2].
    assert (2 * Z.abs (z * fps - f * 1000) <= fps) as E by lia.
    destruct (Z.eq_dec fps 1000) as [->|NE].
    + assert (z = f) by lia. subst z. split; [lia | intros; lia].
    + split; [lia|]. intros T. lia.
Qed.

(** ** C08 *)
Lemma from_frames_ok f r k : whole_rate r k -> 0 < k -> is_int f -> is_int k ->
  exists t, from_frames f r = Ok t /\ t_rate t = Some r /\ f = t_seconds t * k + t_frames t /\
            (0 <= f -> 0 <= t_frames t < k) /\ (f <= 0 -> - k < t_frames t <= 0).
Proof.
  intros [Hd Hn] Hk If Ik. unfold from_frames.
  destruct (Z.eqb_spec (den r) 0) as [E|E]; [contradiction|]. cbn [negb sub_assert bind].
  assert (Q : Z.quot (num r) (den r) = k) by (rewrite Hn; apply Z.quot_mul; exact Hd).
  unfold r_integer, imod, r_integer_fraction, idiv.
  destruct (Z.eqb_spec (den r) 0) as [E'|_]; [contradiction|].
  rewrite Q, chk_ok by exact Ik. cbn [bind].
  assert (R : Z.rem (num r) (den r) = 0) by (rewrite Hn; apply Z.rem_mul; exact Hd).
  rewrite R. cbn [Z.eqb sub_assert bind].
  destruct (Z.eqb_spec k 0) as [K|K]; [lia|]. unfold is_int in *.
  assert (Iq : is_int (Z.quot f k)).
  { unfold is_int. destruct (Z.le_ge_cases 0 f) as [P|P].
    - rewrite Z.quot_div_nonneg by lia. pose proof (Z.div_pos f k P Hk). pose proof (Z.div_le_upper_bound f k f Hk ltac:(nia)). lia.
    - rewrite <- (Z.opp_involutive f), Z.quot_opp_l by lia. rewrite Z.quot_div_nonneg by lia.
      pose proof (Z.div_pos (- f) k ltac:(lia) Hk). pose proof (Z.div_le_upper_bound (- f) k (- f) Hk ltac:(nia)). lia. }
  rewrite chk_ok by exact Iq. cbn [bind].
  eexists. split; [reflexivity|]. cbn [t_rate t_seconds t_frames]. split; [reflexivity|].
  pose proof (Z.quot_rem f k K) as QR. split; [lia|].
  split; intros S.
  - apply Z.rem_bound_pos; lia.
  - pose proof (Z.rem_opp_l f k K). pose proof (Z.rem_bound_pos (- f) k ltac:(lia) Hk). lia.
Qed.

Lemma from_frames_errors f r : is_int (num r) -> is_int (den r) ->
  (den r = 0 -> from_frames f r = Throw EProgramming) /\
  (den r <> 0 -> (forall k, num r <> k * den r) -> from_frames f r = Throw EProgramming) /\
  (den r <> 0 -> num r = 0 -> from_frames f r = Undef UbDivZero).
Proof.
  intros In Id. unfold from_frames. split; [|split].
  - intros ->. reflexivity.
  - intros Hd Hn. destruct (Z.eqb_spec (den r) 0) as [E|E]; [contradiction|]. cbn [negb sub_assert bind].
    unfold r_integer, imod. destruct (Z.eqb_spec (den r) 0) as [E'|_]; [contradiction|].
    rewrite chk_ok.
    + cbn [bind]. destruct (Z.eqb_spec (Z.rem (num r) (den r)) 0) as [R|R]; [|reflexivity].
      exfalso. apply (Hn (Z.quot (num r) (den r))). pose proof (Z.quot_rem (num r) (den r) Hd). lia.
    + (* only int_min / -1 overflows, and it divides *)
      unfold is_int in *. pose proof (Z.quot_rem (num r) (den r) Hd) as QR.
      pose proof (Z.rem_bound_abs (num r) (den r) Hd) as RB.
      destruct (Z.eq_dec (den r) (-1)) as [M|M].
      { exfalso. apply (Hn (- num r)). rewrite M. lia. }
      destruct (Z.eq_dec (den r) 1) as [M1|M1].
      { exfalso. apply (Hn (num r)). rewrite M1. lia. }
      assert (2 <= Z.abs (den r)) by lia.
      assert (Z.abs (Z.quot (num r) (den r)) <= Z.abs (num r) / 2).
      { rewrite <- Z.quot_abs by exact Hd. rewrite Z.quot_div_nonneg by lia.
        apply Z.div_le_compat_l; lia. }
      assert (Z.abs (num r) / 2 <= 1073741824) by (apply Z.div_le_upper_bound; lia). lia.
  - intros Hd Hn. destruct (Z.eqb_spec (den r) 0) as [E|E]; [contradiction|]. cbn [negb sub_assert bind].
    unfold r_integer, imod, r_integer_fraction, idiv. destruct (Z.eqb_spec (den r) 0) as [E'|_]; [contradiction|].
    rewrite Hn. rewrite Z.quot_0_l, Z.rem_0_l by exact Hd. reflexivity.
Qed.
