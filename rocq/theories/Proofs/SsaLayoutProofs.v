(** Where SSA text goes. *)
From Coq Require Import ZArith Reals Lra Lia Psatz List Bool Ascii String.
From Coq.Floats Require Import SpecFloat.
From Flocq Require Import Core BinarySingleNaN.
From Verif.Model Require Import Base Strings Float TimeModel Types Lines RawConvert.
From Verif.Spec Require Import Outcome TextSpec LinesSpec StlFileSpec RawSpec PositionSpec NumberSpec SsaTagSpec SsaSpec SsaUseSpec.
From Verif.Model Require Import Ssa.
From Verif.Proofs Require Import FloatProofs PositionProofs StringProofs LinesProofs StlReadProofs SsaTagProofs SsaTextProofs SsaProofs NumberProofs SsaUseProofs.
Import ListNotations.
Local Notation length := List.length.
Local Open Scope R_scope.

(** * Rounding errors *)

Definition two : R := bpow radix2 (-51).
Definition e23 : R := bpow radix2 (-23).
Definition e52 : R := bpow radix2 (-52).
Lemma e23_val : e23 = / 8388608. Proof. unfold e23. change (-23)%Z with (- (23))%Z. rewrite bpow_val by lia. reflexivity. Qed.
Lemma e52_val : e52 = / 4503599627370496. Proof. unfold e52. change (-52)%Z with (- (52))%Z. rewrite bpow_val by lia. reflexivity. Qed.
Lemma err32 x : Rabs x < 4 -> Rabs (rnd32 x - x) <= e23.
Proof.
  intros B. eapply Rle_trans; [apply (rnd32_err x 2); [lia|exact B]|]. rewrite e23_val. change (2 - 24)%Z with (- (22))%Z. rewrite bpow_val by lia. change (2 ^ 22)%Z with 4194304%Z. lra.
Qed.
Lemma err64 x : Rabs x < 4 -> Rabs (rnd64 x - x) <= e52.
Proof.
  intros B. eapply Rle_trans; [apply (rnd64_err x 2); [lia|exact B]|]. rewrite e52_val. change (2 - 53)%Z with (- (51))%Z. rewrite bpow_val by lia. change (2 ^ 51)%Z with 2251799813685248%Z. lra.
Qed.
Lemma ok32 x : Rabs x <= 8 -> Rabs (rnd32 x) < bpow radix2 128.
Proof. intros B. apply small_lt_128. eapply Rle_trans; [exact B|]. apply IZR_le. vm_compute. discriminate. Qed.
Lemma ok64 x : Rabs x <= 8 -> Rabs (rnd64 x) < bpow radix2 1024.
Proof. intros B. apply small_lt_1024. eapply Rle_trans; [exact B|]. apply IZR_le. vm_compute. discriminate. Qed.

Lemma factor_double : exists q, is_d (d_lit 12 10) q /\ Rabs (q - 6 / 5) <= e52.
Proof.
  exists (IZR 5404319552844595 * bpow radix2 (-52)). split.
  - assert (E : d_lit 12 10 = S754_finite false 5404319552844595 (-52)) by (vm_compute; reflexivity).
    rewrite E. split; [reflexivity|]. split; [reflexivity|]. rewrite SF2R_finite. reflexivity.
  - fold e52. rewrite e52_val. apply Rabs_le. lra.
Qed.

(** The height of a row is 1.2 times the size of the font. *)
Lemma row_size_value c base z : float_value (size_of c base) z -> 0 <= z <= 1 -> exists h, is_d (row_size c base) h /\ 0 <= h <= 3 / 2 /\ Rabs (h - 6 / 5 * z) <= 2 * e52.
Proof.
  intros V B. destruct factor_double as (q & Q & QE). rewrite e52_val in *. apply Rabs_le_inv in QE.
  assert (A : Rabs (z * q) < 4) by (apply Rabs_def1; nra).
  pose proof (err64 _ A) as E. rewrite e52_val in E. apply Rabs_le_inv in E.
  exists (rnd64 (z * q)). split.
  - unfold row_size. apply dmul_ok; [now apply d_of_f_ok|exact Q|]. apply ok64. lra.
  - assert (P : 0 <= rnd64 (z * q)) by (rewrite <- (round_0 radix2 (SpecFloat.fexp 53 1024) ZnearestE); apply rnd64_mono; nra).
    split; [split; [exact P|nra]|]. apply Rabs_le. nra.
Qed.

(** One row down. *)
Definition dir (ref : vref) : R := match ref with BOTTOM_OF_SCREEN => -1 | _ => 1 end.
Lemma shifted_value size h ref p x : is_d size h -> float_value p x -> Rabs x <= 2 -> 0 <= h <= 3 / 2 ->
  exists y, float_value (shifted size ref p) y /\ Rabs (y - (x + dir ref * h)) <= e23 + e52.
Proof.
  intros H P X B. apply Rabs_le_inv in X.
  assert (G : forall w, Rabs w <= 7/2 -> Rabs (rnd32 (rnd64 w) - w) <= e23 + e52 /\ Rabs (rnd64 w) <= 8).
  { intros w W. pose proof (err64 w ltac:(lra)) as E1. rewrite e52_val in *. rewrite e23_val in *. apply Rabs_le_inv in W, E1.
    assert (W' : Rabs (rnd64 w) < 4) by (apply Rabs_def1; lra). pose proof (err32 _ W') as E2. rewrite e23_val in E2. apply Rabs_le_inv in E2. split; [apply Rabs_le; lra|lra]. }
  assert (D : dir ref = 1 \/ dir ref = -1) by (destruct ref; cbn; tauto).
  assert (W : Rabs (x + dir ref * h) <= 7/2) by (apply Rabs_le; destruct D as [-> | ->]; lra). destruct (G _ W) as [G1 G2].
  exists (rnd32 (rnd64 (x + dir ref * h))). split; [|exact G1].
  assert (S : is_d (match ref with BOTTOM_OF_SCREEN => dsub (d_of_f p) size | _ => dadd (d_of_f p) size end) (rnd64 (x + dir ref * h))).
  { destruct ref; cbn [dir] in *; [ | |replace (x + -1 * h) with (x - h) in * by lra|].
    all: try (replace (1 * h) with h in * by lra).
    1,2,4: apply dadd_ok; [now apply d_of_f_ok|exact H|apply ok64; lra].
    apply dsub_ok; [now apply d_of_f_ok|exact H|apply ok64; lra]. }
  replace (shifted size ref p) with (f_of_d (match ref with BOTTOM_OF_SCREEN => dsub (d_of_f p) size | _ => dadd (d_of_f p) size end)) by (destruct ref; reflexivity).
  apply f_of_d_ok; [exact S|]. now apply ok32.
Qed.

(** * Rows *)

Section Rows.
  Variables (c : ssa_context) (size : flt) (h : R) (ref : vref).
  Hypothesis SZ : is_d size h.
  Hypothesis HB : 0 <= h <= 3 / 2.

  (** After [k] breaks. *)
  Definition on_row (k : Z) (r : raw) : Prop :=
    v_ref (r_vpos r) = Some ref /\ exists p y, v_prop (r_vpos r) = Some p /\ float_value p y /\ Rabs (y - dir ref * IZR k * h) <= IZR k * (e23 + e52).

  Lemma on_row_next k r r1 : (0 <= k)%Z -> IZR k * (h + e23 + e52) <= 2 -> on_row k r -> row_below size r r1 -> on_row (k + 1) r1.
  Proof.
    intros K B (R & p & y & P & V & E) (ref' & p' & R' & P' & ->). rewrite R in R'. injection R' as <-. rewrite P in P'. injection P' as <-.
    assert (K0 : 0 <= IZR k) by (apply IZR_le; exact K).
    assert (Y : Rabs y <= 2). { apply Rabs_le. apply Rabs_le_inv in E. destruct ref; cbn [dir] in E; rewrite e23_val, e52_val in *; nra. }
    destruct (shifted_value size h ref p y SZ V Y HB) as (z & Z1 & Z2). split; [exact R|]. exists (shifted size ref p), z. split; [reflexivity|]. split; [exact Z1|].
    rewrite plus_IZR. replace (z - dir ref * (IZR k + 1) * h) with ((z - (y + dir ref * h)) + (y - dir ref * IZR k * h)) by ring.
    eapply Rle_trans; [apply Rabs_triang|]. lra.
  Qed.
  Lemma on_row_tag k r t r1 : on_row k r -> override c r t r1 -> stays (Tag t) -> on_row k r1.
  Proof.
    intros O V S. cbn [stays] in S. destruct S as (N1 & N2).
    inversion V as [s f I E|k' h' v x I M E|a b1 x b2 y M1 M2 M3 B1 B2 E|n NE E|s last k' K E|E|t' M1 M2 M3 M4 M5 E]; subst; try exact O.
    - cbn in I. repeat destruct I as [I|I]; try contradiction; injection I as <- <-; exact O.
    - now elim (N1 _ _ I).
    - now elim (N2 _ eq_refl).
  Qed.

  Lemma breaks_nonneg its : (0 <= breaks its)%Z.
  Proof. induction its as [|[x| |t] its IH]; cbn [breaks]; lia. Qed.
  Lemma cut_rows r text its ps : cut_up c size r text its ps -> forall k, (0 <= k)%Z -> IZR (k + breaks its) * (h + e23 + e52) <= 2 -> on_row k r -> Forall stays its ->
    exists kr, ps = map snd kr /\ Forall (fun p => on_row (fst p) (snd p) /\ (k <= fst p <= k + breaks its)%Z) kr /\
      List.concat (map letters_on kr) = map (fun x => (x, k)) text ++ letters_in_rows k its.
  Proof.
    assert (PC : forall k text r, on_row k r -> exists kr, with_piece text r = map snd kr /\ Forall (fun p => on_row (fst p) (snd p) /\ fst p = k) kr /\
      List.concat (map letters_on kr) = map (fun x => (x, k)) text).
    { intros k tx q O. destruct tx as [|x tx]; [exists []; repeat split; constructor|]. exists [(k, with_text (x :: tx) q)]. split; [reflexivity|]. split.
      - constructor; [|constructor]. split; [exact O|reflexivity].
      - cbn [map List.concat letters_on]. now rewrite app_nil_r. }
    assert (MONO : forall kr a b a' b', Forall (fun p : Z * raw => on_row (fst p) (snd p) /\ (a <= fst p <= b)%Z) kr -> (a' <= a)%Z -> (b <= b')%Z ->
      Forall (fun p : Z * raw => on_row (fst p) (snd p) /\ (a' <= fst p <= b')%Z) kr).
    { intros kr a b a' b' F L1 L2. revert F. apply Forall_impl. intros p (O & L). split; [exact O|lia]. }
    induction 1 as [r text|r text x its ps C IH|r text t r1 its ps O C IH|r text r1 its ps B C IH]; intros k K L OR S.
    - destruct (PC k text r OR) as (kr & E1 & E2 & E3). exists kr. split; [exact E1|]. split; [|rewrite E3; cbn; now rewrite app_nil_r].
      revert E2. apply Forall_impl. intros p (A & E). cbn [breaks]. split; [exact A|lia].
    - inversion S as [|? ? _ S']; subst. cbn [breaks] in L. destruct (IH k K L OR S') as (kr & E1 & E2 & E3). exists kr. split; [exact E1|]. split; [exact E2|].
      rewrite E3, map_app, <- app_assoc. reflexivity.
    - inversion S as [|? ? ST S']; subst. cbn [breaks] in *. destruct (IH k K L (on_row_tag _ _ _ _ OR O ST) S') as (kr & E1 & E2 & E3).
      destruct (PC k text r OR) as (kr0 & F1 & F2 & F3). exists (kr0 ++ kr). rewrite !map_app, concat_app, E1, F1, E3, F3. split; [reflexivity|]. split; [|reflexivity].
      apply Forall_app. split; [|exact E2]. pose proof (breaks_nonneg its). revert F2. apply Forall_impl. intros p (A & E). split; [exact A|lia].
    - inversion S as [|? ? ST S']; subst. cbn [breaks] in *. pose proof (breaks_nonneg its) as BN.
      assert (L0 : IZR k * (h + e23 + e52) <= 2).
      { eapply Rle_trans; [|exact L]. apply Rmult_le_compat_r; [rewrite e23_val, e52_val; lra|]. apply IZR_le. lia. }
      destruct (IH (k + 1)%Z ltac:(lia) ltac:(replace (k + 1 + breaks its)%Z with (k + (1 + breaks its))%Z by lia; exact L) (on_row_next _ _ _ K L0 OR B) S') as (kr & E1 & E2 & E3).
      destruct (PC k text r OR) as (kr0 & F1 & F2 & F3). exists (kr0 ++ kr). rewrite !map_app, concat_app, E1, F1, E3, F3. split; [reflexivity|]. split; [|reflexivity].
      apply Forall_app. split.
      + revert F2. apply Forall_impl. intros p (A & E). split; [exact A|lia].
      + apply (MONO _ _ _ _ _ E2); lia.
  Qed.
End Rows.

(** * The final position *)

Lemma e23_52 : e52 * 536870912 = e23. Proof. rewrite e23_val, e52_val. lra. Qed.
Lemma e23_pos : 0 < e23 < / 8000000. Proof. rewrite e23_val. lra. Qed.

Lemma final_value base n size h ref p y k m z : is_d size h -> 0 <= h <= 3 / 2 -> Rabs (h - 6 / 5 * z) <= 2 * e52 -> (0 <= k <= n)%Z -> (n <= 1000000)%Z ->
  IZR (n + 1) * (6 / 5 * z) <= 1 -> float_value p y -> Rabs (y - dir ref * IZR k * h) <= IZR k * (e23 + e52) -> float_value (margin_of base) m -> Rabs m <= 1 ->
  exists x, float_value (final_proportion base n size ref p) x /\ Rabs (x - row_offset ref n k m (6 / 5 * z)) <= (IZR k + 2) / 4194304.
Proof.
  intros S HB HE KN N1 FIT P YE M MB. set (g := 6 / 5 * z) in *.
  assert (K0 : 0 <= IZR k) by (apply IZR_le; lia). assert (KN' : IZR k <= IZR n) by (apply IZR_le; lia). assert (N0 : IZR n <= 1000000) by (apply IZR_le; lia).
  assert (DN : is_d (d_of_int n) (IZR n)) by (apply d_of_int_ok; lia). assert (DN1 : is_d (d_of_int (n + 1)) (IZR n + 1)) by (rewrite <- plus_IZR; apply d_of_int_ok; lia).
  assert (D2 : is_d (d_of_int 2) 2) by (apply d_of_int_ok; lia).
  unfold row_offset. rewrite plus_IZR, minus_IZR in *. pose proof e23_52 as EE. pose proof e23_pos as EP.
  replace ((IZR k + 2) / 4194304) with (2 * (IZR k * e23) + 4 * e23) by (rewrite e23_val; lra).
  apply Rabs_le_inv in HE, MB. set (a := IZR k) in *. set (b := IZR n) in *.
  assert (E64 : forall x, Rabs x <= 7/2 -> Rabs (rnd64 x - x) <= e52) by (intros x X; apply err64; lra).
  assert (E32 : forall x, Rabs x <= 7/2 -> Rabs (rnd32 x - x) <= e23) by (intros x X; apply err32; lra).
  assert (O64 : forall x, Rabs x <= 7/2 -> Rabs (rnd64 x) < bpow radix2 1024) by (intros x X; apply ok64; lra).
  assert (O32 : forall x, Rabs x <= 7/2 -> Rabs (rnd32 x) < bpow radix2 128) by (intros x X; apply ok32; lra).
  set (u := e52) in *. set (w := e23) in *.
  assert (U : 0 < u < / 4000000000000000) by lra. assert (UW : u <= w / 500) by lra.
  assert (AW : a * w <= 1 / 8) by (apply Rle_trans with (1000000 * w); [apply Rmult_le_compat_r; lra|lra]).
  assert (AU : 0 <= a * u <= w / 500) by (split; [apply Rmult_le_pos; lra|apply Rle_trans with (1000000 * u); [apply Rmult_le_compat_r; lra|lra]]).
  assert (BU : 0 <= b * u <= w / 500) by (split; [apply Rmult_le_pos; lra|apply Rle_trans with (1000000 * u); [apply Rmult_le_compat_r; lra|lra]]).
  assert (AW0 : 0 <= a * w) by (apply Rmult_le_pos; lra).
  assert (AG : a * g - 2 * (a * u) <= a * h <= a * g + 2 * (a * u)) by (split; [assert (0 <= a * (h - (g - 2 * u))) by (apply Rmult_le_pos; lra)|assert (0 <= a * (g + 2 * u - h)) by (apply Rmult_le_pos; lra)]; lra).
  assert (BG : b * g - 2 * (b * u) <= b * h <= b * g + 2 * (b * u)) by (split; [assert (0 <= b * (h - (g - 2 * u))) by (apply Rmult_le_pos; lra)|assert (0 <= b * (g + 2 * u - h)) by (apply Rmult_le_pos; lra)]; lra).
  assert (AH : 0 <= a * h) by (apply Rmult_le_pos; lra). assert (ABH : a * h <= b * h) by (apply Rmult_le_compat_r; lra).
  assert (FIT' : b * h + h <= 1 + / 1000) by lra. clearbody a b u w g. clear EE KN N1.
  apply Rabs_le_inv in YE. replace (a * (w + u)) with (a * w + a * u) in YE by ring. replace (dir ref * a * h) with (dir ref * (a * h)) in YE by ring.
  assert (Y : - (3 / 2) <= y <= 3 / 2) by (destruct ref; cbn [dir] in YE; lra).
  assert (ADD : exists x1, float_value (fadd p (margin_of base)) x1 /\ - w <= x1 - (y + m) <= w).
  { assert (B : Rabs (y + m) <= 7 / 2) by (apply Rabs_le; lra). exists (rnd32 (y + m)). split; [apply fadd_ok; [exact P|exact M|now apply O32]|]. apply Rabs_le_inv. now apply E32. }
  assert (TOPS : dir ref = 1 -> forall x1, - w <= x1 - (y + m) <= w -> Rabs (x1 - (m + a * g)) <= 2 * (a * w) + 4 * w).
  { intros D x1 X. rewrite D in YE. apply Rabs_le. lra. }
  destruct ref; cbn [final_proportion dir] in *.
  - destruct ADD as (x1 & X1 & X2). exists x1. split; [exact X1|]. now apply TOPS.
  - (* the middle *)
    assert (B1 : Rabs ((b + 1) * h) <= 7 / 2) by (apply Rabs_le; lra).
    pose proof (dmul_ok _ _ _ _ DN1 S (O64 _ B1)) as V1. pose proof (E64 _ B1) as R1. apply Rabs_le_inv in R1. set (x1 := rnd64 ((b + 1) * h)) in *. clearbody x1.
    assert (B2 : Rabs (x1 / 2) <= 7 / 2) by (apply Rabs_le; lra).
    pose proof (ddiv_ok _ _ _ _ V1 D2 ltac:(lra) (O64 _ B2)) as V2. pose proof (E64 _ B2) as R2. apply Rabs_le_inv in R2. set (x2 := rnd64 (x1 / 2)) in *. clearbody x2.
    assert (B3 : Rabs (y - x2) <= 7 / 2) by (apply Rabs_le; lra).
    pose proof (dsub_ok _ _ _ _ (d_of_f_ok _ _ P) V2 (O64 _ B3)) as V3. pose proof (E64 _ B3) as R3. apply Rabs_le_inv in R3. set (x3 := rnd64 (y - x2)) in *. clearbody x3.
    assert (B4 : Rabs x3 <= 7 / 2) by (apply Rabs_le; lra).
    exists (rnd32 x3). split; [apply f_of_d_ok; [exact V3|now apply O32]|]. pose proof (E32 _ B4) as R4. apply Rabs_le_inv in R4. apply Rabs_le.
    replace ((a - (b + 1) / 2) * g) with (a * g - (b * g + g) / 2) by field. lra.
  - (* the bottom *)
    destruct ADD as (x1 & X1 & X2).
    assert (B1 : Rabs (b * h) <= 7 / 2) by (apply Rabs_le; lra).
    pose proof (dmul_ok _ _ _ _ DN S (O64 _ B1)) as V1. pose proof (E64 _ B1) as R1. apply Rabs_le_inv in R1. set (x2 := rnd64 (b * h)) in *. clearbody x2.
    assert (B2 : Rabs (x1 + x2) <= 7 / 2) by (apply Rabs_le; lra).
    pose proof (dadd_ok _ _ _ _ (d_of_f_ok _ _ X1) V1 (O64 _ B2)) as V2. pose proof (E64 _ B2) as R2. apply Rabs_le_inv in R2. set (x3 := rnd64 (x1 + x2)) in *. clearbody x3.
    assert (B3 : Rabs x3 <= 7 / 2) by (apply Rabs_le; lra).
    exists (rnd32 x3). split; [apply f_of_d_ok; [exact V2|now apply O32]|]. pose proof (E32 _ B3) as R3. apply Rabs_le_inv in R3. apply Rabs_le.
    replace (m + (b - a) * g) with (m + b * g - a * g) by ring. lra.
  - destruct ADD as (x1 & X1 & X2). exists x1. split; [exact X1|]. now apply TOPS.
Qed.

Lemma marks_cons c s : forall n n', break_marks (c :: s) n -> break_marks s n' -> (n' <= n)%Z.
Proof.
  intros n n' M M'. inversion M as [|c' s' k B M2|c' s' k B M2]; subst.
  - assert (k = n') by (apply (marks_unique _ _ M2 _ M')). lia.
  - assert (n = n') by (apply (marks_unique _ _ M2 _ M')). lia.
Qed.
Lemma marks_suffix a s : forall n n', break_marks (a ++ s) n -> break_marks s n' -> (n' <= n)%Z.
Proof.
  induction a as [|c a IH]; intros n n' M M'; [assert (n = n') by (apply (marks_unique _ _ M _ M')); lia|]. cbn [app] in M.
  assert (E : exists k, break_marks (a ++ s) k) by (inversion M; eauto). destruct E as (k & E). specialize (IH k n' E M'). pose proof (marks_cons _ _ _ _ M E). lia.
Qed.
Lemma breaks_app a b : breaks (a ++ b) = (breaks a + breaks b)%Z.
Proof. induction a as [|x a IH]; [reflexivity|]. destruct x; cbn [app breaks]; rewrite IH; lia. Qed.
Lemma tags_no_breaks tags : breaks (map Tag tags) = 0%Z.
Proof. induction tags as [|t tags IH]; [reflexivity|]. exact IH. Qed.
Lemma marks_exist s : exists n, break_marks s n.
Proof. eexists. apply marks_iff. reflexivity. Qed.
Lemma marks_nonneg s n : break_marks s n -> (0 <= n)%Z.
Proof. induction 1; lia. Qed.
Lemma breaks_marks s its : ssa_text s its -> forall n, break_marks s n -> (breaks its <= n)%Z.
Proof.
  induction 1 as [|c s its N1 N2 N3 T IH|c s its L T IH|c s its B T IH|c s its B T IH| |body tags s its N B T IH|body tags last N B]; intros n M; cbn [breaks].
  - now apply marks_nonneg in M.
  - destruct (marks_exist s) as (k & K). pose proof (IH k K). pose proof (marks_cons _ _ _ _ M K). lia.
  - destruct (marks_exist s) as (k & K). pose proof (IH k K). pose proof (marks_cons _ _ _ _ M K). lia.
  - destruct (marks_exist s) as (k & K). pose proof (IH k K). inversion M as [|c' s' q B' M2|c' s' q B' M2]; subst.
    + pose proof (marks_cons _ _ _ _ M2 K). lia.
    + exfalso. apply B'. split; [reflexivity|]. exact B.
  - destruct (marks_exist s) as (k & K). pose proof (IH k K). pose proof (marks_suffix [bslash; c] s n k M K). lia.
  - now apply marks_nonneg in M.
  - rewrite breaks_app, tags_no_breaks. destruct (marks_exist s) as (k & K). pose proof (IH k K).
    assert (M2 : break_marks (("{"%char :: body ++ ["}"%char]) ++ s) n) by (cbn [app]; rewrite <- app_assoc; exact M). pose proof (marks_suffix _ s n k M2 K). lia.
  - rewrite tags_no_breaks. now apply marks_nonneg in M.
Qed.

Theorem rows_as_is base s its c raws n z m : parse_line base s c = Ok raws -> r_text base = [] -> ssa_text s its -> Forall stays its ->
  break_marks s n -> (n <= 1000000)%Z -> float_value (size_of c base) z -> 0 <= z -> IZR (n + 1) * (6 / 5 * z) <= 1 ->
  float_value (margin_of base) m -> Rabs m <= 1 ->
  exists kr, raws = map snd kr /\ List.concat (map letters_on kr) = letters_in_rows 0 its /\
    Forall (fun p => placed (reference_of base) (row_offset (reference_of base) n (fst p) m (6 / 5 * z)) ((IZR (fst p) + 2) / 4194304) (snd p)) kr.
Proof.
  intros R B T S M N1 ZV Z0 FIT MV MB. apply parse_line_iff in R. destruct R as (its' & r & n' & ps & T' & F & M' & C & D).
  rewrite (items_unique _ _ _ T' T) in C. rewrite <- (marks_unique _ _ M _ M') in D. rewrite B in C. pose proof (breaks_nonneg its) as BN. pose proof (breaks_marks _ _ T _ M) as BM.
  assert (FB : 0 <= IZR (breaks its)) by (apply IZR_le; lia). assert (FN : IZR (breaks its) <= IZR n) by (apply IZR_le; lia).
  assert (ZB : 0 <= z <= 1). { split; [exact Z0|]. rewrite plus_IZR in FIT. nra. }
  destruct (row_size_value c base z ZV ZB) as (h & H1 & H2 & H3).
  assert (FR : on_row h (reference_of base) 0 r).
  { destruct F as (x & _ & ->). split; [reflexivity|]. exists (f_of_int 0), 0. split; [reflexivity|]. split; [apply f_of_int_ok; lia|]. rewrite Rminus_0_l, Rmult_0_r, Rmult_0_l, Rmult_0_l, Ropp_0, Rabs_R0. lra. }
  assert (L : IZR (0 + breaks its) * (h + e23 + e52) <= 2).
  { rewrite Z.add_0_l. rewrite plus_IZR in FIT. apply Rabs_le_inv in H3. assert (IZR (breaks its) <= 1000000) by (apply IZR_le; lia). assert (IZR (breaks its) * (6 / 5 * z) <= IZR n * (6 / 5 * z)) by (apply Rmult_le_compat_r; lra).
    pose proof e23_52. pose proof e23_pos. apply Rle_trans with (IZR (breaks its) * (6 / 5 * z) + 1000000 * (e23 + 3 * e52)); [|lra].
    apply Rle_trans with (IZR (breaks its) * (6 / 5 * z) + IZR (breaks its) * (e23 + 3 * e52)).
    - rewrite <- Rmult_plus_distr_l. apply Rmult_le_compat_l; lra.
    - apply Rplus_le_compat_l. apply Rmult_le_compat_r; lra. }
  destruct (cut_rows c (row_size c base) h (reference_of base) H1 H2 _ _ _ _ C 0%Z ltac:(lia) L FR S) as (kr & E1 & E2 & E3). subst ps. cbn [map app] in E3.
  enough (G : exists kr', raws = map snd kr' /\ map letters_on kr' = map letters_on kr /\
    Forall (fun p => placed (reference_of base) (row_offset (reference_of base) n (fst p) m (6 / 5 * z)) ((IZR (fst p) + 2) / 4194304) (snd p)) kr').
  { destruct G as (kr' & G1 & G2 & G3). exists kr'. split; [exact G1|]. split; [now rewrite G2|exact G3]. }
  clear E3 C. revert raws D E2. induction kr as [|[k p] kr IH]; intros raws D E2.
  - inversion D; subst. exists []. repeat split; constructor.
  - inversion D as [|? q ? raws' (ref & pr & R & P & ->) D']; subst. inversion E2 as [|? ? (O & KB) E2']; subst. cbn [fst snd] in *.
    destruct (IH _ D' E2') as (kr' & G1 & G2 & G3). exists ((k, with_proportion (final_proportion base n (row_size c base) ref pr) p) :: kr').
    split; [cbn [map snd]; now rewrite <- G1|]. split; [cbn [map]; now rewrite G2|]. constructor; [|exact G3].
    destruct O as (R' & pr' & y & P' & YV & YE). rewrite R in R'. injection R' as ->. rewrite P in P'. injection P' as <-.
    destruct (final_value base n _ h _ pr y k m z H1 H2 H3 ltac:(lia) N1 FIT YV YE MV MB) as (x & X1 & X2).
    split; [exact R|]. exists (final_proportion base n (row_size c base) (reference_of base) pr), x. split; [reflexivity|]. split; [exact X1|exact X2].
Qed.

Theorem rows_placed base s its c raws n z m : parse_line base s c = Ok raws -> r_text base = [] -> ssa_text s its -> Forall stays its ->
  break_marks s n -> n = breaks its -> (n <= 1000000)%Z -> float_value (size_of c base) z -> 0 <= z -> IZR (n + 1) * (6 / 5 * z) <= 1 ->
  float_value (margin_of base) m -> Rabs m <= 1 ->
  exists kr, raws = map snd kr /\ List.concat (map letters_on kr) = letters_in_rows 0 its /\
    Forall (fun p => placed (reference_of base) (row_offset (reference_of base) n (fst p) m (6 / 5 * z)) ((IZR (fst p) + 2) / 4194304) (snd p)) kr.
Proof. intros R B T S M _. now apply (rows_as_is base s its c). Qed.

(** * Positions *)

Definition number_char (c : ascii) : Prop := is_digit_char c \/ white c \/ In c (lit ".eE+-").
Lemma digit_number c : is_digit_char c -> number_char c. Proof. now left. Qed.
Lemma numeral_number d v : numeral d v -> Forall number_char d.
Proof. intros N. apply numeral_chars in N. destruct N as [N _]. revert N. apply Forall_impl. exact digit_number. Qed.
Lemma e_number e : e = "e"%char \/ e = "E"%char -> number_char e.
Proof. intros [->| ->]; right; right; cbn; tauto. Qed.
Lemma number_chars s x : number s x -> Forall number_char s.
Proof.
  assert (D : forall d x, decimal d x -> Forall number_char d).
  { intros d y H. destruct H as [d v N|ip fp v N]; [now apply (numeral_number _ _ N)|]. apply numeral_number in N. apply Forall_app in N. destruct N as [N1 N2].
    apply Forall_app. split; [exact N1|]. constructor; [right; right; cbn; tauto|exact N2]. }
  assert (X : forall e k, exponent e k -> Forall number_char e).
  { intros e k H. destruct H as [|e d v E N|e d v E N|e d v E N]; [constructor| | |]; (constructor; [now apply e_number|]); try (constructor; [right; right; cbn; tauto|]); now apply (numeral_number _ _ N). }
  assert (S : forall s x, scientific s x -> Forall number_char s).
  { intros t y H. destruct H as [d z e k H1 H2]. apply Forall_app. split; [now apply (D _ _ H1)|now apply (X _ _ H2)]. }
  assert (W : forall sp, Forall white sp -> Forall number_char sp) by (intros sp; apply Forall_impl; intros c H; right; now left).
  intros H. destruct H as [sp s x H1 H2|sp s x H1 H2|sp s x H1 H2]; apply Forall_app; (split; [now apply W|]); try (constructor; [right; right; cbn; tauto|]); now apply (S _ _ H2).
Qed.
Lemma number_without s x c : number s x -> In c [","; "("; "}"; bslash; ")"]%char -> ~ In c s.
Proof.
  intros N I J. apply number_chars in N. rewrite Forall_forall in N. specialize (N c J).
  destruct N as [(d & H1 & H2)|[N|N]]; cbn in I; repeat destruct I as [<-|I]; try contradiction.
  all: try code_lia_in H2. all: try (unfold white in N; code_lia_in N). all: cbn in N; repeat destruct N as [N|N]; try contradiction; discriminate.
Qed.

Lemma override_unique c r t r1 r2 : override c r t r1 -> override c r t r2 -> r1 = r2.
Proof. intros A B. apply parse_tag_iff in A, B. congruence. Qed.


Lemma share_value f x n : float_value f (nearest_float x) -> (0 < n < 2 ^ 24)%Z -> Rabs x <= IZR (2 ^ 23) ->
  float_value (fdiv f (f_of_int n)) (nearest_float (nearest_float x / IZR n)).
Proof.
  intros F N B. rewrite !nearest_is in *. apply fdiv_ok; [exact F|apply f_of_int_ok; lia| |].
  - apply not_0_IZR. lia.
  - apply small_lt_128. assert (B' : Rabs (rnd32 x) <= IZR (2 ^ 23)) by (apply (rnd_abs_le 24 128 p24 e24); [now vm_compute|exact B]).
    assert (N1 : 1 <= IZR n) by (apply IZR_le; lia). unfold Rdiv. rewrite Rabs_mult, (Rabs_right (/ IZR n)) by (apply Rle_ge, Rlt_le, Rinv_0_lt_compat; lra).
    apply Rle_trans with (Rabs (rnd32 x) * 1); [|lra]. apply Rmult_le_compat_l; [apply Rabs_pos|]. rewrite <- Rinv_1. apply Rinv_le; lra.
Qed.

Lemma share_bound x n : (0 < n < 2 ^ 24)%Z -> Rabs x <= IZR (2 ^ 23) -> Rabs (rnd32 (rnd32 x / IZR n)) <= IZR (2 ^ 23).
Proof.
  intros N B. apply (rnd_abs_le 24 128 p24 e24); [now vm_compute|]. assert (B' : Rabs (rnd32 x) <= IZR (2 ^ 23)) by (apply (rnd_abs_le 24 128 p24 e24); [now vm_compute|exact B]).
  assert (N1 : 1 <= IZR n) by (apply IZR_le; lia). unfold Rdiv. rewrite Rabs_mult, (Rabs_right (/ IZR n)) by (apply Rle_ge, Rlt_le, Rinv_0_lt_compat; lra).
  apply Rle_trans with (Rabs (rnd32 x) * 1); [|lra]. apply Rmult_le_compat_l; [apply Rabs_pos|]. rewrite <- Rinv_1. apply Rinv_le; lra.
Qed.
Lemma plus_margin f z m x n : float_value f (nearest_float (nearest_float x / IZR n)) -> float_value z m -> Rabs m <= 1 -> (0 < n < 2 ^ 24)%Z -> Rabs x <= IZR (2 ^ 23) ->
  float_value (fadd f z) (nearest_float (nearest_float (nearest_float x / IZR n) + m)).
Proof.
  rewrite !nearest_is. intros F Z M N B. apply fadd_ok; [exact F|exact Z|]. pose proof (share_bound x n N B) as SB.
  apply Rle_lt_trans with (IZR (2 ^ 23 + 1)); [apply (rnd_abs_le 24 128 p24 e24); [now vm_compute|]|].
  - rewrite plus_IZR. eapply Rle_trans; [apply Rabs_triang|]. apply Rplus_le_compat; assumption.
  - change (bpow radix2 128) with (IZR (2 ^ 128)). apply IZR_lt. now vm_compute.
Qed.
Theorem pos_tag_margin m base xs x ys y s c raws : number xs x -> number ys y -> Rabs x <= IZR (2 ^ 23) -> Rabs y <= IZR (2 ^ 23) ->
  (0 < play_res_x c < 2 ^ 24)%Z -> (0 < play_res_y c < 2 ^ 24)%Z -> float_value (margin_of base) m -> (Rabs m <= 1) -> r_text base = [] -> plain_text s -> s <> [] ->
  parse_line base (lit "{" ++ tag "pos" ++ lit "(" ++ xs ++ lit "," ++ ys ++ lit ")}" ++ s) c = Ok raws ->
  exists r p, raws = [r] /\ r_text r = s /\
    h_ref (r_hpos r) = LEFT_OF_SCREEN /\ float_value (h_prop (r_hpos r)) (nearest_float (nearest_float x / IZR (play_res_x c))) /\
    v_ref (r_vpos r) = Some TOP_OF_SCREEN /\ v_prop (r_vpos r) = Some p /\ float_value p (nearest_float (nearest_float (nearest_float y / IZR (play_res_y c)) + m)).
Proof.
  intros NX NY BX BY RX RY MZ MB B P NE R. set (t := lit "pos" ++ lit "(" ++ xs ++ lit "," ++ ys ++ lit ")").
  assert (NOT : forall c, In c ["}"; bslash]%char -> ~ In c t).
  { intros k I J. unfold t in J. repeat (apply in_app_or in J; destruct J as [J|J]).
    3: revert J; apply (number_without _ _ k NX); cbn in *; tauto. 4: revert J; apply (number_without _ _ k NY); cbn in *; tauto.
    all: cbn in I; repeat destruct I as [<-|I]; try contradiction; cbn in J; repeat destruct J as [J|J]; try contradiction; discriminate. }
  destruct (tag_first base t s c raws B) as (its & r & r1 & n & ps & T & F & O & C & D & M).
  - apply NOT. now left.
  - apply NOT. right. now left.
  - rewrite <- R. f_equal. unfold t, tag. cbn [app lit map String.list_ascii_of_string]. rewrite <- !app_assoc. cbn [app]. rewrite <- !app_assoc. reflexivity.
  - assert (O' : override c r (tag "pos" ++ [] ++ "("%char :: xs ++ ","%char :: ys ++ [")"%char]) 
      (with_vpos (mkV (Some (fdiv (raw_convert_float (ys ++ [")"%char])) (f_of_int (play_res_y c)))) (v_line (r_vpos r)) (v_lines (r_vpos r)) (Some TOP_OF_SCREEN))
        (with_horizontal LEFT_OF_SCREEN (fdiv (raw_convert_float xs) (f_of_int (play_res_x c))) r))).
    { apply override_pos; [split; intros []| | |now left|now right].
      - split; apply (number_without _ _ _ NX); cbn; tauto.
      - split; intros J; apply in_app_or in J; (destruct J as [J|J]; [revert J; apply (number_without _ _ _ NY); cbn; tauto|destruct J as [J|[]]; discriminate]). }
    rewrite (override_unique _ _ _ _ _ O O') in C. rewrite (items_unique _ _ _ T (plain_items s P)) in C. apply cut_chars in C. subst ps. cbn [app] in D.
    destruct s as [|a s]; [congruence|]. cbn [with_piece] in D. inversion D as [|? q ? ? (ref & p & R1 & R2 & ->) D']; subst. inversion D'; subst. clear D D'.
    cbn in R1. injection R1 as <-. cbn in R2. injection R2 as <-. eexists _, _. split; [reflexivity|]. split; [reflexivity|]. split; [reflexivity|]. split; [|split; [reflexivity|split; [reflexivity|]]].
    + cbn. apply share_value; [|exact RX|exact BX]. rewrite <- (app_nil_r xs). apply number_read; [exact NX|intros []|]. eapply Rle_trans; [exact BX|]. apply (IZR_le (2 ^ 23) (2 ^ 127)). now vm_compute.
    + cbn [final_proportion]. apply plus_margin; [|exact MZ|exact MB|exact RY|exact BY]. apply share_value; [|exact RY|exact BY]. apply number_read; [exact NY| |].
      * cbn. unfold goes_on. intros [(d & H1 & H2)|H]; [code_lia_in H2|]. repeat destruct H as [H|H]; discriminate.
      * eapply Rle_trans; [exact BY|]. apply (IZR_le (2 ^ 23) (2 ^ 127)). now vm_compute.
Qed.
Theorem pos_tag base xs x ys y s c raws : number xs x -> number ys y -> Rabs x <= IZR (2 ^ 23) -> Rabs y <= IZR (2 ^ 23) ->
  (0 < play_res_x c < 2 ^ 24)%Z -> (0 < play_res_y c < 2 ^ 24)%Z -> float_value (margin_of base) 0 -> r_text base = [] -> plain_text s -> s <> [] ->
  parse_line base (lit "{" ++ tag "pos" ++ lit "(" ++ xs ++ lit "," ++ ys ++ lit ")}" ++ s) c = Ok raws ->
  exists r p, raws = [r] /\ r_text r = s /\
    h_ref (r_hpos r) = LEFT_OF_SCREEN /\ float_value (h_prop (r_hpos r)) (nearest_float (nearest_float x / IZR (play_res_x c))) /\
    v_ref (r_vpos r) = Some TOP_OF_SCREEN /\ v_prop (r_vpos r) = Some p /\ float_value p (nearest_float (nearest_float y / IZR (play_res_y c))).
Proof.
  intros NX NY BX BY RX RY MZ B P NE R. destruct (pos_tag_margin 0 base xs x ys y s c raws NX NY BX BY RX RY MZ ltac:(rewrite Rabs_R0; lra) B P NE R)
    as (r & p & R1 & R2 & R3 & R4 & R5 & R6 & R7). exists r, p. repeat (split; [assumption|]). rewrite Rplus_0_r in R7. revert R7. rewrite !nearest_is.
  rewrite (rnd_format 24 128) at 1; [now intros|]. apply generic_format_round; [apply (fexp_correct 24 128); exact p24|typeclasses eauto].
Qed.

Lemma refuted_row : SF2R radix2 (S754_finite false 10737419 (-27)) > 7 / 100.
Proof. rewrite SF2R_finite. change (-27)%Z with (- (27))%Z. rewrite bpow_val by lia. cbn [cond_Zopp]. change (2 ^ 27)%Z with 134217728%Z. lra. Qed.
