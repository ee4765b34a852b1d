(** Proofs about the numbers the binary STL writer computes: rows, rates, time codes. *)
From Coq Require Import ZArith Reals Lra Lia Psatz Bool List Ascii String.
From Coq.Floats Require Import SpecFloat.
From Flocq Require Import Core BinarySingleNaN.
From Verif.Model Require Import Base Strings Float TimeModel Types StlUtil StlBinReader StlBinWriter.
From Verif.Spec Require Import Outcome TimeSpec PositionSpec TextSpec StlFileSpec StlWriteSpec.
From Verif.Proofs Require Import FloatProofs PositionProofs TimeProofs TimeFloatProofs.
Import ListNotations.
Local Open Scope R_scope.

Notation is_f := (is_flt 24 128).
Notation is_d := (is_flt 53 1024).
Notation rnd32 := (round radix2 (SpecFloat.fexp 24 128) ZnearestE).
Notation rnd64 := (round radix2 (SpecFloat.fexp 53 1024) ZnearestE).
#[local] Instance w24 : Valid_exp (SpecFloat.fexp 24 128) := @FLT_exp_valid (-149) 24 p24.
#[local] Instance w53 : Valid_exp (SpecFloat.fexp 53 1024) := @FLT_exp_valid (-1074) 53 p53.

Lemma err32 v : Rabs v < 32 -> Rabs (rnd32 v - v) <= / 1048576.
Proof.
  intros H. eapply Rle_trans; [apply (rnd32_err v 5); [lia|exact H]|].
  change (5 - 24)%Z with (- (19))%Z. rewrite bpow_val by lia. change (2 ^ 19)%Z with 524288%Z. lra.
Qed.
Lemma err32_small v : Rabs v < 2 -> Rabs (rnd32 v - v) <= / 16777216.
Proof.
  intros H. eapply Rle_trans; [apply (rnd32_err v 1); [lia|exact H]|].
  change (1 - 24)%Z with (- (23))%Z. rewrite bpow_val by lia. change (2 ^ 23)%Z with 8388608%Z. lra.
Qed.
Lemma err64 v : Rabs v < 32 -> Rabs (rnd64 v - v) <= / 281474976710656.
Proof.
  intros H. eapply Rle_trans; [apply (rnd64_err v 5); [lia|exact H]|].
  change (5 - 53)%Z with (- (48))%Z. rewrite bpow_val by lia. change (2 ^ 48)%Z with 281474976710656%Z. lra.
Qed.

Lemma lt128 v : Rabs v < 32 -> Rabs (rnd32 v) < bpow radix2 128.
Proof. intros H. apply small_lt_128. apply Rlt_le. eapply Rlt_trans; [exact H|]. apply IZR_lt. reflexivity. Qed.
Lemma lt1024 v : Rabs v < 32 -> Rabs (rnd64 v) < bpow radix2 1024.
Proof. intros H. apply small_lt_1024. apply Rlt_le. eapply Rlt_trans; [exact H|]. apply IZR_lt. reflexivity. Qed.

(** * Rows *)

Lemma row_nearest v y : Rabs (v - 23 * y) <= row_tolerance -> 0 <= y <= 1 ->
  Rabs (IZR (ZnearestE v) - 23 * y) <= 1 / 2 + row_tolerance /\ (0 <= ZnearestE v <= 23)%Z.
Proof.
  unfold row_tolerance. intros H Y. pose proof (Znearest_half (fun x => negb (Z.even x)) v) as N.
  apply Rabs_le_inv in H. apply Rabs_le_inv in N. split; [apply Rabs_le; lra|]. split.
  - assert (-1 < ZnearestE v)%Z; [apply lt_IZR; lra|lia].
  - assert (ZnearestE v < 24)%Z; [apply lt_IZR; lra|lia].
Qed.
Lemma row_truncated v y : Rabs (v - 23 * y) <= row_tolerance -> 0 <= y <= 1 ->
  23 * y - 1 - row_tolerance < IZR (Ztrunc v) <= 23 * y + row_tolerance /\ (0 <= Ztrunc v <= 23)%Z.
Proof.
  unfold row_tolerance. intros H Y. apply Rabs_le_inv in H. destruct (Rle_or_lt 0 v) as [P|P].
  - rewrite Ztrunc_floor by exact P. pose proof (Zfloor_lb v). pose proof (Zfloor_ub v). split; [lra|]. split.
    + assert (-1 < Zfloor v)%Z; [apply lt_IZR; lra|lia].
    + assert (Zfloor v < 24)%Z; [apply lt_IZR; lra|lia].
  - assert (E : Ztrunc v = 0%Z). { rewrite Ztrunc_ceil by lra. apply Zceil_imp. cbn. lra. }
    rewrite E. split; [lra|lia].
Qed.

Lemma small_int z : (0 <= z <= 23)%Z -> in_int z = true.
Proof. intros H. unfold in_int, int_min, int_max. apply andb_true_iff. rewrite !Z.leb_le. lia. Qed.

Lemma nearest_done x v y : is_finite_SF x = true -> SF2R radix2 x = v -> Rabs (v - 23 * y) <= row_tolerance -> 0 <= y <= 1 ->
  exists row, to_int (rint_Z x) = Ok row /\ (0 <= row <= 23)%Z /\ Rabs (IZR row - 23 * y) <= 1 / 2 + row_tolerance.
Proof.
  intros F V H Y. rewrite (rint_Z_correct _ F), V. destruct (row_nearest v y H Y) as [A B]. cbn [to_int]. rewrite (small_int _ B). eauto.
Qed.
Lemma trunc_done x v y : is_finite_SF x = true -> SF2R radix2 x = v -> Rabs (v - 23 * y) <= row_tolerance -> 0 <= y <= 1 ->
  exists row, to_int (trunc_Z x) = Ok row /\ (0 <= row <= 23)%Z /\ 23 * y - 1 - row_tolerance < IZR row <= 23 * y + row_tolerance.
Proof.
  intros F V H Y. rewrite (trunc_Z_correct _ F), V. destruct (row_truncated v y H Y) as [A B]. cbn [to_int]. rewrite (small_int _ B). eauto.
Qed.

Lemma half_rows : is_d (ddiv (d_of_int ROWS) (d_of_int 2)) (23 / 2).
Proof.
  assert (E : ddiv (d_of_int ROWS) (d_of_int 2) = S754_finite false 6473924464345088 (-49)) by (vm_compute; reflexivity).
  rewrite E. split; [reflexivity|]. split; [reflexivity|].
  rewrite SF2R_finite. cbn [SpecFloat.cond_Zopp]. rewrite bpow_neg_inv by lia. cbn [Z.opp].
  change (2 ^ 49)%Z with 562949953421312%Z. lra.
Qed.

Ltac abs := repeat match goal with H : Rabs _ <= _ |- _ => apply Rabs_le_inv in H end.

Lemma row_ok l : placed (l_vpos l) -> exists row, stl_vertical_position l = Ok row /\ row_of (l_vpos l) row /\ (0 <= row <= 23)%Z.
Proof.
  intros P. unfold stl_vertical_position. destruct P as [N1 N2|p x P V B|k m P L M M0 K1 K2 B].
  - rewrite N1, N2. exists 0%Z. split; [reflexivity|]. split; [now apply row_nowhere|lia].
  - rewrite P. fold (reference (l_vpos l)). pose proof (row_proportion (l_vpos l) p x) as RP.
    assert (R23 : is_f (f_of_int ROWS) 23) by now apply f_of_int_ok.
    destruct (reference (l_vpos l)) eqn:RF; cbn [from_top] in B, RP.
    + assert (S : Rabs (x * 23) < 32) by (apply Rabs_lt; lra).
      assert (FM : is_f (fmul p (f_of_int ROWS)) (rnd32 (x * 23))) by (apply fmul_ok; [exact V|exact R23|now apply lt128]).
      pose proof (err32 _ S) as E. destruct FM as (_ & F & FV).
      destruct (nearest_done _ _ x F FV) as (row & A & C & D); [unfold row_tolerance; abs; apply Rabs_le; lra|exact B|].
      exists row. split; [exact A|]. split; [|exact C]. apply RP; try assumption; congruence.
    + assert (S : Rabs (x * 23) < 32) by (apply Rabs_lt; lra).
      assert (FM : is_f (fmul p (f_of_int ROWS)) (rnd32 (x * 23))) by (apply fmul_ok; [exact V|exact R23|now apply lt128]).
      pose proof (err32 _ S) as E. abs.
      assert (S2 : Rabs (rnd32 (x * 23) + 23 / 2) < 32) by (apply Rabs_lt; lra).
      assert (FA : is_d (dadd (d_of_f (fmul p (f_of_int ROWS))) (ddiv (d_of_int ROWS) (d_of_int 2))) (rnd64 (rnd32 (x * 23) + 23 / 2))).
      { apply dadd_ok; [now apply d_of_f_ok|apply half_rows|now apply lt1024]. }
      pose proof (err64 _ S2) as E2. abs. destruct FA as (_ & F & FV).
      destruct (nearest_done _ _ (x + / 2) F FV) as (row & A & C & D); [unfold row_tolerance; apply Rabs_le; lra|exact B|].
      exists row. split; [exact A|]. split; [|exact C]. apply RP; try assumption; congruence.
    + assert (S : Rabs (x * 23) < 32) by (apply Rabs_lt; lra).
      assert (FM : is_f (fmul p (f_of_int ROWS)) (rnd32 (x * 23))) by (apply fmul_ok; [exact V|exact R23|now apply lt128]).
      pose proof (err32 _ S) as E. abs.
      assert (S2 : Rabs (23 - rnd32 (x * 23)) < 32) by (apply Rabs_lt; lra).
      assert (FA : is_f (fsub (f_of_int ROWS) (fmul p (f_of_int ROWS))) (rnd32 (23 - rnd32 (x * 23)))).
      { apply fsub_ok; [exact R23|exact FM|now apply lt128]. }
      pose proof (err32 _ S2) as E2. abs. destruct FA as (_ & F & FV).
      destruct (nearest_done _ _ (1 - x) F FV) as (row & A & C & D); [unfold row_tolerance; apply Rabs_le; lra|exact B|].
      exists row. split; [exact A|]. split; [|exact C]. apply RP; try assumption; congruence.
    + exists 0%Z. split; [reflexivity|]. split; [now apply row_subtitle|lia].
  - rewrite P, L, M. cbn [opt_get bind]. fold (reference (l_vpos l)). pose proof (row_line (l_vpos l) k m) as RP. set (x := IZR k / IZR m) in *.
    assert (R23 : is_f (f_of_int ROWS) 23) by now apply f_of_int_ok.
    assert (D23 : is_d (d_of_int ROWS) 23) by now apply d_of_int_ok.
    destruct (reference (l_vpos l)) eqn:RF; cbn [from_top] in B, RP;
      [| | |exists 0%Z; split; [reflexivity|]; split; [now apply row_subtitle|lia]].
    all: assert (X : Rabs x <= 1) by (apply Rabs_le; lra).
    all: assert (X2 : Rabs x < 2) by lra.
    all: assert (FD : is_f (fdiv (f_of_int k) (f_of_int m)) (rnd32 x)) by
      (apply fdiv_ok; [now apply f_of_int_ok|now apply f_of_int_ok|now apply (IZR_neq m 0)|apply lt128; fold x; lra]).
    all: pose proof (err32_small _ X2) as E1; abs.
    + assert (S : Rabs (rnd32 x * 23) < 32) by (apply Rabs_lt; lra).
      assert (FM : is_f (fmul (fdiv (f_of_int k) (f_of_int m)) (f_of_int ROWS)) (rnd32 (rnd32 x * 23))) by (apply fmul_ok; [exact FD|exact R23|now apply lt128]).
      pose proof (err32 _ S) as E. destruct FM as (_ & F & FV).
      destruct (trunc_done _ _ x F FV) as (row & A & C & D); [unfold row_tolerance; abs; apply Rabs_le; lra|exact B|].
      exists row. split; [exact A|]. split; [|exact C]. apply RP; try assumption; congruence.
    + assert (S : Rabs (rnd32 x + / 2) < 32) by (apply Rabs_lt; lra).
      assert (FA : is_d (dadd (d_of_f (fdiv (f_of_int k) (f_of_int m))) (d_lit 1 2)) (rnd64 (rnd32 x + / 2))).
      { apply dadd_ok; [now apply d_of_f_ok|apply half_double|now apply lt1024]. }
      pose proof (err64 _ S) as E. abs.
      assert (S2 : Rabs (rnd64 (rnd32 x + / 2) * 23) < 32) by (apply Rabs_lt; lra).
      assert (FM : is_d (dmul (dadd (d_of_f (fdiv (f_of_int k) (f_of_int m))) (d_lit 1 2)) (d_of_int ROWS)) (rnd64 (rnd64 (rnd32 x + / 2) * 23))).
      { apply dmul_ok; [exact FA|exact D23|now apply lt1024]. }
      pose proof (err64 _ S2) as E2. abs. destruct FM as (_ & F & FV).
      destruct (trunc_done _ _ (x + / 2) F FV) as (row & A & C & D); [unfold row_tolerance; apply Rabs_le; lra|exact B|].
      exists row. split; [exact A|]. split; [|exact C]. apply RP; try assumption; congruence.
    + assert (S : Rabs (1 - rnd32 x) < 2) by (apply Rabs_lt; lra).
      assert (FA : is_f (fsub (f_of_int 1) (fdiv (f_of_int k) (f_of_int m))) (rnd32 (1 - rnd32 x))).
      { apply fsub_ok; [now apply f_of_int_ok|exact FD|apply lt128; lra]. }
      pose proof (err32_small _ S) as E. abs.
      assert (S2 : Rabs (rnd32 (1 - rnd32 x) * 23) < 32) by (apply Rabs_lt; lra).
      assert (FM : is_f (fmul (fsub (f_of_int 1) (fdiv (f_of_int k) (f_of_int m))) (f_of_int ROWS)) (rnd32 (rnd32 (1 - rnd32 x) * 23))).
      { apply fmul_ok; [exact FA|exact R23|now apply lt128]. }
      pose proof (err32 _ S2) as E2. abs. destruct FM as (_ & F & FV).
      destruct (trunc_done _ _ (1 - x) F FV) as (row & A & C & D); [unfold row_tolerance; apply Rabs_le; lra|exact B|].
      exists row. split; [exact A|]. split; [|exact C]. apply RP; try assumption; congruence.
Qed.

(** * The rate *)

Lemma rate_range fps n : stl_rate fps n -> (1 <= n <= 255000)%Z.
Proof.
  intros (x & V & B & -> & P). split; [exact P|]. rewrite <- (Ztrunc_IZR 255000). apply Ztrunc_le.
  rewrite <- (rnd32_int 255000) by reflexivity. apply rnd32_mono. lra.
Qed.

Lemma rate_ok fps n : stl_rate fps n -> writer_rate fps = Ok (mkR n 1000).
Proof.
  intros S. pose proof (rate_range _ _ S) as G. destruct S as (x & V & B & E & P). unfold writer_rate.
  assert (FM : is_f (fmul fps (f_of_int 1000)) (rnd32 (x * 1000))).
  { apply fmul_ok; [exact V|now apply f_of_int_ok|]. apply small_lt_128. apply Rabs_le. change (2 ^ 23)%Z with 8388608%Z. lra. }
  destruct FM as (_ & F & R). rewrite trunc_Z_correct by exact F. rewrite R.
  change (rnd32 (x * 1000)) with (nearest_float (x * 1000)). rewrite <- E. cbn [to_int].
  replace (in_int n) with true; [reflexivity|]. symmetry. unfold in_int, int_min, int_max. apply andb_true_iff. rewrite !Z.leb_le. lia.
Qed.

Lemma tenth : is_d (d_lit 1 10000) (IZR 7378697629483821 * bpow radix2 (-66)).
Proof.
  assert (E : d_lit 1 10000 = S754_finite false 7378697629483821 (-66)) by (vm_compute; reflexivity).
  rewrite E. repeat split.
Qed.

(** A float between 16 and 32 is a multiple of 2^-19. *)
Lemma float_grid f x : is_f f x -> 16 <= x < 32 -> exists z, x = IZR z * / 524288.
Proof.
  intros V B. pose proof (is_flt_format 24 128 f x V) as G. unfold generic_format, F2R in G. cbn [Fnum Fexp] in G.
  assert (M : mag radix2 x = 5%Z :> Z).
  { apply mag_unique. change (bpow radix2 (5 - 1)) with 16. change (bpow radix2 5) with 32. rewrite Rabs_pos_eq by lra. exact B. }
  assert (C : cexp radix2 (SpecFloat.fexp 24 128) x = (-19)%Z) by (unfold cexp; rewrite M; reflexivity).
  rewrite C in G. eexists. rewrite G at 1. reflexivity.
Qed.

Lemma grid_format z : (Z.abs z < 2 ^ 24)%Z -> generic_format radix2 (SpecFloat.fexp 24 128) (IZR z * / 524288).
Proof.
  intros B. change (SpecFloat.fexp 24 128) with (FLT_exp (-149) 24).
  apply generic_format_FLT. exists (Float radix2 z (-19)); cbn [Fnum Fexp]; [|exact B|lia].
  reflexivity.
Qed.

Lemma about_ok f x g r R : is_f f x -> Rabs x <= 255 -> is_f g r -> r = IZR R * / 524288 -> (12058624 <= R <= 15728640)%Z ->
  (about_equal f g = true <-> Rabs (x - r) < 1 / 10000).
Proof.
  intros F X G E B. assert (BR : 23 <= r <= 30). { rewrite E. assert (12058624 <= IZR R <= 15728640) by (split; apply IZR_le; lia). lra. }
  assert (S : is_f (fsub f g) (rnd32 (x - r))).
  { apply fsub_ok; [exact F|exact G|]. apply small_lt_128. change (2 ^ 23)%Z with 8388608%Z. abs. apply Rabs_le. lra. }
  apply (abs_flt 24 128) in S. apply d_of_f_ok in S.
  unfold about_equal, flt_lt, flt_abs. rewrite (ltb_flt 53 1024 _ _ _ _ S tenth).
  assert (P66 : bpow radix2 (-66) = / 73786976294838206464) by (change (-66)%Z with (- (66))%Z; rewrite bpow_val by lia; reflexivity).
  destruct (Rlt_le_dec x 16) as [L|L]; [|destruct (Rlt_le_dec x 32) as [H|H]].
  - split; intros Q.
    + exfalso. revert Q. rewrite Rlt_bool_false; [discriminate|]. apply Rle_trans with (IZR 1 * 1).
      * rewrite P66. lra.
      * rewrite Rmult_1_r. apply abs_round_ge_generic; [typeclasses eauto..|now apply (int_format 24 128 p24 e24)|].
        rewrite Rabs_left by lra. lra.
    + rewrite Rabs_left in Q by lra. lra.
  - destruct (float_grid f x F (conj L H)) as (z & Z).
    assert (D : x - r = IZR (z - R) * / 524288) by (rewrite Z, E, minus_IZR; ring).
    assert (ZB : (Z.abs (z - R) < 2 ^ 24)%Z).
    { assert (8388608 <= z < 16777216)%Z; [|change (2 ^ 24)%Z with 16777216%Z; lia].
      split; [apply le_IZR|apply lt_IZR]; lra. }
    rewrite (rnd_format 24 128) by (rewrite D; now apply grid_format).
    assert (W : Rabs (x - r) = IZR (Z.abs (z - R)) * / 524288).
    { rewrite D, Rabs_mult, <- abs_IZR. f_equal. apply Rabs_pos_eq. lra. }
    rewrite W, P66. destruct (Z.le_gt_cases (Z.abs (z - R)) 52) as [I|I].
    + assert (IZR (Z.abs (z - R)) <= 52) by (apply IZR_le; lia). split; [intros _; lra|]. intros _. apply Rlt_bool_true. lra.
    + assert (53 <= IZR (Z.abs (z - R))) by (apply IZR_le; lia). split; [|intros; lra]. rewrite Rlt_bool_false; [discriminate|lra].
  - split; intros Q.
    + exfalso. revert Q. rewrite Rlt_bool_false; [discriminate|]. apply Rle_trans with (IZR 1 * 1).
      * rewrite P66. lra.
      * rewrite Rmult_1_r. apply abs_round_ge_generic; [typeclasses eauto..|now apply (int_format 24 128 p24 e24)|].
        rewrite Rabs_pos_eq by lra. lra.
    + rewrite Rabs_pos_eq in Q by lra. lra.
Qed.

Lemma f23976_value : is_f f23976 (IZR 12570329 * / 524288).
Proof.
  assert (E : f23976 = S754_finite false 12570329 (-19)) by (vm_compute; reflexivity). rewrite E.
  split; [reflexivity|]. split; [reflexivity|]. reflexivity.
Qed.

Lemma dfc_ok fps x : float_value fps x -> Rabs x <= 255 -> disk_format fps (stl_frame_rate_to_dfc fps).
Proof.
  intros V B. exists x. split; [exact V|]. unfold stl_frame_rate_to_dfc.
  pose proof (about_ok _ _ _ _ 12570329 V B f23976_value eq_refl ltac:(lia)) as A1.
  assert (V24 : is_f (f_of_int 24) 24) by now apply f_of_int_ok.
  assert (V25 : is_f (f_of_int 25) 25) by now apply f_of_int_ok.
  assert (V30 : is_f (f_of_int 30) 30) by now apply f_of_int_ok.
  pose proof (about_ok _ _ _ _ 12582912 V B V24 ltac:(lra) ltac:(lia)) as A2.
  pose proof (about_ok _ _ _ _ 13107200 V B V25 ltac:(lra) ltac:(lia)) as A3.
  pose proof (about_ok _ _ _ _ 15728640 V B V30 ltac:(lra) ltac:(lia)) as A4.
  assert (F : forall (c : bool) P, (c = true <-> P) -> c = false -> ~ P) by (intros c P I ->; rewrite <- I; discriminate).
  destruct (about_equal fps f23976) eqn:E1.
  { left. exists (IZR 12570329 / 524288), "STL23.01"%string. split; [now left|]. split; [now apply A1|reflexivity]. }
  destruct (about_equal fps (f_of_int 24)) eqn:E2.
  { left. exists 24, "STL24.01"%string. split; [right; now left|]. split; [now apply A2|reflexivity]. }
  destruct (about_equal fps (f_of_int 25)) eqn:E3.
  { left. exists 25, "STL25.01"%string. split; [right; right; now left|]. split; [now apply A3|reflexivity]. }
  destruct (about_equal fps (f_of_int 30)) eqn:E4.
  { left. exists 30, "STL30.01"%string. split; [right; right; right; now left|]. split; [now apply A4|reflexivity]. }
  right. split; [|reflexivity]. intros r c I. apply Rnot_lt_le. intros H.
  destruct I as [[= <- <-]|[[= <- <-]|[[= <- <-]|[[= <- <-]|[]]]]].
  - apply A1 in H. discriminate.
  - apply A2 in H. discriminate.
  - apply A3 in H. discriminate.
  - apply A4 in H. discriminate.
Qed.

(** * Time codes *)
Local Open Scope Z_scope.

Lemma timecode_ok fps n t : stl_rate fps n -> time_ok t ->
  exists f, frames_at t (mkR n 1000) = Ok f /\ timecode n t (hours t) (minutes t) (seconds t) f.
Proof.
  intros S (T & tr & R & N & D & I1 & I2 & I3 & F). pose proof (rate_range _ _ S) as G.
  unfold is_int in *.
  destruct (frames_at_spec t tr (mkR n 1000)) as (z & NE & A); try assumption; try (split; cbn; lia); try (unfold is_int; cbn [num den]; lia).
  { cbn [num]. apply Z.le_lt_trans with (2147483647 * 255000).
    - rewrite Z.abs_eq by nia. apply Z.mul_le_mono_nonneg; lia.
    - reflexivity. }
  cbn [num den] in NE.
  assert (PZ : 0 < num tr * 1000) by lia.
  assert (ZR : 0 <= z <= n).
  { destruct NE as [NE _]. assert (A0 : 0 <= t_frames t * den tr * n <= n * (num tr * 1000)) by nia. nia. }
  destruct A as [[Iz A]|[Iz _]]; [|unfold is_int in Iz; lia].
  exists z. split; [exact A|]. unfold timecode.
  assert (H : hours t = t_seconds t / 3600) by (unfold hours; apply Z.quot_div_nonneg; lia).
  pose proof (Z.div_mod (t_seconds t) 3600 ltac:(lia)) as DM. pose proof (Z.mod_pos_bound (t_seconds t) 3600 ltac:(lia)) as MB.
  assert (HP : 0 <= t_seconds t / 3600) by (apply Z.div_pos; lia).
  assert (M : minutes t = (t_seconds t - hours t * 3600) / 60) by (unfold minutes; apply Z.quot_div_nonneg; lia).
  pose proof (Z.div_mod (t_seconds t - hours t * 3600) 60 ltac:(lia)) as DM2.
  pose proof (Z.mod_pos_bound (t_seconds t - hours t * 3600) 60 ltac:(lia)) as MB2.
  unfold seconds. repeat split; try lia. exists tr. split; [exact R|exact NE].
Qed.
