(** SpecFloat arithmetic related to real arithmetic through Flocq. *)
From Coq Require Import ZArith Reals Lra Lia Psatz Bool List.
From Coq.Floats Require Import SpecFloat.
From Flocq Require Import Core BinarySingleNaN Relative.
From Verif.Model Require Import Base Float.
Import ListNotations.
Local Open Scope R_scope.

Section Generic.
Variables prec emax : Z.
Hypothesis Hp : (0 < prec)%Z.
Hypothesis Hpe : (prec < emax)%Z.

Local Instance prec_gt_0_ : Prec_gt_0 prec := Hp.
Local Instance prec_lt_emax_ : Prec_lt_emax prec emax := Hpe.
Notation fexp := (SpecFloat.fexp prec emax).
Notation rnd := (round radix2 fexp ZnearestE).
Local Instance fexp_correct_ : Valid_exp fexp := FLT_exp_valid (SpecFloat.emin prec emax) prec.

(** [x] is a finite number of the format, with real value [v]. *)
Definition is_flt (x : flt) (v : R) : Prop :=
  valid_binary prec emax x = true /\ is_finite_SF x = true /\ SF2R radix2 x = v.

Lemma round_nearest_even_equiv s m l : round_nearest_even m l = choice_mode mode_NE s m l.
Proof.
  case l; [reflexivity | intro c].
  case c; [ | reflexivity..].
  now simpl; unfold Round.cond_incr; case Z.even.
Qed.

Lemma binary_round_aux_equiv sx mx ex lx :
  SpecFloat.binary_round_aux prec emax sx mx ex lx = binary_round_aux prec emax mode_NE sx mx ex lx.
Proof.
  unfold SpecFloat.binary_round_aux, binary_round_aux.
  set (mrse' := shr_fexp _ _ _).
  case mrse'; intros mrs' e'; simpl.
  now rewrite (round_nearest_even_equiv sx).
Qed.

Lemma binary_round_equiv s m e :
  SpecFloat.binary_round prec emax s m e = binary_round prec emax mode_NE s m e.
Proof.
  unfold SpecFloat.binary_round, binary_round, shl_align_fexp.
  set (mez := shl_align _ _ _); case mez as [mz ez].
  apply binary_round_aux_equiv.
Qed.

Lemma binary_normalize_equiv m e szero :
  SpecFloat.binary_normalize prec emax m e szero = B2SF (binary_normalize prec emax _ _ mode_NE m e szero).
Proof.
  case m as [ | p | p].
  - now simpl.
  - simpl; rewrite B2SF_SF2B; apply binary_round_equiv.
  - simpl; rewrite B2SF_SF2B; apply binary_round_equiv.
Qed.

Lemma mul_equiv (x y : binary_float prec emax) :
  SFmul prec emax (B2SF x) (B2SF y) = B2SF (Bmult mode_NE x y).
Proof.
  case x as [sx|sx| |sx mx ex Bx]; case y as [sy|sy| |sy my ey By]; [now trivial.. | ].
  simpl. rewrite B2SF_SF2B. apply binary_round_aux_equiv.
Qed.

Lemma add_equiv (x y : binary_float prec emax) :
  SFadd prec emax (B2SF x) (B2SF y) = B2SF (Bplus mode_NE x y).
Proof.
  case x as [sx|sx| |sx mx ex Bx]; case y as [sy|sy| |sy my ey By];
    [now (trivial || simpl; case Bool.eqb).. | ].
  apply binary_normalize_equiv.
Qed.

Lemma sub_equiv (x y : binary_float prec emax) :
  SFsub prec emax (B2SF x) (B2SF y) = B2SF (Bminus mode_NE x y).
Proof.
  case x as [sx|sx| |sx mx ex Bx]; case y as [sy|sy| |sy my ey By];
    [now (trivial || simpl; case Bool.eqb).. | ].
  simpl. unfold Zminus. rewrite <- cond_Zopp_negb. apply binary_normalize_equiv.
Qed.

Lemma div_equiv (x y : binary_float prec emax) :
  SFdiv prec emax (B2SF x) (B2SF y) = B2SF (Bdiv mode_NE x y).
Proof.
  case x as [sx|sx| |sx mx ex Bx]; case y as [sy|sy| |sy my ey By];
    [now (trivial || simpl; case Bool.eqb).. | ].
  simpl. rewrite B2SF_SF2B.
  set (melz := SFdiv_core_binary _ _ _ _ _ _). case melz as [[mz ez] lz].
  apply binary_round_aux_equiv.
Qed.

Lemma is_flt_lift x v : is_flt x v ->
  exists b : binary_float prec emax, B2SF b = x /\ B2R b = v /\ is_finite b = true.
Proof.
  intros (V & F & R). exists (SF2B x V). split; [apply B2SF_SF2B | split].
  - rewrite B2R_SF2B. exact R.
  - rewrite is_finite_SF2B. exact F.
Qed.

Lemma is_flt_of_b (b : binary_float prec emax) v : is_finite b = true -> B2R b = v -> is_flt (B2SF b) v.
Proof.
  intros F R. split; [apply valid_binary_B2SF | split].
  - rewrite is_finite_SF_B2SF. exact F.
  - rewrite SF2R_B2SF. exact R.
Qed.

Lemma is_flt_format x v : is_flt x v -> generic_format radix2 fexp v.
Proof.
  intros H. destruct (is_flt_lift _ _ H) as (b & _ & <- & _). apply generic_format_B2R.
Qed.

Lemma is_flt_bound x v : is_flt x v -> Rabs v < bpow radix2 emax.
Proof.
  intros H. destruct (is_flt_lift _ _ H) as (b & _ & <- & _). apply abs_B2R_lt_emax.
Qed.

Lemma mul_flt x y vx vy : is_flt x vx -> is_flt y vy -> Rabs (rnd (vx * vy)) < bpow radix2 emax ->
  is_flt (SFmul prec emax x y) (rnd (vx * vy)).
Proof.
  intros Hx Hy B.
  destruct (is_flt_lift _ _ Hx) as (bx & <- & Ex & Fx).
  destruct (is_flt_lift _ _ Hy) as (by_ & <- & Ey & Fy).
  rewrite mul_equiv.
  generalize (Bmult_correct prec emax _ _ mode_NE bx by_). simpl round_mode. rewrite Ex, Ey.
  rewrite Rlt_bool_true by exact B. intros (R & F & _).
  apply is_flt_of_b; [rewrite F, Fx, Fy; reflexivity | exact R].
Qed.

Lemma add_flt x y vx vy : is_flt x vx -> is_flt y vy -> Rabs (rnd (vx + vy)) < bpow radix2 emax ->
  is_flt (SFadd prec emax x y) (rnd (vx + vy)).
Proof.
  intros Hx Hy B.
  destruct (is_flt_lift _ _ Hx) as (bx & <- & Ex & Fx).
  destruct (is_flt_lift _ _ Hy) as (by_ & <- & Ey & Fy).
  rewrite add_equiv.
  generalize (Bplus_correct prec emax _ _ mode_NE bx by_ Fx Fy). simpl round_mode. rewrite Ex, Ey.
  rewrite Rlt_bool_true by exact B. intros (R & F & _).
  apply is_flt_of_b; [exact F | exact R].
Qed.

Lemma sub_flt x y vx vy : is_flt x vx -> is_flt y vy -> Rabs (rnd (vx - vy)) < bpow radix2 emax ->
  is_flt (SFsub prec emax x y) (rnd (vx - vy)).
Proof.
  intros Hx Hy B.
  destruct (is_flt_lift _ _ Hx) as (bx & <- & Ex & Fx).
  destruct (is_flt_lift _ _ Hy) as (by_ & <- & Ey & Fy).
  rewrite sub_equiv.
  generalize (Bminus_correct prec emax _ _ mode_NE bx by_ Fx Fy). simpl round_mode. rewrite Ex, Ey.
  rewrite Rlt_bool_true by exact B. intros (R & F & _).
  apply is_flt_of_b; [exact F | exact R].
Qed.

Lemma div_flt x y vx vy : is_flt x vx -> is_flt y vy -> vy <> 0 -> Rabs (rnd (vx / vy)) < bpow radix2 emax ->
  is_flt (SFdiv prec emax x y) (rnd (vx / vy)).
Proof.
  intros Hx Hy N B.
  destruct (is_flt_lift _ _ Hx) as (bx & <- & Ex & Fx).
  destruct (is_flt_lift _ _ Hy) as (by_ & <- & Ey & Fy).
  rewrite div_equiv.
  assert (N' : B2R by_ <> 0) by (rewrite Ey; exact N).
  generalize (Bdiv_correct prec emax _ _ mode_NE bx by_ N'). simpl round_mode. rewrite Ex, Ey.
  rewrite Rlt_bool_true by exact B. intros (R & F & _).
  apply is_flt_of_b; [rewrite F, Fx; reflexivity | exact R].
Qed.

Lemma normalize_flt m e s : Rabs (rnd (F2R (Float radix2 m e))) < bpow radix2 emax ->
  is_flt (SpecFloat.binary_normalize prec emax m e s) (rnd (F2R (Float radix2 m e))).
Proof.
  intros B. rewrite binary_normalize_equiv.
  generalize (binary_normalize_correct prec emax _ _ mode_NE m e s). simpl round_mode.
  cbv zeta. rewrite Rlt_bool_true by exact B. intros (R & F & _).
  apply is_flt_of_b; [exact F | exact R].
Qed.

(** Integers of at most [prec] bits are exact. *)
Lemma int_format z : (Z.abs z < 2 ^ prec)%Z -> generic_format radix2 fexp (IZR z).
Proof.
  intros B. change fexp with (FLT_exp (SpecFloat.emin prec emax) prec).
  apply generic_format_FLT. exists (Float radix2 z 0).
  - unfold F2R. simpl. now rewrite Rmult_1_r.
  - exact B.
  - unfold SpecFloat.emin. cbn [Fexp]. pose proof Hp; pose proof Hpe. lia.
Qed.

Lemma int_lt_emax z : (Z.abs z < 2 ^ prec)%Z -> Rabs (IZR z) < bpow radix2 emax.
Proof.
  intros B. rewrite <- abs_IZR.
  apply Rlt_le_trans with (bpow radix2 prec).
  - rewrite <- IZR_Zpower by lia. apply IZR_lt. exact B.
  - apply bpow_le. lia.
Qed.

Lemma of_int_flt z : (Z.abs z < 2 ^ prec)%Z ->
  is_flt (SpecFloat.binary_normalize prec emax z 0 false) (IZR z).
Proof.
  intros B.
  assert (E : F2R (Float radix2 z 0) = IZR z) by (unfold F2R; simpl; now rewrite Rmult_1_r).
  assert (R : rnd (F2R (Float radix2 z 0)) = IZR z).
  { rewrite E. apply round_generic; [typeclasses eauto | now apply int_format]. }
  rewrite <- R. apply normalize_flt. rewrite R. now apply int_lt_emax.
Qed.

Lemma rnd_format v : generic_format radix2 fexp v -> rnd v = v.
Proof. intros H. apply round_generic; [typeclasses eauto | exact H]. Qed.


(** The result of a division of integers. *)
Lemma rnd_abs_le v b : (Z.abs b < 2 ^ prec)%Z -> Rabs v <= IZR b -> Rabs (rnd v) <= IZR b.
Proof.
  intros Hb H. rewrite <- (rnd_format (IZR b)) by now apply int_format.
  apply abs_round_le_generic; [typeclasses eauto | typeclasses eauto | | now rewrite (rnd_format (IZR b)) by now apply int_format].
  rewrite (rnd_format (IZR b)) by now apply int_format. now apply int_format.
Qed.

(** Comparison of finite numbers of one format. *)
Lemma ltb_flt x y vx vy : is_flt x vx -> is_flt y vy -> SFltb x y = Rlt_bool vx vy.
Proof.
  intros Hx Hy.
  destruct (is_flt_lift _ _ Hx) as (bx & <- & <- & Fx).
  destruct (is_flt_lift _ _ Hy) as (by_ & <- & <- & Fy).
  exact (Bltb_correct prec emax _ _ Fx Fy).
Qed.
Lemma eqb_flt x y vx vy : is_flt x vx -> is_flt y vy -> SFeqb x y = Req_bool vx vy.
Proof.
  intros Hx Hy.
  destruct (is_flt_lift _ _ Hx) as (bx & <- & <- & Fx).
  destruct (is_flt_lift _ _ Hy) as (by_ & <- & <- & Fy).
  exact (Beqb_correct prec emax _ _ Fx Fy).
Qed.
Lemma abs_flt x v : is_flt x v -> is_flt (SFabs x) (Rabs v).
Proof.
  intros Hx.
  destruct (is_flt_lift _ _ Hx) as (bx & <- & <- & Fx).
  replace (SFabs (B2SF bx)) with (B2SF (Babs bx)) by (now destruct bx).
  apply is_flt_of_b; [now rewrite is_finite_Babs | apply B2R_Babs].
Qed.
End Generic.

(** Integer parts. *)
Lemma SF2R_finite s m e : SF2R radix2 (S754_finite s m e) = IZR (cond_Zopp s (Zpos m)) * bpow radix2 e.
Proof. reflexivity. Qed.

Lemma bpow_neg_inv e : (e <= 0)%Z -> bpow radix2 e = / IZR (2 ^ (- e)).
Proof.
  intros H. rewrite <- (Z.opp_involutive e) at 1. rewrite bpow_opp.
  rewrite <- IZR_Zpower by lia. reflexivity.
Qed.
Lemma bpow_pos_IZR e : (0 <= e)%Z -> bpow radix2 e = IZR (2 ^ e).
Proof. intros H. rewrite <- IZR_Zpower by lia. reflexivity. Qed.

Lemma floor_Z_correct x : is_finite_SF x = true -> floor_Z x = Some (Zfloor (SF2R radix2 x)).
Proof.
  destruct x as [s|s| |s m e]; try discriminate; intros _.
  - simpl. now rewrite Zfloor_IZR.
  - rewrite SF2R_finite. unfold floor_Z. f_equal. set (v := cond_Zopp s (Zpos m)).
    destruct (Z.leb_spec 0 e) as [L|L].
    + rewrite bpow_pos_IZR by lia. rewrite <- mult_IZR. now rewrite Zfloor_IZR.
    + rewrite bpow_neg_inv by lia. symmetry. apply Zfloor_imp.
      assert (P : (0 < 2 ^ (- e))%Z) by (apply Z.pow_pos_nonneg; lia).
      pose proof (Z.div_mod v (2 ^ (- e)) ltac:(lia)) as D.
      pose proof (Z.mod_pos_bound v (2 ^ (- e)) P) as M.
      apply IZR_lt in P. rewrite plus_IZR.
      split.
      * apply Rmult_le_reg_r with (IZR (2 ^ (- e))); [exact P|].
        rewrite Rmult_assoc, Rinv_l, Rmult_1_r by lra. rewrite <- mult_IZR. apply IZR_le. lia.
      * apply Rmult_lt_reg_r with (IZR (2 ^ (- e))); [exact P|].
        rewrite Rmult_assoc, Rinv_l, Rmult_1_r by lra. rewrite <- plus_IZR, <- mult_IZR. apply IZR_lt. lia.
Qed.

Lemma trunc_Z_correct x : is_finite_SF x = true -> trunc_Z x = Some (Ztrunc (SF2R radix2 x)).
Proof.
  destruct x as [s|s| |s m e]; try discriminate; intros _.
  - simpl. now rewrite Ztrunc_IZR.
  - pose proof (floor_Z_correct (S754_finite false m e) eq_refl) as Fl.
    rewrite SF2R_finite in *. unfold trunc_Z, floor_Z in *. f_equal.
    simpl cond_Zopp in Fl. injection Fl as Fl.
    assert (P : 0 <= IZR (Zpos m) * bpow radix2 e).
    { apply Rmult_le_pos; [apply IZR_le; lia | apply bpow_ge_0]. }
    assert (Q : (Zfloor (IZR (Zpos m) * bpow radix2 e) = Ztrunc (IZR (Zpos m) * bpow radix2 e))%Z)
      by (now rewrite Ztrunc_floor).
    destruct s; simpl cond_Zopp.
    + replace (IZR (Zneg m)) with (- IZR (Zpos m)) by (now rewrite <- opp_IZR).
      rewrite Ropp_mult_distr_l_reverse, Ztrunc_opp, <- Q, <- Fl.
      destruct (Z.leb_spec 0 e) as [L|L].
      * apply (Z.mul_opp_l (Zpos m)).
      * change (Zneg m) with (- Zpos m)%Z.
        assert (0 < 2 ^ (- e))%Z by (apply Z.pow_pos_nonneg; lia).
        rewrite Z.quot_opp_l by lia. f_equal. apply Z.quot_div_nonneg; lia.
    + rewrite <- Q, <- Fl.
      destruct (Z.leb_spec 0 e) as [L|L]; [reflexivity|].
      assert (0 < 2 ^ (- e))%Z by (apply Z.pow_pos_nonneg; lia).
      apply Z.quot_div_nonneg; lia.
Qed.

(** An integer is the nearest to a real, ties to even. *)
Lemma ZnearestE_imp x z : Rabs (x - IZR z) <= /2 -> (Rabs (x - IZR z) = /2 -> Z.even z = true) -> ZnearestE x = z.
Proof.
  intros B T. destruct (Rle_lt_or_eq_dec _ _ B) as [L|E].
  - now apply Znearest_imp.
  - specialize (T E).
    unfold Rabs in E. destruct (Rcase_abs (x - IZR z)) as [N|N].
    + assert (F : Zfloor x = (z - 1)%Z).
      { apply Zfloor_imp. rewrite plus_IZR, minus_IZR. simpl (IZR 1). lra. }
      unfold Znearest. rewrite F, Rcompare_Eq by (rewrite minus_IZR; simpl (IZR 1); lra).
      replace (Z.even (z - 1)) with false.
      * simpl. apply Zceil_imp. rewrite minus_IZR. simpl (IZR 1). lra.
      * rewrite Z.even_sub, T. reflexivity.
    + assert (F : Zfloor x = z).
      { apply Zfloor_imp. rewrite plus_IZR. simpl (IZR 1). lra. }
      unfold Znearest. rewrite F, Rcompare_Eq by lra. rewrite T. reflexivity.
Qed.

Lemma div_rne_correct v d : (0 < d)%Z -> ZnearestE (IZR v / IZR d) = div_rne v d.
Proof.
  intros P. unfold div_rne.
  pose proof (Z.div_mod v d ltac:(lia)) as D. pose proof (Z.mod_pos_bound v d P) as M.
  set (q := (v / d)%Z) in *. set (r := (v mod d)%Z) in *.
  assert (PR : 0 < IZR d) by (apply IZR_lt; exact P).
  assert (E : IZR v / IZR d = IZR q + IZR r / IZR d).
  { rewrite D, plus_IZR, mult_IZR. field. lra. }
  rewrite E.
  assert (RB : 0 <= IZR r / IZR d).
  { apply Rmult_le_pos; [apply IZR_le; lia | left; now apply Rinv_0_lt_compat]. }
  assert (DD : IZR r / IZR d * IZR d = IZR r) by (field; lra).
  destruct (Z.compare_spec (2 * r) d) as [C|C|C].
  - assert (H : IZR r / IZR d = /2).
    { apply (f_equal IZR) in C. rewrite mult_IZR in C. rewrite <- C. field. simpl in *. nra. }
    rewrite H. destruct (Z.even q) eqn:Ev.
    + apply ZnearestE_imp; [ | auto]. rewrite Rabs_pos_eq; lra.
    + apply ZnearestE_imp; rewrite plus_IZR; simpl (IZR 1); rewrite ?Rabs_left1 by lra; [lra|].
      intros _. rewrite Z.even_add, Ev. reflexivity.
  - assert (H : IZR r / IZR d < /2).
    { apply IZR_lt in C. rewrite mult_IZR in C. simpl (IZR 2) in C. nra. }
    apply Znearest_imp. rewrite Rabs_pos_eq; lra.
  - assert (H : /2 < IZR r / IZR d).
    { apply IZR_lt in C. rewrite mult_IZR in C. simpl (IZR 2) in C. nra. }
    assert (H1 : IZR r / IZR d < 1).
    { assert (r < d)%Z as M' by lia. apply IZR_lt in M'. nra. }
    apply Znearest_imp. rewrite plus_IZR; simpl (IZR 1). rewrite Rabs_left1; lra.
Qed.

Lemma rint_Z_correct x : is_finite_SF x = true -> rint_Z x = Some (ZnearestE (SF2R radix2 x)).
Proof.
  destruct x as [s|s| |s m e]; try discriminate; intros _.
  - simpl. f_equal. symmetry. apply Znearest_imp. rewrite Rminus_0_r, Rabs_R0. lra.
  - rewrite SF2R_finite. unfold rint_Z. f_equal. set (v := cond_Zopp s (Zpos m)).
    destruct (Z.leb_spec 0 e) as [L|L].
    + rewrite bpow_pos_IZR by lia. rewrite <- mult_IZR. symmetry. apply Znearest_imp.
      rewrite Rminus_diag_eq by reflexivity. rewrite Rabs_R0. lra.
    + rewrite bpow_neg_inv by lia. fold (Rdiv (IZR v) (IZR (2 ^ (- e)))).
      symmetry. apply div_rne_correct. apply Z.pow_pos_nonneg; lia.
Qed.

(** The two formats. *)
Notation is_f := (is_flt 24 128).
Notation is_d := (is_flt 53 1024).

Lemma p24 : (0 < 24)%Z. Proof. lia. Qed.
Lemma p53 : (0 < 53)%Z. Proof. lia. Qed.
Lemma e24 : (24 < 128)%Z. Proof. lia. Qed.
Lemma e53 : (53 < 1024)%Z. Proof. lia. Qed.
Notation rnd32 := (round radix2 (SpecFloat.fexp 24 128) ZnearestE).
Notation rnd64 := (round radix2 (SpecFloat.fexp 53 1024) ZnearestE).

Lemma d_of_int_ok z : (Z.abs z < 2 ^ 53)%Z -> is_d (d_of_int z) (IZR z).
Proof. apply (of_int_flt 53 1024 p53 e53). Qed.
Lemma f_of_int_ok z : (Z.abs z < 2 ^ 24)%Z -> is_f (f_of_int z) (IZR z).
Proof. apply (of_int_flt 24 128 p24 e24). Qed.

Lemma dmul_ok x y vx vy : is_d x vx -> is_d y vy -> Rabs (rnd64 (vx * vy)) < bpow radix2 1024 -> is_d (dmul x y) (rnd64 (vx * vy)).
Proof. apply (mul_flt 53 1024 p53 e53). Qed.
Lemma dadd_ok x y vx vy : is_d x vx -> is_d y vy -> Rabs (rnd64 (vx + vy)) < bpow radix2 1024 -> is_d (dadd x y) (rnd64 (vx + vy)).
Proof. apply (add_flt 53 1024 p53 e53). Qed.
Lemma dsub_ok x y vx vy : is_d x vx -> is_d y vy -> Rabs (rnd64 (vx - vy)) < bpow radix2 1024 -> is_d (dsub x y) (rnd64 (vx - vy)).
Proof. apply (sub_flt 53 1024 p53 e53). Qed.
Lemma ddiv_ok x y vx vy : is_d x vx -> is_d y vy -> vy <> 0 -> Rabs (rnd64 (vx / vy)) < bpow radix2 1024 -> is_d (ddiv x y) (rnd64 (vx / vy)).
Proof. apply (div_flt 53 1024 p53 e53). Qed.

Lemma fmul_ok x y vx vy : is_f x vx -> is_f y vy -> Rabs (rnd32 (vx * vy)) < bpow radix2 128 -> is_f (fmul x y) (rnd32 (vx * vy)).
Proof. apply (mul_flt 24 128 p24 e24). Qed.
Lemma fadd_ok x y vx vy : is_f x vx -> is_f y vy -> Rabs (rnd32 (vx + vy)) < bpow radix2 128 -> is_f (fadd x y) (rnd32 (vx + vy)).
Proof. apply (add_flt 24 128 p24 e24). Qed.
Lemma fsub_ok x y vx vy : is_f x vx -> is_f y vy -> Rabs (rnd32 (vx - vy)) < bpow radix2 128 -> is_f (fsub x y) (rnd32 (vx - vy)).
Proof. apply (sub_flt 24 128 p24 e24). Qed.
Lemma fdiv_ok x y vx vy : is_f x vx -> is_f y vy -> vy <> 0 -> Rabs (rnd32 (vx / vy)) < bpow radix2 128 -> is_f (fdiv x y) (rnd32 (vx / vy)).
Proof. apply (div_flt 24 128 p24 e24). Qed.

Lemma rnd64_int z : (Z.abs z < 2 ^ 53)%Z -> rnd64 (IZR z) = IZR z.
Proof. intros H. apply (rnd_format 53 1024). now apply (int_format 53 1024 p53 e53). Qed.
Lemma rnd32_int z : (Z.abs z < 2 ^ 24)%Z -> rnd32 (IZR z) = IZR z.
Proof. intros H. apply (rnd_format 24 128). now apply (int_format 24 128 p24 e24). Qed.

Lemma small_lt_1024 v : Rabs v <= IZR (2 ^ 52) -> Rabs (rnd64 v) < bpow radix2 1024.
Proof.
  intros H. apply (rnd_abs_le 53 1024 p53 e53 v (2 ^ 52)) in H; [ | now vm_compute].
  eapply Rle_lt_trans; [exact H|].
  replace (IZR (2 ^ 52)) with (bpow radix2 52) by (now rewrite <- IZR_Zpower by lia).
  apply bpow_lt. lia.
Qed.
Lemma small_lt_128 v : Rabs v <= IZR (2 ^ 23) -> Rabs (rnd32 v) < bpow radix2 128.
Proof.
  intros H. apply (rnd_abs_le 24 128 p24 e24 v (2 ^ 23)) in H; [ | now vm_compute].
  eapply Rle_lt_trans; [exact H|].
  replace (IZR (2 ^ 23)) with (bpow radix2 23) by (now rewrite <- IZR_Zpower by lia).
  apply bpow_lt. lia.
Qed.

(** Products of integers that stay below 2^53 are exact in double. *)
Lemma dmul_int x y a b : is_d x (IZR a) -> is_d y (IZR b) -> (Z.abs (a * b) < 2 ^ 53)%Z -> is_d (dmul x y) (IZR (a * b)).
Proof.
  intros Hx Hy B.
  assert (E : rnd64 (IZR a * IZR b) = IZR (a * b)) by (rewrite <- mult_IZR; now apply rnd64_int).
  rewrite <- E. apply dmul_ok; try assumption. rewrite E. now apply (int_lt_emax 53 1024 p53 e53).
Qed.

(** Relative error of rounding to double. *)
Lemma rnd64_rel v : bpow radix2 (-1022) <= Rabs v -> Rabs (rnd64 v - v) <= bpow radix2 (-53) * Rabs v.
Proof.
  intros H.
  replace (bpow radix2 (-53)) with (/ 2 * bpow radix2 (- 53 + 1)).
  - apply (relative_error_N_FLT radix2 (-1074) 53 p53). exact H.
  - change (-53)%Z with (- 53 + 1 + -1)%Z at 2. rewrite (bpow_plus radix2 _ (-1)).
    rewrite Rmult_comm. reflexivity.
Qed.

(** The double quotient of two integers rounds to the same integer as the exact quotient:
    no double rounding error. *)
Lemma rint_div_exact A B : (0 < B < 2 ^ 53)%Z -> (Z.abs A < 2 ^ 52)%Z ->
  ZnearestE (rnd64 (IZR A / IZR B)) = ZnearestE (IZR A / IZR B).
Proof.
  intros HB HA.
  assert (PB : 0 < IZR B) by (apply IZR_lt; lia).
  destruct (Z.eq_dec A 0) as [->|NA].
  { unfold Rdiv. rewrite Rmult_0_l. now rewrite round_0 by typeclasses eauto. }
  set (q := IZR A / IZR B). set (z := ZnearestE q).
  assert (Hz : z = div_rne A B) by (unfold z, q; now apply div_rne_correct).
  (* distance to the nearest integer, in units of 1/B *)
  assert (Qz : q - IZR z = IZR (A - z * B) / IZR B).
  { unfold q. rewrite minus_IZR, mult_IZR. field. lra. }
  assert (Nz : Rabs (q - IZR z) <= /2) by (rewrite Rabs_minus_sym, Rabs_minus_sym; apply Znearest_half).
  assert (NZ : (2 * Z.abs (A - z * B) <= B)%Z).
  { apply le_IZR. rewrite mult_IZR, abs_IZR.
    rewrite Qz in Nz. unfold Rdiv in Nz. rewrite Rabs_mult, (Rabs_pos_eq (/ IZR B)) in Nz
      by (left; now apply Rinv_0_lt_compat).
    apply Rmult_le_compat_r with (r := IZR B) in Nz; [|lra].
    rewrite Rmult_assoc, Rinv_l in Nz by lra. lra. }
  destruct (Z.eq_dec (2 * Z.abs (A - z * B)) B) as [T|T].
  - (* a tie: the quotient is a half-integer, hence representable *)
    assert (F : generic_format radix2 (SpecFloat.fexp 53 1024) q).
    { destruct (Z.abs_spec (A - z * B)) as [[S1 S2]|[S1 S2]].
      - assert (E : q = F2R (Float radix2 (2 * z + 1) (-1))).
        { unfold q, F2R. cbn [Fnum Fexp]. change (bpow radix2 (-1)) with (/2). rewrite plus_IZR, mult_IZR.
          apply Rmult_eq_reg_r with (IZR B); [|lra]. unfold Rdiv. rewrite Rmult_assoc, Rinv_l, Rmult_1_r by lra.
          assert (2 * A = (2 * z + 1) * B)%Z as W by lia.
          apply (f_equal IZR) in W. rewrite !mult_IZR, plus_IZR, mult_IZR in W. lra. }
        change (SpecFloat.fexp 53 1024) with (FLT_exp (-1074) 53).
        apply generic_format_FLT. exists (Float radix2 (2 * z + 1) (-1)); cbn [Fnum Fexp]; [exact E | | lia].
        assert ((2 * z + 1) * B = 2 * A)%Z as W by lia. apply (f_equal Z.abs) in W.
        rewrite (Z.abs_mul _ B), (Z.abs_eq B) in W by lia.
        assert (Z.abs (2 * z + 1) * 1 <= Z.abs (2 * z + 1) * B)%Z by (apply Z.mul_le_mono_nonneg_l; lia).
        change (Zpower radix2 53) with (2 ^ 53)%Z. lia.
      - assert (E : q = F2R (Float radix2 (2 * z - 1) (-1))).
        { unfold q, F2R. cbn [Fnum Fexp]. change (bpow radix2 (-1)) with (/2). rewrite minus_IZR, mult_IZR.
          apply Rmult_eq_reg_r with (IZR B); [|lra]. unfold Rdiv. rewrite Rmult_assoc, Rinv_l, Rmult_1_r by lra.
          assert (2 * A = (2 * z - 1) * B)%Z as W by lia.
          apply (f_equal IZR) in W. rewrite !mult_IZR, minus_IZR, mult_IZR in W. lra. }
        change (SpecFloat.fexp 53 1024) with (FLT_exp (-1074) 53).
        apply generic_format_FLT. exists (Float radix2 (2 * z - 1) (-1)); cbn [Fnum Fexp]; [exact E | | lia].
        assert ((2 * z - 1) * B = 2 * A)%Z as W by lia. apply (f_equal Z.abs) in W.
        rewrite (Z.abs_mul _ B), (Z.abs_eq B) in W by lia.
        assert (Z.abs (2 * z - 1) * 1 <= Z.abs (2 * z - 1) * B)%Z by (apply Z.mul_le_mono_nonneg_l; lia).
        change (Zpower radix2 53) with (2 ^ 53)%Z. lia. }
    rewrite (rnd_format 53 1024) by exact F. reflexivity.
  - (* no tie: the distance to the nearest tie is more than the rounding error *)
    assert (D : Rabs (q - IZR z) <= /2 - / (2 * IZR B)).
    { rewrite Qz. unfold Rdiv. rewrite Rabs_mult, (Rabs_pos_eq (/ IZR B)) by (left; now apply Rinv_0_lt_compat).
      assert (2 * Z.abs (A - z * B) <= B - 1)%Z as W by lia. apply IZR_le in W.
      rewrite mult_IZR, minus_IZR, abs_IZR in W.
      apply Rmult_le_reg_r with (2 * IZR B); [lra|].
      replace (Rabs (IZR (A - z * B)) * / IZR B * (2 * IZR B)) with (2 * Rabs (IZR (A - z * B))) by (field; lra).
      replace ((/ 2 - / (2 * IZR B)) * (2 * IZR B)) with (IZR B - 1) by (field; lra).
      exact W. }
    assert (AA : 1 <= Rabs (IZR A)).
    { rewrite <- abs_IZR. apply IZR_le. lia. }
    assert (Aq : Rabs q = Rabs (IZR A) * / IZR B).
    { unfold q, Rdiv. rewrite Rabs_mult. rewrite (Rabs_pos_eq (/ IZR B)); [reflexivity | left; now apply Rinv_0_lt_compat]. }
    assert (R : Rabs (rnd64 q - q) <= bpow radix2 (-53) * Rabs q).
    { apply rnd64_rel. rewrite Aq.
      apply Rle_trans with (1 * bpow radix2 (-53)).
      - rewrite Rmult_1_l. apply bpow_le. lia.
      - apply Rmult_le_compat; [lra | apply bpow_ge_0 | exact AA | ].
        change (-53)%Z with (- (53))%Z. rewrite bpow_opp. apply Rinv_le; [exact PB|].
        rewrite <- IZR_Zpower by lia. apply IZR_le. simpl Zpower. lia. }
    assert (S : bpow radix2 (-53) * Rabs q < / (2 * IZR B)).
    { rewrite Aq, Rinv_mult. rewrite <- Rmult_assoc.
      apply Rmult_lt_compat_r; [now apply Rinv_0_lt_compat|].
      change (-53)%Z with (-1 + - (52))%Z. rewrite bpow_plus.
      change (bpow radix2 (-1)) with (/2). rewrite Rmult_assoc.
      rewrite <- (Rmult_1_r (/2)) at 2. apply Rmult_lt_compat_l; [lra|].
      rewrite bpow_opp. apply Rmult_lt_reg_l with (bpow radix2 52); [apply bpow_gt_0|].
      rewrite <- Rmult_assoc, Rinv_r, Rmult_1_l, Rmult_1_r by (apply Rgt_not_eq, bpow_gt_0).
      rewrite <- IZR_Zpower by lia. rewrite <- abs_IZR. apply IZR_lt. exact HA. }
    apply Znearest_imp.
    replace (rnd64 q - IZR z) with ((rnd64 q - q) + (q - IZR z)) by ring.
    eapply Rle_lt_trans; [apply Rabs_triang|].
    assert (0 < / (2 * IZR B)) by (apply Rinv_0_lt_compat; lra). lra.
Qed.

Lemma rint_ddiv_int x y A B : is_d x (IZR A) -> is_d y (IZR B) -> (0 < B < 2 ^ 53)%Z -> (Z.abs A < 2 ^ 52)%Z ->
  rint_Z (ddiv x y) = Some (div_rne A B).
Proof.
  intros Hx Hy HB HA.
  assert (PB : 1 <= IZR B) by (apply IZR_le; lia).
  assert (D : is_d (ddiv x y) (rnd64 (IZR A / IZR B))).
  { apply ddiv_ok; [assumption.. | lra |].
    apply small_lt_1024. unfold Rdiv. rewrite Rabs_mult, (Rabs_pos_eq (/ IZR B)) by (left; apply Rinv_0_lt_compat; lra).
    apply Rle_trans with (Rabs (IZR A) * 1).
    - apply Rmult_le_compat_l; [apply Rabs_pos|]. rewrite <- Rinv_1. apply Rinv_le; lra.
    - rewrite Rmult_1_r, <- abs_IZR. apply IZR_le. lia. }
  destruct D as (_ & F & V). rewrite rint_Z_correct by exact F. rewrite V.
  f_equal. rewrite rint_div_exact by assumption. apply div_rne_correct. lia.
Qed.

(** Conversions between the formats. *)
Lemma d_of_f_ok x v : is_f x v -> is_d (d_of_f x) v.
Proof.
  intros H. pose proof (is_flt_bound 24 128 _ _ H) as Bd.
  pose proof (is_flt_format 24 128 _ _ H) as Fm.
  destruct H as (V & F & R). destruct x as [s|s| |s m e]; try discriminate F.
  - repeat split; assumption.
  - unfold d_of_f. fold (SF2R radix2 (S754_finite s m e)) in R.
    assert (E : F2R (Float radix2 (cond_Zopp s (Zpos m)) e) = v) by exact R.
    assert (Fd : generic_format radix2 (SpecFloat.fexp 53 1024) v).
    { change (SpecFloat.fexp 24 128) with (FLT_exp (-149) 24) in Fm.
      change (SpecFloat.fexp 53 1024) with (FLT_exp (-1074) 53).
      apply FLT_format_generic in Fm; [ | exact p24]. destruct Fm as [g G1 G2 G3].
      apply generic_format_FLT. exists g; [exact G1 | | lia].
      eapply Z.lt_trans; [exact G2|]. now vm_compute. }
    assert (RD : rnd64 (F2R (Float radix2 (cond_Zopp s (Zpos m)) e)) = v).
    { rewrite E. now apply (rnd_format 53 1024). }
    rewrite <- RD. apply (normalize_flt 53 1024 p53 e53). rewrite RD.
    eapply Rlt_le_trans; [exact Bd|]. apply bpow_le. lia.
Qed.

Lemma f_of_d_ok x v : is_d x v -> Rabs (rnd32 v) < bpow radix2 128 -> is_f (f_of_d x) (rnd32 v).
Proof.
  intros (V & F & R) B. destruct x as [s|s| |s m e]; try discriminate F.
  - simpl in R. subst v. rewrite round_0 by typeclasses eauto. repeat split; assumption.
  - assert (E : F2R (Float radix2 (cond_Zopp s (Zpos m)) e) = v) by exact R.
    unfold f_of_d. rewrite <- E. apply (normalize_flt 24 128 p24 e24). rewrite E. exact B.
Qed.
