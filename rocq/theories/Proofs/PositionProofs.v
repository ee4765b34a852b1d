(** Vertical and horizontal positions. *)
From Coq Require Import ZArith Reals Lra Lia Psatz Bool List.
From Coq.Floats Require Import SpecFloat.
From Flocq Require Import Core BinarySingleNaN.
From Verif.Model Require Import Base Float Types.
From Verif.Spec Require Import Outcome PositionSpec.
From Verif.Proofs Require Import FloatProofs.
Local Open Scope R_scope.

Notation is_f := (is_flt 24 128).
Notation is_d := (is_flt 53 1024).
Notation rnd32 := (round radix2 (SpecFloat.fexp 24 128) ZnearestE).
Notation rnd64 := (round radix2 (SpecFloat.fexp 53 1024) ZnearestE).
#[local] Instance v24 : Valid_exp (SpecFloat.fexp 24 128) := @FLT_exp_valid (-149) 24 p24.
#[local] Instance v53 : Valid_exp (SpecFloat.fexp 53 1024) := @FLT_exp_valid (-1074) 53 p53.

Lemma rnd32_mono x y : x <= y -> rnd32 x <= rnd32 y.
Proof. intros H. apply round_le; [typeclasses eauto..|exact H]. Qed.
Lemma rnd64_mono x y : x <= y -> rnd64 x <= rnd64 y.
Proof. intros H. apply round_le; [typeclasses eauto..|exact H]. Qed.

Lemma half_double : is_d (d_lit 1 2) (/ 2).
Proof.
  assert (E : d_lit 1 2 = S754_finite false 4503599627370496 (-53)) by (vm_compute; reflexivity).
  rewrite E. split; [reflexivity|]. split; [reflexivity|].
  rewrite SF2R_finite. cbn [SpecFloat.cond_Zopp]. rewrite bpow_neg_inv by lia. cbn [Z.opp].
  change (2 ^ 53)%Z with 9007199254740992%Z. lra.
Qed.

(** Rounding errors. *)
Lemma rnd32_err x e : (-149 + 24 <= e)%Z -> Rabs x < bpow radix2 e -> Rabs (rnd32 x - x) <= / 2 * bpow radix2 (e - 24).
Proof.
  intros He Hx. destruct (Req_dec x 0) as [->|N].
  - rewrite round_0 by typeclasses eauto. rewrite Rminus_0_r, Rabs_R0.
    pose proof (bpow_gt_0 radix2 (e - 24)). lra.
  - eapply Rle_trans; [apply error_le_half_ulp; typeclasses eauto|].
    apply Rmult_le_compat_l; [lra|]. rewrite ulp_neq_0 by exact N. apply bpow_le.
    unfold cexp. change (SpecFloat.fexp 24 128) with (FLT_exp (-149) 24). unfold FLT_exp.
    assert (mag radix2 x <= e)%Z by now apply mag_le_bpow. lia.
Qed.
Lemma rnd64_err x e : (-1074 + 53 <= e)%Z -> Rabs x < bpow radix2 e -> Rabs (rnd64 x - x) <= / 2 * bpow radix2 (e - 53).
Proof.
  intros He Hx. destruct (Req_dec x 0) as [->|N].
  - rewrite round_0 by typeclasses eauto. rewrite Rminus_0_r, Rabs_R0.
    pose proof (bpow_gt_0 radix2 (e - 53)). lra.
  - eapply Rle_trans; [apply error_le_half_ulp; typeclasses eauto|].
    apply Rmult_le_compat_l; [lra|]. rewrite ulp_neq_0 by exact N. apply bpow_le.
    unfold cexp. change (SpecFloat.fexp 53 1024) with (FLT_exp (-1074) 53). unfold FLT_exp.
    assert (mag radix2 x <= e)%Z by now apply mag_le_bpow. lia.
Qed.

(** ** The computed fraction *)
Definition computed (r : vref) (y : R) : R :=
  match r with
  | TOP_OF_SCREEN | TOP_OF_SUBTITLE => y
  | VERTICAL_CENTRE_OF_SCREEN => rnd32 (rnd64 (y + / 2))
  | BOTTOM_OF_SCREEN => rnd32 (1 - y)
  end.

Lemma rnd32_abs_1 x : Rabs x <= 1 -> Rabs (rnd32 x) <= 1.
Proof. intros H. apply (rnd_abs_le 24 128 p24 e24 x 1); [reflexivity | exact H]. Qed.

Lemma fraction_value v r x : offset v r x -> Rabs x <= 1 ->
  exists f, fraction_from_screen_top v = Ok f /\ is_f f (computed r (rnd32 x)).
Proof.
  intros (R & H) B. unfold fraction_from_screen_top. rewrite R.
  assert (P : exists f, (if negb (is_some (v_prop v)) && negb (is_some (v_line v)) then True else True) /\
     negb (is_some (v_prop v)) && negb (is_some (v_line v)) = false /\
     match v_prop v with
        | Some p => Ok p
        | None => bind (opt_get (v_line v)) (fun l => bind (opt_get (v_lines v)) (fun n => Ok (fdiv (f_of_int l) (f_of_int n))))
        end = Ok f /\ is_f f (rnd32 x)).
  { destruct H as [(p & -> & V)|(-> & l & n & -> & -> & N & Bl & Bn & E)].
    - exists p. cbn. split; [exact I|]. split; [reflexivity|]. split; [reflexivity|].
      rewrite (rnd_format 24 128); [exact V|]. apply (is_flt_format 24 128 p). exact V.
    - cbn. exists (fdiv (f_of_int l) (f_of_int n)). split; [exact I|]. split; [reflexivity|]. split; [reflexivity|].
      rewrite E. apply fdiv_ok; [now apply f_of_int_ok | now apply f_of_int_ok | now apply (IZR_neq n 0) |].
      apply small_lt_128. rewrite <- E. eapply Rle_trans; [exact B|]. apply IZR_le. vm_compute. discriminate. }
  destruct P as (f & _ & -> & -> & V). cbn [bind].
  pose proof (rnd32_abs_1 x B) as B'. set (y := rnd32 x) in *. clearbody y.
  assert (K2 : 2 <= IZR (2 ^ 23)) by (apply IZR_le; vm_compute; discriminate).
  assert (K3 : 2 <= IZR (2 ^ 52)) by (apply IZR_le; vm_compute; discriminate).
  eexists. split; [reflexivity|]. destruct r; cbn [computed].
  - exact V.
  - assert (S : is_d (dadd (d_of_f f) (d_lit 1 2)) (rnd64 (y + / 2))).
    { apply dadd_ok; [now apply d_of_f_ok | apply half_double |]. apply small_lt_1024.
      apply Rabs_le_inv in B'. apply Rabs_le. lra. }
    apply f_of_d_ok; [exact S|]. apply small_lt_128.
    assert (Rabs (rnd64 (y + / 2)) <= 2).
    { apply (rnd_abs_le 53 1024 p53 e53 _ 2); [reflexivity|]. apply Rabs_le_inv in B'. apply Rabs_le. lra. }
    lra.
  - apply fsub_ok; [now apply f_of_int_ok | exact V |]. apply small_lt_128. apply Rabs_le_inv in B'. apply Rabs_le. lra.
  - exact V.
Qed.

Lemma bpow_val k : (0 <= k)%Z -> bpow radix2 (- k) = / IZR (2 ^ k).
Proof. intros H. rewrite bpow_neg_inv by lia. now rewrite Z.opp_involutive. Qed.

Lemma computed_close r x : Rabs x <= 1 -> Rabs (computed r (rnd32 x) - from_top r x) <= / 8388608.
Proof.
  intros B. pose proof (rnd32_abs_1 x B) as B'.
  assert (E1 : Rabs (rnd32 x - x) <= / 16777216).
  { eapply Rle_trans; [apply (rnd32_err x 1); [lia|]|].
    - eapply Rle_lt_trans; [exact B|]. change (bpow radix2 1) with 2. lra.
    - change (1 - 24)%Z with (- (23))%Z. rewrite bpow_val by lia. change (2 ^ 23)%Z with 8388608%Z. lra. }
  assert (E1' : Rabs (rnd32 x - x) <= / 33554432).
  { destruct (Rle_lt_or_eq_dec _ _ B) as [L|L].
    - eapply Rle_trans; [apply (rnd32_err x 0); [lia|]|].
      + exact L.
      + change (0 - 24)%Z with (- (24))%Z. rewrite bpow_val by lia. change (2 ^ 24)%Z with 16777216%Z. lra.
    - assert (x = IZR 1 \/ x = IZR (-1)) as [->| ->] by (unfold Rabs in L; destruct (Rcase_abs x); lra);
        rewrite rnd32_int by reflexivity; rewrite Rminus_diag_eq by reflexivity; rewrite Rabs_R0; lra. }
  set (y := rnd32 x) in *.
  apply Rabs_le_inv in E1'. apply Rabs_le_inv in B. apply Rabs_le_inv in B'.
  assert (Q : forall z, -1 <= z <= 2 -> Rabs (rnd32 z - z) <= / 16777216).
  { intros z Hz. destruct (Req_dec z 2) as [->|N].
    - change 2 with (IZR 2). rewrite rnd32_int by reflexivity. rewrite Rminus_diag_eq by reflexivity. rewrite Rabs_R0. lra.
    - eapply Rle_trans; [apply (rnd32_err z 1); [lia|]|].
      + change (bpow radix2 1) with 2. apply Rabs_lt. lra.
      + change (1 - 24)%Z with (- (23))%Z. rewrite bpow_val by lia. change (2 ^ 23)%Z with 8388608%Z. lra. }
  destruct r; cbn [computed from_top].
  - apply Rabs_le. lra.
  - assert (E2 : Rabs (rnd64 (y + / 2) - (y + / 2)) <= / 1000000000000).
    { eapply Rle_trans; [apply (rnd64_err _ 1); [lia|]|].
      + change (bpow radix2 1) with 2. apply Rabs_lt. lra.
      + change (1 - 53)%Z with (- (52))%Z. rewrite bpow_val by lia. change (2 ^ 52)%Z with 4503599627370496%Z. lra. }
    apply Rabs_le_inv in E2.
    assert (E3 : Rabs (rnd32 (rnd64 (y + / 2)) - rnd64 (y + / 2)) <= / 16777216) by (apply Q; lra).
    apply Rabs_le_inv in E3. apply Rabs_le. lra.
  - assert (E3 : Rabs (rnd32 (1 - y) - (1 - y)) <= / 16777216) by (apply Q; lra).
    apply Rabs_le_inv in E3. apply Rabs_le. lra.
  - apply Rabs_le. lra.
Qed.

Lemma computed_mono r x y : r <> BOTTOM_OF_SCREEN -> x <= y -> computed r x <= computed r y.
Proof. intros N H. destruct r; cbn [computed]; [exact H | | congruence | exact H]. apply rnd32_mono, rnd64_mono. lra. Qed.
Lemma computed_anti x y : x <= y -> computed BOTTOM_OF_SCREEN y <= computed BOTTOM_OF_SCREEN x.
Proof. intros H. apply rnd32_mono. lra. Qed.

Lemma lt_value a b ra xa rb xb : offset a ra xa -> offset b rb xb -> Rabs xa <= 1 -> Rabs xb <= 1 ->
  vpos_lt a b = Ok (Rlt_bool (computed ra (rnd32 xa)) (computed rb (rnd32 xb))).
Proof.
  intros Ha Hb Ba Bb. destruct (fraction_value _ _ _ Ha Ba) as (f & Ef & Vf). destruct (fraction_value _ _ _ Hb Bb) as (g & Eg & Vg).
  unfold vpos_lt. rewrite Ef, Eg. cbn [bind]. f_equal. unfold flt_lt. exact (ltb_flt 24 128 _ _ _ _ Vf Vg).
Qed.

Lemma vertical_order a b ra xa rb xb : offset a ra xa -> offset b rb xb -> Rabs xa <= 1 -> Rabs xb <= 1 ->
  exists t, vpos_lt a b = Ok t /\
    (from_top ra xa + / 4194304 < from_top rb xb -> t = true) /\
    (from_top rb xb + / 4194304 < from_top ra xa -> t = false) /\
    (ra = rb -> t = true -> from_top ra xa < from_top rb xb).
Proof.
  intros Ha Hb Ba Bb. eexists. split; [apply (lt_value _ _ _ _ _ _ Ha Hb Ba Bb)|].
  pose proof (computed_close ra xa Ba) as Ca. pose proof (computed_close rb xb Bb) as Cb.
  apply Rabs_le_inv in Ca. apply Rabs_le_inv in Cb.
  split; [|split].
  - intros H. apply Rlt_bool_true. lra.
  - intros H. apply Rlt_bool_false. lra.
  - intros <- T. destruct (Rlt_bool_spec (computed ra (rnd32 xa)) (computed ra (rnd32 xb))) as [L|L]; [|discriminate].
    destruct (Rlt_le_dec (from_top ra xa) (from_top ra xb)) as [G|G]; [exact G|]. exfalso.
    destruct ra; cbn [from_top] in G.
    + assert (K : rnd32 xb <= rnd32 xa) by (apply rnd32_mono; lra). cbn in L. lra.
    + assert (K : rnd32 xb <= rnd32 xa) by (apply rnd32_mono; lra).
      apply (computed_mono VERTICAL_CENTRE_OF_SCREEN) in K; [lra | discriminate].
    + assert (K : rnd32 xa <= rnd32 xb) by (apply rnd32_mono; lra). apply computed_anti in K. lra.
    + assert (K : rnd32 xb <= rnd32 xa) by (apply rnd32_mono; lra). cbn in L. lra.
Qed.

Lemma vertical_strict_weak a b c ra xa rb xb rc xc :
  offset a ra xa -> offset b rb xb -> offset c rc xc -> Rabs xa <= 1 -> Rabs xb <= 1 -> Rabs xc <= 1 ->
  vpos_lt a a = Ok false /\
  (vpos_lt a b = Ok true -> vpos_lt b c = Ok true -> vpos_lt a c = Ok true) /\
  (vpos_lt a b = Ok false -> vpos_lt b c = Ok false -> vpos_lt a c = Ok false).
Proof.
  intros Ha Hb Hc Ba Bb Bc.
  rewrite (lt_value _ _ _ _ _ _ Ha Ha Ba Ba), (lt_value _ _ _ _ _ _ Ha Hb Ba Bb), (lt_value _ _ _ _ _ _ Hb Hc Bb Bc),
    (lt_value _ _ _ _ _ _ Ha Hc Ba Bc).
  set (x := computed ra (rnd32 xa)). set (y := computed rb (rnd32 xb)). set (z := computed rc (rnd32 xc)).
  destruct (Rlt_bool_spec x x), (Rlt_bool_spec x y), (Rlt_bool_spec y z), (Rlt_bool_spec x z);
    repeat split; try congruence; intros; try lra; exfalso; lra.
Qed.

(** Undefined exactly when line is used without lines. *)
Lemma vertical_undefined a b :
  (exists u, vpos_lt a b = Undef u) <->
  (exists v, (v = a \/ v = b) /\ v_ref v <> None /\ v_prop v = None /\ v_line v <> None /\ v_lines v = None).
Proof.
  assert (F : forall v, (exists f, fraction_from_screen_top v = Ok f /\
                 ~ (v_ref v <> None /\ v_prop v = None /\ v_line v <> None /\ v_lines v = None)) \/
               ((exists u, fraction_from_screen_top v = Undef u) /\ v_ref v <> None /\ v_prop v = None /\ v_line v <> None /\ v_lines v = None)).
  { intros [[p|] [l|] [n|] [r|]]; cbn; try (left; eexists; split; [reflexivity|]; cbn; intuition congruence).
    right. split; [eexists; reflexivity|]. repeat split; discriminate. }
  unfold vpos_lt. destruct (F a) as [(f & -> & Na)|((u & ->) & Ha)]; cbn [bind].
  - destruct (F b) as [(g & -> & Nb)|((u & ->) & Hb)]; cbn [bind].
    + split; [intros [u [=]]|]. intros (v & [->| ->] & H); contradiction.
    + split; [|eauto]. intros _. exists b. auto.
  - split; [|eauto]. intros _. exists a. auto.
Qed.

(** ** Equality *)
Lemma flt_eq_value p q x y : float_value p x -> float_value q y -> (flt_eq p q = true <-> x = y).
Proof.
  intros P Q. unfold flt_eq. rewrite (eqb_flt 24 128 _ _ _ _ P Q).
  destruct (Req_bool_spec x y); split; congruence.
Qed.
Lemma vref_eqb_true a b : vref_eqb a b = true <-> a = b.
Proof. destruct a, b; cbn; split; congruence. Qed.

Lemma vertical_equal_proportional a b : proportional_position a -> proportional_position b ->
  (vpos_eqb a b = true <-> same_proportion a b).
Proof.
  intros (r & p & x & Ra & Pa & Va) (s & q & y & Rb & Pb & Vb). unfold vpos_eqb, same_proportion.
  rewrite Ra, Pa, Rb, Pb. cbn. rewrite andb_true_iff, vref_eqb_true, (flt_eq_value _ _ _ _ Va Vb). split.
  - intros [-> ->]. exists s, p, q, y. auto 10.
  - intros (r' & p' & q' & x' & [= ->] & [= ->] & [= <-] & [= <-] & V1 & V2). split; [|reflexivity].
    destruct Va as (_ & _ & <-), Vb as (_ & _ & <-), V1 as (_ & _ & ->), V2 as (_ & _ & ->). reflexivity.
Qed.
Lemma vertical_equal_line a b : line_position a -> line_position b ->
  (vpos_eqb a b = true <-> same_line a b).
Proof.
  intros (r & l & n & Ra & La & Na & Pa) (s & k & m & Rb & Lb & Nb & Pb). unfold vpos_eqb, same_line.
  rewrite Ra, La, Na, Pa, Rb, Lb, Nb, Pb. cbn. rewrite !andb_true_iff, vref_eqb_true, !Z.eqb_eq. split.
  - intros [[-> ->] ->]. exists s, k, m. auto 10.
  - intros (r' & l' & n' & [= ->] & [= ->] & [= ->] & [= ->] & [= ->] & [= ->]). auto.
Qed.
Lemma vertical_symmetric a b : vpos_eqb a b = vpos_eqb b a.
Proof.
  assert (S : forall x y, flt_eq x y = flt_eq y x).
  { intros x y. unfold flt_eq, SFeqb, SFcompare. destruct x as [s|s| |s m e], y as [t|t| |t k f]; try reflexivity;
      try (destruct s; reflexivity); try (destruct t; reflexivity); try (destruct s, t; reflexivity).
    destruct s, t; try reflexivity;
      rewrite (Z.compare_antisym e f); destruct (e ?= f)%Z; cbn; try reflexivity;
      change (Pos.compare_cont Eq k m) with (k ?= m)%positive; change (Pos.compare_cont Eq m k) with (m ?= k)%positive;
      rewrite (Pos.compare_antisym m k); destruct (m ?= k)%positive; reflexivity. }
  assert (V : forall x y, vref_eqb x y = vref_eqb y x) by (destruct x, y; reflexivity).
  destruct a as [[p|] [l|] [n|] [r|]], b as [[q|] [k|] [m|] [s|]]; cbn; try reflexivity;
   rewrite ?(S p q), ?(V r s), ?(Z.eqb_sym l k), ?(Z.eqb_sym n m); reflexivity.
Qed.

Lemma same_proportion_equivalence a b c : proportional_position a -> proportional_position b -> proportional_position c ->
  vpos_eqb a a = true /\ (vpos_eqb a b = true -> vpos_eqb b a = true) /\
  (vpos_eqb a b = true -> vpos_eqb b c = true -> vpos_eqb a c = true).
Proof.
  intros A B C. rewrite !vertical_equal_proportional by assumption. split; [|split].
  - destruct A as (r & p & x & R & P & V). exists r, p, p, x. auto 10.
  - intros (r & p & q & x & H1 & H2 & H3 & H4 & H5 & H6). exists r, q, p, x. auto 10.
  - intros (r & p & q & x & H1 & H2 & H3 & H4 & H5 & H6) (r' & p' & q' & x' & K1 & K2 & K3 & K4 & K5 & K6).
    exists r, p, q', x. rewrite H2 in K1. injection K1 as <-. rewrite H4 in K3. injection K3 as <-.
    assert (x = x') as <- by (destruct H6 as (_ & _ & <-), K5 as (_ & _ & <-); reflexivity). auto 10.
Qed.
Lemma same_line_equivalence a b c : line_position a -> line_position b -> line_position c ->
  vpos_eqb a a = true /\ (vpos_eqb a b = true -> vpos_eqb b a = true) /\
  (vpos_eqb a b = true -> vpos_eqb b c = true -> vpos_eqb a c = true).
Proof.
  intros A B C. rewrite !vertical_equal_line by assumption. split; [|split].
  - destruct A as (r & l & n & R & L & N & _). exists r, l, n. auto 10.
  - intros (r & l & n & H1 & H2 & H3 & H4 & H5 & H6). exists r, l, n. auto 10.
  - intros (r & l & n & H1 & H2 & H3 & H4 & H5 & H6) (r' & l' & n' & K1 & K2 & K3 & K4 & K5 & K6).
    rewrite H2 in K1. rewrite H4 in K3. rewrite H6 in K5. injection K1 as <-. injection K3 as <-. injection K5 as <-.
    exists r, l, n. auto 10.
Qed.

Lemma equal_is_same_place a b ra xa rb xb : (v_prop a = None <-> v_prop b = None) ->
  offset a ra xa -> offset b rb xb -> vpos_eqb a b = true -> from_top ra xa = from_top rb xb.
Proof.
  intros K (Ra & A) (Rb & B) E.
  destruct A as [(p & Pa & Va)|(Pa & l & n & La & Na & _ & _ & _ & ->)];
  destruct B as [(q & Pb & Vb)|(Pb & k & m & Lb & Nb & _ & _ & _ & ->)].
  - apply vertical_equal_proportional in E; [|exists ra, p, xa; auto | exists rb, q, xb; auto].
    destruct E as (r & p' & q' & x & H1 & H2 & H3 & H4 & H5 & H6).
    rewrite Ra in H1. rewrite Rb in H2. rewrite Pa in H3. rewrite Pb in H4.
    injection H1 as ->. injection H2 as ->. injection H3 as <-. injection H4 as <-.
    destruct Va as (_ & _ & <-), Vb as (_ & _ & <-), H5 as (_ & _ & ->), H6 as (_ & _ & ->). reflexivity.
  - exfalso. destruct K as [_ K]. rewrite (K Pb) in Pa. discriminate.
  - exfalso. destruct K as [K _]. rewrite (K Pa) in Pb. discriminate.
  - apply vertical_equal_line in E; [|exists ra, l, n; auto | exists rb, k, m; auto].
    destruct E as (r & l' & n' & H1 & H2 & H3 & H4 & H5 & H6).
    rewrite Ra in H1. rewrite Rb in H2. rewrite La in H3. rewrite Lb in H4. rewrite Na in H5. rewrite Nb in H6.
    injection H1 as ->. injection H2 as ->. injection H3 as ->. injection H4 as ->. injection H5 as ->. injection H6 as ->.
    reflexivity.
Qed.

(** ** Horizontal *)
Lemma tolerance : is_d (d_lit 1 1998) (IZR 4616302320748136 * bpow radix2 (-63)).
Proof.
  assert (E : d_lit 1 1998 = S754_finite false 4616302320748136 (-63)) by (vm_compute; reflexivity).
  rewrite E. repeat split.
Qed.

Lemma F_format z : (Z.abs z < 2 ^ 24)%Z -> generic_format radix2 (SpecFloat.fexp 24 128) (IZR z * bpow radix2 (-34)).
Proof.
  intros B. change (SpecFloat.fexp 24 128) with (FLT_exp (-149) 24).
  apply generic_format_FLT. exists (Float radix2 z (-34)); cbn [Fnum Fexp]; [reflexivity | exact B | lia].
Qed.
Lemma horizontal_equal a b x y : float_value (h_prop a) x -> float_value (h_prop b) y -> Rabs (x - y) <= 8388608 ->
  (h_ref a = h_ref b -> Rabs (x - y) <= / 1998 - / 17179869184 -> hpos_eqb a b = true) /\
  (h_ref a <> h_ref b -> hpos_eqb a b = false) /\
  (Rabs (x - y) >= / 1998 + / 17179869184 -> hpos_eqb a b = false).
Proof.
  intros Va Vb B. unfold hpos_eqb.
  assert (S : is_f (fsub (h_prop a) (h_prop b)) (rnd32 (x - y))).
  { apply fsub_ok; [exact Va | exact Vb |]. apply small_lt_128. exact B. }
  apply (abs_flt 24 128) in S. apply d_of_f_ok in S.
  unfold flt_lt, flt_abs. rewrite (ltb_flt 53 1024 _ _ _ _ S tolerance).
  assert (P34 : bpow radix2 (-34) = / 17179869184).
  { change (-34)%Z with (- (34))%Z. rewrite bpow_val by lia. reflexivity. }
  assert (P63 : bpow radix2 (-63) = / 9223372036854775808).
  { change (-63)%Z with (- (63))%Z. rewrite bpow_val by lia. reflexivity. }
  split; [|split].
  - intros -> H. replace (href_eqb (h_ref b) (h_ref b)) with true by (destruct (h_ref b); reflexivity). cbn [andb].
    apply Rlt_bool_true. apply Rle_lt_trans with (IZR 8598533 * bpow radix2 (-34)).
    + apply abs_round_le_generic; [typeclasses eauto.. | now apply F_format |]. rewrite P34. lra.
    + rewrite P34, P63. lra.
  - intros N. replace (href_eqb (h_ref a) (h_ref b)) with false by (destruct (h_ref a), (h_ref b); try reflexivity; congruence).
    reflexivity.
  - intros H. rewrite Rlt_bool_false; [now rewrite andb_false_r|].
    apply Rle_trans with (IZR 8598534 * bpow radix2 (-34)).
    + rewrite P34, P63. lra.
    + apply abs_round_ge_generic; [typeclasses eauto.. | now apply F_format |]. rewrite P34. lra.
Qed.

Lemma horizontal_symmetric a b x y : float_value (h_prop a) x -> float_value (h_prop b) y -> Rabs (x - y) <= 8388608 ->
  hpos_eqb a b = hpos_eqb b a.
Proof.
  intros Va Vb B. unfold hpos_eqb.
  replace (href_eqb (h_ref a) (h_ref b)) with (href_eqb (h_ref b) (h_ref a)) by (destruct (h_ref a), (h_ref b); reflexivity).
  f_equal.
  assert (S : is_f (fsub (h_prop a) (h_prop b)) (rnd32 (x - y))) by (apply fsub_ok; [exact Va | exact Vb |]; apply small_lt_128; exact B).
  assert (S' : is_f (fsub (h_prop b) (h_prop a)) (rnd32 (y - x))).
  { apply fsub_ok; [exact Vb | exact Va |]. apply small_lt_128. rewrite Rabs_minus_sym. exact B. }
  apply (abs_flt 24 128) in S. apply d_of_f_ok in S. apply (abs_flt 24 128) in S'. apply d_of_f_ok in S'.
  unfold flt_lt, flt_abs. rewrite (ltb_flt 53 1024 _ _ _ _ S tolerance), (ltb_flt 53 1024 _ _ _ _ S' tolerance).
  f_equal. replace (y - x) with (- (x - y)) by ring. rewrite round_NE_opp, Rabs_Ropp. reflexivity.
Qed.

(** Witnesses. *)
Lemma vertical_not_reflexive : exists v, vpos_eqb v v = false.
Proof. exists vpos_empty. reflexivity. Qed.
Lemma vertical_not_transitive : exists a b c, vpos_eqb a b = true /\ vpos_eqb b c = true /\ vpos_eqb a c = false.
Proof.
  exists (mkV None (Some 1%Z) (Some 10%Z) (Some TOP_OF_SCREEN)), (mkV None (Some 1%Z) None (Some TOP_OF_SCREEN)),
    (mkV None (Some 1%Z) (Some 20%Z) (Some TOP_OF_SCREEN)).
  repeat split.
Qed.
Lemma horizontal_not_transitive : exists a b c, hpos_eqb a b = true /\ hpos_eqb b c = true /\ hpos_eqb a c = false.
Proof.
  exists (mkH LEFT_OF_SCREEN (f_lit 0 1)), (mkH LEFT_OF_SCREEN (f_lit 4 10000)), (mkH LEFT_OF_SCREEN (f_lit 8 10000)).
  repeat split; vm_compute; reflexivity.
Qed.

Lemma vertical_equal_spec a b : finite_proportion a -> finite_proportion b -> (vpos_eqb a b = true <-> same_vertical a b).
Proof.
  intros Fa Fb. unfold vpos_eqb, same_vertical.
  destruct a as [pa la na ra], b as [pb lb nb rb]; unfold finite_proportion in *; cbn [v_prop v_line v_lines v_ref] in *.
  destruct ra as [ra|]; [|cbn [is_some]; rewrite !andb_false_r; cbn; split; [discriminate | intros (r & [=] & _)]].
  destruct rb as [rb|]; [|cbn [is_some]; rewrite !andb_false_r; cbn; split; [discriminate | intros (r & _ & [=] & _)]].
  destruct pa as [pa|].
  1: destruct pb as [pb|].
  1: { destruct (Fa pa eq_refl) as (x & Va). destruct (Fb pb eq_refl) as (y & Vb). cbn.
    rewrite andb_true_iff, vref_eqb_true, (flt_eq_value _ _ _ _ Va Vb). split.
    - intros [-> ->]. exists rb. eauto.
    - intros (r & [= ->] & [= ->] & z & V1 & V2). split; [|reflexivity].
      destruct Va as (_ & _ & <-), Vb as (_ & _ & <-), V1 as (_ & _ & ->), V2 as (_ & _ & ->). reflexivity. }
  all: destruct la as [la|], lb as [lb|], na as [na|], nb as [nb|]; cbn [is_some andb opt_eqb];
    try (split; [discriminate | intros (r & _ & _ & l & L1 & L2 & _); discriminate]);
    rewrite !andb_true_iff, vref_eqb_true, !Z.eqb_eq;
    (split;
     [ intuition subst; eexists; split; [reflexivity|]; split; [reflexivity|]; eexists; split; [reflexivity|]; split; [reflexivity|];
       congruence
     | intros (r & [= ->] & [= ->] & l & [= ->] & [= ->] & N); repeat split; auto ]).
Qed.

Lemma unspecified_is_top v : v_ref v = None \/ (v_prop v = None /\ v_line v = None) ->
  exists f, fraction_from_screen_top v = Ok f /\ float_value f 0.
Proof.
  intros H. exists (S754_zero false). split; [|repeat split]. unfold fraction_from_screen_top.
  destruct H as [->|[-> ->]]; [reflexivity|]. destruct (v_ref v); reflexivity.
Qed.

(** ** Font sizes *)
Lemma abs_div_int p h : (0 < h)%Z -> Rabs (IZR p / IZR h) <= Rabs (IZR p).
Proof.
  intros Hh. assert (1 <= IZR h) by (apply IZR_le; lia).
  unfold Rdiv. rewrite Rabs_mult, (Rabs_pos_eq (/ IZR h)) by (left; apply Rinv_0_lt_compat; lra).
  rewrite <- (Rmult_1_r (Rabs (IZR p))) at 2. apply Rmult_le_compat_l; [apply Rabs_pos|].
  rewrite <- Rinv_1. apply Rinv_le; lra.
Qed.
Lemma points_proportional p h : (Z.abs p <= 8388608)%Z -> (0 < h < 2 ^ 24)%Z ->
  exists f, fs_proportional (from_points p) h = Ok f /\ float_value f (nearest_float (IZR p / IZR h)).
Proof.
  intros Hp Hh. eexists. split; [reflexivity|].
  apply fdiv_ok; [apply f_of_int_ok; lia | apply f_of_int_ok; lia | apply (IZR_neq h 0); lia |].
  apply small_lt_128. eapply Rle_trans; [apply abs_div_int; lia|]. rewrite <- abs_IZR. apply IZR_le. exact Hp.
Qed.
Lemma proportional_points f x h : float_value f x -> (0 < h < 2 ^ 24)%Z -> Rabs (x * IZR h) <= 8388608 ->
  fs_points_at (from_proportional f) h = Ok (Ztrunc (nearest_float (x * IZR h))).
Proof.
  intros V Hh B. cbn [fs_points_at from_proportional set_proportional fs_points fs_prop opt_get bind font_size_none].
  assert (M : is_f (fmul f (f_of_int h)) (rnd32 (x * IZR h))).
  { apply fmul_ok; [exact V | apply f_of_int_ok; lia |]. apply small_lt_128. exact B. }
  destruct M as (_ & F & R). rewrite trunc_Z_correct by exact F. rewrite R.
  assert (L : Rabs (rnd32 (x * IZR h)) <= 8388608) by (apply (rnd_abs_le 24 128 p24 e24 _ 8388608); [reflexivity | exact B]).
  cbn [to_int]. replace (in_int _) with true; [reflexivity|]. symmetry. unfold in_int, int_min, int_max.
  assert (K : (-8388608 <= Ztrunc (rnd32 (x * IZR h)) <= 8388608)%Z).
  { apply Rabs_le_inv in L. split.
    - rewrite <- (Ztrunc_IZR (-8388608)). apply Ztrunc_le. lra.
    - rewrite <- (Ztrunc_IZR 8388608). apply Ztrunc_le. lra. }
  apply andb_true_iff. rewrite !Z.leb_le. lia.
Qed.

Lemma rnd32_rel v : bpow radix2 (-126) <= Rabs v -> Rabs (rnd32 v - v) <= / 16777216 * Rabs v.
Proof.
  intros H. replace (/ 16777216) with (/ 2 * bpow radix2 (- 24 + 1)).
  - apply (Relative.relative_error_N_FLT radix2 (-149) 24 p24). exact H.
  - change (-24 + 1)%Z with (- (23))%Z. rewrite bpow_val by lia. change (2 ^ 23)%Z with 8388608%Z. lra.
Qed.

Lemma points_round_trip p h : (0 <= p <= 1000000)%Z -> (0 < h < 2 ^ 24)%Z ->
  exists f q, fs_proportional (from_points p) h = Ok f /\ fs_points_at (from_proportional f) h = Ok q /\ (p - 1 <= q <= p)%Z.
Proof.
  intros Hp Hh. destruct (points_proportional p h) as (f & E & V); [lia.. |].
  assert (P : 0 <= IZR p <= 1000000) by (split; apply IZR_le; lia).
  assert (H1 : 1 <= IZR h) by (apply IZR_le; lia).
  assert (H2 : IZR h <= 16777216) by (apply IZR_le; lia).
  destruct (Z.eq_dec p 0) as [->|NP].
  { exists f. assert (Z0 : nearest_float (IZR 0 / IZR h) = 0).
    { unfold nearest_float, Rdiv. rewrite Rmult_0_l. apply round_0. typeclasses eauto. }
    rewrite Z0 in V. exists 0%Z. split; [exact E|]. split; [|lia].
    rewrite (proportional_points f 0 h V Hh).
    - unfold nearest_float. rewrite Rmult_0_l, round_0 by typeclasses eauto. now rewrite (Ztrunc_IZR 0).
    - rewrite Rmult_0_l, Rabs_R0. lra. }
  assert (P1 : 1 <= IZR p) by (apply IZR_le; lia).
  set (q := IZR p / IZR h) in *.
  assert (Q0 : 0 < q) by (unfold q, Rdiv; apply Rmult_lt_0_compat; [lra | apply Rinv_0_lt_compat; lra]).
  assert (QH : q * IZR h = IZR p) by (unfold q; field; lra).
  assert (R1 : Rabs (nearest_float q - q) <= / 16777216 * q).
  { unfold nearest_float. change (FLT_exp (-149) 24) with (SpecFloat.fexp 24 128).
    replace q with (Rabs q) at 3 by (apply Rabs_pos_eq; lra). apply rnd32_rel. rewrite Rabs_pos_eq by lra.
    apply Rle_trans with (/ 16777216).
    - apply Rle_trans with (bpow radix2 (- (24))); [apply bpow_le; lia|]. rewrite bpow_val by lia. apply Rle_refl.
    - unfold q, Rdiv. apply Rle_trans with (1 * / IZR h).
      + rewrite Rmult_1_l. apply Rinv_le; lra.
      + apply Rmult_le_compat_r; [left; apply Rinv_0_lt_compat; lra | lra]. }
  set (x := nearest_float q) in *. apply Rabs_le_inv in R1.
  assert (XH : IZR p * (1 - / 16777216) <= x * IZR h <= IZR p * (1 + / 16777216)).
  { rewrite <- QH. split.
    - replace (q * IZR h * (1 - / 16777216)) with ((q - / 16777216 * q) * IZR h) by ring. apply Rmult_le_compat_r; lra.
    - replace (q * IZR h * (1 + / 16777216)) with ((q + / 16777216 * q) * IZR h) by ring. apply Rmult_le_compat_r; lra. }
  assert (BX : Rabs (x * IZR h) <= 8388608) by (apply Rabs_le; lra).
  exists f. eexists. split; [exact E|]. split; [apply (proportional_points f x h V Hh BX)|].
  set (y := x * IZR h) in *.
  assert (R2 : Rabs (nearest_float y - y) <= / 16777216 * y).
  { unfold nearest_float. change (FLT_exp (-149) 24) with (SpecFloat.fexp 24 128).
    replace y with (Rabs y) at 3 by (apply Rabs_pos_eq; lra). apply rnd32_rel. rewrite Rabs_pos_eq by lra.
    apply Rle_trans with (bpow radix2 (- (1))); [apply bpow_le; lia|]. rewrite bpow_val by lia. change (2 ^ 1)%Z with 2%Z. lra. }
  apply Rabs_le_inv in R2. set (w := nearest_float y) in *.
  assert (W : IZR p - 1 < w < IZR p + 1) by (split; nra).
  rewrite Ztrunc_floor by lra. split.
  - rewrite <- minus_IZR in W. assert (p - 1 <= Zfloor w)%Z by (apply Zfloor_lub; lra). exact H.
  - rewrite <- plus_IZR in W. destruct W as [_ W].
    assert (Zfloor w < p + 1)%Z; [|lia]. apply lt_IZR. eapply Rle_lt_trans; [apply Zfloor_lb | exact W].
Qed.
Lemma points_lost : exists p h f, (0 <= p)%Z /\ (0 < h)%Z /\ fs_proportional (from_points p) h = Ok f /\
  fs_points_at (from_proportional f) h = Ok (p - 1)%Z.
Proof.
  exists 7%Z, 1080%Z. eexists. split; [lia|]. split; [lia|]. split; [reflexivity|]. vm_compute. reflexivity.
Qed.
Lemma font_size_given s h :
  (forall p, fs_points s = Some p -> fs_points_at s h = Ok p) /\
  (forall f, fs_prop s = Some f -> fs_proportional s h = Ok f) /\
  (fs_specified s = true <-> (fs_points s <> None \/ fs_prop s <> None)) /\
  (fs_specified s = false <-> ((exists u, fs_points_at s h = Undef u) /\ (exists u, fs_proportional s h = Undef u))).
Proof.
  destruct s as [[f|] [p|]]; cbn; repeat split; try discriminate; try congruence; eauto; intros H.
  all: try (left; discriminate); try (right; discriminate).
  all: try (destruct H as [[u H] [u' H']]; discriminate).
  all: destruct H; congruence.
Qed.
Lemma quarter_and_half : float_value (f_lit 1 4) (/ 4) /\ float_value (f_lit 1 2) (/ 2).
Proof.
  assert (E4 : f_lit 1 4 = S754_finite false 8388608 (-25)) by (vm_compute; reflexivity).
  assert (E2 : f_lit 1 2 = S754_finite false 8388608 (-24)) by (vm_compute; reflexivity).
  rewrite E4, E2. split; (split; [reflexivity|]; split; [reflexivity|]); rewrite SF2R_finite; cbn [SpecFloat.cond_Zopp].
  - change (-25)%Z with (- (25))%Z. rewrite bpow_val by lia. change (2 ^ 25)%Z with 33554432%Z. lra.
  - change (-24)%Z with (- (24))%Z. rewrite bpow_val by lia. change (2 ^ 24)%Z with 16777216%Z. lra.
Qed.
Lemma one_value : float_value (f_of_int 1) 1.
Proof. now apply f_of_int_ok. Qed.
