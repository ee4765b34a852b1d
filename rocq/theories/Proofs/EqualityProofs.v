(** Equality of blocks, lines and subtitles. *)
From Coq Require Import ZArith Reals Lia Bool List Ascii.
From Verif.Model Require Import Base Strings Float TimeModel Types.
From Verif.Spec Require Import Outcome PositionSpec CollectSpec.
From Verif.Proofs Require Import PositionProofs CollectProofs.
Import ListNotations.

Lemma str_eqb_true a b : str_eqb a b = true <-> a = b.
Proof.
  revert b. induction a as [|x a IH]; intros [|y b]; cbn; try (split; congruence).
  rewrite andb_true_iff, IH, Ascii.eqb_eq. split; [intros [-> ->]; reflexivity | intros [= -> ->]; auto].
Qed.
Lemma opt_eqb_true {A} (eqb : A -> A -> bool) (R : A -> A -> Prop) a b :
  (forall x y, a = Some x -> b = Some y -> (eqb x y = true <-> R x y)) -> (opt_eqb eqb a b = true <-> same_option R a b).
Proof. intros H. destruct a, b; cbn; try (split; [congruence | tauto]). - now apply H. - tauto. Qed.
Lemma same_option_eq {A} (a b : option A) : same_option eq a b <-> a = b.
Proof. destruct a, b; cbn; split; try congruence; try tauto; try discriminate. Qed.
Lemma same_float_true f g : finite_float f -> finite_float g -> (flt_eq f g = true <-> same_float f g).
Proof.
  intros [x X] [y Y]. rewrite (flt_eq_value _ _ _ _ X Y). split.
  - intros ->. exists y. auto.
  - intros (z & Z1 & Z2). destruct X as (_ & _ & <-), Y as (_ & _ & <-), Z1 as (_ & _ & ->), Z2 as (_ & _ & ->). reflexivity.
Qed.
Lemma same_colour_true c d : finite_colour c -> finite_colour d -> (colour_eqb c d = true <-> same_colour c d).
Proof.
  intros (C1 & C2 & C3) (D1 & D2 & D3). unfold colour_eqb, same_colour.
  rewrite !andb_true_iff, !same_float_true by assumption. tauto.
Qed.

Lemma block_equal a b : finite_block a -> finite_block b -> (block_eqb a b = true <-> same_block a b).
Proof.
  intros (A1 & A2 & A3) (B1 & B2 & B3). unfold block_eqb, same_block, font_size_eqb.
  rewrite !andb_true_iff, str_eqb_true, !Bool.eqb_true_iff.
  rewrite (opt_eqb_true str_eqb eq) by (intros; apply str_eqb_true).
  rewrite (opt_eqb_true flt_eq same_float) by (intros x y X Y; apply same_float_true; auto).
  rewrite (opt_eqb_true Z.eqb eq) by (intros; apply Z.eqb_eq).
  rewrite (opt_eqb_true effect_eqb eq) by (intros x y _ _; destruct x, y; cbn; split; congruence).
  rewrite (opt_eqb_true colour_eqb same_colour) by (intros x y X Y; apply same_colour_true; auto).
  rewrite same_colour_true by assumption. rewrite !same_option_eq. tauto.
Qed.

Lemma list_equal {A} (eqb : A -> A -> bool) a b : list_eqb eqb a b = true <-> Forall2 (fun x y => eqb x y = true) a b.
Proof.
  revert b. induction a as [|x a IH]; intros [|y b]; cbn.
  - split; auto.
  - split; [discriminate | intros H; inversion H].
  - split; [discriminate | intros H; inversion H].
  - rewrite andb_true_iff, IH. split; [intros [H1 H2]; now constructor | intros H; inversion H; auto].
Qed.
Lemma line_equal a b : line_eqb a b = true <->
  hpos_eqb (l_hpos a) (l_hpos b) = true /\ vpos_eqb (l_vpos a) (l_vpos b) = true /\
  Forall2 (fun x y => block_eqb x y = true) (l_blocks a) (l_blocks b).
Proof. unfold line_eqb. rewrite !andb_true_iff, list_equal. tauto. Qed.

Lemma subtitle_equal a b : subtitle_eq a b = Ok true <->
  time_eq (s_from a) (s_from b) = Ok true /\ time_eq (s_to a) (s_to b) = Ok true /\
  same_optional_time (s_fade_up a) (s_fade_up b) /\ same_optional_time (s_fade_down a) (s_fade_down b) /\
  Forall2 (fun x y => line_eqb x y = true) (s_lines a) (s_lines b).
Proof.
  unfold subtitle_eq, and_then. rewrite <- !opt_time_eq_true, <- list_equal.
  destruct (time_eq (s_from a) (s_from b)) as [[|]| |]; cbn [bind]; try (split; [discriminate | intuition discriminate]).
  destruct (time_eq (s_to a) (s_to b)) as [[|]| |]; cbn [bind]; try (split; [discriminate | intuition discriminate]).
  destruct (opt_time_eq (s_fade_up a) (s_fade_up b)) as [[|]| |]; cbn [bind]; try (split; [discriminate | intuition discriminate]).
  destruct (opt_time_eq (s_fade_down a) (s_fade_down b)) as [[|]| |]; cbn [bind]; try (split; [discriminate | intuition discriminate]).
  split; [intros [= ->]; auto 10 | intros (_ & _ & _ & _ & ->); reflexivity].
Qed.
Lemma subtitle_equal_returns a b :
  returns (time_eq (s_from a) (s_from b)) -> returns (time_eq (s_to a) (s_to b)) ->
  optional_returns (s_fade_up a) (s_fade_up b) -> optional_returns (s_fade_down a) (s_fade_down b) ->
  returns (subtitle_eq a b).
Proof.
  intros [x1 E1] [x2 E2] R3 R4.
  assert (E3 : exists x, opt_time_eq (s_fade_up a) (s_fade_up b) = Ok x) by (destruct (s_fade_up a), (s_fade_up b); cbn in *; eauto).
  assert (E4 : exists x, opt_time_eq (s_fade_down a) (s_fade_down b) = Ok x) by (destruct (s_fade_down a), (s_fade_down b); cbn in *; eauto).
  destruct E3 as [x3 E3], E4 as [x4 E4]. unfold subtitle_eq, and_then, returns. rewrite E1, E2, E3, E4. cbn [bind].
  destruct x1, x2, x3, x4; cbn [bind]; eauto.
Qed.
