(** Names of effects and alignments; white space. *)
From Coq Require Import ZArith Lia Bool List Ascii String.
From Verif.Model Require Import Base Strings Types Lines.
From Verif.Spec Require Import Outcome TextSpec.
From Verif.Proofs Require Import StringProofs ColourProofs.
Import ListNotations.
Local Open Scope Z_scope.

Lemma effect_names s :
  (s = lit "none" -> string_to_effect s = Ok None) /\
  (s = lit "border" -> string_to_effect s = Ok (Some BORDER)) /\
  (s = lit "shadow" -> string_to_effect s = Ok (Some SHADOW)) /\
  (s <> lit "none" -> s <> lit "border" -> s <> lit "shadow" -> string_to_effect s = Throw (EXml (lit "unknown subtitle effect type"))).
Proof.
  split; [intros ->; reflexivity|]. split; [intros ->; reflexivity|]. split; [intros ->; reflexivity|].
  intros A B C. unfold string_to_effect. now rewrite !str_eqb_neq.
Qed.
Lemma alignment_names s :
  (s = lit "top" -> string_to_vertical_reference s = Ok TOP_OF_SCREEN) /\
  (s = lit "center" -> string_to_vertical_reference s = Ok VERTICAL_CENTRE_OF_SCREEN) /\
  (s = lit "bottom" -> string_to_vertical_reference s = Ok BOTTOM_OF_SCREEN) /\
  (s <> lit "top" -> s <> lit "center" -> s <> lit "bottom" -> string_to_vertical_reference s = Throw (EXml (lit "unknown subtitle valign type"))).
Proof.
  split; [intros ->; reflexivity|]. split; [intros ->; reflexivity|]. split; [intros ->; reflexivity|].
  intros A B C. unfold string_to_vertical_reference. now rewrite !str_eqb_neq.
Qed.
Lemma char_is c d : char_code c = char_code d <-> c = d.
Proof.
  split; [|now intros ->]. unfold char_code. intros H. apply Nat2Z.inj in H.
  rewrite <- (ascii_nat_embedding c), <- (ascii_nat_embedding d). now rewrite H.
Qed.
Lemma white_space_only s : empty_or_white_space s = true <-> forall c, In c s -> char_code c = 32 \/ char_code c = 10 \/ char_code c = 9.
Proof.
  unfold empty_or_white_space. rewrite forallb_forall.
  assert (K : forall c, Ascii.eqb c " "%char || Ascii.eqb c newline || Ascii.eqb c (chr 9) = true <-> char_code c = 32 \/ char_code c = 10 \/ char_code c = 9).
  { intros c. rewrite !orb_true_iff, !Ascii.eqb_eq. change 32 with (char_code " "%char). change 10 with (char_code newline). change 9 with (char_code (chr 9)).
    rewrite !char_is. tauto. }
  split; intros H c I; apply K; now apply H.
Qed.
