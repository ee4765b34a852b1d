(** The colours that any string gives. *)
From Coq Require Import ZArith Reals Lra Lia Bool List Ascii.
From Coq.Floats Require Import SpecFloat.
From Flocq Require Import Core BinarySingleNaN.
From Verif.Model Require Import Base Strings Float Types.
From Verif.Spec Require Import Outcome PositionSpec TextSpec HexSpec.
From Verif.Proofs Require Import FloatProofs PositionProofs StringProofs ColourProofs SsaTagProofs.
Import ListNotations.
Local Open Scope Z_scope.
Local Notation length := List.length.

Lemma drop_while_white sp c t : Forall white sp -> is_space c = false -> drop_while is_space (sp ++ c :: t) = c :: t.
Proof.
  intros F N. induction F as [|a l A F IH]; cbn [app drop_while].
  - now rewrite N.
  - apply is_space_white in A. now rewrite A.
Qed.
Lemma drop_while_split p s : exists sp, s = sp ++ drop_while p s /\ Forall (fun c => p c = true) sp.
Proof.
  induction s as [|c s (sp & E & F)]; cbn [drop_while].
  - exists []. split; [reflexivity | constructor].
  - destruct (p c) eqn:P.
    + exists (c :: sp). split; [cbn; now f_equal | now constructor].
    + exists []. split; [reflexivity | constructor].
Qed.
Lemma letter_x_iff d : Ascii.eqb (lower d) "x"%char = true <-> letter_x d.
Proof. unfold letter_x. destruct d as [[] [] [] [] [] [] [] []]; vm_compute; split; intros H; try discriminate; auto; destruct H; discriminate. Qed.
Lemma not_hex d : is_xdigit d = false <-> forall w, ~ hex_digit d w.
Proof.
  split.
  - intros N w H. apply hex_digit_scan in H. destruct H as (H & _). congruence.
  - intros N. destruct (is_xdigit d) eqn:X; [|reflexivity]. destruct (N _ (is_xdigit_hex d X)).
Qed.
Lemma x_not_digit d : letter_x d -> is_xdigit d = false.
Proof. intros [->| ->]; reflexivity. Qed.

Lemma scan_two s v rest : scan_x2 s = Some (v, rest) <-> two_hex s v rest.
Proof.
  split.
  - unfold scan_x2. destruct (drop_while_split is_space s) as (sp & E & F).
    assert (W : Forall white sp) by (revert F; apply Forall_impl; intros a; apply is_space_white).
    destruct (drop_while is_space s) as [|c t] eqn:D; [discriminate|]. subst s. clear D F.
    destruct (Ascii.eqb_spec c cminus) as [->|M]; cbn [orb].
    + destruct t as [|d t]; [discriminate|]. destruct (is_xdigit d) eqn:X; [|discriminate]. intros [= <- <-].
      apply (two_minus sp d (xdigit_val d) t); [exact W | now apply is_xdigit_hex].
    + destruct (Ascii.eqb_spec c cplus) as [->|P].
      * destruct t as [|d t]; [discriminate|]. destruct (is_xdigit d) eqn:X; [|discriminate]. intros [= <- <-].
        apply (two_plus sp d (xdigit_val d) t); [exact W | now apply is_xdigit_hex].
      * destruct (is_xdigit c) eqn:X; [|discriminate]. destruct t as [|d t].
        { intros [= <- <-]. apply two_single; [exact W | now apply is_xdigit_hex | discriminate]. }
        destruct (is_xdigit d) eqn:Y.
        { intros [= <- <-]. rewrite Z.mul_comm. apply two_pair; [exact W | now apply is_xdigit_hex | now apply is_xdigit_hex]. }
        destruct (Ascii.eqb_spec c "0"%char) as [->|C]; cbn [andb].
        { destruct (Ascii.eqb (lower d) "x"%char) eqn:L.
          - intros [= <- <-]. apply two_0x; [exact W | now apply letter_x_iff].
          - intros [= <- <-]. apply two_single; [exact W | now apply is_xdigit_hex|].
            intros d' t' w [= <- <-]. split; [now apply not_hex|]. intros (_ & H). apply letter_x_iff in H. congruence. }
        intros [= <- <-]. apply two_single; [exact W | now apply is_xdigit_hex|].
        intros d' t' w [= <- <-]. split; [now apply not_hex|]. intros (H & _). contradiction.
  - assert (SG : is_space "+"%char = false /\ is_space "-"%char = false /\ is_space "0"%char = false) by (vm_compute; auto).
    destruct SG as (SP & SM & S0).
    intros H. destruct H as [sp c d v w rest W C D|sp c v rest W C N|sp d rest W L|sp d w rest W D|sp d w rest W D]; unfold scan_x2.
    + destruct (hex_digit_scan c v C) as (X & V & S & M & P & _). destruct (hex_digit_scan d w D) as (X' & V' & _).
      rewrite drop_while_white, M, P, X, X', V, V' by assumption. cbn [orb]. now rewrite Z.mul_comm.
    + destruct (hex_digit_scan c v C) as (X & V & S & M & P & _). rewrite drop_while_white, M, P, X, V by assumption. cbn [orb].
      destruct rest as [|d t]; [reflexivity|].
      replace (is_xdigit d) with false by (symmetry; apply not_hex; intros w; apply (N d t w eq_refl)).
      destruct (Ascii.eqb_spec c "0"%char) as [->|]; cbn [andb]; [|reflexivity].
      destruct (Ascii.eqb (lower d) "x"%char) eqn:L; [|reflexivity].
      exfalso. destruct (N d t 0 eq_refl) as (_ & H). apply H. split; [reflexivity | now apply letter_x_iff].
    + rewrite drop_while_white by assumption. rewrite (x_not_digit d L).
      replace (Ascii.eqb (lower d) "x"%char) with true by (symmetry; now apply letter_x_iff). reflexivity.
    + rewrite drop_while_white by assumption. destruct (hex_digit_scan d w D) as (X & V & _). rewrite X, V. reflexivity.
    + rewrite drop_while_white by assumption. destruct (hex_digit_scan d w D) as (X & V & _). rewrite X, V. reflexivity.
Qed.
Lemma two_range s v rest : two_hex s v rest -> -15 <= v <= 255.
Proof.
  intros H. destruct H as [sp c d v w rest W C D|sp c v rest W C N|sp d rest W L|sp d w rest W D|sp d w rest W D];
    repeat match goal with H : hex_digit _ _ |- _ => apply hex_digit_scan in H as (_ & _ & _ & _ & _ & H) end; lia.
Qed.
Lemma byte_fraction_signed v : -15 <= v <= 255 -> float_value (byte_fraction v) (nearest_float (IZR v / 255)).
Proof.
  intros H. apply fdiv_ok; [apply f_of_int_ok; lia | apply f_of_int_ok; lia | lra |].
  apply small_lt_128. assert (-15 <= IZR v <= 255)%R by (split; apply IZR_le; lia).
  apply Rle_trans with 1%R; [|apply IZR_le; vm_compute; discriminate].
  apply Rabs_le. split; apply Rmult_le_reg_r with 255%R; try lra; unfold Rdiv; rewrite Rmult_assoc, Rinv_l by lra; lra.
Qed.

Lemma any_rgb s r g b : rgb_text s r g b -> exists k, from_rgb_hex s = Ok k /\
  float_value (c_r k) (nearest_float (IZR r / 255)) /\ float_value (c_g k) (nearest_float (IZR g / 255)) /\ float_value (c_b k) (nearest_float (IZR b / 255)).
Proof.
  intros (s1 & s2 & s3 & R & G & B). unfold from_rgb_hex.
  rewrite (proj2 (scan_two _ _ _) R), (proj2 (scan_two _ _ _) G), (proj2 (scan_two _ _ _) B).
  eexists. split; [reflexivity|]. cbn [c_r c_g c_b].
  apply two_range in R, G, B. repeat split; apply byte_fraction_signed; lia.
Qed.
Lemma any_rgba s r g b : rgba_text s r g b -> exists k, from_rgba_hex s = Ok k /\
  float_value (c_r k) (nearest_float (IZR r / 255)) /\ float_value (c_g k) (nearest_float (IZR g / 255)) /\ float_value (c_b k) (nearest_float (IZR b / 255)).
Proof.
  intros (s1 & s2 & s3 & a & s4 & R & G & B & A). unfold from_rgba_hex.
  rewrite (proj2 (scan_two _ _ _) R), (proj2 (scan_two _ _ _) G), (proj2 (scan_two _ _ _) B), (proj2 (scan_two _ _ _) A).
  eexists. split; [reflexivity|]. cbn [c_r c_g c_b].
  apply two_range in R, G, B. repeat split; apply byte_fraction_signed; lia.
Qed.
Lemma no_rgb s : (forall r g b, ~ rgb_text s r g b) -> from_rgb_hex s = Throw colour_error.
Proof.
  intros N. unfold from_rgb_hex.
  destruct (scan_x2 s) as [(r, s1)|] eqn:R; [|reflexivity]. destruct (scan_x2 s1) as [(g, s2)|] eqn:G; [|reflexivity].
  destruct (scan_x2 s2) as [(b, s3)|] eqn:B; [|reflexivity].
  destruct (N r g b). exists s1, s2, s3. rewrite <- !scan_two. auto.
Qed.
Lemma no_rgba s : (forall r g b, ~ rgba_text s r g b) -> from_rgba_hex s = Throw colour_error.
Proof.
  intros N. unfold from_rgba_hex.
  destruct (scan_x2 s) as [(r, s1)|] eqn:R; [|reflexivity]. destruct (scan_x2 s1) as [(g, s2)|] eqn:G; [|reflexivity].
  destruct (scan_x2 s2) as [(b, s3)|] eqn:B; [|reflexivity]. destruct (scan_x2 s3) as [(a, s4)|] eqn:A; [|reflexivity].
  destruct (N r g b). exists s1, s2, s3, a, s4. rewrite <- !scan_two. auto.
Qed.
