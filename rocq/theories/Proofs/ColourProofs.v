(** Colours from hexadecimal strings. *)
From Coq Require Import ZArith Reals Lra Lia Bool List Ascii.
From Coq.Floats Require Import SpecFloat.
From Flocq Require Import Core BinarySingleNaN.
From Verif.Model Require Import Base Strings Float Types.
From Verif.Spec Require Import Outcome PositionSpec TextSpec.
From Verif.Proofs Require Import FloatProofs PositionProofs.
Import ListNotations.
Local Open Scope Z_scope.

Lemma char_code_code c : char_code c = code c.
Proof. unfold char_code, code. destruct c as [[] [] [] [] [] [] [] []]; vm_compute; reflexivity. Qed.

Lemma hex_digit_scan c d : hex_digit c d ->
  is_xdigit c = true /\ xdigit_val c = d /\ is_space c = false /\ Ascii.eqb c cminus = false /\ Ascii.eqb c cplus = false /\ 0 <= d <= 15.
Proof.
  unfold hex_digit. rewrite char_code_code. intros H.
  assert (E : d = xdigit_val c /\ is_xdigit c = true /\ is_space c = false /\ 0 <= d <= 15).
  { unfold xdigit_val, is_xdigit, is_digit, is_space. set (k := code c) in *. clearbody k.
    destruct H as [[H E]|[H [E|E]]]; subst k.
    - replace ((48 <=? 48 + d) && (48 + d <=? 57)) with true by (symmetry; apply andb_true_iff; rewrite !Z.leb_le; lia).
      cbn [orb]. split; [lia|]. split; [reflexivity|]. split; [|lia].
      apply orb_false_iff. split; [apply andb_false_iff; right; apply Z.leb_gt; lia | apply Z.eqb_neq; lia].
    - replace ((48 <=? 55 + d) && (55 + d <=? 57)) with false by (symmetry; apply andb_false_iff; right; apply Z.leb_gt; lia).
      replace (55 + d <=? 70) with true by (symmetry; apply Z.leb_le; lia).
      replace (65 <=? 55 + d) with true by (symmetry; apply Z.leb_le; lia). cbn [orb andb].
      split; [lia|]. split; [reflexivity|]. split; [|lia].
      apply orb_false_iff. split; [apply andb_false_iff; right; apply Z.leb_gt; lia | apply Z.eqb_neq; lia].
    - replace ((48 <=? 87 + d) && (87 + d <=? 57)) with false by (symmetry; apply andb_false_iff; right; apply Z.leb_gt; lia).
      replace (87 + d <=? 70) with false by (symmetry; apply Z.leb_gt; lia).
      replace ((97 <=? 87 + d) && (87 + d <=? 102)) with true by (symmetry; apply andb_true_iff; rewrite !Z.leb_le; lia).
      rewrite orb_true_r.
      split; [lia|]. split; [reflexivity|]. split; [|lia].
      apply orb_false_iff. split; [apply andb_false_iff; right; apply Z.leb_gt; lia | apply Z.eqb_neq; lia]. }
  destruct E as (-> & X & S & B). repeat split; try assumption; try lia.
  - destruct (Ascii.eqb_spec c cminus) as [->|]; [discriminate X | reflexivity].
  - destruct (Ascii.eqb_spec c cplus) as [->|]; [discriminate X | reflexivity].
Qed.

Lemma scan_pair c d v w s : hex_digit c v -> hex_digit d w -> scan_x2 (c :: d :: s) = Some (v * 16 + w, s).
Proof.
  intros Hc Hd. destruct (hex_digit_scan c v Hc) as (X & V & S & M & P & _). destruct (hex_digit_scan d w Hd) as (X' & V' & _).
  unfold scan_x2. cbn [drop_while]. rewrite S, M, P, X, X', V, V'. reflexivity.
Qed.

Lemma byte_fraction_value v : 0 <= v <= 255 -> float_value (byte_fraction v) (nearest_float (IZR v / 255)).
Proof.
  intros H. apply fdiv_ok; [apply f_of_int_ok; lia | apply f_of_int_ok; lia | lra |].
  apply small_lt_128. assert (0 <= IZR v <= 255)%R by (split; apply IZR_le; lia).
  apply Rabs_le. split; [|apply Rle_trans with 1%R; [|apply IZR_le; vm_compute; discriminate]].
  - apply Rle_trans with 0%R; [|unfold Rdiv; apply Rmult_le_pos; lra].
    rewrite <- opp_IZR. apply IZR_le. vm_compute. discriminate.
  - apply Rmult_le_reg_r with 255%R; [lra|]. unfold Rdiv. rewrite Rmult_assoc, Rinv_l by lra. lra.
Qed.

Lemma rgb_hex c1 c2 c3 c4 c5 c6 v1 v2 v3 v4 v5 v6 rest :
  hex_digit c1 v1 -> hex_digit c2 v2 -> hex_digit c3 v3 -> hex_digit c4 v4 -> hex_digit c5 v5 -> hex_digit c6 v6 ->
  exists k, from_rgb_hex (c1 :: c2 :: c3 :: c4 :: c5 :: c6 :: rest) = Ok k /\
    float_value (c_r k) (nearest_float (IZR (16 * v1 + v2) / 255)) /\
    float_value (c_g k) (nearest_float (IZR (16 * v3 + v4) / 255)) /\
    float_value (c_b k) (nearest_float (IZR (16 * v5 + v6) / 255)).
Proof.
  intros H1 H2 H3 H4 H5 H6. unfold from_rgb_hex.
  rewrite (scan_pair _ _ _ _ _ H1 H2), (scan_pair _ _ _ _ _ H3 H4), (scan_pair _ _ _ _ _ H5 H6).
  eexists. split; [reflexivity|]. cbn [c_r c_g c_b]. rewrite !(Z.mul_comm 16).
  apply hex_digit_scan in H1 as (_ & _ & _ & _ & _ & H1), H2 as (_ & _ & _ & _ & _ & H2), H3 as (_ & _ & _ & _ & _ & H3),
    H4 as (_ & _ & _ & _ & _ & H4), H5 as (_ & _ & _ & _ & _ & H5), H6 as (_ & _ & _ & _ & _ & H6).
  repeat split; apply byte_fraction_value; lia.
Qed.
Lemma rgba_hex c1 c2 c3 c4 c5 c6 a1 a2 v1 v2 v3 v4 v5 v6 w1 w2 rest :
  hex_digit c1 v1 -> hex_digit c2 v2 -> hex_digit c3 v3 -> hex_digit c4 v4 -> hex_digit c5 v5 -> hex_digit c6 v6 ->
  hex_digit a1 w1 -> hex_digit a2 w2 ->
  exists k, from_rgba_hex (c1 :: c2 :: c3 :: c4 :: c5 :: c6 :: a1 :: a2 :: rest) = Ok k /\
    float_value (c_r k) (nearest_float (IZR (16 * v1 + v2) / 255)) /\
    float_value (c_g k) (nearest_float (IZR (16 * v3 + v4) / 255)) /\
    float_value (c_b k) (nearest_float (IZR (16 * v5 + v6) / 255)).
Proof.
  intros H1 H2 H3 H4 H5 H6 H7 H8. unfold from_rgba_hex.
  rewrite (scan_pair _ _ _ _ _ H1 H2), (scan_pair _ _ _ _ _ H3 H4), (scan_pair _ _ _ _ _ H5 H6), (scan_pair _ _ _ _ _ H7 H8).
  eexists. split; [reflexivity|]. cbn [c_r c_g c_b]. rewrite !(Z.mul_comm 16).
  apply hex_digit_scan in H1 as (_ & _ & _ & _ & _ & H1), H2 as (_ & _ & _ & _ & _ & H2), H3 as (_ & _ & _ & _ & _ & H3),
    H4 as (_ & _ & _ & _ & _ & H4), H5 as (_ & _ & _ & _ & _ & H5), H6 as (_ & _ & _ & _ & _ & H6).
  repeat split; apply byte_fraction_value; lia.
Qed.

(** Each conversion uses at least one character, and starts with a digit or a sign. *)
Lemma drop_while_length p l : (length (drop_while p l) <= length l)%nat.
Proof. induction l as [|a l IH]; cbn; [lia|]. destruct (p a); cbn; lia. Qed.
Lemma scan_x2_length s v t : scan_x2 s = Some (v, t) -> (length t < length s)%nat.
Proof.
  unfold scan_x2. pose proof (drop_while_length is_space s) as L. destruct (drop_while is_space s) as [|c u]; [discriminate|].
  cbn [length] in L. destruct (Ascii.eqb c cminus || Ascii.eqb c cplus).
  - destruct u as [|d u]; [discriminate|]. destruct (is_xdigit d); [|discriminate]. intros [= _ <-]. cbn in L. lia.
  - destruct (is_xdigit c); [|discriminate]. destruct u as [|d u].
    + intros [= _ <-]. cbn. lia.
    + destruct (is_xdigit d); [|destruct (Ascii.eqb c "0"%char && Ascii.eqb (lower d) "x"%char)]; intros [= _ <-]; cbn in *; lia.
Qed.
Lemma short_colour s : ((length s < 3)%nat -> from_rgb_hex s = Throw colour_error) /\
  ((length s < 4)%nat -> from_rgba_hex s = Throw colour_error).
Proof.
  unfold from_rgb_hex, from_rgba_hex.
  destruct (scan_x2 s) as [[r s1]|] eqn:E1; [|auto]. apply scan_x2_length in E1.
  destruct (scan_x2 s1) as [[g s2]|] eqn:E2; [|auto]. apply scan_x2_length in E2.
  destruct (scan_x2 s2) as [[b s3]|] eqn:E3; [|auto]. apply scan_x2_length in E3. split; [lia|].
  destruct (scan_x2 s3) as [[a s4]|] eqn:E4; [|auto]. apply scan_x2_length in E4. lia.
Qed.
Lemma bad_colour c s : ~ (9 <= char_code c <= 13) -> char_code c <> 32 -> c <> "-"%char -> c <> "+"%char -> (forall d, ~ hex_digit c d) ->
  from_rgb_hex (c :: s) = Throw colour_error /\ from_rgba_hex (c :: s) = Throw colour_error.
Proof.
  intros S1 S2 M P N. rewrite char_code_code in *.
  assert (S : is_space c = false).
  { unfold is_space. apply orb_false_iff. rewrite andb_false_iff, !Z.leb_gt, Z.eqb_neq. lia. }
  assert (E : scan_x2 (c :: s) = None).
  { unfold scan_x2. cbn [drop_while]. rewrite S.
    replace (Ascii.eqb c cminus) with false by (symmetry; now apply Ascii.eqb_neq).
    replace (Ascii.eqb c cplus) with false by (symmetry; now apply Ascii.eqb_neq). cbn [orb].
    destruct (is_xdigit c) eqn:X; [exfalso|reflexivity].
    apply (N (xdigit_val c)). unfold hex_digit. rewrite char_code_code.
    unfold is_xdigit, xdigit_val, is_digit in *. set (k := code c) in *. clearbody k.
    destruct ((48 <=? k) && (k <=? 57)) eqn:D.
    - apply andb_true_iff in D. rewrite !Z.leb_le in D. left. lia.
    - cbn [orb] in X. destruct (Z.leb_spec k 70).
      + right. apply orb_true_iff in X. rewrite !andb_true_iff, !Z.leb_le in X. lia.
      + right. apply orb_true_iff in X. rewrite !andb_true_iff, !Z.leb_le in X. lia. }
  unfold from_rgb_hex, from_rgba_hex. rewrite E. auto.
Qed.
