(** C59, C60, C62-C64: positions, colours, font sizes, equality.  Statements only; proofs are in theories/Proofs. *)
From Coq Require Import ZArith Reals Lra Lia Bool List Ascii.
From Coq.Floats Require Import SpecFloat.
From Flocq Require Import Core BinarySingleNaN.
From Verif.Model Require Import Base Float TimeModel Types.
From Verif.Spec Require Import Outcome PositionSpec TextSpec CollectSpec.
From Verif.Proofs Require Import PositionProofs ColourProofs EqualityProofs.
Import ListNotations.
Local Open Scope R_scope.

(** C59.  What operator== of VerticalPosition decides. *)
Theorem C59_vertical_equality : forall a b,
  finite_proportion a -> finite_proportion b -> (vpos_eqb a b = true <-> same_vertical a b).
Proof. exact vertical_equal_spec. Qed.
Print Assumptions C59_vertical_equality.
Example C59_vertical_case : finite_proportion (mkV (Some (f_lit 1 4)) None None (Some TOP_OF_SCREEN)).
Proof. intros p [= <-]. exists (SF2R radix2 (f_lit 1 4)). repeat split. Qed.

Theorem C59_vertical_symmetric : forall a b, vpos_eqb a b = vpos_eqb b a.
Proof. exact vertical_symmetric. Qed.
Print Assumptions C59_vertical_symmetric.

(** An equivalence on positions that are all proportional, and on positions that are all by line. *)
Theorem C59_proportional_equivalence_partial : forall a b c,
  proportional_position a -> proportional_position b -> proportional_position c ->
  vpos_eqb a a = true /\ (vpos_eqb a b = true -> vpos_eqb b a = true) /\
  (vpos_eqb a b = true -> vpos_eqb b c = true -> vpos_eqb a c = true).
Proof. exact same_proportion_equivalence. Qed.
Print Assumptions C59_proportional_equivalence_partial.
Example C59_proportional_case : proportional_position (mkV (Some (f_lit 1 4)) None None (Some TOP_OF_SCREEN)).
Proof. exists TOP_OF_SCREEN, (f_lit 1 4), (/ 4). split; [reflexivity|]. split; [reflexivity|]. exact (proj1 quarter_and_half). Qed.
Theorem C59_line_equivalence_partial : forall a b c,
  line_position a -> line_position b -> line_position c ->
  vpos_eqb a a = true /\ (vpos_eqb a b = true -> vpos_eqb b a = true) /\
  (vpos_eqb a b = true -> vpos_eqb b c = true -> vpos_eqb a c = true).
Proof. exact same_line_equivalence. Qed.
Print Assumptions C59_line_equivalence_partial.
Example C59_line_case : line_position (mkV None (Some 20%Z) (Some 23%Z) (Some TOP_OF_SCREEN)).
Proof. exists TOP_OF_SCREEN, 20%Z, 23%Z. auto. Qed.

(** Equal positions of one kind are in the same place. *)
Theorem C59_equal_is_same_place : forall a b ra xa rb xb,
  (v_prop a = None <-> v_prop b = None) -> offset a ra xa -> offset b rb xb ->
  vpos_eqb a b = true -> from_top ra xa = from_top rb xb.
Proof. exact equal_is_same_place. Qed.
Print Assumptions C59_equal_is_same_place.
Example C59_same_place_case :
  let a := mkV None (Some 10%Z) (Some 20%Z) (Some TOP_OF_SCREEN) in
  (v_prop a = None <-> v_prop a = None) /\ offset a TOP_OF_SCREEN (10 / 20) /\ vpos_eqb a a = true.
Proof.
  cbv zeta. split; [tauto|]. split; [|reflexivity].
  split; [reflexivity|]. right. split; [reflexivity|]. exists 10%Z, 20%Z. repeat split; cbn; lia.
Qed.

(** In general it is neither reflexive nor transitive. *)
Theorem C59_vertical_reflexive_refuted : exists v, vpos_eqb v v = false.
Proof. exact vertical_not_reflexive. Qed.
Print Assumptions C59_vertical_reflexive_refuted.
Theorem C59_vertical_transitive_refuted : exists a b c, vpos_eqb a b = true /\ vpos_eqb b c = true /\ vpos_eqb a c = false.
Proof. exact vertical_not_transitive. Qed.
Print Assumptions C59_vertical_transitive_refuted.

(** Horizontal: equal iff same reference and nearer than 1/1998, up to one float step (2^-34) at the limit. *)
Theorem C59_horizontal_equality : forall a b x y,
  float_value (h_prop a) x -> float_value (h_prop b) y -> Rabs (x - y) <= 8388608 ->
  (h_ref a = h_ref b -> Rabs (x - y) <= / 1998 - / 17179869184 -> hpos_eqb a b = true) /\
  (h_ref a <> h_ref b -> hpos_eqb a b = false) /\
  (Rabs (x - y) >= / 1998 + / 17179869184 -> hpos_eqb a b = false).
Proof. exact horizontal_equal. Qed.
Print Assumptions C59_horizontal_equality.
Example C59_horizontal_case : float_value (f_lit 1 4) (/ 4) /\ float_value (f_lit 1 2) (/ 2).
Proof. exact quarter_and_half. Qed.
Theorem C59_horizontal_symmetric : forall a b x y,
  float_value (h_prop a) x -> float_value (h_prop b) y -> Rabs (x - y) <= 8388608 -> hpos_eqb a b = hpos_eqb b a.
Proof. exact horizontal_symmetric. Qed.
Print Assumptions C59_horizontal_symmetric.
Example C59_horizontal_symmetric_case : Rabs (/ 4 - / 2) <= 8388608.
Proof. apply Rabs_le. lra. Qed.
Theorem C59_horizontal_transitive_refuted : exists a b c, hpos_eqb a b = true /\ hpos_eqb b c = true /\ hpos_eqb a c = false.
Proof. exact horizontal_not_transitive. Qed.
Print Assumptions C59_horizontal_transitive_refuted.

(** C60.  operator< is the order of distances from the top, up to float rounding (2^-22 of the screen height); with one
    reference for both it never orders two positions wrongly. *)
Theorem C60_vertical_order : forall a b ra xa rb xb,
  offset a ra xa -> offset b rb xb -> Rabs xa <= 1 -> Rabs xb <= 1 ->
  exists t, vpos_lt a b = Ok t /\
    (from_top ra xa + / 4194304 < from_top rb xb -> t = true) /\
    (from_top rb xb + / 4194304 < from_top ra xa -> t = false) /\
    (ra = rb -> t = true -> from_top ra xa < from_top rb xb).
Proof. exact vertical_order. Qed.
Print Assumptions C60_vertical_order.
Example C60_case : offset (mkV None (Some 20%Z) (Some 23%Z) (Some BOTTOM_OF_SCREEN)) BOTTOM_OF_SCREEN (20 / 23) /\ Rabs (20 / 23) <= 1.
Proof.
  split; [split; [reflexivity|]; right; split; [reflexivity|]; exists 20%Z, 23%Z; repeat split; cbn; lia | apply Rabs_le; lra].
Qed.
Theorem C60_strict_weak : forall a b c ra xa rb xb rc xc,
  offset a ra xa -> offset b rb xb -> offset c rc xc -> Rabs xa <= 1 -> Rabs xb <= 1 -> Rabs xc <= 1 ->
  vpos_lt a a = Ok false /\
  (vpos_lt a b = Ok true -> vpos_lt b c = Ok true -> vpos_lt a c = Ok true) /\
  (vpos_lt a b = Ok false -> vpos_lt b c = Ok false -> vpos_lt a c = Ok false).
Proof. exact vertical_strict_weak. Qed.
Print Assumptions C60_strict_weak.
Example C60_strict_weak_case :
  let at_line n := mkV None (Some n) (Some 23%Z) (Some TOP_OF_SCREEN) in
  vpos_lt (at_line 3%Z) (at_line 9%Z) = Ok true /\ vpos_lt (at_line 9%Z) (at_line 20%Z) = Ok true /\
  vpos_lt (at_line 3%Z) (at_line 20%Z) = Ok true.
Proof. vm_compute. auto. Qed.
(** Unspecified positions count as the top; a line without the number of lines is undefined behaviour, and nothing else is. *)
Theorem C60_unspecified : forall v, v_ref v = None \/ (v_prop v = None /\ v_line v = None) ->
  exists f, fraction_from_screen_top v = Ok f /\ float_value f 0.
Proof. exact unspecified_is_top. Qed.
Print Assumptions C60_unspecified.
Example C60_unspecified_case : v_prop (mkV None None None (Some BOTTOM_OF_SCREEN)) = None /\ v_line (mkV None None None (Some BOTTOM_OF_SCREEN)) = None.
Proof. split; reflexivity. Qed.
Theorem C60_undefined : forall a b,
  (exists u, vpos_lt a b = Undef u) <->
  (exists v, (v = a \/ v = b) /\ v_ref v <> None /\ v_prop v = None /\ v_line v <> None /\ v_lines v = None).
Proof. exact vertical_undefined. Qed.
Print Assumptions C60_undefined.
Example C60_undefined_case : exists u,
  vpos_lt (mkV None (Some 20%Z) None (Some TOP_OF_SCREEN)) (mkV None (Some 20%Z) (Some 23%Z) (Some TOP_OF_SCREEN)) = Undef u.
Proof. eexists. vm_compute. reflexivity. Qed.

(** C62 *)
Theorem C62_rgb_hex : forall c1 c2 c3 c4 c5 c6 v1 v2 v3 v4 v5 v6 rest,
  hex_digit c1 v1 -> hex_digit c2 v2 -> hex_digit c3 v3 -> hex_digit c4 v4 -> hex_digit c5 v5 -> hex_digit c6 v6 ->
  exists k, from_rgb_hex (c1 :: c2 :: c3 :: c4 :: c5 :: c6 :: rest) = Ok k /\
    float_value (c_r k) (nearest_float (IZR (16 * v1 + v2) / 255)) /\
    float_value (c_g k) (nearest_float (IZR (16 * v3 + v4) / 255)) /\
    float_value (c_b k) (nearest_float (IZR (16 * v5 + v6) / 255)).
Proof. exact rgb_hex. Qed.
Print Assumptions C62_rgb_hex.
Theorem C62_rgba_hex : forall c1 c2 c3 c4 c5 c6 a1 a2 v1 v2 v3 v4 v5 v6 w1 w2 rest,
  hex_digit c1 v1 -> hex_digit c2 v2 -> hex_digit c3 v3 -> hex_digit c4 v4 -> hex_digit c5 v5 -> hex_digit c6 v6 ->
  hex_digit a1 w1 -> hex_digit a2 w2 ->
  exists k, from_rgba_hex (c1 :: c2 :: c3 :: c4 :: c5 :: c6 :: a1 :: a2 :: rest) = Ok k /\
    float_value (c_r k) (nearest_float (IZR (16 * v1 + v2) / 255)) /\
    float_value (c_g k) (nearest_float (IZR (16 * v3 + v4) / 255)) /\
    float_value (c_b k) (nearest_float (IZR (16 * v5 + v6) / 255)).
Proof. exact rgba_hex. Qed.
Print Assumptions C62_rgba_hex.
Example C62_case : hex_digit "f"%char 15 /\ hex_digit "B"%char 11 /\ hex_digit "7"%char 7.
Proof. unfold hex_digit, char_code. cbn. lia. Qed.
Theorem C62_short_rejected : forall s,
  ((List.length s < 3)%nat -> from_rgb_hex s = Throw colour_error) /\
  ((List.length s < 4)%nat -> from_rgba_hex s = Throw colour_error).
Proof. exact short_colour. Qed.
Print Assumptions C62_short_rejected.
Theorem C62_no_digit_rejected : forall c s,
  (~ (9 <= char_code c <= 13) -> char_code c <> 32 -> c <> "-"%char -> c <> "+"%char -> (forall d, ~ hex_digit c d) ->
  from_rgb_hex (c :: s) = Throw colour_error /\ from_rgba_hex (c :: s) = Throw colour_error)%Z.
Proof. exact bad_colour. Qed.
Print Assumptions C62_no_digit_rejected.
Example C62_no_digit_case : (~ (9 <= char_code "#"%char <= 13) /\ char_code "#"%char <> 32 /\ forall d, ~ hex_digit "#"%char d)%Z.
Proof.
  assert (E : char_code "#"%char = 35%Z) by reflexivity. unfold hex_digit. rewrite E.
  split; [lia|]. split; [lia|]. intros d H. lia.
Qed.

(** C63 *)
Theorem C63_given_size : forall s h,
  (forall p, fs_points s = Some p -> fs_points_at s h = Ok p) /\
  (forall f, fs_prop s = Some f -> fs_proportional s h = Ok f) /\
  (fs_specified s = true <-> (fs_points s <> None \/ fs_prop s <> None)) /\
  (fs_specified s = false <-> ((exists u, fs_points_at s h = Undef u) /\ (exists u, fs_proportional s h = Undef u))).
Proof. exact font_size_given. Qed.
Print Assumptions C63_given_size.
Example C63_given_case : fs_points_at (from_points 48%Z) 1080%Z = Ok 48%Z /\ fs_specified (from_points 48%Z) = true.
Proof. split; reflexivity. Qed.
Theorem C63_points_to_proportion : forall p h,
  (Z.abs p <= 8388608)%Z -> (0 < h < 2 ^ 24)%Z ->
  exists f, fs_proportional (from_points p) h = Ok f /\ float_value f (nearest_float (IZR p / IZR h)).
Proof. exact points_proportional. Qed.
Print Assumptions C63_points_to_proportion.
Example C63_points_case : (Z.abs 48 <= 8388608)%Z /\ (0 < 1080 < 2 ^ 24)%Z.
Proof. lia. Qed.
Theorem C63_proportion_to_points : forall f x h,
  float_value f x -> (0 < h < 2 ^ 24)%Z -> Rabs (x * IZR h) <= 8388608 ->
  fs_points_at (from_proportional f) h = Ok (Ztrunc (nearest_float (x * IZR h))).
Proof. exact proportional_points. Qed.
Print Assumptions C63_proportion_to_points.
Example C63_proportion_case : float_value (f_lit 1 4) (/ 4) /\ (0 < 1080 < 2 ^ 24)%Z /\ Rabs (/ 4 * IZR 1080) <= 8388608.
Proof. split; [exact (proj1 quarter_and_half)|]. split; [lia|]. apply Rabs_le. lra. Qed.
(** There and back can lose one point. *)
Theorem C63_round_trip_partial : forall p h, (0 <= p <= 1000000)%Z -> (0 < h < 2 ^ 24)%Z ->
  exists f q, fs_proportional (from_points p) h = Ok f /\ fs_points_at (from_proportional f) h = Ok q /\ (p - 1 <= q <= p)%Z.
Proof. exact points_round_trip. Qed.
Print Assumptions C63_round_trip_partial.
Example C63_round_trip_case :
  match fs_proportional (from_points 48%Z) 1080%Z with Ok f => fs_points_at (from_proportional f) 1080%Z | _ => Undef UbEmptyOptional end = Ok 48%Z.
Proof. vm_compute. reflexivity. Qed.
Theorem C63_round_trip_refuted : exists p h f, (0 <= p)%Z /\ (0 < h)%Z /\ fs_proportional (from_points p) h = Ok f /\
  fs_points_at (from_proportional f) h = Ok (p - 1)%Z.
Proof. exact points_lost. Qed.
Print Assumptions C63_round_trip_refuted.

(** C64 *)
Theorem C64_block_equality : forall a b, finite_block a -> finite_block b -> (block_eqb a b = true <-> same_block a b).
Proof. exact block_equal. Qed.
Print Assumptions C64_block_equality.
Example C64_case : finite_block (block_of raw_default).
Proof.
  unfold finite_block. split; [discriminate|]. split; [discriminate|].
  split; [|split]; exists 1; exact one_value.
Qed.
Theorem C64_line_equality : forall a b, line_eqb a b = true <->
  hpos_eqb (l_hpos a) (l_hpos b) = true /\ vpos_eqb (l_vpos a) (l_vpos b) = true /\
  Forall2 (fun x y => block_eqb x y = true) (l_blocks a) (l_blocks b).
Proof. exact line_equal. Qed.
Print Assumptions C64_line_equality.
Theorem C64_subtitle_equality : forall a b, subtitle_eq a b = Ok true <->
  time_eq (s_from a) (s_from b) = Ok true /\ time_eq (s_to a) (s_to b) = Ok true /\
  same_optional_time (s_fade_up a) (s_fade_up b) /\ same_optional_time (s_fade_down a) (s_fade_down b) /\
  Forall2 (fun x y => line_eqb x y = true) (s_lines a) (s_lines b).
Proof. exact subtitle_equal. Qed.
Print Assumptions C64_subtitle_equality.
Theorem C64_subtitle_equality_returns : forall a b,
  returns (time_eq (s_from a) (s_from b)) -> returns (time_eq (s_to a) (s_to b)) ->
  optional_returns (s_fade_up a) (s_fade_up b) -> optional_returns (s_fade_down a) (s_fade_down b) ->
  returns (subtitle_eq a b).
Proof. exact subtitle_equal_returns. Qed.
Print Assumptions C64_subtitle_equality_returns.
Example C64_returns_case : let s := mkSub (mkT 1 0 None) (mkT 2 0 None) None None [] in
  returns (time_eq (s_from s) (s_from s)) /\ returns (time_eq (s_to s) (s_to s)) /\
  optional_returns (s_fade_up s) (s_fade_up s) /\ optional_returns (s_fade_down s) (s_fade_down s).
Proof. cbv zeta. split; [eexists; vm_compute; reflexivity|]. split; [eexists; vm_compute; reflexivity|]. split; exact I. Qed.
