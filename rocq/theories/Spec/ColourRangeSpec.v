(** Colours have three parts, each from 0 to 1. *)
From Coq Require Import ZArith Reals List Ascii String.
From Verif.Model Require Import Base Float Types.
From Verif.Spec Require Import Outcome LinesSpec PositionSpec SsaTagSpec SsaSpec SubripSpec.
From Verif.Model Require Import Ssa.
Import ListNotations.

Definition part_ok (f : flt) : Prop := exists x, float_value f x /\ (0 <= x <= 1)%R.
Definition in_range (c : colour) : Prop := part_ok (c_r c) /\ part_ok (c_g c) /\ part_ok (c_b c).
(** The colour of a piece, and the colour of its effect if it has one. *)
Definition colours_ok (r : raw) : Prop := in_range (r_colour r) /\ forall k, r_effect_colour r = Some k -> in_range k.

(** White, if colours had parts from 0 to 255. *)
Definition byte_white (k : colour) : Prop := float_value (c_r k) 255 /\ float_value (c_g k) 255 /\ float_value (c_b k) 255.
Definition colours_almost_ok (r : raw) : Prop :=
  (in_range (r_colour r) \/ byte_white (r_colour r)) /\ forall k, r_effect_colour r = Some k -> in_range k.

(** An SSA file in which every format of styles names their colour. *)
Definition names_colour (format : str) : Prop := exists ks k, parts_of [comma] format ks /\ In k ks /\ trimmed k (lit "PrimaryColour").
Definition styles_coloured (s : str) : Prop :=
  forall before after f, text_lines s (before ++ after) -> in_turn ssa_line_read new_file before f -> sr_style_format f = [] \/ names_colour (sr_style_format f).

(** A colour that a SubRip file gives in decimal, with a number that is not one of 0 to 255. *)
Definition too_much (n : Z) : Prop := (n < 0 \/ 255 < n)%Z.
Definition decimal_colour (file : str) (k : colour) : Prop := exists t r g b, contains t file /\ rgba_colour t r g b /\ is_int r /\ is_int g /\ is_int b /\
  k = mkC (share r) (share g) (share b) /\ (too_much r \/ too_much g \/ too_much b).
Definition colours_as_said (file : str) (r : raw) : Prop := (in_range (r_colour r) \/ decimal_colour file (r_colour r)) /\ r_effect_colour r = None.
