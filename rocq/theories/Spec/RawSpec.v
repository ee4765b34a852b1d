(** A RawSubtitle with one member changed. *)
From Coq Require Import ZArith List Bool Ascii.
From Verif.Model Require Import Base Float TimeModel Types.

Definition with_text (x : str) (r : raw) : raw :=
  mkRaw x (r_font r) (r_font_size r) (r_effect r) (r_effect_colour r) (r_colour r) (r_bold r) (r_italic r)
    (r_underline r) (r_hpos r) (r_vpos r) (r_from r) (r_to r) (r_fade_up r) (r_fade_down r).
Definition with_font (x : option str) (r : raw) : raw :=
  mkRaw (r_text r) x (r_font_size r) (r_effect r) (r_effect_colour r) (r_colour r) (r_bold r) (r_italic r)
    (r_underline r) (r_hpos r) (r_vpos r) (r_from r) (r_to r) (r_fade_up r) (r_fade_down r).
Definition with_font_size (x : font_size) (r : raw) : raw :=
  mkRaw (r_text r) (r_font r) x (r_effect r) (r_effect_colour r) (r_colour r) (r_bold r) (r_italic r)
    (r_underline r) (r_hpos r) (r_vpos r) (r_from r) (r_to r) (r_fade_up r) (r_fade_down r).
Definition with_colour (x : colour) (r : raw) : raw :=
  mkRaw (r_text r) (r_font r) (r_font_size r) (r_effect r) (r_effect_colour r) x (r_bold r) (r_italic r)
    (r_underline r) (r_hpos r) (r_vpos r) (r_from r) (r_to r) (r_fade_up r) (r_fade_down r).
Definition with_bold (x : bool) (r : raw) : raw :=
  mkRaw (r_text r) (r_font r) (r_font_size r) (r_effect r) (r_effect_colour r) (r_colour r) x (r_italic r)
    (r_underline r) (r_hpos r) (r_vpos r) (r_from r) (r_to r) (r_fade_up r) (r_fade_down r).
Definition with_italic (x : bool) (r : raw) : raw :=
  mkRaw (r_text r) (r_font r) (r_font_size r) (r_effect r) (r_effect_colour r) (r_colour r) (r_bold r) x
    (r_underline r) (r_hpos r) (r_vpos r) (r_from r) (r_to r) (r_fade_up r) (r_fade_down r).
Definition with_underline (x : bool) (r : raw) : raw :=
  mkRaw (r_text r) (r_font r) (r_font_size r) (r_effect r) (r_effect_colour r) (r_colour r) (r_bold r) (r_italic r)
    x (r_hpos r) (r_vpos r) (r_from r) (r_to r) (r_fade_up r) (r_fade_down r).
Definition with_hpos (x : hpos) (r : raw) : raw :=
  mkRaw (r_text r) (r_font r) (r_font_size r) (r_effect r) (r_effect_colour r) (r_colour r) (r_bold r) (r_italic r)
    (r_underline r) x (r_vpos r) (r_from r) (r_to r) (r_fade_up r) (r_fade_down r).
Definition with_vpos (x : vpos) (r : raw) : raw :=
  mkRaw (r_text r) (r_font r) (r_font_size r) (r_effect r) (r_effect_colour r) (r_colour r) (r_bold r) (r_italic r)
    (r_underline r) (r_hpos r) x (r_from r) (r_to r) (r_fade_up r) (r_fade_down r).
Definition with_times (x y : time) (r : raw) : raw :=
  mkRaw (r_text r) (r_font r) (r_font_size r) (r_effect r) (r_effect_colour r) (r_colour r) (r_bold r) (r_italic r)
    (r_underline r) (r_hpos r) (r_vpos r) x y (r_fade_up r) (r_fade_down r).

(** Parts of positions. *)
Definition with_horizontal (ref : href) (p : flt) (r : raw) : raw := with_hpos (mkH ref p) r.
Definition with_reference (ref : vref) (r : raw) : raw :=
  with_vpos (mkV (v_prop (r_vpos r)) (v_line (r_vpos r)) (v_lines (r_vpos r)) (Some ref)) r.
Definition with_proportion (p : flt) (r : raw) : raw :=
  with_vpos (mkV (Some p) (v_line (r_vpos r)) (v_lines (r_vpos r)) (v_ref (r_vpos r))) r.
Definition with_line (n : Z) (r : raw) : raw :=
  with_vpos (mkV (v_prop (r_vpos r)) (Some n) (v_lines (r_vpos r)) (v_ref (r_vpos r))) r.

(** A piece of text and its look. *)
Definition with_piece (text : str) (r : raw) : list raw := match text with nil => nil | _ => cons (with_text text r) nil end.
