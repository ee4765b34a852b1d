(** Colours, font sizes, positions, RawSubtitle, Subtitle, Line and Block with their operators. *)
From Coq Require Import ZArith List Bool Ascii String.
From Verif.Model Require Import Base Strings Float TimeModel.
From Coq.Floats Require Import SpecFloat.
Import ListNotations.
Local Open Scope Z_scope.

(** class Colour, colour.h 35-59. *)
Record colour : Type := mkC { c_r : flt; c_g : flt; c_b : flt }.

(** Colour (1, 1, 1): the default of RawSubtitle and Block, raw_subtitle.h 43, subtitle.h 45. *)
Definition white : colour := mkC (f_of_int 1) (f_of_int 1) (f_of_int 1).

(** Colour operator==, colour.cc 52-56. *)
Definition colour_eqb (a b : colour) : bool :=
  flt_eq (c_r a) (c_r b) && flt_eq (c_g a) (c_g b) && flt_eq (c_b a) (c_b b).

(** One "%2x" conversion of sscanf: skip white space, then at most two bytes. *)
Definition scan_x2 (s : str) : option (Z * str) :=
  match drop_while is_space s with
  | [] => None
  | c :: t =>
      if Ascii.eqb c cminus || Ascii.eqb c cplus then
        match t with
        | d :: t' => if is_xdigit d then
                       Some ((if Ascii.eqb c cminus then - xdigit_val d else xdigit_val d), t')
                     else None
        | [] => None
        end
      else if is_xdigit c then
        match t with
        | d :: t' => if is_xdigit d then Some (xdigit_val c * 16 + xdigit_val d, t')
                     else if Ascii.eqb c "0"%char && Ascii.eqb (lower d) "x"%char then Some (0, t')
                     else Some (xdigit_val c, t)
        | [] => Some (xdigit_val c, [])
        end
      else None
  end.

(** float (v) / 255 *)
Definition byte_fraction (v : Z) : flt := fdiv (f_of_int v) (f_of_int 255).

(** The exception of colour.cc 34 and 46. *)
Definition colour_error : exn := EXml (lit "could not parse colour string").

(** Colour::from_rgb_hex, colour.cc 41-50. *)
Definition from_rgb_hex (s : str) : res colour :=
  match scan_x2 s with
  | None => Throw colour_error
  | Some (r, s1) =>
      match scan_x2 s1 with
      | None => Throw colour_error
      | Some (g, s2) =>
          match scan_x2 s2 with
          | None => Throw colour_error
          | Some (b, _) => Ok (mkC (byte_fraction r) (byte_fraction g) (byte_fraction b))
          end
      end
  end.

(** Colour::from_rgba_hex, colour.cc 29-38; the alpha value is read and ignored. *)
Definition from_rgba_hex (s : str) : res colour :=
  match scan_x2 s with
  | None => Throw colour_error
  | Some (r, s1) =>
      match scan_x2 s1 with
      | None => Throw colour_error
      | Some (g, s2) =>
          match scan_x2 s2 with
          | None => Throw colour_error
          | Some (b, s3) =>
              match scan_x2 s3 with
              | None => Throw colour_error
              | Some _ => Ok (mkC (byte_fraction r) (byte_fraction g) (byte_fraction b))
              end
          end
      end
  end.

(** enum Effect, effect.h 28-32. *)
Inductive effect : Type := BORDER | SHADOW.

(** string_to_effect, effect.cc 28-40. *)
Definition string_to_effect (s : str) : res (option effect) :=
  if str_eqb s (lit "none") then Ok None
  else if str_eqb s (lit "border") then Ok (Some BORDER)
  else if str_eqb s (lit "shadow") then Ok (Some SHADOW)
  else Throw (EXml (lit "unknown subtitle effect type")).

(** == on Effect (through optional, subtitle.cc 81). *)
Definition effect_eqb (a b : effect) : bool :=
  match a, b with BORDER, BORDER | SHADOW, SHADOW => true | _, _ => false end.

(** enum VerticalReference, vertical_reference.h 27-39. *)
Inductive vref : Type := TOP_OF_SCREEN | VERTICAL_CENTRE_OF_SCREEN | BOTTOM_OF_SCREEN | TOP_OF_SUBTITLE.

(** == on VerticalReference, vertical_position.cc 52-56. *)
Definition vref_eqb (a b : vref) : bool :=
  match a, b with
  | TOP_OF_SCREEN, TOP_OF_SCREEN | VERTICAL_CENTRE_OF_SCREEN, VERTICAL_CENTRE_OF_SCREEN
  | BOTTOM_OF_SCREEN, BOTTOM_OF_SCREEN | TOP_OF_SUBTITLE, TOP_OF_SUBTITLE => true
  | _, _ => false
  end.

(** string_to_vertical_reference, vertical_reference.cc 27-39. *)
Definition string_to_vertical_reference (s : str) : res vref :=
  if str_eqb s (lit "top") then Ok TOP_OF_SCREEN
  else if str_eqb s (lit "center") then Ok VERTICAL_CENTRE_OF_SCREEN
  else if str_eqb s (lit "bottom") then Ok BOTTOM_OF_SCREEN
  else Throw (EXml (lit "unknown subtitle valign type")).

(** enum HorizontalReference, horizontal_reference.h. *)
Inductive href : Type := LEFT_OF_SCREEN | HORIZONTAL_CENTRE_OF_SCREEN | RIGHT_OF_SCREEN.

(** == on HorizontalReference, horizontal_position.cc 31. *)
Definition href_eqb (a b : href) : bool :=
  match a, b with
  | LEFT_OF_SCREEN, LEFT_OF_SCREEN | HORIZONTAL_CENTRE_OF_SCREEN, HORIZONTAL_CENTRE_OF_SCREEN
  | RIGHT_OF_SCREEN, RIGHT_OF_SCREEN => true
  | _, _ => false
  end.

(** operator== on boost::optional<T> given T's. *)
Definition opt_eqb {A : Type} (eqb : A -> A -> bool) (a b : option A) : bool :=
  match a, b with
  | None, None => true
  | Some x, Some y => eqb x y
  | _, _ => false
  end.

(** class VerticalPosition, vertical_position.h 31-47. *)
Record vpos : Type := mkV {
  v_prop : option flt;       (* float *)
  v_line : option Z;
  v_lines : option Z;
  v_ref : option vref }.

(** A VerticalPosition with nothing set, vertical_position.h 31-41. *)
Definition vpos_empty : vpos := mkV None None None None.

(** VerticalPosition::fraction_from_screen_top, vertical_position.cc 25-46 (returns float). *)
Definition fraction_from_screen_top (v : vpos) : res flt :=
  match v_ref v with
  | None => Ok (S754_zero false)
  | Some r =>
      if negb (is_some (v_prop v)) && negb (is_some (v_line v)) then Ok (S754_zero false) else
      let* prop :=
        match v_prop v with
        | Some p => Ok p
        | None => let* l := opt_get (v_line v) in
                  let* n := opt_get (v_lines v) in
                  Ok (fdiv (f_of_int l) (f_of_int n))
        end in
      Ok match r with
         | TOP_OF_SCREEN => prop
         | VERTICAL_CENTRE_OF_SCREEN => f_of_d (dadd (d_of_f prop) (d_lit 1 2))
         | BOTTOM_OF_SCREEN => fsub (f_of_int 1) prop
         | TOP_OF_SUBTITLE => prop
         end
  end.

(** VerticalPosition::operator==, vertical_position.cc 48-60. *)
Definition vpos_eqb (a b : vpos) : bool :=
  if is_some (v_prop a) && is_some (v_ref a) && is_some (v_prop b) && is_some (v_ref b) then
    opt_eqb flt_eq (v_prop a) (v_prop b) && opt_eqb vref_eqb (v_ref a) (v_ref b)
  else if is_some (v_ref a) && is_some (v_line a) && is_some (v_lines a)
          && is_some (v_ref b) && is_some (v_line b) && is_some (v_lines b) then
    opt_eqb Z.eqb (v_line a) (v_line b) && opt_eqb Z.eqb (v_lines a) (v_lines b)
    && opt_eqb vref_eqb (v_ref a) (v_ref b)
  else if is_some (v_ref a) && is_some (v_line a) && is_some (v_ref b) && is_some (v_line b) then
    opt_eqb vref_eqb (v_ref a) (v_ref b) && opt_eqb Z.eqb (v_line a) (v_line b)
  else false.

(** VerticalPosition::operator<, vertical_position.cc 62-66. *)
Definition vpos_lt (a b : vpos) : res bool :=
  let* x := fraction_from_screen_top a in
  let* y := fraction_from_screen_top b in
  Ok (flt_lt x y).

(** class HorizontalPosition, horizontal_position.h 27-40. *)
Record hpos : Type := mkH { h_ref : href; h_prop : flt }.

(** HorizontalPosition::HorizontalPosition, horizontal_position.h 30-33. *)
Definition hpos_default : hpos := mkH HORIZONTAL_CENTRE_OF_SCREEN (S754_zero false).

(** HorizontalPosition::operator==, horizontal_position.cc 27-32: the difference and fabs are taken in float, then
    compared with the double 1.0 / 1998. *)
Definition hpos_eqb (a b : hpos) : bool :=
  href_eqb (h_ref a) (h_ref b)
  && flt_lt (d_of_f (flt_abs (fsub (h_prop a) (h_prop b)))) (d_lit 1 1998).

(** class FontSize, font_size.h 33-66. *)
Record font_size : Type := mkFS { fs_prop : option flt; fs_points : option Z }.

(** A FontSize with nothing set, font_size.h 33-66. *)
Definition font_size_none : font_size := mkFS None None.
(** FontSize::set_proportional / set_points, font_size.h 36-42. *)
Definition set_proportional (s : font_size) (p : flt) : font_size := mkFS (Some p) (fs_points s).
(** FontSize::set_points, font_size.h 36-42. *)
Definition set_points (s : font_size) (p : Z) : font_size := mkFS (fs_prop s) (Some p).
(** FontSize::from_points / from_proportional, font_size.cc 44-58. *)
Definition from_points (p : Z) : font_size := set_points font_size_none p.
(** FontSize::from_proportional, font_size.cc 52-58. *)
Definition from_proportional (p : flt) : font_size := set_proportional font_size_none p.
(** FontSize::specified, font_size.cc 60-64. *)
Definition fs_specified (s : font_size) : bool := is_some (fs_prop s) || is_some (fs_points s).
(** FontSize::proportional (int), font_size.cc 24-32. *)
Definition fs_proportional (s : font_size) (h : Z) : res flt :=
  match fs_prop s with
  | Some p => Ok p
  | None => let* p := opt_get (fs_points s) in Ok (fdiv (f_of_int p) (f_of_int h))
  end.
(** FontSize::points (int), font_size.cc 34-42: float product converted to int. *)
Definition fs_points_at (s : font_size) (h : Z) : res Z :=
  match fs_points s with
  | Some p => Ok p
  | None => let* p := opt_get (fs_prop s) in to_int (trunc_Z (fmul p (f_of_int h)))
  end.
(** FontSize operator==, font_size.cc 66-70. *)
Definition font_size_eqb (a b : font_size) : bool :=
  opt_eqb flt_eq (fs_prop a) (fs_prop b) && opt_eqb Z.eqb (fs_points a) (fs_points b).

(** class RawSubtitle, raw_subtitle.h 39-76. *)
Record raw : Type := mkRaw {
  r_text : str;
  r_font : option str;
  r_font_size : font_size;
  r_effect : option effect;
  r_effect_colour : option colour;
  r_colour : colour;
  r_bold : bool;
  r_italic : bool;
  r_underline : bool;
  r_hpos : hpos;
  r_vpos : vpos;
  r_from : time;
  r_to : time;
  r_fade_up : option time;
  r_fade_down : option time }.

(** RawSubtitle::RawSubtitle, raw_subtitle.h 42-47. *)
Definition raw_default : raw :=
  mkRaw [] None font_size_none None None white false false false hpos_default vpos_empty
        time_zero time_zero None None.

(** Field updates (assignments to members in the readers). *)
Definition set_text (s : str) (r : raw) : raw :=
  mkRaw s (r_font r) (r_font_size r) (r_effect r) (r_effect_colour r) (r_colour r) (r_bold r) (r_italic r)
        (r_underline r) (r_hpos r) (r_vpos r) (r_from r) (r_to r) (r_fade_up r) (r_fade_down r).
(** Assignment to the member at raw_subtitle.h 51. *)
Definition set_font (f : option str) (r : raw) : raw :=
  mkRaw (r_text r) f (r_font_size r) (r_effect r) (r_effect_colour r) (r_colour r) (r_bold r) (r_italic r)
        (r_underline r) (r_hpos r) (r_vpos r) (r_from r) (r_to r) (r_fade_up r) (r_fade_down r).
(** Assignment to the member at raw_subtitle.h 54. *)
Definition set_font_size (f : font_size) (r : raw) : raw :=
  mkRaw (r_text r) (r_font r) f (r_effect r) (r_effect_colour r) (r_colour r) (r_bold r) (r_italic r)
        (r_underline r) (r_hpos r) (r_vpos r) (r_from r) (r_to r) (r_fade_up r) (r_fade_down r).
(** Assignment to the member at raw_subtitle.h 56. *)
Definition set_effect (e : option effect) (r : raw) : raw :=
  mkRaw (r_text r) (r_font r) (r_font_size r) e (r_effect_colour r) (r_colour r) (r_bold r) (r_italic r)
        (r_underline r) (r_hpos r) (r_vpos r) (r_from r) (r_to r) (r_fade_up r) (r_fade_down r).
(** Assignment to the member at raw_subtitle.h 57. *)
Definition set_effect_colour (c : option colour) (r : raw) : raw :=
  mkRaw (r_text r) (r_font r) (r_font_size r) (r_effect r) c (r_colour r) (r_bold r) (r_italic r)
        (r_underline r) (r_hpos r) (r_vpos r) (r_from r) (r_to r) (r_fade_up r) (r_fade_down r).
(** Assignment to the member at raw_subtitle.h 59. *)
Definition set_colour (c : colour) (r : raw) : raw :=
  mkRaw (r_text r) (r_font r) (r_font_size r) (r_effect r) (r_effect_colour r) c (r_bold r) (r_italic r)
        (r_underline r) (r_hpos r) (r_vpos r) (r_from r) (r_to r) (r_fade_up r) (r_fade_down r).
(** Assignment to the member at raw_subtitle.h 60. *)
Definition set_bold (b : bool) (r : raw) : raw :=
  mkRaw (r_text r) (r_font r) (r_font_size r) (r_effect r) (r_effect_colour r) (r_colour r) b (r_italic r)
        (r_underline r) (r_hpos r) (r_vpos r) (r_from r) (r_to r) (r_fade_up r) (r_fade_down r).
(** Assignment to the member at raw_subtitle.h 61. *)
Definition set_italic (b : bool) (r : raw) : raw :=
  mkRaw (r_text r) (r_font r) (r_font_size r) (r_effect r) (r_effect_colour r) (r_colour r) (r_bold r) b
        (r_underline r) (r_hpos r) (r_vpos r) (r_from r) (r_to r) (r_fade_up r) (r_fade_down r).
(** Assignment to the member at raw_subtitle.h 62. *)
Definition set_underline (b : bool) (r : raw) : raw :=
  mkRaw (r_text r) (r_font r) (r_font_size r) (r_effect r) (r_effect_colour r) (r_colour r) (r_bold r) (r_italic r)
        b (r_hpos r) (r_vpos r) (r_from r) (r_to r) (r_fade_up r) (r_fade_down r).
(** Assignment to the member at raw_subtitle.h 64. *)
Definition set_hpos (h : hpos) (r : raw) : raw :=
  mkRaw (r_text r) (r_font r) (r_font_size r) (r_effect r) (r_effect_colour r) (r_colour r) (r_bold r) (r_italic r)
        (r_underline r) h (r_vpos r) (r_from r) (r_to r) (r_fade_up r) (r_fade_down r).
(** Assignment to the member at raw_subtitle.h 67. *)
Definition set_vpos (v : vpos) (r : raw) : raw :=
  mkRaw (r_text r) (r_font r) (r_font_size r) (r_effect r) (r_effect_colour r) (r_colour r) (r_bold r) (r_italic r)
        (r_underline r) (r_hpos r) v (r_from r) (r_to r) (r_fade_up r) (r_fade_down r).
(** Assignment to the member at raw_subtitle.h 70. *)
Definition set_from (t : time) (r : raw) : raw :=
  mkRaw (r_text r) (r_font r) (r_font_size r) (r_effect r) (r_effect_colour r) (r_colour r) (r_bold r) (r_italic r)
        (r_underline r) (r_hpos r) (r_vpos r) t (r_to r) (r_fade_up r) (r_fade_down r).
(** Assignment to the member at raw_subtitle.h 72. *)
Definition set_to (t : time) (r : raw) : raw :=
  mkRaw (r_text r) (r_font r) (r_font_size r) (r_effect r) (r_effect_colour r) (r_colour r) (r_bold r) (r_italic r)
        (r_underline r) (r_hpos r) (r_vpos r) (r_from r) t (r_fade_up r) (r_fade_down r).
(** vertical_position member updates. *)
Definition set_line (l : option Z) (r : raw) : raw :=
  set_vpos (mkV (v_prop (r_vpos r)) l (v_lines (r_vpos r)) (v_ref (r_vpos r))) r.
(** Assignment to vertical_position.lines, vertical_position.h 39. *)
Definition set_lines (l : option Z) (r : raw) : raw :=
  set_vpos (mkV (v_prop (r_vpos r)) (v_line (r_vpos r)) l (v_ref (r_vpos r))) r.
(** Assignment to vertical_position.proportional, vertical_position.h 35. *)
Definition set_vprop (p : option flt) (r : raw) : raw :=
  set_vpos (mkV p (v_line (r_vpos r)) (v_lines (r_vpos r)) (v_ref (r_vpos r))) r.
(** Assignment to vertical_position.reference, vertical_position.h 41. *)
Definition set_vref (x : option vref) (r : raw) : raw :=
  set_vpos (mkV (v_prop (r_vpos r)) (v_line (r_vpos r)) (v_lines (r_vpos r)) x) r.
(** horizontal_position member updates. *)
Definition set_href (x : href) (r : raw) : raw := set_hpos (mkH x (h_prop (r_hpos r))) r.
(** Assignment to horizontal_position.proportional, horizontal_position.h 37. *)
Definition set_hprop (p : flt) (r : raw) : raw := set_hpos (mkH (h_ref (r_hpos r)) p) r.

(** RawSubtitle operator<, raw_subtitle.cc 24-28. *)
Definition raw_lt (a b : raw) : res bool := time_lt (r_from a) (r_from b).

(** class Block, subtitle.h 41-68. *)
Record block : Type := mkBlock {
  b_text : str;
  b_font : option str;
  b_font_size : font_size;
  b_effect : option effect;
  b_effect_colour : option colour;
  b_colour : colour;
  b_bold : bool;
  b_italic : bool;
  b_underline : bool }.

(** Block::Block (RawSubtitle), subtitle.cc 52-64. *)
Definition block_of (s : raw) : block :=
  mkBlock (r_text s) (r_font s) (r_font_size s) (r_effect s) (r_effect_colour s) (r_colour s)
          (r_bold s) (r_italic s) (r_underline s).

(** class Line, subtitle.h 77-96. *)
Record line : Type := mkLine { l_hpos : hpos; l_vpos : vpos; l_blocks : list block }.

(** Line::Line (RawSubtitle), subtitle.cc 39-44. *)
Definition line_of (s : raw) : line := mkLine (r_hpos s) (r_vpos s) [block_of s].

(** Line::same_metadata, subtitle.cc 46-50. *)
Definition line_same (l : line) (s : raw) : bool := vpos_eqb (l_vpos l) (r_vpos s).

(** class Subtitle, subtitle.h 106-126. *)
Record subtitle : Type := mkSub {
  s_from : time; s_to : time; s_fade_up : option time; s_fade_down : option time; s_lines : list line }.

(** Subtitle::Subtitle (RawSubtitle), subtitle.cc 24-31. *)
Definition subtitle_of (s : raw) : subtitle :=
  mkSub (r_from s) (r_to s) (r_fade_up s) (r_fade_down s) [line_of s].

(** Short-circuiting && of possibly failing conditions. *)
Definition and_then (a : res bool) (b : res bool) : res bool :=
  let* x := a in if x then b else Ok false.

(** Subtitle::same_metadata, subtitle.cc 33-37. *)
Definition subtitle_same (c : subtitle) (s : raw) : res bool :=
  and_then (time_eq (s_from c) (r_from s))
  (and_then (time_eq (s_to c) (r_to s))
  (and_then (opt_time_eq (s_fade_up c) (r_fade_up s))
            (opt_time_eq (s_fade_down c) (r_fade_down s)))).

(** Block operator==, subtitle.cc 78-83. *)
Definition block_eqb (a b : block) : bool :=
  str_eqb (b_text a) (b_text b) && opt_eqb str_eqb (b_font a) (b_font b)
  && font_size_eqb (b_font_size a) (b_font_size b) && opt_eqb effect_eqb (b_effect a) (b_effect b)
  && opt_eqb colour_eqb (b_effect_colour a) (b_effect_colour b)
  && colour_eqb (b_colour a) (b_colour b) && Bool.eqb (b_bold a) (b_bold b)
  && Bool.eqb (b_italic a) (b_italic b) && Bool.eqb (b_underline a) (b_underline b).

(** std::vector operator==. *)
Fixpoint list_eqb {A : Type} (eqb : A -> A -> bool) (a b : list A) : bool :=
  match a, b with
  | [], [] => true
  | x :: a', y :: b' => eqb x y && list_eqb eqb a' b'
  | _, _ => false
  end.

(** Line operator==, subtitle.cc 72-76. *)
Definition line_eqb (a b : line) : bool :=
  hpos_eqb (l_hpos a) (l_hpos b) && vpos_eqb (l_vpos a) (l_vpos b)
  && list_eqb block_eqb (l_blocks a) (l_blocks b).

(** Subtitle operator==, subtitle.cc 66-70. *)
Definition subtitle_eq (a b : subtitle) : res bool :=
  and_then (time_eq (s_from a) (s_from b))
  (and_then (time_eq (s_to a) (s_to b))
  (and_then (opt_time_eq (s_fade_up a) (s_fade_up b))
  (and_then (opt_time_eq (s_fade_down a) (s_fade_down b))
            (Ok (list_eqb line_eqb (s_lines a) (s_lines b)))))).
