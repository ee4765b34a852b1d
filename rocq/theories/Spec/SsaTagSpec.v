(** The override tags of SSA and ASS subtitles, as far as the library knows them. *)
From Coq Require Import ZArith List Bool Ascii String.
From Verif.Model Require Import Base Float TimeModel Types RawConvert Ssa.
From Verif.Spec Require Import Outcome TextSpec StlFileSpec RawSpec.
Import ListNotations.
Local Open Scope Z_scope.
Local Notation length := List.length.

Definition bslash : ascii := ascii_of_nat 92.
Definition tag (s : string) : str := bslash :: lit s.

(** * Colours: two hex digits each of blue, green, red, after &H *)

(** A hexadecimal number as C reads it: spaces, a sign, 0x, digits; anything else ends it; no digits is 0. *)
Inductive hex_numeral : str -> Z -> Prop :=
| hex_none : hex_numeral [] 0
| hex_more s v c d : hex_numeral s v -> hex_digit c d -> hex_numeral (s ++ [c]) (16 * v + d).
Definition is_hex_char (c : ascii) : Prop := exists d, hex_digit c d.
Definition hex_prefix (p : str) : Prop := p = lit "0x" \/ p = lit "0X".
Inductive c_hex_digits : str -> Z -> Prop :=
| c_hex_plain d v rest : hex_numeral d v -> ~ begins is_hex_char rest ->
    (forall p c t, hex_prefix p -> d ++ rest = p ++ c :: t -> ~ is_hex_char c) -> c_hex_digits (d ++ rest) v
| c_hex_prefixed p d v rest : hex_prefix p -> d <> [] -> hex_numeral d v -> ~ begins is_hex_char rest -> c_hex_digits (p ++ d ++ rest) v.
Inductive c_hex : str -> Z -> Prop :=
| c_hex_positive sp s v : Forall white sp -> ~ begins white s -> ~ begins is_sign_char s -> c_hex_digits s v -> c_hex (sp ++ s) v
| c_hex_plus sp s v : Forall white sp -> c_hex_digits s v -> c_hex (sp ++ "+"%char :: s) v
| c_hex_minus sp s v : Forall white sp -> c_hex_digits s v -> c_hex (sp ++ "-"%char :: s) (- v).
(** Numbers that do not fit 64 bits become the nearest that do. *)
Definition saturate (v : Z) : Z := Z.max (- 2 ^ 63) (Z.min (2 ^ 63 - 1) v).

(** A share of 255. *)
Definition share (v : Z) : flt := f_of_d (ddiv (d_of_int v) (d_of_int 255)).
(** Red in the low byte, then green, then blue. *)
Definition bgr (v : Z) : colour := mkC (share (v mod 256)) (share (v / 256 mod 256)) (share (v / 65536 mod 256)).
Definition ampersand_or_h (c : ascii) : Prop := c = "&"%char \/ c = "H"%char.
(** &H, and any more of these two letters, and a number. *)
Definition colour_text (s : str) (c : colour) : Prop :=
  exists p n v, s = lit "&H" ++ p ++ n /\ Forall ampersand_or_h p /\ ~ begins ampersand_or_h n /\ c_hex n v /\ c = bgr (saturate v).

(** * Positions *)

(** The numeric keypad. *)
Definition keypad : list (string * (href * vref)) :=
  [("7", (LEFT_OF_SCREEN, TOP_OF_SCREEN)); ("8", (HORIZONTAL_CENTRE_OF_SCREEN, TOP_OF_SCREEN)); ("9", (RIGHT_OF_SCREEN, TOP_OF_SCREEN));
   ("4", (LEFT_OF_SCREEN, VERTICAL_CENTRE_OF_SCREEN)); ("5", (HORIZONTAL_CENTRE_OF_SCREEN, VERTICAL_CENTRE_OF_SCREEN)); ("6", (RIGHT_OF_SCREEN, VERTICAL_CENTRE_OF_SCREEN));
   ("1", (LEFT_OF_SCREEN, BOTTOM_OF_SCREEN)); ("2", (HORIZONTAL_CENTRE_OF_SCREEN, BOTTOM_OF_SCREEN)); ("3", (RIGHT_OF_SCREEN, BOTTOM_OF_SCREEN))]%string.

(** The horizontal offset that margins give. *)
Inductive margin_offset (c : ssa_context) : href -> flt -> Prop :=
| margin_left : margin_offset c LEFT_OF_SCREEN (fdiv (f_of_int (left_margin c)) (f_of_int (play_res_x c)))
| margin_right : margin_offset c RIGHT_OF_SCREEN (fdiv (f_of_int (right_margin c)) (f_of_int (play_res_x c)))
| margin_centre : is_int (left_margin c - right_margin c) -> is_int (2 * play_res_x c) ->
    margin_offset c HORIZONTAL_CENTRE_OF_SCREEN (fdiv (f_of_int (left_margin c - right_margin c)) (f_of_int (2 * play_res_x c))).

(** * What a tag does *)

Definition style_tags : list (string * (raw -> raw)) :=
  [("i1", with_italic true); ("i0", with_italic false); ("i", with_italic false); ("b1", with_bold true); ("b0", with_bold false);
   ("u1", with_underline true); ("u0", with_underline false)]%string.
Definition no_bracket (s : str) : Prop := ~ In "("%char s /\ ~ In ","%char s.
Definition bracket (c : ascii) : Prop := c = "("%char \/ c = ","%char.

Inductive override (c : ssa_context) (r : raw) : str -> raw -> Prop :=
| override_style s f : In (s, f) style_tags -> override c r (tag s) (f r)
| override_align k h v x : In (k, (h, v)) keypad -> margin_offset c h x ->
    override c r (tag "an" ++ lit k) (with_reference v (with_horizontal h x r))
| override_pos a b1 x b2 y : no_bracket a -> no_bracket x -> no_bracket y -> bracket b1 -> bracket b2 ->
    override c r (tag "pos" ++ a ++ b1 :: x ++ b2 :: y)
      (with_vpos (mkV (Some (fdiv (raw_convert_float y) (f_of_int (play_res_y c)))) (v_line (r_vpos r)) (v_lines (r_vpos r)) (Some TOP_OF_SCREEN))
        (with_horizontal LEFT_OF_SCREEN (fdiv (raw_convert_float x) (f_of_int (play_res_x c))) r))
| override_size n : n <> [] ->
    override c r (tag "fs" ++ n)
      (with_font_size (mkFS (Some (fdiv (raw_convert_float n) (f_of_int (play_res_y c)))) (fs_points (r_font_size r))) r)
| override_colour s last k : colour_text s k -> override c r (tag "c" ++ s ++ [last]) (with_colour k r)
| override_colour_reset : override c r (tag "c") (with_colour (primary_colour c) r)
| override_nothing t :
    (forall s f, In (s, f) style_tags -> t <> tag s) -> (forall k hv, In (k, hv) keypad -> t <> tag "an" ++ lit k) ->
    (forall s, t <> tag "pos" ++ s) -> (forall s, t <> tag "fs" ++ s) -> (forall s, t <> tag "c" ++ s) ->
    override c r t r.

(** Tags that are refused. *)
Inductive bad_override : str -> exn -> Prop :=
| bad_pos a : (forall p b1 x b2 y, no_bracket p -> no_bracket x -> no_bracket y -> bracket b1 -> bracket b2 -> a <> p ++ b1 :: x ++ b2 :: y) ->
    bad_override (tag "pos" ++ a) EProgramming
| bad_size : bad_override (tag "fs") EProgramming
| bad_colour s last : (forall t, s <> lit "&H" ++ t) -> bad_override (tag "c" ++ s ++ [last]) (ESsa (lit "Badly formatted colour tag " ++ s)).
