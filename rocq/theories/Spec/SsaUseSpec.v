(** What users of the SSA reader rely on. *)
From Coq Require Import ZArith Reals List Bool Ascii String.
From Verif.Model Require Import Base Float TimeModel Types RawConvert.
From Verif.Spec Require Import Outcome TextSpec LinesSpec StlFileSpec RawSpec PositionSpec SsaTagSpec SsaSpec.
From Verif.Model Require Import Ssa.
Import ListNotations.
Local Open Scope Z_scope.
Local Notation length := List.length.

(** Text without tags, escapes and line ends. *)
Definition plain_text (s : str) : Prop := Forall (fun c => c <> "{"%char /\ c <> bslash /\ ~ line_end c) s.
(** Text with nothing to trim. *)
Definition tidy (s : str) : Prop := ~ begins white s /\ ~ ends_in white s.

(** * Looks *)

(** The look of a piece: everything but its text and vertical offset. *)
Definition bare (r : raw) : raw := with_vpos (mkV None (v_line (r_vpos r)) (v_lines (r_vpos r)) (v_ref (r_vpos r))) (with_text [] r).
(** The characters of [its] and the look of each: that of the start, changed by the tags in front of it. *)
Inductive ssa_shown (c : ssa_context) : raw -> list item -> list (ascii * raw) -> Prop :=
| ssa_shown_end r : ssa_shown c r [] []
| ssa_shown_char r x its l : ssa_shown c r its l -> ssa_shown c r (Char x :: its) ((x, bare r) :: l)
| ssa_shown_break r its l : ssa_shown c r its l -> ssa_shown c r (Break :: its) l
| ssa_shown_tag r t r1 its l : override c r t r1 -> ssa_shown c r1 its l -> ssa_shown c r (Tag t :: its) l.
Definition cells (r : raw) : list (ascii * raw) := map (fun x => (x, bare r)) (r_text r).
(** The text without tags and line breaks. *)
Fixpoint letters (its : list item) : str :=
  match its with [] => [] | Char x :: rest => x :: letters rest | _ :: rest => letters rest end.
(** The sums that place text between margins do not overflow. *)
Definition margins_fit (c : ssa_context) : Prop := is_int (left_margin c - right_margin c) /\ is_int (2 * play_res_x c).
Definition known_tag (i : item) : Prop := match i with Tag t => forall e, ~ bad_override t e | _ => True end.

(** * Layout *)

(** Neither an alignment nor a position. *)
Definition stays (i : item) : Prop :=
  match i with Tag t => (forall k hv, In (k, hv) keypad -> t <> tag "an" ++ lit k) /\ (forall s, t <> tag "pos" ++ s) | _ => True end.
Fixpoint breaks (its : list item) : Z := match its with [] => 0 | Break :: rest => 1 + breaks rest | _ :: rest => breaks rest end.
(** The text and the row that each character is on, counting from [k]. *)
Fixpoint letters_in_rows (k : Z) (its : list item) : list (ascii * Z) :=
  match its with
  | [] => []
  | Char x :: rest => (x, k) :: letters_in_rows k rest
  | Break :: rest => letters_in_rows (k + 1) rest
  | Tag _ :: rest => letters_in_rows k rest
  end.
Definition letters_on (p : Z * raw) : list (ascii * Z) := map (fun x => (x, fst p)) (r_text (snd p)).

(** Where row [k] of 0..n is, if rows are [h] high and the first (or last) of them is [m] from the edge. *)
Definition row_offset (ref : vref) (n k : Z) (m h : R) : R :=
  (match ref with
   | TOP_OF_SCREEN | TOP_OF_SUBTITLE => m + IZR k * h
   | BOTTOM_OF_SCREEN => m + IZR (n - k) * h
   | VERTICAL_CENTRE_OF_SCREEN => (IZR k - IZR (n + 1) / 2) * h
   end)%R.
(** The vertical position of a piece is as good as [x] from [ref]. *)
Definition placed (ref : vref) (x err : R) (r : raw) : Prop :=
  v_ref (r_vpos r) = Some ref /\ exists p y, v_prop (r_vpos r) = Some p /\ float_value p y /\ (Rabs (y - x) <= err)%R.

(** * Colours *)

(** Two hexadecimal digits. *)
Definition hex_pair (s : str) (v : Z) : Prop := exists c1 d1 c2 d2, s = [c1; c2] /\ hex_digit c1 d1 /\ hex_digit c2 d2 /\ v = 16 * d1 + d2.
Definition alpha_or_none (s : str) : Prop := s = [] \/ exists v, hex_pair s v.
(** v/255 as a float. *)
Definition of_255 (v : Z) : flt := fdiv (f_of_int v) (f_of_int 255).
Definition rgb (r g b : Z) : colour := mkC (of_255 r) (of_255 g) (of_255 b).

(** &Hbbggrr or &Haabbggrr, perhaps with an ampersand after it; or the number b * 65536 + g * 256 + r. *)
Definition written_colour (s : str) (r g b : Z) : Prop :=
  (exists alpha bs gs rs e, s = lit "&H" ++ alpha ++ bs ++ gs ++ rs ++ e /\ alpha_or_none alpha /\ hex_pair bs b /\ hex_pair gs g /\ hex_pair rs r /\
     (e = [] \/ e = lit "&")) \/
  (0 <= r <= 255 /\ 0 <= g <= 255 /\ 0 <= b <= 255 /\ numeral s (b * 65536 + g * 256 + r)).

(** * Alignments of [V4 Styles] *)

(** 1 to 3 are at the bottom; 4 more is at the top, 8 more in the middle. *)
Definition v4_alignments : list (string * (href * vref)) :=
  [("1", (LEFT_OF_SCREEN, BOTTOM_OF_SCREEN)); ("2", (HORIZONTAL_CENTRE_OF_SCREEN, BOTTOM_OF_SCREEN)); ("3", (RIGHT_OF_SCREEN, BOTTOM_OF_SCREEN));
   ("5", (LEFT_OF_SCREEN, TOP_OF_SCREEN)); ("6", (HORIZONTAL_CENTRE_OF_SCREEN, TOP_OF_SCREEN)); ("7", (RIGHT_OF_SCREEN, TOP_OF_SCREEN));
   ("9", (LEFT_OF_SCREEN, VERTICAL_CENTRE_OF_SCREEN)); ("10", (HORIZONTAL_CENTRE_OF_SCREEN, VERTICAL_CENTRE_OF_SCREEN));
   ("11", (RIGHT_OF_SCREEN, VERTICAL_CENTRE_OF_SCREEN))]%string.

(** * Styles *)

(** The value of the last field with a key. *)
Definition last_value (key : str) (format line value : str) : Prop :=
  exists ks vs before k v after, parts_of [comma] format ks /\ parts_of [comma] line vs /\ length ks = length vs /\
    combine ks vs = before ++ (k, v) :: after /\ trimmed k key /\ trimmed v value /\ (forall k' v', In (k', v') after -> ~ trimmed k' key).
Definition no_key (key format : str) : Prop := exists ks, parts_of [comma] format ks /\ Forall (fun k => ~ trimmed k key) ks.

(** * Numbers *)

Definition letter (c : ascii) : Prop := 65 <= char_code c <= 90 \/ 97 <= char_code c <= 122.
(** Numbers of more than [n] digits come only right after letters. *)
Definition numbers_within (n : nat) (s : str) : Prop :=
  forall before d after, s = before ++ d ++ after -> Forall is_digit_char d -> ~ ends_in is_digit_char before -> (length d <= n)%nat \/ ends_in letter before.
(** Numbers have at most nine digits, and at most five in lines that mention Dialogue. *)
Definition moderate_numbers (s : str) : Prop :=
  exists ls, text_lines s ls /\ Forall (fun l => numbers_within 9 l /\ (contains (lit "Dialogue") l -> numbers_within 5 l)) ls.
