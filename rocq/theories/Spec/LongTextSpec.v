(** What is seen of text that takes any number of blocks of a binary STL file. *)
From Coq Require Import ZArith List Bool Ascii.
From Verif.Model Require Import Base Types StlBinReader StlBinWriter.
From Verif.Spec Require Import Outcome TextSpec Utf8Spec Iso6937Spec StlFileSpec StlWriteSpec StlRoundTripSpec.
Import ListNotations.
Local Open Scope Z_scope.
Local Notation length := List.length.

(** The bytes of a character: with the accent that was there before it, if one was. *)
Definition with_accent (d : option Z) (b : Z) : list Z := match d with Some a => [a; b] | None => [b] end.
(** Codes for style, for the next row and for the end. *)
Definition text_code (b : Z) : Prop := 0x80 <= b <= 0x83 \/ b = 0x8A \/ b = 0x8F.

(** The cells of a sequence of bytes that starts on [row], in italics or not, underlined or not, after an accent or not.  An accent
    in front of a code or of the end gives nothing; what ISO 6937 does not have is U+0000. *)
Inductive seen : Z -> bool -> bool -> option Z -> list Z -> list cell -> Prop :=
| seen_stop row i u d n : seen row i u d (repeat 0x8F n) []
| seen_row row i u d bs cells : seen (row + 1) i u None bs cells -> seen row i u d (0x8A :: bs) cells
| seen_italic_on row i u d bs cells : seen row true u None bs cells -> seen row i u d (0x80 :: bs) cells
| seen_italic_off row i u d bs cells : seen row false u None bs cells -> seen row i u d (0x81 :: bs) cells
| seen_underline_on row i u d bs cells : seen row i true None bs cells -> seen row i u d (0x82 :: bs) cells
| seen_underline_off row i u d bs cells : seen row i false None bs cells -> seen row i u d (0x83 :: bs) cells
| seen_accent row i u d a bs cells : is_accent_byte a -> seen row i u (Some a) bs cells -> seen row i u d (a :: bs) cells
| seen_char row i u d b c bs cells : glyph (with_accent d b) c -> seen row i u None bs cells ->
    seen row i u d (b :: bs) (mkCell row i u c :: cells)
| seen_odd row i u d b bs cells : ~ is_accent_byte b -> ~ text_code b -> (forall c, ~ glyph (with_accent d b) c) ->
    seen row i u None bs cells -> seen row i u d (b :: bs) (mkCell row i u 0 :: cells).

(** [k] rows further up. *)
Definition raised (k : Z) (cells : list cell) : list cell :=
  map (fun c => mkCell (c_row c - k) (c_italic c) (c_underline c) (c_char c)) cells.

(** A subtitle with its lines on [rows]: its text is cut into blocks, and each of them is seen on its own, from the highest row
    of the subtitle down and without style; [last] has the row each of the blocks ends on.  All that is [k] rows further up. *)
Definition seen_in_blocks (s : subtitle) (rows : list Z) (k : Z) (last : list Z) (rs : list raw) : Prop :=
  exists top its text chunks cellss, least rows top /\ line_items None (combine (s_lines s) rows) its /\ coded false false its text /\
    chunked 0 text chunks /\ last = map (fun c => top + Z.of_nat (count_occ Z.eq_dec (snd c) 0x8A)) chunks /\
    Forall2 (fun c cells => seen top false false None (snd c) cells) chunks cellss /\ raws_cells rs (raised k (List.concat cellss)).

(** As far up as is needed for the last of these rows to be at most 23, and no further. *)
Definition needed (k : Z) (last : list Z) : Prop :=
  Forall (fun r => r - k <= 23) last /\ (k = 0 \/ 0 < k /\ In (23 + k) last).
