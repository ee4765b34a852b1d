(** The bytes of a binary STL file (EBU Tech 3264) and what they mean. *)
From Coq Require Import ZArith List Bool Ascii String.
From Verif.Model Require Import Base Float TimeModel Types StlTables StlBinReader StlBinWriter.
From Verif.Spec Require Import Outcome TextSpec TimeSpec Utf8Spec Iso6937Spec StlTableSpec.
Import ListNotations.
Local Open Scope Z_scope.
Local Notation length := List.length.

(** * Writing: the header *)

(** [s] in a field of [n] bytes, with spaces after it; [v] as [n] decimal digits. *)
Definition field (n : nat) (s : str) : str := s ++ repeat " "%char (n - length s).
Definition number (n : nat) (v : Z) (s : str) : Prop := length s = n /\ numeral s v.

(** The header values that are accepted. *)
Definition header_ok (a : writer_args) : Prop :=
  (length (w_original_programme_title a) <= 32)%nat /\ (length (w_original_episode_title a) <= 32)%nat /\
  (length (w_translated_programme_title a) <= 32)%nat /\ (length (w_translated_episode_title a) <= 32)%nat /\
  (length (w_translator_name a) <= 32)%nat /\ (length (w_translator_contact_details a) <= 32)%nat /\
  length (w_creation_date a) = 6%nat /\ length (w_revision_date a) = 6%nat /\ w_revision_number a <= 99 /\
  length (w_country_of_origin a) = 3%nat /\ (length (w_publisher a) <= 32)%nat /\
  (length (w_editor_name a) <= 32)%nat /\ (length (w_editor_contact_details a) <= 32)%nat.

(** A counter in a field of [n] digits: padded with zeros; of a longer number only the first digits are kept. *)
Definition counter (n : nat) (v : Z) (s : str) : Prop :=
  exists d, numeral d v /\ (n <= length d)%nat /\ ((n < length d)%nat -> hd_error d <> Some "0"%char) /\ s = firstn n d.

(** A negative number in such a field: a minus sign and the first digits, as many as fit. *)
Definition minus_counter (n : nat) (v : Z) (s : str) : Prop :=
  exists d, numeral d (- v) /\ hd_error d <> Some "0"%char /\ s = firstn n ("-"%char :: d).

(** The header of a file, field by field.  [dfc] is the disk format code, [lang] the language code, [tti] and [subs] the
    numbers of blocks and subtitles, [longest] the largest number of bytes in a line. *)
Definition gsi_layout (a : writer_args) (dfc lang : str) (tti subs longest : Z) (h : str) : Prop :=
  exists rn nt ns nl,
    counter 2 (w_revision_number a) rn /\ counter 5 tti nt /\ counter 5 subs ns /\ counter 2 longest nl /\
    h = List.concat
      [ lit "850"; dfc; lit "0"; lit "00"; lang;
        field 32 (w_original_programme_title a); field 32 (w_original_episode_title a);
        field 32 (w_translated_programme_title a); field 32 (w_translated_episode_title a);
        field 32 (w_translator_name a); field 32 (w_translator_contact_details a);
        lit "0000000000000000"; w_creation_date a; w_revision_date a; rn; nt; ns; lit "001"; nl; lit "23"; lit "1";
        lit "00000000"; lit "00000000"; lit "1"; lit "1"; w_country_of_origin a;
        field 32 (w_publisher a); field 32 (w_editor_name a); field 32 (w_editor_contact_details a);
        repeat zero 651 ].

(** The largest number of bytes in a line of any subtitle. *)
Definition bytes_of_line (l : line) : Z := Z.of_nat (length (List.concat (map b_text (l_blocks l)))).
Definition longest_is (ss : list subtitle) (n : Z) : Prop :=
  let all := map bytes_of_line (List.concat (map s_lines ss)) in
  Forall (fun k => k <= n) all /\ (In n all \/ all = [] /\ n = 0).

(** * Writing: the text *)

(** The text of a subtitle as a sequence of row breaks, style settings and characters. *)
Inductive item : Type := Break | Style (italic underline : bool) | Char (c : Z).

Definition block_items (k : block) (its : list item) : Prop :=
  exists w, utf8 (b_text k) w /\ its = Style (b_italic k) (b_underline k) :: map Char w.

(** Lines with their rows; [last] is the row of the line before. *)
Inductive line_items : option Z -> list (line * Z) -> list item -> Prop :=
| line_items_nil last : line_items last [] []
| line_items_cons last l row rest parts its :
    Forall2 block_items (l_blocks l) parts -> line_items (Some row) rest its ->
    line_items last ((l, row) :: rest)
      (match last with Some r => repeat Break (Z.to_nat (row - r)) | None => [] end ++ List.concat parts ++ its).

(** The codes that turn a style on or off. *)
Definition change (before after : bool) (on off : Z) : list Z :=
  match before, after with false, true => [on] | true, false => [off] | _, _ => [] end.

(** The bytes for a sequence of items when italic and underline are [i] and [u]: both are off at the end, and there is an
    end mark. *)
Inductive coded : bool -> bool -> list item -> list Z -> Prop :=
| coded_end i u : coded i u [] (change u false 0x82 0x83 ++ change i false 0x80 0x81 ++ [0x8F])
| coded_break i u its bs : coded i u its bs -> coded i u (Break :: its) (0x8A :: bs)
| coded_style i u i' u' its bs : coded i' u' its bs ->
    coded i u (Style i' u' :: its) (change u u' 0x82 0x83 ++ change i i' 0x80 0x81 ++ bs)
| coded_char i u c cs its bs : written c cs -> coded i u its bs -> coded i u (Char c :: its) (cs ++ bs).

(** Text in blocks of 112 bytes with their extension numbers: counted from [k] on, 255 for the last one. *)
Inductive chunked : Z -> list Z -> list (Z * list Z) -> Prop :=
| chunked_last k t : t <> [] -> (length t <= 112)%nat -> chunked k t [(255, t ++ repeat 0x8F (112 - length t))]
| chunked_more k t rest bs : length t = 112%nat -> rest <> [] -> chunked (k + 1) rest bs ->
    chunked k (t ++ rest) ((k mod 256, t) :: bs).

(** * Writing: the blocks *)

(** Hours, minutes, seconds and frames of a Time at [n] / 1000 frames per second. *)
Definition timecode (n : Z) (t : time) (h m s f : Z) : Prop :=
  t_seconds t = h * 3600 + m * 60 + s /\ 0 <= h /\ 0 <= m < 60 /\ 0 <= s < 60 /\
  exists tr, t_rate t = Some tr /\ nearest_even (t_frames t * den tr * n) (num tr * 1000) f.

Definition justification_of (l : line) : Z :=
  match h_ref (l_hpos l) with LEFT_OF_SCREEN => 1 | HORIZONTAL_CENTRE_OF_SCREEN => 2 | RIGHT_OF_SCREEN => 3 end.

Definition least (l : list Z) (n : Z) : Prop := In n l /\ Forall (fun k => n <= k) l.

(** The blocks of a subtitle whose lines are on [rows]. *)
Definition subtitle_blocks (n : Z) (s : subtitle) (rows : list Z) (blocks : list str) : Prop :=
  exists h1 m1 s1 f1 h2 m2 s2 f2 top first its text chunks,
    timecode n (s_from s) h1 m1 s1 f1 /\ timecode n (s_to s) h2 m2 s2 f2 /\
    least rows top /\ hd_error (s_lines s) = Some first /\
    line_items None (combine (s_lines s) rows) its /\ coded false false its text /\ chunked 0 text chunks /\
    Forall2 (fun chunk b => map char_code b =
        [1; 0; 0; fst chunk; 0; h1 mod 256; m1; s1; f1 mod 256; h2 mod 256; m2; s2; f2 mod 256; top mod 256; justification_of first; 0]
        ++ snd chunk)
      chunks blocks.

(** * Reading *)

(** [s] is the [n] bytes of [b] from position [at_] on; the value of the byte there. *)
Definition bytes_at (b : str) (at_ n : nat) (s : str) : Prop :=
  exists p q, b = p ++ s ++ q /\ length p = at_ /\ length s = n.
Definition byte_at (b : str) (at_ : nat) (v : Z) : Prop := exists p c q, b = p ++ c :: q /\ length p = at_ /\ v = char_code c.

(** A number as C reads it: spaces, a sign, digits; anything else ends it; no digits is 0. *)
Definition begins (P : ascii -> Prop) (s : str) : Prop := match s with c :: _ => P c | [] => False end.
Definition is_digit_char (c : ascii) : Prop := exists d, dec_digit c d.
Definition is_sign_char (c : ascii) : Prop := c = "+"%char \/ c = "-"%char.
Inductive c_number : str -> Z -> Prop :=
| c_number_plain sp d v rest : Forall white sp -> numeral d v -> ~ begins is_digit_char rest -> c_number (sp ++ d ++ rest) v
| c_number_plus sp d v rest : Forall white sp -> numeral d v -> ~ begins is_digit_char rest -> c_number (sp ++ "+"%char :: d ++ rest) v
| c_number_minus sp d v rest : Forall white sp -> numeral d v -> ~ begins is_digit_char rest ->
    c_number (sp ++ "-"%char :: d ++ rest) (- v)
| c_number_none sp rest : Forall white sp -> ~ begins white rest -> ~ begins is_sign_char rest -> ~ begins is_digit_char rest ->
    c_number (sp ++ rest) 0
| c_number_sign sp c rest : Forall white sp -> is_sign_char c -> ~ begins is_digit_char rest -> c_number (sp ++ c :: rest) 0.
Definition number_at (b : str) (at_ n : nat) (v : Z) : Prop := exists s, bytes_at b at_ n s /\ c_number s v.

(** A code of a table. *)
Definition code_at {E : Type} (b : str) (at_ n : nat) (t : list (str * E * str)) (e : E) : Prop :=
  exists c d, bytes_at b at_ n c /\ In (c, e, d) t.

(** The whole number of frames per second the reader uses. *)
Definition reader_rates : list (str * Z) :=
  [(lit "STL23.01", 23); (lit "STL24.01", 24); (lit "STL25.01", 25); (lit "STL30.01", 30)].
(** The language group codes as the library has them: U8 is taken for Latin/Hebrew (see C22). *)
Definition reader_language_groups : list (str * language_group * str) :=
  ebu_language_groups ++ [(lit "U8", LANGUAGE_GROUP_LATIN_HEBREW, lit "UTF-8")].

Definition header_read (b : str) (g : gsi) : Prop :=
  length b = 1024%nat /\
  number_at b 0 3 (code_page_number g) /\
  (exists dfc, bytes_at b 3 8 dfc /\ In (dfc, frame_rate g) reader_rates) /\
  code_at b 11 1 ebu_display_standards (g_display_standard g) /\
  code_at b 12 2 reader_language_groups (g_language_group g) /\
  code_at b 14 2 ebu_languages (g_language g) /\
  bytes_at b 16 32 (original_programme_title g) /\ bytes_at b 48 32 (original_episode_title g) /\
  bytes_at b 80 32 (translated_programme_title g) /\ bytes_at b 112 32 (translated_episode_title g) /\
  bytes_at b 144 32 (translator_name g) /\ bytes_at b 176 32 (translator_contact_details g) /\
  bytes_at b 208 16 (subtitle_list_reference_code g) /\
  bytes_at b 224 6 (creation_date g) /\ bytes_at b 230 6 (revision_date g) /\ bytes_at b 236 2 (revision_number g) /\
  number_at b 238 5 (tti_blocks g) /\ number_at b 243 5 (number_of_subtitles g) /\ number_at b 248 3 (subtitle_groups g) /\
  number_at b 251 2 (maximum_characters g) /\
  (exists r, number_at b 253 2 r /\ (r = 99 /\ maximum_rows g = 12 \/ r <> 99 /\ maximum_rows g = r)) /\
  code_at b 255 1 ebu_timecode_statuses (g_timecode_status g) /\
  bytes_at b 256 8 (start_of_programme g) /\ bytes_at b 264 8 (first_in_cue g) /\
  number_at b 272 1 (disks g) /\ number_at b 273 1 (disk_sequence_number g) /\
  bytes_at b 274 3 (country_of_origin g) /\
  bytes_at b 277 32 (publisher g) /\ bytes_at b 309 32 (editor_name g) /\ bytes_at b 341 32 (editor_contact_details g).

(** The colour codes 0 to 7. *)
Definition stl_colours : list (Z * (Z * Z * Z)) :=
  [(0, (0, 0, 0)); (1, (1, 0, 0)); (2, (0, 1, 0)); (3, (1, 1, 0)); (4, (0, 0, 1)); (5, (1, 0, 1)); (6, (0, 1, 1)); (7, (1, 1, 1))].
Definition colour_of (rgb : Z * Z * Z) : colour :=
  mkC (f_of_int (fst (fst rgb))) (f_of_int (snd (fst rgb))) (f_of_int (snd rgb)).

(** Style of a piece of text: colour, italic, underline.  What a control code does to it. *)
Record style : Type := mkStyle { st_colour : Z * Z * Z; st_italic : bool; st_underline : bool }.
Inductive control : Z -> style -> style -> Prop :=
| control_colour c rgb old i u : In (c, rgb) stl_colours -> control c (mkStyle old i u) (mkStyle rgb i u)
| control_italic_on k i u : control 0x80 (mkStyle k i u) (mkStyle k true u)
| control_italic_off k i u : control 0x81 (mkStyle k i u) (mkStyle k false u)
| control_underline_on k i u : control 0x82 (mkStyle k i u) (mkStyle k i true)
| control_underline_off k i u : control 0x83 (mkStyle k i u) (mkStyle k i false).

(** Bytes that are neither control codes nor the end mark. *)
Definition plain_text (p : list Z) : Prop := Forall (fun b => 8 <= b /\ ~ (0x80 <= b <= 0x83) /\ b <> 0x8F) p.

(** The pieces of text on a row: a control code ends a piece (even an empty one), the end of the row or an end mark ends the
    row.  [row_pieces st bs ps st']: the row [bs] starts in style [st], ends in style [st']. *)
Inductive row_pieces : style -> list Z -> list (style * list Z) -> style -> Prop :=
| row_end s p : plain_text p -> row_pieces s p (if is_nil p then [] else [(s, p)]) s
| row_filler s p rest : plain_text p -> row_pieces s (p ++ 0x8F :: rest) (if is_nil p then [] else [(s, p)]) s
| row_control s s' s'' p c rest ps : plain_text p -> control c s s' -> row_pieces s' rest ps s'' ->
    row_pieces s (p ++ c :: rest) ((s, p) :: ps) s''.

(** The pieces of consecutive rows, numbered from [row]: italic and underline carry over, the colour starts white. *)
Inductive rows_pieces : Z -> bool -> bool -> list (list Z) -> list (Z * style * list Z) -> Prop :=
| rows_nil row i u : rows_pieces row i u [] []
| rows_cons row i u bs rest ps s ps' :
    row_pieces (mkStyle (1, 1, 1) i u) bs ps s -> rows_pieces (row + 1) (st_italic s) (st_underline s) rest ps' ->
    rows_pieces row i u (bs :: rest) (map (fun p => (row, fst p, snd p)) ps ++ ps').

(** The subtitle made from a piece of text. *)
Definition piece_raw (g : gsi) (from to : time) (just : Z) (p : Z * style * list Z) (r : raw) : Prop :=
  let '(row, s, bs) := p in
  exists w text, decodes None bs w /\ utf8 text w /\
    r = mkRaw text None (mkFS None None) None None (colour_of (st_colour s)) false (st_italic s) (st_underline s)
          (mkH (if just =? 1 then LEFT_OF_SCREEN else if just =? 3 then RIGHT_OF_SCREEN else HORIZONTAL_CENTRE_OF_SCREEN)
               (f_of_int 0))
          (mkV None (Some row) (Some (maximum_rows g)) (Some TOP_OF_SCREEN)) from to None None.

Definition timecode_at (b : str) (at_ : nat) (rate : Z) (t : time) : Prop :=
  exists h m s f, byte_at b at_ h /\ byte_at b (at_ + 1) m /\ byte_at b (at_ + 2) s /\ byte_at b (at_ + 3) f /\
    t = mkT (h * 3600 + m * 60 + s) f (Some (mkR rate 1)).

(** The subtitles of a block, and the number of its last row.  A comment has none. *)
Inductive block_read (g : gsi) (b : str) : list raw -> option Z -> Prop :=
| block_comment : length b = 128%nat -> byte_at b 15 1 -> block_read g b [] None
| block_text from to top just text rows pieces raws :
    length b = 128%nat -> byte_at b 15 0 ->
    timecode_at b 5 (frame_rate g) from -> timecode_at b 9 (frame_rate g) to -> byte_at b 13 top -> byte_at b 14 just ->
    bytes_at b 16 112 text -> rows <> [] -> text = join [ascii_of_nat 0x8A] rows -> Forall (fun r => ~ In (ascii_of_nat 0x8A) r) rows ->
    rows_pieces top false false (map bytes rows) pieces -> Forall2 (piece_raw g from to just) pieces raws ->
    block_read g b raws (Some (top + Z.of_nat (length rows) - 1)).

(** The largest of the rows, at least 0. *)
Definition highest_row (rows : list (option Z)) (n : Z) : Prop :=
  (n = 0 \/ In (Some n) rows) /\ 0 <= n /\ forall r, In (Some r) rows -> r <= n.

(** Everything moves up when the last row does not fit. *)
Definition moved_up (d : Z) (r r' : raw) : Prop :=
  exists row rows, r_vpos r = mkV None (Some row) (Some rows) (Some TOP_OF_SCREEN) /\
    r' = mkRaw (r_text r) (r_font r) (r_font_size r) (r_effect r) (r_effect_colour r) (r_colour r) (r_bold r) (r_italic r)
           (r_underline r) (r_hpos r) (mkV None (Some (row - d)) (Some rows) (Some TOP_OF_SCREEN)) (r_from r) (r_to r)
           (r_fade_up r) (r_fade_down r).

(** What a file contains: header, subtitles in the rows given by the file, and the last row used. *)
Definition stl_contents (input : str) (g : gsi) (raws : list raw) (top : Z) : Prop :=
  exists head blocks rest rawss lasts,
    input = head ++ List.concat blocks ++ rest /\ header_read head g /\
    Z.of_nat (length blocks) = Z.max 0 (tti_blocks g) /\
    Forall2 (fun b x => block_read g b (fst x) (snd x)) blocks (combine rawss lasts) /\
    length rawss = length lasts /\ raws = List.concat rawss /\ highest_row lasts top.

(** What reading a file gives: header and subtitles. *)
Definition stl_file (input : str) (g : gsi) (subs : list raw) : Prop :=
  exists raws top, stl_contents input g raws top /\ Forall2 (moved_up (Z.max 0 (top - maximum_rows g))) raws subs.

(** The row of a subtitle. *)
Definition on_row (r : raw) (row : Z) : Prop := v_line (r_vpos r) = Some row.
