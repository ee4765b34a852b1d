(** What should come back when subtitles are written to a binary STL file and read again. *)
From Coq Require Import ZArith QArith Qabs Reals List Bool Ascii String.
From Verif.Model Require Import Base Float TimeModel Types StlBinReader StlBinWriter.
From Verif.Spec Require Import Outcome TextSpec TimeSpec Utf8Spec Iso6937Spec StlFileSpec StlWriteSpec.
Import ListNotations.
Local Open Scope Z_scope.
Local Notation length := List.length.

(** A character on the screen: its row, whether it is italic, whether it is underlined, its code point. *)
Record cell : Type := mkCell { c_row : Z; c_italic : bool; c_underline : bool; c_char : Z }.
Definition cells_of (row : Z) (italic underline : bool) (w : list Z) : list cell := map (mkCell row italic underline) w.

(** What is expected of a block on a row: its characters, as far as ISO 6937 has them or a substitute. *)
Definition block_cells (row : Z) (b : block) (cells : list cell) : Prop :=
  exists w parts, utf8 (b_text b) w /\ Forall2 survives w parts /\
    cells = cells_of row (b_italic b) (b_underline b) (List.concat parts).
(** Of the lines of a subtitle on their rows. *)
Definition line_cells (l : line) (row : Z) (cells : list cell) : Prop :=
  exists parts, Forall2 (block_cells row) (l_blocks l) parts /\ cells = List.concat parts.
Inductive lines_cells : list line -> list Z -> list cell -> Prop :=
| lines_cells_nil : lines_cells [] [] []
| lines_cells_cons l ls row rows here rest : line_cells l row here -> lines_cells ls rows rest ->
    lines_cells (l :: ls) (row :: rows) (here ++ rest).

(** What is there in the pieces that were read. *)
Definition raw_cells (r : raw) (cells : list cell) : Prop :=
  exists row w, on_row r row /\ utf8 (r_text r) w /\ cells = cells_of row (r_italic r) (r_underline r) w.
Definition raws_cells (rs : list raw) (cells : list cell) : Prop :=
  exists parts, Forall2 raw_cells rs parts /\ cells = List.concat parts.

(** The same characters on the same rows in the same style. *)
Definition same_text (s : subtitle) (rows : list Z) (rs : list raw) : Prop :=
  exists cells, lines_cells (s_lines s) rows cells /\ raws_cells rs cells.

(** Rows, in order of the lines, from the top of the screen to the bottom. *)
Inductive downwards : list Z -> Prop :=
| downwards_nil : downwards []
| downwards_one row : downwards [row]
| downwards_more a b rows : a < b -> downwards (b :: rows) -> downwards (a :: b :: rows).

(** No combining marks on their own. *)
Definition no_lone_marks (s : subtitle) : Prop :=
  forall l b w c, In l (s_lines s) -> In b (l_blocks l) -> utf8 (b_text b) w -> In c w -> ~ lone_mark c.

(** Times at [k] frames per second that are less than half a frame, or not at all, from where they were. *)
Definition close_to (k : Z) (t t' : time) : Prop :=
  forall tr, t_rate t = Some tr -> t_rate t' = Some (mkR k 1) /\
    (Qabs (instant_at (mkR k 1) t' - instant_at tr t) <= 1 # Z.to_pos (2 * k))%Q.
Definition on_a_frame (k : Z) (t : time) : Prop :=
  exists tr f, t_rate t = Some tr /\ t_frames t * den tr * k = f * num tr.
Definition same_instant (k : Z) (t t' : time) : Prop :=
  forall tr, t_rate t = Some tr -> t_rate t' = Some (mkR k 1) /\ (instant_at (mkR k 1) t' == instant_at tr t)%Q.

(** Text without style, each character of which has one byte. *)
Definition plain_line (l : line) : Prop :=
  forall b, In b (l_blocks l) -> b_italic b = false /\ b_underline b = false /\
    forall w c bs, utf8 (b_text b) w -> In c w -> written c bs -> (length bs <= 1)%nat.

(** The header strings, as they come back: with spaces after them up to the length of the field; and the numbers. *)
Definition header_back (a : writer_args) (subs blocks : Z) (g : gsi) : Prop :=
  code_page_number g = 850 /\ g_display_standard g = StlTables.DISPLAY_STANDARD_OPEN_SUBTITLING /\
  g_language_group g = StlTables.LANGUAGE_GROUP_LATIN /\ g_language g = w_language a /\
  original_programme_title g = field 32 (w_original_programme_title a) /\ original_episode_title g = field 32 (w_original_episode_title a) /\
  translated_programme_title g = field 32 (w_translated_programme_title a) /\ translated_episode_title g = field 32 (w_translated_episode_title a) /\
  translator_name g = field 32 (w_translator_name a) /\ translator_contact_details g = field 32 (w_translator_contact_details a) /\
  creation_date g = w_creation_date a /\ revision_date g = w_revision_date a /\ number 2 (w_revision_number a) (revision_number g) /\
  tti_blocks g = blocks /\ number_of_subtitles g = subs /\ maximum_rows g = 23 /\
  g_timecode_status g = StlTables.TIMECODE_STATUS_INTENDED_FOR_USE /\ disks g = 1 /\ disk_sequence_number g = 1 /\
  country_of_origin g = w_country_of_origin a /\ publisher g = field 32 (w_publisher a) /\ editor_name g = field 32 (w_editor_name a) /\
  editor_contact_details g = field 32 (w_editor_contact_details a).

(** Left, centre or right: as the first line. *)
Definition same_side (s : subtitle) (rs : list raw) : Prop :=
  forall first, hd_error (s_lines s) = Some first -> Forall (fun r => h_ref (r_hpos r) = h_ref (l_hpos first)) rs.

(** The lines of a subtitle have rows from 0 to 23. *)
Definition has_rows (s : subtitle) (rows : list Z) : Prop :=
  Forall2 (fun l => row_of (l_vpos l)) (s_lines s) rows /\ Forall (fun r => 0 <= r <= 23) rows.
(** Rows as the reader gives them, and which the writer keeps (see C66). *)
Definition has_own_rows (s : subtitle) (rows : list Z) : Prop :=
  Forall2 (fun l k => l_vpos l = row_position k /\ 0 <= k <= 23 /\ k <> 7 /\ k <> 14) (s_lines s) rows.

(** Times below 256 hours. *)
Definition time_small (t : time) : Prop := within_second t /\ t_seconds t < 256 * 3600.
(** The times of the pieces of a subtitle at [k] frames per second. *)
Definition same_times (k : Z) (s : subtitle) (rs : list raw) : Prop :=
  Forall (fun r => close_to k (s_from s) (r_from r) /\ close_to k (s_to s) (r_to r) /\
                   (on_a_frame k (s_from s) -> same_instant k (s_from s) (r_from r)) /\
                   (on_a_frame k (s_to s) -> same_instant k (s_to s) (r_to r))) rs.

(** The rate a format code is chosen for. *)
Definition format_rate (x r : R) : Prop :=
  (exists c, In (r, c) disk_formats /\ (Rabs (x - r) < 1 / 10000)%R) \/
  ((forall r' c, In (r', c) disk_formats -> (1 / 10000 <= Rabs (x - r'))%R) /\ r = 25%R).

(** The pieces that the blocks of a subtitle give, before they are moved to fit. *)
Definition blocks_read (g : gsi) (blocks : list str) (rs : list raw) : Prop :=
  exists rawss lasts, length rawss = length lasts /\ Forall2 (fun b x => block_read g b (fst x) (snd x)) blocks (combine rawss lasts) /\
    rs = List.concat rawss.
(** And after. *)
Definition read_from (g : gsi) (d : Z) (blocks : list str) (rs : list raw) : Prop :=
  exists before, blocks_read g blocks before /\ Forall2 (moved_up d) before rs.
(** [file] is a header and the blocks of the subtitles, on these rows, at [n] thousandths of a frame per second. *)
Definition written_as (n : Z) (ss : list subtitle) (rowss : list (list Z)) (file head : str) (blockss : list (list str)) : Prop :=
  file = head ++ List.concat (List.concat blockss) /\ length head = 1024%nat /\ Forall2 has_rows ss rowss /\
  Forall2 (fun sr bs => subtitle_blocks n (fst sr) (snd sr) bs) (combine ss rowss) blockss.

(** The characters of a subtitle in order, as far as ISO 6937 has them or a substitute; and of what was read. *)
Definition subtitle_text (s : subtitle) (w : list Z) : Prop :=
  exists texts parts, Forall2 (fun b t => utf8 (b_text b) t) (List.concat (map l_blocks (s_lines s))) texts /\
    Forall2 survives (List.concat texts) parts /\ w = List.concat parts.
Definition raws_text (rs : list raw) (w : list Z) : Prop :=
  exists parts, Forall2 (fun r t => utf8 (r_text r) t) rs parts /\ w = List.concat parts.
Definition same_characters (s : subtitle) (rs : list raw) : Prop := exists w, subtitle_text s w /\ raws_text rs w.
(** No block ends in the middle of a character: its last byte is not an accent. *)
Definition none_cut (file : str) : Prop := forall k b v, block_at file k b -> byte_at b 127 v -> ~ is_accent_byte v.
