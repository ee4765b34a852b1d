(** Reading a file, collecting what was read and writing it as a binary STL file. *)
From Coq Require Import ZArith List Bool Ascii String.
From Verif.Model Require Import Base TimeModel Types Collect StlBinReader StlBinWriter.
From Verif.Spec Require Import Outcome TextSpec Utf8Spec Iso6937Spec SortSpec StlFileSpec StlWriteSpec StlRoundTripSpec.
Import ListNotations.
Local Open Scope Z_scope.
Local Notation length := List.length.

(** What is read can be collected and written at [n] thousandths of a frame per second: whatever stable sort is used, and
    whatever was converted before, there is a file, and (below 2 GB) it has what was collected. *)
Definition converted (n : Z) (a : writer_args) (raws : list raw) : Prop :=
  forall sort h, conforming sort -> exists subs file,
    collect sort raws = Ok subs /\ snd (write_stl_binary subs a (after h)) = Ok file /\ (small file -> stl_written n a subs file).
(** What is read can be collected, but then the writer has undefined behaviour, whatever its other arguments are. *)
Definition never_converted (raws : list raw) : Prop :=
  forall sort h a, conforming sort -> header_ok a -> exists subs,
    collect sort raws = Ok subs /\ ~ defined (snd (write_stl_binary subs a (after h))).

(** Arguments for the writer; less than 2 GB of text. *)
Definition writer_ready (n : Z) (a : writer_args) (raws : list raw) : Prop :=
  stl_rate (w_fps a) n /\ header_ok a /\ 0 <= w_revision_number a /\ Z.of_nat (length (List.concat (map r_text raws))) < 2 ^ 31.

(** Text of Unicode characters other than U+0000. *)
Definition real_text (r : raw) : Prop := exists w, utf8 (r_text r) w /\ ~ In 0 w.
(** Times from zero on. *)
Definition times_from_zero (r : raw) : Prop :=
  0 <= t_seconds (r_from r) /\ 0 <= t_frames (r_from r) /\ 0 <= t_seconds (r_to r) /\ 0 <= t_frames (r_to r).
(** Not above the first row. *)
Definition not_above (r : raw) : Prop := forall row, on_row r row -> 0 <= row.
(** The text has no byte 0. *)
Definition no_nul (r : raw) : Prop := ~ In (ascii_of_nat 0) (r_text r).
(** Not moved by a \pos tag. *)
Definition unplaced (r : raw) : Prop := v_prop (r_vpos r) = None.

(** * Loading and saving *)

(** Each character of a piece with its times. *)
Definition seen (r : raw) (xs : list (time * time * cell)) : Prop :=
  exists cells, raw_cells r cells /\ xs = map (fun c => (r_from r, r_to r, c)) cells.
Definition all_seen (rs : list raw) (xs : list (time * time * cell)) : Prop :=
  exists parts, Forall2 seen rs parts /\ xs = List.concat parts.
(** The same character in the same style on the same row from and to the same times, now at [k] frames per second. *)
Definition seen_alike (k : Z) (x y : time * time * cell) : Prop :=
  same_instant k (fst (fst x)) (fst (fst y)) /\ same_instant k (snd (fst x)) (snd (fst y)) /\ snd x = snd y.
(** Rows from 0 to 23, but not 7 and 14, which the writer does not keep (C66). *)
Definition kept_row (r : raw) : Prop := exists row, on_row r row /\ 0 <= row <= 23 /\ row <> 7 /\ row <> 14.
(** Frames below the number of frames in a second, and times below 256 hours. *)
Definition proper_time (k : Z) (t : time) : Prop := t_frames t < k /\ t_seconds t < 256 * 3600.
Definition proper_times (k : Z) (r : raw) : Prop := proper_time k (r_from r) /\ proper_time k (r_to r).
(** The lines of a subtitle go down the screen. *)
Definition lines_downwards (s : subtitle) : Prop :=
  forall rows, Forall2 (fun l row => v_line (l_vpos l) = Some row) (s_lines s) rows -> downwards rows.

(** Blocks of which the last one has text, and subtitles all of whose lines are so. *)
Definition ends_in_text (bs : list block) : Prop := exists before b, bs = before ++ [b] /\ b_text b <> [].
Definition lines_end_in_text (s : subtitle) : Prop := Forall (fun l => ends_in_text (l_blocks l)) (s_lines s).

(** * Converting *)

(** Each character of a piece with its times, whatever its row and style. *)
Definition shown (r : raw) (xs : list (time * time * Z)) : Prop :=
  exists w, utf8 (r_text r) w /\ xs = map (fun c => (r_from r, r_to r, c)) w.
Definition all_shown (rs : list raw) (xs : list (time * time * Z)) : Prop :=
  exists parts, Forall2 shown rs parts /\ xs = List.concat parts.
(** A time at [k] frames per second: at most half a frame away, and the same if it is on a frame. *)
Definition at_frames (k : Z) (t t' : time) : Prop := close_to k t t' /\ (on_a_frame k t -> same_instant k t t').
(** What is left of a character: itself, its substitute or nothing, at those times. *)
Definition kept (k : Z) (x : time * time * Z) (ys : list (time * time * Z)) : Prop :=
  survives (snd x) (map snd ys) /\
  Forall (fun y => at_frames k (fst (fst x)) (fst (fst y)) /\ at_frames k (snd (fst x)) (snd (fst y))) ys.
(** No combining marks on their own. *)
Definition without_marks (r : raw) : Prop := forall w c, utf8 (r_text r) w -> In c w -> ~ lone_mark c.
(** All times at one rate, with frames that are less than a second, and below 256 hours. *)
Definition times_at (tr : rational) (r : raw) : Prop :=
  t_rate (r_from r) = Some tr /\ t_rate (r_to r) = Some tr /\ time_small (r_from r) /\ time_small (r_to r).
(** Everything that [raws] show, in order of time, is what is read from the file that they are written to at [k] frames per
    second, as far as ISO 6937 has the characters.  (The file has less than 100000 blocks and none ends within a character.) *)
Definition kept_in_file (k : Z) (a : writer_args) (raws : list raw) : Prop :=
  forall sort h h', conforming sort -> exists subs file, collect sort raws = Ok subs /\ snd (write_stl_binary subs a (after h)) = Ok file /\
    (Z.of_nat (length file) < 1024 + 128 * 100000 -> none_cut file ->
     exists g raws' sorted xs parts, snd (stl_binary_read file (after h')) = Ok (g, raws') /\ stably_sorted raws sorted /\
       all_shown sorted xs /\ Forall2 (kept k) xs parts /\ all_shown raws' (List.concat parts)).
