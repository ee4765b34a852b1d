(** What the binary STL writer is given and what it writes. *)
From Coq Require Import ZArith Reals List Bool Ascii String.
From Flocq Require Import Core.
From Verif.Model Require Import Base Float TimeModel Types StlTables StlBinReader StlBinWriter.
From Verif.Spec Require Import Outcome TextSpec TimeSpec Utf8Spec Iso6937Spec StlTableSpec PositionSpec StlFileSpec.
Import ListNotations.
Local Open Scope Z_scope.
Local Notation length := List.length.

(** The frame rate in thousandths of a frame per second. *)
Definition stl_rate (fps : flt) (n : Z) : Prop :=
  exists x, float_value fps x /\ (0 < x <= 255)%R /\ n = Ztrunc (nearest_float (x * 1000)) /\ 1 <= n.

(** The rates that have a disk format code (the first is 23.976 as a float), and the code for a rate: that of a rate nearer
    than 1/10000, or else that of 25. *)
Definition disk_formats : list (R * string) :=
  [(IZR 12570329 / 524288, "STL23.01"%string); (24, "STL24.01"%string); (25, "STL25.01"%string); (30, "STL30.01"%string)]%R.
Definition disk_format (fps : flt) (dfc : str) : Prop :=
  exists x, float_value fps x /\
  ((exists r c, In (r, c) disk_formats /\ (Rabs (x - r) < 1 / 10000)%R /\ dfc = lit c) \/
   ((forall r c, In (r, c) disk_formats -> (1 / 10000 <= Rabs (x - r))%R) /\ dfc = lit "STL25.01")).

(** Times that can be written: not negative, with a rate, and with a frame part of at most 1000 seconds. *)
Definition time_ok (t : time) : Prop :=
  0 <= t_seconds t /\ exists tr, t_rate t = Some tr /\ 0 < num tr /\ 0 < den tr /\ is_int (num tr * 1000) /\ is_int (den tr) /\
    is_int (t_frames t) /\ 0 <= t_frames t * den tr <= 1000 * num tr.

(** Positions: a reference (the top of the screen if there is none), and a proportion of the screen height or a line out of
    a number of lines; all on the screen. *)
Definition reference (v : vpos) : vref := match v_ref v with Some r => r | None => TOP_OF_SCREEN end.
Inductive placed (v : vpos) : Prop :=
| placed_nowhere : v_prop v = None -> v_line v = None -> placed v
| placed_proportion p x : v_prop v = Some p -> float_value p x -> (0 <= from_top (reference v) x <= 1)%R -> placed v
| placed_line k m : v_prop v = None -> v_line v = Some k -> v_lines v = Some m -> m <> 0 -> Z.abs k < 2 ^ 24 -> Z.abs m < 2 ^ 24 ->
    (0 <= from_top (reference v) (IZR k / IZR m) <= 1)%R -> placed v.

(** The row, out of 23: the nearest one for a proportion, the one above for a line.  (1/100000 of a row covers float rounding.) *)
Definition row_tolerance : R := (1 / 100000)%R.
Inductive row_of (v : vpos) : Z -> Prop :=
| row_nowhere : v_prop v = None -> v_line v = None -> row_of v 0
| row_subtitle : reference v = TOP_OF_SUBTITLE -> row_of v 0
| row_proportion p x row : v_prop v = Some p -> float_value p x -> reference v <> TOP_OF_SUBTITLE ->
    (Rabs (IZR row - 23 * from_top (reference v) x) <= 1 / 2 + row_tolerance)%R -> row_of v row
| row_line k m row : v_prop v = None -> v_line v = Some k -> v_lines v = Some m -> reference v <> TOP_OF_SUBTITLE ->
    (23 * from_top (reference v) (IZR k / IZR m) - 1 - row_tolerance < IZR row <= 23 * from_top (reference v) (IZR k / IZR m) + row_tolerance)%R ->
    row_of v row.

(** Subtitles that can be written. *)
Definition text_ok (k : block) : Prop := exists w, utf8 (b_text k) w /\ ~ In 0 w.
Definition writable (s : subtitle) : Prop :=
  s_lines s <> [] /\ time_ok (s_from s) /\ time_ok (s_to s) /\
  Forall (fun l => placed (l_vpos l) /\ Forall text_ok (l_blocks l)) (s_lines s).

(** A file for a list of subtitles. *)
Definition stl_written (n : Z) (a : writer_args) (ss : list subtitle) (file : str) : Prop :=
  exists rowss blockss dfc lang d longest head,
    Forall2 (fun s rows => Forall2 (fun l => row_of (l_vpos l)) (s_lines s) rows /\ Forall (fun r => 0 <= r <= 23) rows) ss rowss /\
    Forall2 (fun sr bs => subtitle_blocks n (fst sr) (snd sr) bs) (combine ss rowss) blockss /\
    disk_format (w_fps a) dfc /\ In (lang, w_language a, d) ebu_languages /\ longest_is ss longest /\
    gsi_layout a dfc lang (Z.of_nat (length (List.concat blockss))) (Z.of_nat (length ss)) longest head /\
    file = head ++ List.concat (List.concat blockss).

(** Arguments for which the writer is expected to write a file; files below 2 GB. *)
Definition acceptable (n : Z) (a : writer_args) (ss : list subtitle) : Prop :=
  stl_rate (w_fps a) n /\ Forall writable ss /\ header_ok a /\ 0 <= w_revision_number a /\
  Forall (fun s => Forall (fun l => bytes_of_line l < 2 ^ 31) (s_lines s)) ss.
Definition small (file : str) : Prop := Z.of_nat (length file) < 2 ^ 31.

(** The [k]-th block of a file. *)
Definition block_at (file : str) (k : nat) (b : str) : Prop := bytes_at file (1024 + 128 * k) 128 b.

(** All the text of every subtitle is in its blocks. *)
Definition text_in_blocks (s : subtitle) (blocks : list str) : Prop :=
  exists rows its text fill, Forall2 (fun l => row_of (l_vpos l)) (s_lines s) rows /\
    line_items None (combine (s_lines s) rows) its /\ coded false false its text /\ (fill < 112)%nat /\
    bytes (List.concat (map (skipn 16) blocks)) = text ++ repeat 0x8F fill /\
    forall i b, nth_error blocks i = Some b -> byte_at b 3 (if Nat.eqb (S i) (length blocks) then 255 else Z.of_nat i mod 256).

(** The header strings with their positions and lengths. *)
Definition header_strings (a : writer_args) : list (nat * nat * str) :=
  [(16, 32, w_original_programme_title a); (48, 32, w_original_episode_title a);
   (80, 32, w_translated_programme_title a); (112, 32, w_translated_episode_title a);
   (144, 32, w_translator_name a); (176, 32, w_translator_contact_details a);
   (224, 6, w_creation_date a); (230, 6, w_revision_date a); (274, 3, w_country_of_origin a);
   (277, 32, w_publisher a); (309, 32, w_editor_name a); (341, 32, w_editor_contact_details a)]%nat.

(** A time that is not in the last half frame of its second at [k] frames per second. *)
Definition clear_of_second (k : Z) (t : time) : Prop :=
  0 <= t_frames t /\ forall tr, t_rate t = Some tr -> 2 * k * (t_frames t * den tr) < (2 * k - 1) * num tr.
(** A time whose frames are less than a second. *)
Definition within_second (t : time) : Prop :=
  0 <= t_frames t /\ forall tr, t_rate t = Some tr -> t_frames t * den tr < num tr.

(** Pieces of subtitles that can be written once they are collected. *)
Definition raw_writable (r : raw) : Prop :=
  time_ok (r_from r) /\ time_ok (r_to r) /\ placed (r_vpos r) /\ exists w, utf8 (r_text r) w /\ ~ In 0 w.

(** Row [k] as the reader gives it for a file of the library, which says 23 rows. *)
Definition row_position (k : Z) : vpos := mkV None (Some k) (Some 23) (Some TOP_OF_SCREEN).
