(** C32-C35, C87, C88: what is written to a binary STL file and read again.  [after h] is the state of the process after any
    sequence [h] of ISO 6937 conversions.  Statements only; proofs are in theories/Proofs. *)
From Coq Require Import ZArith QArith Reals Lia List Ascii String.
From Verif.Model Require Import Base Float TimeModel Types Iso6937 StlUtil StlBinReader StlBinWriter.
From Verif.Spec Require Import Outcome TextSpec TimeSpec PositionSpec Utf8Spec Iso6937Spec StlFileSpec StlWriteSpec StlSamples StlRoundTripSpec LongTextSpec.
From Verif.Proofs Require Import Iso6937Proofs StlUseProofs StlRoundTripProofs LongTextProofs LongSeenProofs.
Import ListNotations.
Local Open Scope Z_scope.
Local Notation length := List.length.

(** C32.  Subtitles of one block each, with their lines from the top of the screen downwards and without combining marks on
    their own (see C29): the pieces read are, in order, those of each subtitle, with the same characters on the same rows in the
    same style and on the same side.  [has_rows]: positions, as far as they can be said in whole rows of 23. *)
Theorem C32_round_trip_partial : forall h h' n a ss file,
  acceptable n a ss -> Forall no_lone_marks ss -> snd (write_stl_binary ss a (after h)) = Ok file ->
  length file = (1024 + 128 * length ss)%nat -> Z.of_nat (length ss) < 100000 ->
  exists rowss, Forall2 has_rows ss rowss /\
    (Forall downwards rowss -> exists g groups, snd (stl_binary_read file (after h')) = Ok (g, List.concat groups) /\
      Forall2 (fun sr rs => same_text (fst sr) (snd sr) rs /\ same_side (fst sr) rs) (combine ss rowss) groups).
Proof. exact text_back. Qed.
Print Assumptions C32_round_trip_partial.
(** With rows as the reader gives them. *)
Theorem C32_exact_rows_partial : forall h h' n a ss rowss file,
  acceptable n a ss -> Forall no_lone_marks ss -> Forall2 has_own_rows ss rowss -> Forall downwards rowss ->
  snd (write_stl_binary ss a (after h)) = Ok file -> length file = (1024 + 128 * length ss)%nat -> Z.of_nat (length ss) < 100000 ->
  exists g groups, snd (stl_binary_read file (after h')) = Ok (g, List.concat groups) /\
      Forall2 (fun sr rs => same_text (fst sr) (snd sr) rs /\ same_side (fst sr) rs) (combine ss rowss) groups.
Proof. exact own_text_back. Qed.
Print Assumptions C32_exact_rows_partial.
Example C32_case : acceptable 25000 sample_args [sample_subtitle] /\ Forall no_lone_marks [sample_subtitle] /\
  Forall2 has_own_rows [sample_subtitle] [[18; 20]] /\ Forall downwards [[18; 20]] /\
  exists file, snd (write_stl_binary [sample_subtitle] sample_args (after [])) = Ok file /\ length file = (1024 + 128 * 1)%nat.
Proof.
  split; [exact sample_acceptable|]. split; [constructor; [apply plain_no_marks; reflexivity|constructor]|].
  split; [repeat constructor; lia|]. split; [repeat constructor|]. eexists. split; [vm_compute; reflexivity|vm_compute; reflexivity].
Qed.
(** Lines on rows 20 and then 18: both are read on row 18. *)
Theorem C32_row_order_refuted : exists s file g raws, acceptable 25000 sample_args [s] /\ no_lone_marks s /\ has_own_rows s [20; 18] /\
  snd (write_stl_binary [s] sample_args (after [])) = Ok file /\ length file = (1024 + 128)%nat /\
  snd (stl_binary_read file (after [])) = Ok (g, raws) /\ map r_text raws = [[]; lit "Hello"; lit "you"] /\ Forall (fun r => on_row r 18) raws.
Proof.
  exists (mkSub (sample_time 1 0) (sample_time 2 500) None None [sample_line 20 true (lit "Hello"); sample_line 18 false (lit "you")]).
  do 3 eexists. split.
  { split; [exact (whole_rate 25 ltac:(lia))|]. split.
    - constructor; [|constructor]. split; [discriminate|]. split; [apply sample_times; lia|]. split; [apply sample_times; lia|].
      constructor; [|constructor; [|constructor]]; apply sample_line_ok; try reflexivity; lia.
    - split; [exact sample_header_ok|]. split; [cbn; lia|]. repeat constructor. }
  split; [apply plain_no_marks; reflexivity|]. split; [repeat constructor; lia|]. split; [vm_compute; reflexivity|]. split; [vm_compute; reflexivity|].
  split; [vm_compute; reflexivity|]. split; [vm_compute; reflexivity|]. repeat constructor.
Qed.
Print Assumptions C32_row_order_refuted.

(** C33.  At 24, 25 and 30 frames per second, times below 256 hours: every piece has, at that rate, times at most half a frame
    from those of its subtitle, and exactly those if they fall on a frame.  (The pieces of each subtitle are those of its blocks.) *)
Theorem C33_times : forall h h' k a ss file, In k [24; 25; 30] -> w_fps a = f_of_int k -> acceptable (k * 1000) a ss ->
  Forall (fun s => time_small (s_from s) /\ time_small (s_to s)) ss -> snd (write_stl_binary ss a (after h)) = Ok file ->
  Z.of_nat (length file) < 1024 + 128 * 100000 ->
  exists head rowss blockss g d groups, written_as (k * 1000) ss rowss file head blockss /\
    snd (stl_binary_read file (after h')) = Ok (g, List.concat groups) /\
    Forall2 (read_from g d) blockss groups /\ Forall2 (same_times k) ss groups.
Proof. exact all_times_back. Qed.
Print Assumptions C33_times.
(** And with the text, where C32 has it. *)
Theorem C33_times_with_text : forall h h' k a ss file, In k [24; 25; 30] -> w_fps a = f_of_int k -> acceptable (k * 1000) a ss ->
  Forall no_lone_marks ss -> Forall (fun s => time_small (s_from s) /\ time_small (s_to s)) ss ->
  snd (write_stl_binary ss a (after h)) = Ok file -> length file = (1024 + 128 * length ss)%nat -> Z.of_nat (length ss) < 100000 ->
  exists rowss, Forall2 has_rows ss rowss /\
    (Forall downwards rowss -> exists g groups, snd (stl_binary_read file (after h')) = Ok (g, List.concat groups) /\
      Forall2 (fun sr rs => same_text (fst sr) (snd sr) rs /\ same_times k (fst sr) rs) (combine ss rowss) groups).
Proof. exact times_back. Qed.
Print Assumptions C33_times_with_text.
Example C33_case : w_fps sample_args = f_of_int 25 /\ time_small (s_from sample_subtitle) /\ time_small (s_to sample_subtitle) /\
  on_a_frame 25 (s_from sample_subtitle) /\ ~ on_a_frame 25 (s_to sample_subtitle) /\
  exists file, snd (write_stl_binary [sample_subtitle] sample_args (after [])) = Ok file /\ Z.of_nat (length file) < 1024 + 128 * 100000.
Proof.
  split; [reflexivity|]. split; [split; [|cbn; lia]; split; [cbn; lia|intros tr [= <-]; cbn; lia]|]. split; [split; [|cbn; lia]; split; [cbn; lia|intros tr [= <-]; cbn; lia]|].
  split; [exists (mkR 1000 1), 0; now split|]. split; [intros (tr & f & [= <-] & E); cbn in E; lia|]. eexists. split; [vm_compute; reflexivity|vm_compute; reflexivity].
Qed.

(** C34.  One line of text without style and with one byte for each character, however many blocks it takes. *)
Theorem C34_long_text_partial : forall h h' n a ss file,
  acceptable n a ss -> Forall no_lone_marks ss -> Forall (fun s => exists l, s_lines s = [l] /\ plain_line l) ss ->
  snd (write_stl_binary ss a (after h)) = Ok file -> Z.of_nat (length file) < 1024 + 128 * 100000 ->
  exists rowss g groups, Forall2 has_rows ss rowss /\ snd (stl_binary_read file (after h')) = Ok (g, List.concat groups) /\
      Forall2 (fun sr rs => same_text (fst sr) (snd sr) rs /\ same_side (fst sr) rs) (combine ss rowss) groups.
Proof. exact long_text_back. Qed.
Print Assumptions C34_long_text_partial.
Example C34_case : let s := long_subtitle (repeat "a"%char 300) in acceptable 25000 sample_args [s] /\ Forall no_lone_marks [s] /\
  Forall (fun s => exists l, s_lines s = [l] /\ plain_line l) [s] /\
  exists file, snd (write_stl_binary [s] sample_args (after [])) = Ok file /\ length file = (1024 + 128 * 3)%nat.
Proof.
  split; [apply long_acceptable; reflexivity|]. split; [constructor; [apply plain_no_marks; reflexivity|constructor]|].
  split; [constructor; [|constructor]; eexists; split; [reflexivity|apply plain_is_plain; reflexivity]|].
  eexists. split; [vm_compute; reflexivity|vm_compute; reflexivity].
Qed.
(** Any lines in any style, however many blocks they take: all their characters come back in order, if no block ends in the middle
    of one.  (Their rows and styles may not: see below.) *)
Theorem C34_characters_partial : forall h h' n a ss file,
  acceptable n a ss -> Forall no_lone_marks ss -> snd (write_stl_binary ss a (after h)) = Ok file ->
  Z.of_nat (length file) < 1024 + 128 * 100000 -> none_cut file ->
  exists g groups, snd (stl_binary_read file (after h')) = Ok (g, List.concat groups) /\ Forall2 same_characters ss groups.
Proof. exact characters_back. Qed.
Print Assumptions C34_characters_partial.
Example C34_characters_case : let s := two_long_lines in acceptable 25000 sample_args [s] /\ Forall no_lone_marks [s] /\
  exists file, snd (write_stl_binary [s] sample_args (after [])) = Ok file /\ length file = (1024 + 128 * 3)%nat /\ none_cut file.
Proof. exact two_long_case. Qed.
(** 120 characters in italics: the last of them are read upright. *)
Theorem C34_style_refuted : exists s file g raws r, acceptable 25000 sample_args [s] /\
  Forall (fun l => Forall (fun b => b_italic b = true) (l_blocks l)) (s_lines s) /\
  snd (write_stl_binary [s] sample_args (after [])) = Ok file /\ snd (stl_binary_read file (after [])) = Ok (g, raws) /\
  In r raws /\ r_text r = repeat "a"%char 9 /\ r_italic r = false.
Proof.
  exists (mkSub (sample_time 1 0) (sample_time 2 500) None None [sample_line 20 true (repeat "a"%char 120)]). do 4 eexists. split.
  { split; [exact (whole_rate 25 ltac:(lia))|]. split.
    - constructor; [|constructor]. split; [discriminate|]. split; [apply sample_times; lia|]. split; [apply sample_times; lia|].
      constructor; [|constructor]; apply sample_line_ok; try reflexivity; lia.
    - split; [exact sample_header_ok|]. split; [cbn; lia|]. repeat constructor. }
  split; [repeat constructor|]. split; [vm_compute; reflexivity|]. split; [vm_compute; reflexivity|]. split; [right; right; now left|]. split; reflexivity.
Qed.
Print Assumptions C34_style_refuted.
(** A short line on row 18 and a long one on row 20: the end of the long one is read on row 18. *)
Theorem C34_rows_refuted : exists s file g raws r, acceptable 25000 sample_args [s] /\ has_own_rows s [18; 20] /\
  snd (write_stl_binary [s] sample_args (after [])) = Ok file /\ snd (stl_binary_read file (after [])) = Ok (g, raws) /\
  In r raws /\ r_text r = repeat "a"%char 12 /\ on_row r 18 /\
  (forall l b, In l (s_lines s) -> In b (l_blocks l) -> In "a"%char (b_text b) -> l_vpos l = row_position 20).
Proof.
  exists (mkSub (sample_time 1 0) (sample_time 2 500) None None [sample_line 18 false (lit "Hi"); sample_line 20 false (repeat "a"%char 120)]). do 4 eexists. split.
  { split; [exact (whole_rate 25 ltac:(lia))|]. split.
    - constructor; [|constructor]. split; [discriminate|]. split; [apply sample_times; lia|]. split; [apply sample_times; lia|].
      constructor; [|constructor; [|constructor]]; apply sample_line_ok; try reflexivity; lia.
    - split; [exact sample_header_ok|]. split; [cbn; lia|]. repeat constructor. }
  split; [repeat constructor; lia|]. split; [vm_compute; reflexivity|]. split; [vm_compute; reflexivity|].
  split; [right; right; now left|]. split; [vm_compute; reflexivity|]. split; [reflexivity|].
  intros l b [<-|[<-|[]]] [<-|[]] I; [|reflexivity]. cbn in I. destruct I as [I|[I|[]]]; discriminate I.
Qed.
Print Assumptions C34_rows_refuted.
(** E with an acute accent as the 112th character: no piece has it. *)
Theorem C34_accent_refuted : exists s w file g raws, acceptable 25000 sample_args [s] /\ no_lone_marks s /\
  (exists l b, s_lines s = [l] /\ l_blocks l = [b] /\ utf8 (b_text b) w) /\ In 0xE9 w /\ representable 0xE9 /\
  snd (write_stl_binary [s] sample_args (after [])) = Ok file /\ snd (stl_binary_read file (after [])) = Ok (g, raws) /\
  forall r w, In r raws -> utf8 (r_text r) w -> ~ In 0xE9 w.
Proof. exact accent_lost. Qed.
Print Assumptions C34_accent_refuted.
(** Exactly what comes back, whatever the lines, their order, their styles, their marks and their length: the text of a subtitle,
    cut into blocks as the writer cuts it, and each block seen on its own from the highest row of the subtitle down and without
    style ([seen]); everything as far up as is needed for the lowest row of the file to be on the screen, and no further. *)
Theorem C34_as_is : forall h h' n a ss file,
  acceptable n a ss -> snd (write_stl_binary ss a (after h)) = Ok file -> Z.of_nat (length file) < 1024 + 128 * 100000 ->
  exists rowss k lasts g groups, Forall2 has_rows ss rowss /\ length lasts = length groups /\ needed k (List.concat lasts) /\
    snd (stl_binary_read file (after h')) = Ok (g, List.concat groups) /\
    Forall2 (fun sr lr => seen_in_blocks (fst sr) (snd sr) k (fst lr) (snd lr)) (combine ss rowss) (combine lasts groups).
Proof. exact blocks_are_seen. Qed.
Print Assumptions C34_as_is.
(** That is one thing only. *)
Theorem C34_as_is_once : forall row i u d bs cells cells', seen row i u d bs cells -> seen row i u d bs cells' -> cells = cells'.
Proof. intros row i u d bs cells cells' S. exact (seen_once row i u d bs cells S cells'). Qed.
Print Assumptions C34_as_is_once.
(** An accent at the end of a block, in front of the rest of the text in the next; two rows, one in italics. *)
Example C34_as_is_case : seen 18 false false None [0x80; 0x41; 0x81; 0x8A; 0xC2; 0x65; 0xC2] [mkCell 18 true false 0x41; mkCell 19 false false 0xE9] /\
  seen 18 false false None [0x65; 0x8F; 0x8F] [mkCell 18 false false 0x65].
Proof.
  split.
  - apply seen_italic_on, seen_char; [constructor; lia|]. apply seen_italic_off, seen_row, seen_accent; [unfold is_accent_byte; lia|].
    apply seen_char; [apply glyph_accented with (m := 0x301); [right; now left|vm_compute; tauto|vm_compute; intuition discriminate]|].
    apply seen_accent; [unfold is_accent_byte; lia|apply (seen_stop _ _ _ _ 0)].
  - apply seen_char; [constructor; lia|apply (seen_stop _ _ _ _ 2)].
Qed.

(** C35.  The frame rate that comes back from the code is that of the code, if there is one within a ten-thousandth, and otherwise
    25; and only the four codes are read. *)
Theorem C35_code_and_back : forall fps x, float_value fps x -> (Rabs x <= 255)%R ->
  exists y r, stl_dfc_to_frame_rate (stl_frame_rate_to_dfc fps) = Ok y /\ float_value y r /\ format_rate x r.
Proof. exact rate_back. Qed.
Print Assumptions C35_code_and_back.
Theorem C35_codes : forall s, (exists y, stl_dfc_to_frame_rate s = Ok y) <-> In s (map (fun x => lit (snd x)) disk_formats).
Proof. exact code_refused. Qed.
Print Assumptions C35_codes.
(** A rate of 50 becomes 25. *)
Theorem C35_other_rate_refuted : exists fps y, float_value fps 50 /\ stl_dfc_to_frame_rate (stl_frame_rate_to_dfc fps) = Ok y /\ float_value y 25.
Proof. exact fifty. Qed.
Print Assumptions C35_other_rate_refuted.
(** A file with the code for 23.976 is read with times at 23 frames per second. *)
Theorem C35_23976_refuted : exists file g raws r x, bytes_at file 3 8 (lit "STL23.01") /\ stl_dfc_to_frame_rate (lit "STL23.01") = Ok x /\
  float_value x (IZR 12570329 / 524288) /\ snd (stl_binary_read file (after [])) = Ok (g, raws) /\ In r raws /\ t_rate (r_from r) = Some (mkR 23 1).
Proof. exact film_rate. Qed.
Print Assumptions C35_23976_refuted.

(** C87.  Header strings, dates, numbers and counters come back. *)
Theorem C87_header_back : forall h h' n a ss file, acceptable n a ss -> snd (write_stl_binary ss a (after h)) = Ok file ->
  Z.of_nat (length file) < 1024 + 128 * 100000 ->
  exists k g raws, length file = (1024 + 128 * k)%nat /\ snd (stl_binary_read file (after h')) = Ok (g, raws) /\
    header_back a (Z.of_nat (length ss)) (Z.of_nat k) g.
Proof. exact header_comes_back. Qed.
Print Assumptions C87_header_back.

(** C88.  Every file that is written, with fewer than 100000 blocks, can be read; the pieces are, in order, those of the blocks of
    each subtitle. *)
Theorem C88_written_is_read : forall h h' n a ss file, acceptable n a ss -> snd (write_stl_binary ss a (after h)) = Ok file ->
  Z.of_nat (length file) < 1024 + 128 * 100000 ->
  exists head rowss blockss g d groups, written_as n ss rowss file head blockss /\
    snd (stl_binary_read file (after h')) = Ok (g, List.concat groups) /\
    header_back a (Z.of_nat (length ss)) (Z.of_nat (length (List.concat blockss))) g /\
    Forall2 (read_from g d) blockss groups.
Proof. exact written_is_read. Qed.
Print Assumptions C88_written_is_read.
Example C88_case : acceptable 25000 sample_args [sample_subtitle] /\
  exists file, snd (write_stl_binary [sample_subtitle] sample_args (after [])) = Ok file /\ Z.of_nat (length file) < 1024 + 128 * 100000.
Proof. split; [exact sample_acceptable|]. eexists. split; [vm_compute; reflexivity|vm_compute; reflexivity]. Qed.
