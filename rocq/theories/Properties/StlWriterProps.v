(** C23-C28, C66: writing binary STL files.  [after h] is the state of the process after any sequence [h] of ISO 6937
    conversions.  Statements only; proofs are in theories/Proofs. *)
From Coq Require Import ZArith Lia List Ascii String.
From Verif.Model Require Import Base Float TimeModel Types Collect Subrip Iso6937 StlBinReader StlBinWriter.
From Verif.Spec Require Import Outcome TextSpec TimeSpec Utf8Spec Iso6937Spec SortSpec CollectSpec StlFileSpec StlWriteSpec StlSamples AsIsSpec.
From Verif.Proofs Require Import StlFileProofs StlUseProofs AsIsProofs.
Import ListNotations.
Local Open Scope Z_scope.
Local Notation length := List.length.

(** The hypotheses of the theorems below are met. *)
Example acceptable_case : acceptable 25000 sample_args [sample_subtitle].
Proof. exact sample_acceptable. Qed.
Example small_case : exists file, snd (write_stl_binary [sample_subtitle] sample_args (after [])) = Ok file /\ small file.
Proof. eexists. split; [vm_compute; reflexivity|vm_compute; reflexivity]. Qed.

(** C23.  A file with the header and blocks of [stl_written] (Spec/StlWriteSpec.v). *)
Theorem C23_written_file : forall h n a ss, acceptable n a ss ->
  exists file, snd (write_stl_binary ss a (after h)) = Ok file /\ (small file -> stl_written n a ss file /\
    exists k, length file = (1024 + 128 * k)%nat /\ (length ss <= k)%nat).
Proof. exact file_written. Qed.
Print Assumptions C23_written_file.

(** C24.  ProgrammingError exactly for header values that do not fit; otherwise they are in their fields. *)
Theorem C24_refused : forall tab ss a, snd (write_stl_binary ss a tab) = Throw EProgramming <-> ~ header_ok a.
Proof. exact refused. Qed.
Print Assumptions C24_refused.
Theorem C24_strings_in_fields : forall h n a ss, acceptable n a ss ->
  exists file, snd (write_stl_binary ss a (after h)) = Ok file /\ (small file ->
    Forall (fun x => let '(at_, len, s) := x in bytes_at file at_ len (field len s)) (header_strings a)).
Proof. exact header_written. Qed.
Print Assumptions C24_strings_in_fields.
Example C24_case : header_ok sample_args /\
  ~ header_ok (mkW (f_of_int 25) StlTables.LANGUAGE_ENGLISH (repeat "a"%char 33) [] [] [] [] [] (lit "260101") (lit "260102") 1 (lit "GBR") [] [] []).
Proof. split; [exact sample_header_ok|]. intros (L & _). vm_compute in L. lia. Qed.

(** C25.  Counters that fit their fields are right. *)
Theorem C25_counters_partial : forall h n a ss, acceptable n a ss ->
  exists file, snd (write_stl_binary ss a (after h)) = Ok file /\ (small file ->
  exists rn nt ns nl longest, bytes_at file 236 2 rn /\ bytes_at file 238 5 nt /\ bytes_at file 243 5 ns /\ bytes_at file 251 2 nl /\
    longest_is ss longest /\ number 2 (w_revision_number a) rn /\
    (forall k, length file = (1024 + 128 * k)%nat -> Z.of_nat k < 100000 -> number 5 (Z.of_nat k) nt) /\
    (Z.of_nat (length ss) < 100000 -> number 5 (Z.of_nat (length ss)) ns) /\
    (longest < 100 -> number 2 longest nl)).
Proof. exact counters_written. Qed.
Print Assumptions C25_counters_partial.
(** A line of 100 bytes is recorded as 10. *)
Theorem C25_longest_line_refuted : exists ss a n file nl,
  acceptable n a ss /\ snd (write_stl_binary ss a (after [])) = Ok file /\ small file /\
  longest_is ss 100 /\ bytes_at file 251 2 nl /\ number 2 10 nl.
Proof.
  exists [long_subtitle (repeat "a"%char 100)], sample_args, 25000. do 2 eexists.
  split; [apply long_acceptable; reflexivity|]. split; [vm_compute; reflexivity|]. split; [reflexivity|].
  split; [exact (long_longest (repeat "a"%char 100) ltac:(lia))|]. split; [apply at_bytes; vm_compute; reflexivity|exact number_ten].
Qed.
Print Assumptions C25_longest_line_refuted.
(** What the fields are, whatever the numbers: of a number that is too long the first digits, and of a negative revision
    number (which is not refused) the minus sign and the first digit. *)
Theorem C25_counters_as_is : forall h n a ss, stl_rate (w_fps a) n -> Forall writable ss -> header_ok a -> - 2 ^ 31 <= w_revision_number a ->
  Forall (fun s => Forall (fun l => bytes_of_line l < 2 ^ 31) (s_lines s)) ss ->
  exists file, snd (write_stl_binary ss a (after h)) = Ok file /\ (small file ->
  exists rn nt ns nl k longest, length file = (1024 + 128 * k)%nat /\ longest_is ss longest /\
    bytes_at file 236 2 rn /\ bytes_at file 238 5 nt /\ bytes_at file 243 5 ns /\ bytes_at file 251 2 nl /\
    (0 <= w_revision_number a -> number 2 (w_revision_number a) rn) /\
    (w_revision_number a < 0 -> minus_counter 2 (w_revision_number a) rn) /\
    counter 5 (Z.of_nat k) nt /\ counter 5 (Z.of_nat (length ss)) ns /\ counter 2 longest nl).
Proof. exact counters_exact. Qed.
Print Assumptions C25_counters_as_is.
Example C25_as_is_case : let a := mkW (f_of_int 25) StlTables.LANGUAGE_ENGLISH [] [] [] [] [] [] (lit "260101") (lit "260102") (-12) (lit "GBR") [] [] [] in
  stl_rate (w_fps a) 25000 /\ Forall writable [sample_subtitle] /\ header_ok a /\ - 2 ^ 31 <= w_revision_number a /\
  Forall (fun s => Forall (fun l => bytes_of_line l < 2 ^ 31) (s_lines s)) [sample_subtitle].
Proof.
  cbv zeta. destruct sample_acceptable as (R & W & _ & _ & L). split; [exact R|]. split; [exact W|].
  split; [repeat split; vm_compute; try lia; try reflexivity; discriminate|]. split; [discriminate|exact L].
Qed.
(** Revision -12 is recorded as -1. *)
Theorem C25_revision_refuted : exists a n file, header_ok a /\ acceptable n sample_args [sample_subtitle] /\ w_fps a = w_fps sample_args /\
  w_revision_number a = -12 /\ snd (write_stl_binary [sample_subtitle] a (after [])) = Ok file /\ bytes_at file 236 2 (lit "-1").
Proof.
  exists (mkW (f_of_int 25) StlTables.LANGUAGE_ENGLISH [] [] [] [] [] [] (lit "260101") (lit "260102") (-12) (lit "GBR") [] [] []), 25000. eexists.
  split; [repeat split; vm_compute; try lia; try reflexivity; discriminate|]. split; [exact sample_acceptable|]. split; [reflexivity|]. split; [reflexivity|].
  split; [vm_compute; reflexivity|]. apply at_bytes; vm_compute; reflexivity.
Qed.
Print Assumptions C25_revision_refuted.
(** No text of five digits says more than 99999. *)
Theorem C25_field_too_small : forall file s at_ n v w, bytes_at file at_ n s -> numeral s v -> 10 ^ Z.of_nat n <= w -> v <> w.
Proof. exact field_too_small. Qed.
Print Assumptions C25_field_too_small.
Example C25_field_too_small_case : bytes_at (lit "xx42yy") 2 2 (lit "42") /\ numeral (lit "42") 42 /\ 10 ^ Z.of_nat 2 <= 142.
Proof.
  split; [apply at_bytes; reflexivity|]. split; [|vm_compute; discriminate].
  apply (numeral_more (lit "4") 4 "2" 2); [apply numeral_one|]; split; vm_compute; intuition congruence.
Qed.

(** C26.  All the text of every subtitle is in its blocks, in order; up to 256 blocks, only the last one is marked so. *)
Theorem C26_text_partial : forall h n a ss, acceptable n a ss ->
  exists file, snd (write_stl_binary ss a (after h)) = Ok file /\ (small file ->
    exists head blockss, file = head ++ List.concat (List.concat blockss) /\ length head = 1024%nat /\
      Forall (fun b => length b = 128%nat) (List.concat blockss) /\
      Forall2 (fun s blocks => text_in_blocks s blocks /\
          ((length blocks <= 256)%nat -> forall i b, nth_error blocks i = Some b -> (byte_at b 3 255 <-> S i = length blocks)))
        ss blockss).
Proof. exact text_written. Qed.
Print Assumptions C26_text_partial.
(** Block 255 of 258 is marked as the last one. *)
Theorem C26_last_mark_refuted : exists s n file b, acceptable n sample_args [s] /\
  snd (write_stl_binary [s] sample_args (after [])) = Ok file /\ length file = (1024 + 128 * 258)%nat /\
  block_at file 255 b /\ byte_at b 3 255.
Proof.
  destruct many_blocks as (file & b & M). exists (long_subtitle (repeat "a"%char (112 * 257))), 25000, file, b.
  split; [apply long_acceptable; vm_compute; reflexivity|exact M].
Qed.
Print Assumptions C26_last_mark_refuted.

(** C27.  Frame numbers at [k] frames per second. *)
Theorem C27_frames_partial : forall h k a ss, 0 < k < 256 -> acceptable (k * 1000) a ss ->
  exists file, snd (write_stl_binary ss a (after h)) = Ok file /\ (small file ->
  forall i b, block_at file i b ->
    exists s f1 f2, In s ss /\ byte_at b 8 f1 /\ byte_at b 12 f2 /\
    (clear_of_second k (s_from s) -> f1 < k) /\ (clear_of_second k (s_to s) -> f2 < k) /\
    (within_second (s_from s) -> f1 <= k) /\ (within_second (s_to s) -> f2 <= k)).
Proof. exact frames_written. Qed.
Print Assumptions C27_frames_partial.
Example C27_case : clear_of_second 25 (s_from sample_subtitle) /\ clear_of_second 25 (s_to sample_subtitle).
Proof. split; (split; [cbn; lia|intros tr [= <-]; cbn; lia]). Qed.
(** 999 ms is frame 25 of 25. *)
Theorem C27_frame_refuted : exists s file b, within_second (s_from s) /\ acceptable 25000 sample_args [s] /\
  snd (write_stl_binary [s] sample_args (after [])) = Ok file /\ block_at file 0 b /\ byte_at b 8 25.
Proof.
  exists (mkSub (sample_time 1 999) (sample_time 2 500) None None (s_lines sample_subtitle)). do 2 eexists.
  split; [split; [cbn; lia|intros tr [= <-]; cbn; lia]|].
  split.
  { destruct sample_acceptable as (R & W & H & N & L). split; [exact R|]. split; [|split; [exact H|split; [exact N|]]].
    2: { constructor; [exact (Forall_inv L)|constructor]. }
    constructor; [|constructor]. destruct (Forall_inv W) as (A & _ & B & C). split; [exact A|]. split; [apply sample_times; lia|]. now split. }
  split; [vm_compute; reflexivity|]. split; [apply at_bytes; vm_compute; reflexivity|apply at_byte; vm_compute; reflexivity].
Qed.
Print Assumptions C27_frame_refuted.

(** The frame is out of range exactly in the last half frame of a second. *)
Theorem C27_frames_as_is : forall h k a ss, 0 < k < 256 -> acceptable (k * 1000) a ss ->
  exists file, snd (write_stl_binary ss a (after h)) = Ok file /\ (small file ->
  forall i b, block_at file i b ->
    exists s f1 f2, In s ss /\ byte_at b 8 f1 /\ byte_at b 12 f2 /\
    (within_second (s_from s) -> f1 <= k /\ (f1 = k <-> last_half_frame k (s_from s))) /\
    (within_second (s_to s) -> f2 <= k /\ (f2 = k <-> last_half_frame k (s_to s)))).
Proof. exact frames_as_is. Qed.
Print Assumptions C27_frames_as_is.
Example C27_as_is_case : within_second (sample_time 1 999) /\ last_half_frame 25 (sample_time 1 999) /\ ~ last_half_frame 25 (sample_time 1 979).
Proof.
  split; [split; [cbn; lia|intros tr [= <-]; cbn; lia]|]. split; [eexists; split; [reflexivity|cbn; lia]|].
  intros (tr & [= <-] & H). cbn in H. lia.
Qed.

(** C28.  Pieces with usable times, positions and text can be collected and written. *)
Theorem C28_collected_partial : forall h n a sort l, conforming sort -> all_comparable l -> Forall raw_writable l ->
  Z.of_nat (length (List.concat (map r_text l))) < 2 ^ 31 -> stl_rate (w_fps a) n -> header_ok a -> 0 <= w_revision_number a ->
  exists subs file, collect sort l = Ok subs /\ snd (write_stl_binary subs a (after h)) = Ok file /\
    (small file -> stl_written n a subs file).
Proof. exact collected_written. Qed.
Print Assumptions C28_collected_partial.
Definition sample_piece (s row : Z) (text : str) : raw :=
  mkRaw text None font_size_none None None Types.white false false false hpos_default (mkV None (Some row) (Some 23) (Some TOP_OF_SCREEN))
    (sample_time s 0) (sample_time (s + 1) 0) None None.
Example C28_case : let l := [sample_piece 3 18 (lit "Hello"); sample_piece 1 20 (lit "you"); sample_piece 3 18 (lit " there")] in
  conforming insertion_sort /\ all_comparable l /\ Forall raw_writable l /\ Z.of_nat (length (List.concat (map r_text l))) < 2 ^ 31 /\
  exists subs file, collect insertion_sort l = Ok subs /\ length subs = 2%nat /\ snd (write_stl_binary subs sample_args (after [])) = Ok file /\ small file.
Proof.
  cbv zeta. split; [exact SortProofs.insertion_sort_conforming|]. split; [apply CollectProofs.comparable_check; vm_compute; reflexivity|]. split.
  { assert (G : forall s row text, 0 <= s -> 0 <= row <= 23 -> forallb (fun c => (1 <=? char_code c) && (char_code c <? 128))%bool text = true ->
      raw_writable (sample_piece s row text)).
    { intros s row text S R C. destruct (plain_utf8 _ C) as [U N]. split; [apply sample_times; lia|]. split; [apply sample_times; lia|].
      split; [exact (proj1 (sample_lines row false _ _ R U N))|]. eexists. split; [exact U|exact N]. }
    repeat apply Forall_cons; try apply Forall_nil; apply G; try lia; reflexivity. }
  split; [reflexivity|]. do 2 eexists. split; [vm_compute; reflexivity|]. split; [reflexivity|]. split; [vm_compute; reflexivity|]. vm_compute. reflexivity.
Qed.
(** What the SubRip reader makes cannot be written. *)
Theorem C28_subrip_refuted : exists text raws subs,
  subrip_reader_string text = Ok raws /\ collect insertion_sort raws = Ok subs /\ header_ok sample_args /\
  ~ defined (snd (write_stl_binary subs sample_args (after []))).
Proof.
  exists (List.concat (map (fun l => lit l ++ [ascii_of_nat 10]) ["1"; "00:00:01,000 --> 00:00:02,000"; "Hello"; ""]%string)).
  do 2 eexists. split; [vm_compute; reflexivity|]. split; [vm_compute; reflexivity|]. split; [exact sample_header_ok|].
  intros D. apply (D UbEmptyOptional). vm_compute. reflexivity.
Qed.
Print Assumptions C28_subrip_refuted.

(** C66.  Rows as the reader gives them are written where they were, except rows 7 and 14. *)
Theorem C66_rows_kept_partial : forall h n a ss file i b, acceptable n a ss ->
  (forall s l, In s ss -> In l (s_lines s) -> exists k, l_vpos l = row_position k /\ 0 <= k <= 23 /\ k <> 7 /\ k <> 14) ->
  snd (write_stl_binary ss a (after h)) = Ok file -> small file -> block_at file i b ->
  exists s top l, In s ss /\ byte_at b 13 top /\ In l (s_lines s) /\ l_vpos l = row_position top /\
    forall l' k, In l' (s_lines s) -> l_vpos l' = row_position k -> top <= k.
Proof. exact rows_kept. Qed.
Print Assumptions C66_rows_kept_partial.
Example C66_case : forall s l, In s [sample_subtitle] -> In l (s_lines s) -> exists k, l_vpos l = row_position k /\ 0 <= k <= 23 /\ k <> 7 /\ k <> 14.
Proof.
  intros s l [<-|[]] [<-|[<-|[]]]; [exists 18|exists 20]; (split; [reflexivity|lia]).
Qed.
(** For any rows: the row of a block is that of the highest line of its subtitle, or one less if that is row 7 or 14. *)
Theorem C66_as_is : forall h n a ss file i b, acceptable n a ss ->
  (forall s l, In s ss -> In l (s_lines s) -> exists k, l_vpos l = row_position k /\ 0 <= k <= 23) ->
  snd (write_stl_binary ss a (after h)) = Ok file -> small file -> block_at file i b ->
  exists s l top, In s ss /\ In l (s_lines s) /\ l_vpos l = row_position top /\
    (forall l' k, In l' (s_lines s) -> l_vpos l' = row_position k -> top <= k) /\
    (top <> 7 -> top <> 14 -> byte_at b 13 top) /\ (top = 7 \/ top = 14 -> byte_at b 13 (top - 1)).
Proof. exact row_written_as_is. Qed.
Print Assumptions C66_as_is.
Example C66_as_is_case : forall s l, In s [mkSub (sample_time 1 0) (sample_time 2 500) None None [sample_line 7 true (lit "Hello"); sample_line 14 false (lit "you")]] ->
  In l (s_lines s) -> exists k, l_vpos l = row_position k /\ 0 <= k <= 23.
Proof. intros s l [<-|[]] [<-|[<-|[]]]; [exists 7|exists 14]; (split; [reflexivity|lia]). Qed.
(** A file with text on row 7 of 23, read and written again, has it on row 6. *)
Theorem C66_row_refuted : exists input g raws subs file b,
  byte_at input (1024 + 13) 7 /\ snd (stl_binary_read input (after [])) = Ok (g, raws) /\ maximum_rows g = 23 /\
  collect insertion_sort raws = Ok subs /\
  snd (write_stl_binary subs sample_args (after [])) = Ok file /\ block_at file 0 b /\ byte_at b 13 6.
Proof.
  exists (sample_header "00001" "23" ++ sample_block 7 0 sample_text). do 5 eexists.
  split; [apply at_byte; vm_compute; reflexivity|]. split; [vm_compute; reflexivity|]. split; [vm_compute; reflexivity|].
  split; [vm_compute; reflexivity|]. split; [vm_compute; reflexivity|].
  split; [apply at_bytes; vm_compute; reflexivity|apply at_byte; vm_compute; reflexivity].
Qed.
Print Assumptions C66_row_refuted.

(** C69.  The blocks of two subtitles have the same number. *)
Theorem C69_subtitle_number_refuted : exists s1 s2 file b1 b2, acceptable 25000 sample_args [s1; s2] /\
  snd (write_stl_binary [s1; s2] sample_args (after [])) = Ok file /\ length file = (1024 + 128 * 2)%nat /\
  block_at file 0 b1 /\ block_at file 1 b2 /\ byte_at b1 1 0 /\ byte_at b1 2 0 /\ byte_at b2 1 0 /\ byte_at b2 2 0.
Proof.
  exists sample_subtitle, sample_subtitle. do 3 eexists. split.
  { destruct sample_acceptable as (R & W & H & N & L). split; [exact R|]. split; [constructor; [exact (Forall_inv W)|exact W]|].
    split; [exact H|]. split; [exact N|]. constructor; [exact (Forall_inv L)|exact L]. }
  split; [vm_compute; reflexivity|]. split; [reflexivity|]. split; [apply at_bytes; vm_compute; reflexivity|].
  split; [apply at_bytes; vm_compute; reflexivity|]. repeat split; apply at_byte; vm_compute; reflexivity.
Qed.
Print Assumptions C69_subtitle_number_refuted.
(** The number is 0 in every block of every file. *)
Theorem C69_subtitle_number_as_is : forall h n a ss, acceptable n a ss ->
  exists file, snd (write_stl_binary ss a (after h)) = Ok file /\ (small file ->
  forall i b, block_at file i b -> byte_at b 1 0 /\ byte_at b 2 0).
Proof. exact number_as_is. Qed.
Print Assumptions C69_subtitle_number_as_is.
