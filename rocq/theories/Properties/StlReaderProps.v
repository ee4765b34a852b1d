(** C22, C29-C31, C68: reading binary STL files.  [after h] is the state of the process after any sequence [h] of ISO 6937
    conversions.  Statements only; proofs are in theories/Proofs. *)
From Coq Require Import ZArith Lia List Ascii String.
From Verif.Model Require Import Base Types Iso6937 StlTables StlBinReader.
From Verif.Spec Require Import Outcome TextSpec Iso6937Spec StlFileSpec StlSamples.
From Verif.Proofs Require Import StlReadProofs AsIsProofs MetadataProofs.
Import ListNotations.
Local Open Scope Z_scope.
Local Notation length := List.length.

(** C68.  What is read is exactly what the bytes say. *)
Theorem C68_reader_reads_the_file : forall h input g subs,
  snd (stl_binary_read input (after h)) = Ok (g, subs) <-> stl_file input g subs.
Proof. exact read_iff. Qed.
Print Assumptions C68_reader_reads_the_file.
Example C68_case : exists g subs, length subs = 4%nat /\ stl_file (sample_header "00001" "23" ++ sample_block 3 0 sample_text) g subs.
Proof.
  destruct (snd (stl_binary_read (sample_header "00001" "23" ++ sample_block 3 0 sample_text) (after []))) as [[g subs]|e|u] eqn:E.
  - exists g, subs. split; [|exact (proj1 (read_iff _ _ _ _) E)].
    assert (L : match snd (stl_binary_read (sample_header "00001" "23" ++ sample_block 3 0 sample_text) (after [])) with
                | Ok x => length (snd x) = 4%nat | _ => False end) by (vm_compute; reflexivity).
    rewrite E in L. exact L.
  - exfalso. revert E. vm_compute. discriminate.
  - exfalso. revert E. vm_compute. discriminate.
Qed.

(** C29.  A value, or STLError, or the decoder's undefined behaviour: an unassigned accent byte in front of a letter. *)
Theorem C29_ok_or_stl_error : forall h input,
  (exists g subs, snd (stl_binary_read input (after h)) = Ok (g, subs)) \/
  (exists m, snd (stl_binary_read input (after h)) = Throw (EStl m)) \/
  ~ defined (snd (stl_binary_read input (after h))) /\
    exists p a b q, bytes input = p ++ a :: b :: q /\ (a = 0xC9 \/ a = 0xCC) /\ ~ is_accent_byte b.
Proof. exact read_outcome. Qed.
Print Assumptions C29_ok_or_stl_error.
(** Each of the three happens. *)
Example C29_cases :
  returns (snd (stl_binary_read (sample_header "00001" "23" ++ sample_block 3 0 sample_text) (after []))) /\
  throws (snd (stl_binary_read (sample_header "00001" "23") (after []))) /\
  ~ defined (snd (stl_binary_read (sample_header "00001" "23" ++ sample_block 3 0 [0xC9; 97]) (after []))).
Proof.
  split; [|split].
  - eexists. vm_compute. reflexivity.
  - eexists. vm_compute. reflexivity.
  - intros D. apply (D UbNullDeref). vm_compute. reflexivity.
Qed.

(** A file without a whole header, or with fewer blocks than it says, is refused. *)
Theorem C29_short_file : forall h input, (length input < 1024)%nat ->
  snd (stl_binary_read input (after h)) = Throw (EStl (lit "Could not read GSI block from binary STL file")).
Proof. exact read_short. Qed.
Print Assumptions C29_short_file.
Theorem C29_missing_blocks : forall h head rest g, header_read head g -> Z.of_nat (length rest) < 128 * tti_blocks g ->
  ~ returns (snd (stl_binary_read (head ++ rest) (after h))).
Proof. exact read_truncated. Qed.
Print Assumptions C29_missing_blocks.
Example C29_missing_case : exists g, header_read (sample_header "00002" "23") g /\
  Z.of_nat (length (sample_block 3 0 sample_text)) < 128 * tti_blocks g.
Proof. eexists. split; [apply header_iff; [reflexivity|vm_compute; reflexivity]|vm_compute; reflexivity]. Qed.

(** C30.  Rows: all move up by the same amount, by none if they fit, and end at or above the last row. *)
Theorem C30_rows_fit_partial : forall h input g subs, snd (stl_binary_read input (after h)) = Ok (g, subs) ->
  exists raws top d, stl_contents input g raws top /\ 0 <= d /\ (top <= maximum_rows g -> d = 0) /\
    Forall2 (moved_up d) raws subs /\ Forall (fun r => exists row, on_row r row /\ row <= maximum_rows g) subs.
Proof. exact read_rows. Qed.
Print Assumptions C30_rows_fit_partial.
Example C30_case : returns (snd (stl_binary_read (sample_header "00001" "04" ++ sample_block 9 0 sample_text) (after []))).
Proof. eexists. vm_compute. reflexivity. Qed.
(** They can end above the first row. *)
Theorem C30_negative_row_refuted : exists input g subs r row,
  snd (stl_binary_read input (after [])) = Ok (g, subs) /\ In r subs /\ on_row r row /\ row < 0.
Proof.
  exists (sample_header "00001" "01" ++ sample_block 0 0 [97; 0x8A; 98; 0x8A; 99]).
  do 4 eexists. split; [vm_compute; reflexivity|]. split; [now left|]. split; [reflexivity|]. reflexivity.
Qed.
Print Assumptions C30_negative_row_refuted.
(** In general, all rows move up by as many rows as the last one is too low: those above that get negative numbers. *)
Theorem C30_as_is : forall h input g subs, snd (stl_binary_read input (after h)) = Ok (g, subs) ->
  exists raws top, stl_contents input g raws top /\
    Forall2 (fun r r' => exists row, 0 <= row <= top /\ on_row r row /\ on_row r' (row - Z.max 0 (top - maximum_rows g))) raws subs.
Proof. exact rows_as_is. Qed.
Print Assumptions C30_as_is.

(** C22.  No file is ever reported as UTF-8; every file that says so is reported as Latin/Hebrew. *)
Theorem C22_as_is : forall h input g subs, snd (stl_binary_read input (after h)) = Ok (g, subs) ->
  g_language_group g <> LANGUAGE_GROUP_UTF8 /\ (bytes_at input 12 2 (lit "U8") -> g_language_group g = LANGUAGE_GROUP_LATIN_HEBREW).
Proof. exact file_group. Qed.
Print Assumptions C22_as_is.
Example C22_as_is_case : exists input, bytes_at input 12 2 (lit "U8") /\ returns (snd (stl_binary_read input (after []))).
Proof.
  exists (firstn 12 (sample_header "00001" "23") ++ lit "U8" ++ skipn 14 (sample_header "00001" "23") ++ sample_block 3 0 sample_text).
  split; [do 2 eexists; split; [reflexivity|split; reflexivity]|]. eexists. vm_compute. reflexivity.
Qed.

(** C31.  A comment block can be left out. *)
Theorem C31_comments_ignored : forall h h' head head' g g' before comment rest,
  header_read head g -> header_read head' g' -> frame_rate g = frame_rate g' -> maximum_rows g = maximum_rows g' ->
  Forall (fun b => length b = 128%nat) before -> length comment = 128%nat -> byte_at comment 15 1 ->
  Z.of_nat (length before) <= tti_blocks g -> tti_blocks g' = tti_blocks g + 1 ->
  (let* x := snd (stl_binary_read (head' ++ List.concat before ++ comment ++ rest) (after h')) in Ok (snd x)) =
  (let* x := snd (stl_binary_read (head ++ List.concat before ++ rest) (after h)) in Ok (snd x)).
Proof. exact comment_ignored. Qed.
Print Assumptions C31_comments_ignored.
Example C31_case : exists g g',
  header_read (sample_header "00002" "23") g /\ header_read (sample_header "00003" "23") g' /\
  frame_rate g = frame_rate g' /\ maximum_rows g = maximum_rows g' /\
  length (sample_block 3 1 sample_text) = 128%nat /\ byte_at (sample_block 3 1 sample_text) 15 1 /\ tti_blocks g' = tti_blocks g + 1.
Proof.
  do 2 eexists. split; [apply header_iff; [reflexivity|vm_compute; reflexivity]|].
  split; [apply header_iff; [reflexivity|vm_compute; reflexivity]|]. repeat (split; [reflexivity|]).
  split; [apply byte_at_iff; [cbn; lia|reflexivity]|reflexivity].
Qed.
