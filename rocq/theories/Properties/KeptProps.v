(** C106, C119: what is converted to binary STL is kept.  Statements only; proofs are in theories/Proofs. *)
From Coq Require Import ZArith Lia List Bool Ascii String.
From Verif.Model Require Import Base Float TimeModel Types Utf Collect Ssa StlBinReader StlBinWriter.
From Verif.Spec Require Import Outcome TextSpec LinesSpec Utf8Spec Iso6937Spec SortSpec CollectSpec SsaUseSpec StlFileSpec StlWriteSpec StlRoundTripSpec StlSamples CollectReadSpec ConvertSpec ConvertSeenSpec.
From Verif.Proofs Require Import SortProofs UtfProofs SsaSafeProofs CollectReadProofs StlUseProofs StlRoundTripProofs LongTextProofs ConvertProofs KeptProofs ConvertSeenProofs.
From Verif.Properties Require Import ConvertProps.
Import ListNotations.
Local Open Scope Z_scope.
Local Notation length := List.length.

(** C119.  Any pieces at one rate that can be written: collected, written at 24, 25 or 30 frames a second and read back, their
    characters are there in order of time, as far as ISO 6937 has them or a substitute, each with the times it had up to half a
    frame.  However many blocks the subtitles take, if no block ends within a character; without combining marks on their own. *)
Theorem C119_pieces_partial : forall k tr a raws, In k [24; 25; 30] -> w_fps a = f_of_int k -> all_comparable raws -> Forall raw_writable raws ->
  Forall (times_at tr) raws -> Forall without_marks raws -> writer_ready (k * 1000) a raws -> kept_in_file k a raws.
Proof. exact pieces_kept. Qed.
Print Assumptions C119_pieces_partial.
(** So for SSA files with positions on the screen and such times. *)
Theorem C119_ssa_partial : forall s raws k a, moderate_numbers s -> formats_timed s -> ssa_reader_string s = Ok raws ->
  In k [24; 25; 30] -> w_fps a = f_of_int k -> Forall times_from_zero raws -> Forall (proper_times 1000) raws ->
  Forall (fun r => placed (r_vpos r)) raws -> Forall real_text raws -> Forall without_marks raws -> writer_ready (k * 1000) a raws -> kept_in_file k a raws.
Proof. exact ssa_kept. Qed.
Print Assumptions C119_ssa_partial.
(** And for binary STL files at any of the four rates. *)
Theorem C119_binary_stl_partial : forall h input g raws k a, snd (stl_binary_read input (after h)) = Ok (g, raws) ->
  0 < maximum_rows g -> Forall not_above raws -> Forall no_nul raws ->
  In k [24; 25; 30] -> w_fps a = f_of_int k -> Forall (proper_times (frame_rate g)) raws -> writer_ready (k * 1000) a raws -> kept_in_file k a raws.
Proof. exact binary_kept. Qed.
Print Assumptions C119_binary_stl_partial.
Example C119_case : exists raws subs file, moderate_numbers ssa_input /\ formats_timed ssa_input /\ ssa_reader_string ssa_input = Ok raws /\
  w_fps sample_args = f_of_int 25 /\ Forall times_from_zero raws /\ Forall (proper_times 1000) raws /\ Forall (fun r => placed (r_vpos r)) raws /\ Forall real_text raws /\
  Forall without_marks raws /\ writer_ready (25 * 1000) sample_args raws /\
  collect insertion_sort raws = Ok subs /\ snd (write_stl_binary subs sample_args (after [])) = Ok file /\ Z.of_nat (length file) < 1024 + 128 * 100000 /\ none_cut file /\ length raws = 3%nat.
Proof.
  do 3 eexists. split; [apply moderate_check_ok; vm_compute; reflexivity|]. split; [apply formats_check_ok; vm_compute; reflexivity|]. split; [vm_compute; reflexivity|].
  split; [reflexivity|]. split; [repeat constructor; vm_compute; discriminate|]. split; [repeat constructor; vm_compute; reflexivity|].
  split; [apply (forall_check (fun r => placed_check (r_vpos r))); [intros; now apply placed_check_ok|vm_compute; reflexivity]|].
  split; [apply (forall_check _ _ _ plain_real); vm_compute; reflexivity|]. split; [apply (forall_check _ _ _ plain_without); vm_compute; reflexivity|].
  split; [split; [exact (whole_rate 25 ltac:(lia))|]; split; [exact sample_header_ok|]; split; [discriminate|reflexivity]|].
  split; [vm_compute; reflexivity|]. split; [vm_compute; reflexivity|]. split; [vm_compute; reflexivity|]. split; [apply (cut_check_ok 2); vm_compute; reflexivity|reflexivity].
Qed.
Example C119_binary_stl_case : exists g raws, snd (stl_binary_read stl_input (after [])) = Ok (g, raws) /\ 0 < maximum_rows g /\ Forall not_above raws /\ Forall no_nul raws /\
  w_fps sample_args = f_of_int 25 /\ Forall (proper_times (frame_rate g)) raws /\ writer_ready (25 * 1000) sample_args raws /\ raws <> [].
Proof.
  do 2 eexists. split; [vm_compute; reflexivity|]. split; [reflexivity|]. split; [repeat constructor; intros row E; vm_compute in E; injection E as <-; discriminate|].
  split; [repeat constructor; intros I; vm_compute in I; intuition discriminate|]. split; [reflexivity|]. split; [repeat constructor; vm_compute; reflexivity|]. split; [|discriminate].
  split; [exact (whole_rate 25 ltac:(lia))|]. split; [exact sample_header_ok|]. split; [discriminate|reflexivity].
Qed.
(** With an accent of its own after the letter, as in decomposed text, the accent moves to the next letter: U+0065 U+0301 U+0061
    (e with an acute accent, a) is read back as e and a with an acute accent. *)
Theorem C119_marks_refuted : exists s raws subs file g raws' r r', ssa_reader_string s = Ok raws /\ collect insertion_sort raws = Ok subs /\
  snd (write_stl_binary subs sample_args (after [])) = Ok file /\ snd (stl_binary_read file (after [])) = Ok (g, raws') /\
  raws = [r] /\ raws' = [r'] /\ utf8 (r_text r) [0x65; 0x301; 0x61] /\ utf8 (r_text r') [0x65; 0xE1].
Proof.
  exists (join [lf] [lit "[Events]"; lit "Format: Start, End, Text"; lit "Dialogue: 0:00:01.00,0:00:02.50," ++ wide_to_utf8 [0x65; 0x301; 0x61]]). do 7 eexists.
  split; [vm_compute; reflexivity|]. split; [vm_compute; reflexivity|]. split; [vm_compute; reflexivity|]. split; [vm_compute; reflexivity|]. split; [reflexivity|]. split; [reflexivity|].
  split; [apply (wide_to_utf8_ok [0x65; 0x301; 0x61])|apply (wide_to_utf8_ok [0x65; 0xE1])]; repeat constructor; unfold scalar; lia.
Qed.
Print Assumptions C119_marks_refuted.
(** Exactly what is seen, with rows and styles, of any pieces that can be written, at any rate, with any marks and however the text is
    cut: what C34_as_is says of what was collected. *)
Theorem C119_as_is : forall n a raws, all_comparable raws -> Forall raw_writable raws -> writer_ready n a raws -> seen_in_file a raws.
Proof. exact pieces_seen. Qed.
Print Assumptions C119_as_is.
Theorem C119_ssa_as_is : forall s raws n a, moderate_numbers s -> formats_timed s -> ssa_reader_string s = Ok raws ->
  Forall times_from_zero raws -> Forall (fun r => placed (r_vpos r)) raws -> Forall real_text raws -> writer_ready n a raws -> seen_in_file a raws.
Proof. exact ssa_seen. Qed.
Print Assumptions C119_ssa_as_is.

(** C106.  And of any binary STL file that is loaded and saved, with any number of rows, at any rate. *)
Theorem C106_as_is : forall h input g raws n a, snd (stl_binary_read input (after h)) = Ok (g, raws) ->
  0 < maximum_rows g -> Forall not_above raws -> Forall no_nul raws -> writer_ready n a raws -> seen_in_file a raws.
Proof. exact binary_seen. Qed.
Print Assumptions C106_as_is.
