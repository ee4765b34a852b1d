(** C105, C106, C120: converting to binary STL, and loading and saving binary STL files.  Statements only; proofs are in theories/Proofs. *)
From Coq Require Import ZArith Lia List Bool Ascii String.
From Verif.Model Require Import Base Float TimeModel Types Collect Ssa Subrip WebVtt StlText StlBinReader StlBinWriter.
From Verif.Spec Require Import Outcome TextSpec LinesSpec Utf8Spec Iso6937Spec SortSpec CollectSpec SubripUseSpec SsaUseSpec StlFileSpec StlWriteSpec StlSamples CollectReadSpec ConvertSpec.
From Verif.Proofs Require Import SortProofs SubripUseProofs SsaSafeProofs CollectReadProofs StlUseProofs ConvertProofs LoadSaveProofs SaveTwiceProofs.
Import ListNotations.
Local Open Scope Z_scope.
Local Notation length := List.length.

(** C105.  A binary STL file that can be read can be collected and written again, if it says that there are rows, nothing is
    above the first one, and all characters have a meaning. *)
Theorem C105_binary_stl_partial : forall h input g subs n a, snd (stl_binary_read input (after h)) = Ok (g, subs) ->
  0 < maximum_rows g -> Forall not_above subs -> Forall no_nul subs -> writer_ready n a subs -> converted n a subs.
Proof. exact binary_converted. Qed.
Print Assumptions C105_binary_stl_partial.
(** SSA, with positions on the screen, times from zero on and text of Unicode characters. *)
Theorem C105_ssa_partial : forall s raws n a, moderate_numbers s -> formats_timed s -> ssa_reader_string s = Ok raws ->
  Forall times_from_zero raws -> Forall (fun r => placed (r_vpos r)) raws -> Forall real_text raws -> writer_ready n a raws -> converted n a raws.
Proof. exact ssa_converted. Qed.
Print Assumptions C105_ssa_partial.
(** But nothing that the other readers give can be written: the writer asks for the number of lines that they do not set. *)
Theorem C105_subrip_refuted : forall s raws, short_numbers s -> subrip_reader_string s = Ok raws -> raws <> [] -> Forall unplaced raws -> never_converted raws.
Proof. exact subrip_never. Qed.
Print Assumptions C105_subrip_refuted.
Theorem C105_webvtt_refuted : forall s raws, short_numbers s -> vtt_reader_string s = Ok raws -> raws <> [] -> never_converted raws.
Proof. exact vtt_never. Qed.
Print Assumptions C105_webvtt_refuted.
Theorem C105_text_stl_refuted : forall s raws, stl_text_read true s = Ok raws -> raws <> [] -> never_converted raws.
Proof. exact text_stl_never. Qed.
Print Assumptions C105_text_stl_refuted.
Definition stl_input : str := sample_header "00001" "23" ++ sample_block 3 0 sample_text.
Definition ssa_input : str := join [lf] [lit "[Events]"; lit "Format: Start, End, Text"; lit "Dialogue: 0:00:01.00,0:00:02.50,a{\i1}b"; lit "Dialogue: 0:00:00.50,0:00:00.90,{\pos(10,20)}c"].
Definition srt_input : str := join [lf] [lit "1"; lit "00:00:01,000 --> 00:00:02,500"; lit "a <i>b</i>"; []; lit "2"; lit "00:00:00,500 --> 00:00:00,900"; lit "c"].
Definition vtt_input : str := join [lf] [lit "WEBVTT"; []; lit "00:00:01.000 --> 00:00:02.500"; lit "a"; []; lit "00:00:00.500 --> 00:00:00.900"; lit "c"].
Definition text_stl_input : str := lit "00:00:01:00 ,00:00:02:12,a|b" ++ lf :: lit "00:00:00:12 ,00:00:00:20,c" ++ [lf].
Example C105_binary_stl_case : exists g subs, snd (stl_binary_read stl_input (after [])) = Ok (g, subs) /\ 0 < maximum_rows g /\ Forall not_above subs /\ Forall no_nul subs /\ writer_ready 25000 sample_args subs /\ subs <> [].
Proof.
  do 2 eexists. split; [vm_compute; reflexivity|]. split; [reflexivity|]. split; [repeat constructor; intros row E; vm_compute in E; injection E as <-; discriminate|].
  split; [repeat constructor; intros I; vm_compute in I; intuition discriminate|]. split; [|discriminate].
  split; [exact (whole_rate 25 ltac:(lia))|]. split; [exact sample_header_ok|]. split; [discriminate|reflexivity].
Qed.
Example C105_ssa_case : exists raws, moderate_numbers ssa_input /\ formats_timed ssa_input /\ ssa_reader_string ssa_input = Ok raws /\
  Forall times_from_zero raws /\ Forall (fun r => placed (r_vpos r)) raws /\ Forall real_text raws /\ raws <> [].
Proof.
  eexists. split; [apply moderate_check_ok; vm_compute; reflexivity|]. split; [apply formats_check_ok; vm_compute; reflexivity|]. split; [vm_compute; reflexivity|].
  split; [repeat constructor; vm_compute; discriminate|]. split; [apply (forall_check (fun r => placed_check (r_vpos r))); [intros; now apply placed_check_ok|vm_compute; reflexivity]|].
  split; [apply (forall_check _ _ _ plain_real); vm_compute; reflexivity|discriminate].
Qed.
Example C105_case : (exists raws, short_numbers srt_input /\ subrip_reader_string srt_input = Ok raws /\ raws <> [] /\ Forall unplaced raws) /\
  (exists raws, short_numbers vtt_input /\ vtt_reader_string vtt_input = Ok raws /\ raws <> []) /\ (exists raws, stl_text_read true text_stl_input = Ok raws /\ raws <> []).
Proof.
  split; [eexists; split; [apply short_check_ok; vm_compute; reflexivity|]; split; [vm_compute; reflexivity|]; split; [discriminate|repeat constructor]|].
  split; [eexists; split; [apply short_check_ok; vm_compute; reflexivity|]; split; [vm_compute; reflexivity|discriminate]|].
  eexists. split; [vm_compute; reflexivity|discriminate].
Qed.
(** A binary STL file that says that it has no rows; an SSA file with a position far off the screen. *)
Theorem C105_no_rows_refuted : exists input g raws subs, snd (stl_binary_read input (after [])) = Ok (g, raws) /\ Forall no_nul raws /\
  collect insertion_sort raws = Ok subs /\ header_ok sample_args /\ ~ defined (snd (write_stl_binary subs sample_args (after []))).
Proof.
  exists (sample_header "00001" "00" ++ sample_block 3 0 sample_text). do 3 eexists. split; [vm_compute; reflexivity|].
  split; [repeat constructor; intros I; vm_compute in I; intuition discriminate|]. split; [vm_compute; reflexivity|]. split; [exact sample_header_ok|].
  intros D. eapply D. vm_compute. reflexivity.
Qed.
Print Assumptions C105_no_rows_refuted.
Theorem C105_ssa_refuted : exists s raws subs, moderate_numbers s /\ ssa_reader_string s = Ok raws /\ Forall times_from_zero raws /\ Forall real_text raws /\
  collect insertion_sort raws = Ok subs /\ header_ok sample_args /\ ~ defined (snd (write_stl_binary subs sample_args (after []))).
Proof.
  exists (join [lf] [lit "[Events]"; lit "Format: Start, End, Text"; lit "Dialogue: 0:00:01.00,0:00:02.50,{\pos(10,9e20)}a"]). do 2 eexists.
  split; [apply moderate_check_ok; vm_compute; reflexivity|]. split; [vm_compute; reflexivity|].
  split; [repeat constructor; vm_compute; discriminate|]. split; [apply (forall_check _ _ _ plain_real); vm_compute; reflexivity|].
  split; [vm_compute; reflexivity|]. split; [exact sample_header_ok|]. intros D. eapply D. vm_compute. reflexivity.
Qed.
Print Assumptions C105_ssa_refuted.

(** C106.  A binary STL file that is loaded, collected and saved at the same rate can be read again, and then the same characters
    are on the same rows in the same style (italic or underlined) at the same times, in the order that a stable sort gives.  For
    files of 23 rows and not 23 frames a second, with nothing on rows 7 and 14, the lines of each subtitle going down the screen,
    and a block for each subtitle (its text fits into one). *)
Theorem C106_saved_again_partial : forall h h' h'' sort input g raws a, snd (stl_binary_read input (after h)) = Ok (g, raws) ->
  frame_rate g <> 23 -> w_fps a = f_of_int (frame_rate g) -> maximum_rows g = 23 ->
  Forall kept_row raws -> Forall no_nul raws -> Forall (proper_times (frame_rate g)) raws -> writer_ready (frame_rate g * 1000) a raws -> conforming sort ->
  exists subs file, collect sort raws = Ok subs /\ snd (write_stl_binary subs a (after h')) = Ok file /\
    (length file = (1024 + 128 * length subs)%nat -> Z.of_nat (length subs) < 100000 -> Forall lines_downwards subs ->
     exists g' raws' sorted xs ys, snd (stl_binary_read file (after h'')) = Ok (g', raws') /\ stably_sorted raws sorted /\
       all_seen sorted xs /\ all_seen raws' ys /\ Forall2 (seen_alike (frame_rate g)) xs ys).
Proof. exact saved_again. Qed.
Print Assumptions C106_saved_again_partial.
Example C106_case : exists g raws subs file, snd (stl_binary_read stl_input (after [])) = Ok (g, raws) /\ frame_rate g <> 23 /\ w_fps sample_args = f_of_int (frame_rate g) /\
  maximum_rows g = 23 /\ Forall kept_row raws /\ Forall no_nul raws /\ Forall (proper_times (frame_rate g)) raws /\ writer_ready (frame_rate g * 1000) sample_args raws /\
  collect insertion_sort raws = Ok subs /\ snd (write_stl_binary subs sample_args (after [])) = Ok file /\
  length file = (1024 + 128 * length subs)%nat /\ Z.of_nat (length subs) < 100000 /\ Forall lines_downwards subs /\ raws <> [].
Proof.
  do 4 eexists. split; [vm_compute; reflexivity|]. split; [discriminate|]. split; [reflexivity|]. split; [reflexivity|].
  split; [repeat constructor; eexists; (split; [vm_compute; reflexivity|lia])|].
  split; [repeat constructor; intros I; vm_compute in I; intuition discriminate|]. split; [repeat constructor; vm_compute; reflexivity|].
  split; [split; [exact (whole_rate 25 ltac:(lia))|]; split; [exact sample_header_ok|]; split; [discriminate|reflexivity]|].
  split; [vm_compute; reflexivity|]. split; [vm_compute; reflexivity|]. split; [vm_compute; reflexivity|]. split; [reflexivity|].
  split; [|discriminate]. repeat constructor. intros rows F. inversion F as [|? ? ? ? E1 F1]; subst. inversion F1 as [|? ? ? ? E2 F2]; subst. inversion F2; subst.
  vm_compute in E1, E2. injection E1 as <-. injection E2 as <-. repeat constructor; lia.
Qed.
(** Colours are lost: red text is white after it was saved. *)
Theorem C106_colour_refuted : exists input g raws subs file g' raws' r r', snd (stl_binary_read input (after [])) = Ok (g, raws) /\
  collect insertion_sort raws = Ok subs /\ snd (write_stl_binary subs sample_args (after [])) = Ok file /\ snd (stl_binary_read file (after [])) = Ok (g', raws') /\
  nth_error raws 3 = Some r /\ nth_error raws' 3 = Some r' /\ r_text r = r_text r' /\ r_text r = lit "you" /\
  r_colour r = colour_of (1, 0, 0) /\ r_colour r' = colour_of (1, 1, 1).
Proof.
  exists stl_input. do 8 eexists. split; [vm_compute; reflexivity|]. split; [vm_compute; reflexivity|]. split; [vm_compute; reflexivity|].
  split; [vm_compute; reflexivity|]. split; [reflexivity|]. split; [reflexivity|]. repeat split; vm_compute; reflexivity.
Qed.
Print Assumptions C106_colour_refuted.

(** C120.  A binary STL file that was loaded and saved is not changed when it is loaded and saved again: it is the same, byte for
    byte.  For the files of C106 with a block for each subtitle, each line of which ends in text. *)
Theorem C120_saved_twice_partial : forall h h' h'' h3 sort sort' input g raws a subs file, snd (stl_binary_read input (after h)) = Ok (g, raws) ->
  frame_rate g <> 23 -> w_fps a = f_of_int (frame_rate g) -> maximum_rows g = 23 ->
  Forall kept_row raws -> Forall no_nul raws -> Forall (proper_times (frame_rate g)) raws -> writer_ready (frame_rate g * 1000) a raws -> conforming sort -> conforming sort' ->
  collect sort raws = Ok subs -> snd (write_stl_binary subs a (after h')) = Ok file ->
  length file = (1024 + 128 * length subs)%nat -> Z.of_nat (length subs) < 100000 -> Forall lines_downwards subs -> Forall lines_end_in_text subs ->
  exists g' raws' subs', snd (stl_binary_read file (after h'')) = Ok (g', raws') /\ collect sort' raws' = Ok subs' /\ snd (write_stl_binary subs' a (after h3)) = Ok file.
Proof. exact save_twice. Qed.
Print Assumptions C120_saved_twice_partial.
Example C120_case : exists g raws subs file, snd (stl_binary_read stl_input (after [])) = Ok (g, raws) /\ frame_rate g <> 23 /\ w_fps sample_args = f_of_int (frame_rate g) /\
  maximum_rows g = 23 /\ Forall kept_row raws /\ Forall no_nul raws /\ Forall (proper_times (frame_rate g)) raws /\ writer_ready (frame_rate g * 1000) sample_args raws /\
  collect insertion_sort raws = Ok subs /\ snd (write_stl_binary subs sample_args (after [])) = Ok file /\
  length file = (1024 + 128 * length subs)%nat /\ Z.of_nat (length subs) < 100000 /\ Forall lines_downwards subs /\ Forall lines_end_in_text subs /\ raws <> [] /\ file <> stl_input.
Proof.
  destruct C106_case as (g & raws & subs & file & E1 & E2 & E3 & E4 & E5 & E6 & E7 & E8 & E9 & E10 & E11 & E12 & E13 & E14).
  exists g, raws, subs, file. repeat (split; [assumption|]). clear E2 E3 E4 E5 E6 E7 E8 E11 E12 E13. vm_compute in E1. injection E1 as <- <-. vm_compute in E9. injection E9 as <-.
  split; [|split; [discriminate|]].
  - apply Forall_cons; [|apply Forall_nil]. unfold lines_end_in_text. cbn [s_lines]. repeat (apply Forall_cons || apply Forall_nil); cbn [l_blocks];
      first [eexists [], _; split; [reflexivity|discriminate]|eexists [_], _; split; [reflexivity|discriminate]].
  - vm_compute in E10. injection E10 as <-. intros X. apply (f_equal (fun s => nth 1024 s "a"%char)) in X. discriminate X.
Qed.
(** A line whose last piece is empty and italic: the code that starts it is read as the start of the next line. *)
Theorem C120_empty_piece_refuted : exists input g raws subs file g' raws' subs' file', snd (stl_binary_read input (after [])) = Ok (g, raws) /\
  collect insertion_sort raws = Ok subs /\ snd (write_stl_binary subs sample_args (after [])) = Ok file /\ snd (stl_binary_read file (after [])) = Ok (g', raws') /\
  collect insertion_sort raws' = Ok subs' /\ snd (write_stl_binary subs' sample_args (after [])) = Ok file' /\ length file = length file' /\ file <> file'.
Proof.
  exists (sample_header "00001" "23" ++ sample_block 3 0 [65; 0x80; 0x81; 0x8A; 67]). do 8 eexists. split; [vm_compute; reflexivity|]. split; [vm_compute; reflexivity|].
  split; [vm_compute; reflexivity|]. split; [vm_compute; reflexivity|]. split; [vm_compute; reflexivity|]. split; [vm_compute; reflexivity|]. split; [reflexivity|].
  intros X. apply (f_equal (fun s => nth 1041 s "a"%char)) in X. discriminate X.
Qed.
Print Assumptions C120_empty_piece_refuted.
