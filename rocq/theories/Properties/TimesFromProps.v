(** C128, C129: where the times of subtitles come from.  Statements only; proofs are in theories/Proofs. *)
From Coq Require Import ZArith QArith Lia List Bool Ascii String.
From Verif.Model Require Import Base TimeModel Types Collect Lines Ssa Subrip WebVtt StlText StlBinReader.
From Verif.Spec Require Import Outcome TextSpec LinesSpec Iso6937Spec SortSpec CollectSpec CollectReadSpec TextFileSpec StlTextSpec StlSamples TimesFromSpec.
From Verif.Proofs Require Import SortProofs LinesProofs SubripUseProofs CollectReadProofs TimesFromProofs.
From Verif.Proofs Require CollectProofs.
Import ListNotations.
Local Open Scope Z_scope.
Local Notation length := List.length.

(** C128.  Readers do not invent times: the start and end of every piece are those that a line (or block) of the file says, and
    the pieces come in the order of these lines. *)
Theorem C128_subrip : forall s raws, subrip_reader_string s = Ok raws -> exists ls, text_lines s ls /\ in_order srt_says ls raws.
Proof. exact subrip_order. Qed.
Print Assumptions C128_subrip.
Theorem C128_webvtt : forall s raws, vtt_reader_string s = Ok raws -> exists ls, text_lines s ls /\ in_order vtt_says ls raws.
Proof. exact vtt_order. Qed.
Print Assumptions C128_webvtt.
(** In an SSA file a time that was not given before the text is not set. *)
Theorem C128_ssa : forall s raws, ssa_reader_string s = Ok raws -> exists ls, text_lines s ls /\ in_order (ssa_says field_or_unset ls) ls raws.
Proof. exact ssa_order. Qed.
Print Assumptions C128_ssa.
Theorem C128_ssa_timed : forall s raws, formats_timed s -> ssa_reader_string s = Ok raws ->
  exists ls, text_lines s ls /\ in_order (ssa_says field_time ls) ls raws.
Proof. exact ssa_order_timed. Qed.
Print Assumptions C128_ssa_timed.
Theorem C128_text_stl : forall s raws, stl_text_read true s = Ok raws -> exists ls, complete_lines s ls /\ in_order stl_says ls raws.
Proof. exact stl_order. Qed.
Print Assumptions C128_text_stl.
Theorem C128_binary_stl : forall h input g subs, snd (stl_binary_read input (after h)) = Ok (g, subs) ->
  exists blocks, file_blocks input (tti_blocks g) blocks /\ in_order (block_says (frame_rate g)) blocks subs.
Proof. exact binary_order. Qed.
Print Assumptions C128_binary_stl.
(** Files are read a buffer at a time, and what is in a buffer is a line. *)
Theorem C128_subrip_file : forall s raws, subrip_reader_file s = Ok raws ->
  exists bs ls, buffers s bs /\ Forall2 buffer_line bs ls /\ in_order srt_says ls raws.
Proof. exact subrip_file_order. Qed.
Print Assumptions C128_subrip_file.
Theorem C128_webvtt_file : forall s raws, vtt_reader_file s = Ok raws ->
  exists bs ls, buffers s bs /\ Forall2 buffer_line bs ls /\ in_order vtt_says ls raws.
Proof. exact vtt_file_order. Qed.
Print Assumptions C128_webvtt_file.
Theorem C128_ssa_file : forall s raws, ssa_reader_file s = Ok raws ->
  exists bs ls, buffers s bs /\ Forall2 buffer_line bs ls /\ in_order (ssa_says field_or_unset ls) ls raws.
Proof. exact ssa_file_order. Qed.
Print Assumptions C128_ssa_file.

Definition srt_two (finish : string) : str :=
  join [lf] [lit "1"; lit "00:00:01,000 --> " ++ lit finish; lit "a <i>b</i>"; []; lit "2"; lit "00:00:00,500 --> 00:00:00,900"; lit "c"].
Definition vtt_two (finish : string) : str :=
  join [lf] [lit "WEBVTT"; []; lit "00:00:01.000 --> " ++ lit finish; lit "a"; []; lit "00:00:00.500 --> 00:00:00.900"; lit "c"].
Definition ssa_two (finish : string) : str :=
  join [lf] [lit "[Events]"; lit "Format: Start, End, Text"; lit "Dialogue: 0:00:01.00," ++ lit finish ++ lit ",a{\i1}b, c"; lit "Dialogue: 0:00:00.50,0:00:00.90,d"].
Definition stl_two (finish : string) : str :=
  join [lf] [lit "00:00:01:00 ," ++ lit finish ++ lit ",a|b"; lit "00:00:00:12 ,00:00:00:20,c"; []].
Definition stl_block (finish : Z) : str := map byte ([0; 1; 0; 255; 0; 0; 0; 1; 0; 0; 0; finish; 10; 3; 2; 0] ++ sample_text ++ repeat 0x8F 103).
Definition at_ms (s ms : Z) : time := mkT s ms (Some (mkR 1000 1)).
Example C128_case :
  (exists a b c, subrip_reader_string (srt_two "00:00:02,500") = Ok [a; b; c] /\ r_from a = at_ms 1 0 /\ r_to b = at_ms 2 500 /\ r_to c = at_ms 0 900) /\
  (exists a b, vtt_reader_string (vtt_two "00:00:02.500") = Ok [a; b] /\ r_to a = at_ms 2 500 /\ r_from b = at_ms 0 500) /\
  (exists a b c, ssa_reader_string (ssa_two "0:00:02.50") = Ok [a; b; c] /\ r_to b = at_ms 2 500 /\ r_from c = at_ms 0 500) /\ formats_timed (ssa_two "0:00:02.50") /\
  (exists a b c, stl_text_read true (stl_two "00:00:02:10") = Ok [a; b; c] /\ r_to b = mkT 2 10 None /\ r_from c = mkT 0 12 None) /\
  (exists g a b c d, snd (stl_binary_read (sample_header "00001" "23" ++ stl_block 2) (after [])) = Ok (g, [a; b; c; d]) /\ r_from a = mkT 1 0 (Some (mkR 25 1)) /\ r_to d = mkT 2 10 (Some (mkR 25 1))).
Proof.
  split; [do 3 eexists; split; [vm_compute; reflexivity|repeat split]|]. split; [do 2 eexists; split; [vm_compute; reflexivity|repeat split]|].
  split; [do 3 eexists; split; [vm_compute; reflexivity|repeat split]|]. split; [apply formats_check_ok; vm_compute; reflexivity|].
  split; [do 3 eexists; split; [vm_compute; reflexivity|repeat split]|]. do 5 eexists; split; [vm_compute; reflexivity|repeat split].
Qed.

(** C129.  A subtitle does not end before it starts, if no line (or block) of the file says so. *)
Theorem C129_subrip_partial : forall s ls raws, text_lines s ls -> all_forwards srt_says ls -> subrip_reader_string s = Ok raws -> Forall forwards raws.
Proof. exact subrip_forwards. Qed.
Print Assumptions C129_subrip_partial.
Theorem C129_webvtt_partial : forall s ls raws, text_lines s ls -> all_forwards vtt_says ls -> vtt_reader_string s = Ok raws -> Forall forwards raws.
Proof. exact vtt_forwards. Qed.
Print Assumptions C129_webvtt_partial.
Theorem C129_ssa_partial : forall s ls raws, formats_timed s -> text_lines s ls -> all_forwards (ssa_says field_time ls) ls ->
  ssa_reader_string s = Ok raws -> Forall forwards raws.
Proof. exact ssa_forwards. Qed.
Print Assumptions C129_ssa_partial.
Theorem C129_text_stl_partial : forall s ls raws, complete_lines s ls -> all_forwards stl_says ls -> stl_text_read true s = Ok raws -> Forall forwards raws.
Proof. exact stl_forwards. Qed.
Print Assumptions C129_text_stl_partial.
Theorem C129_binary_stl_partial : forall h input g subs, snd (stl_binary_read input (after h)) = Ok (g, subs) ->
  (forall blocks, file_blocks input (tti_blocks g) blocks -> all_forwards (block_says (frame_rate g)) blocks) -> Forall forwards subs.
Proof. exact binary_forwards. Qed.
Print Assumptions C129_binary_stl_partial.
(** Collecting keeps it so. *)
Theorem C129_collect : forall sort raws subs, conforming sort -> all_comparable raws -> Forall forwards raws -> collect sort raws = Ok subs ->
  Forall (fun s => no_later (s_from s) (s_to s)) subs.
Proof. exact collect_forwards. Qed.
Print Assumptions C129_collect.
Example C129_case :
  all_forwards srt_says (lines_of_string (srt_two "00:00:02,500")) /\ all_forwards vtt_says (lines_of_string (vtt_two "00:00:02.500")) /\
  all_forwards (ssa_says field_time (lines_of_string (ssa_two "0:00:02.50"))) (lines_of_string (ssa_two "0:00:02.50")) /\
  (exists ls, complete_lines (stl_two "00:00:02:10") ls /\ length ls = 2%nat /\ all_forwards stl_says ls) /\
  (exists g subs, snd (stl_binary_read (sample_header "00001" "23" ++ stl_block 2) (after [])) = Ok (g, subs) /\
    forall blocks, file_blocks (sample_header "00001" "23" ++ stl_block 2) (tti_blocks g) blocks -> all_forwards (block_says (frame_rate g)) blocks).
Proof.
  split; [apply srt_check_ok; vm_compute; reflexivity|]. split; [apply vtt_check_ok; vm_compute; reflexivity|]. split; [apply ssa_check_ok; vm_compute; reflexivity|].
  split.
  - exists [lit "00:00:01:00 ,00:00:02:10,a|b"; lit "00:00:00:12 ,00:00:00:20,c"]. split; [|split; [reflexivity|apply stl_check_ok; vm_compute; reflexivity]].
    change (stl_two "00:00:02:10") with (lit "00:00:01:00 ,00:00:02:10,a|b" ++ lf :: (lit "00:00:00:12 ,00:00:00:20,c" ++ lf :: [])).
    constructor; [intros I; cbn in I; intuition discriminate|]. constructor; [intros I; cbn in I; intuition discriminate|]. constructor. intros [].
  - eexists _, _. split; [vm_compute; reflexivity|]. intros blocks FB.
    replace (sample_header "00001" "23" ++ stl_block 2) with (sample_header "00001" "23" ++ List.concat [stl_block 2] ++ []) in FB by (cbn [List.concat]; now rewrite !app_nil_r).
    refine (blocks_check_ok _ _ _ _ _ _ _ _ _ blocks FB); [vm_compute; reflexivity|repeat constructor|vm_compute; reflexivity|vm_compute; reflexivity].
Qed.
Example C129_collect_case : exists raws s t, subrip_reader_string (srt_two "00:00:02,500") = Ok raws /\ all_comparable raws /\ Forall forwards raws /\
  collect insertion_sort raws = Ok [s; t].
Proof.
  eexists _, _, _. split; [vm_compute; reflexivity|]. split; [|split; [|vm_compute; reflexivity]].
  - apply CollectProofs.comparable_check. vm_compute. reflexivity.
  - repeat constructor; vm_compute; discriminate.
Qed.
(** Every reader accepts a subtitle that ends before it starts. *)
Ltac backwards := intros F; inversion F as [|? ? (_ & B) ?]; subst; vm_compute in B; now apply B.
Theorem C129_subrip_refuted : exists s raws, subrip_reader_string s = Ok raws /\ ~ Forall forwards raws.
Proof. exists (srt_two "00:00:00,500"). eexists. split; [vm_compute; reflexivity|]. backwards. Qed.
Print Assumptions C129_subrip_refuted.
Theorem C129_webvtt_refuted : exists s raws, vtt_reader_string s = Ok raws /\ ~ Forall forwards raws.
Proof. exists (vtt_two "00:00:00.500"). eexists. split; [vm_compute; reflexivity|]. backwards. Qed.
Print Assumptions C129_webvtt_refuted.
Theorem C129_ssa_refuted : exists s raws, formats_timed s /\ ssa_reader_string s = Ok raws /\ ~ Forall forwards raws.
Proof. exists (ssa_two "0:00:00.50"). eexists. split; [apply formats_check_ok; vm_compute; reflexivity|]. split; [vm_compute; reflexivity|]. backwards. Qed.
Print Assumptions C129_ssa_refuted.
Theorem C129_text_stl_refuted : exists s raws, stl_text_read true s = Ok raws /\ ~ Forall forwards raws.
Proof.
  exists (stl_two "00:00:00:10"). eexists. split; [vm_compute; reflexivity|]. intros F. inversion F as [|? ? (_ & B) ?]; subst. vm_compute in B. destruct B as [B|[B _]]; discriminate.
Qed.
Print Assumptions C129_text_stl_refuted.
Theorem C129_binary_stl_refuted : exists input g subs, snd (stl_binary_read input (after [])) = Ok (g, subs) /\ ~ Forall forwards subs.
Proof. exists (sample_header "00001" "23" ++ stl_block 0). eexists _, _. split; [vm_compute; reflexivity|]. backwards. Qed.
Print Assumptions C129_binary_stl_refuted.
