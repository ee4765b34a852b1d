(** C103, C104: collecting what a reader gives.  Statements only; proofs are in theories/Proofs. *)
From Coq Require Import ZArith Lia List Bool Ascii String.
From Verif.Model Require Import Base TimeModel Types Collect Ssa Subrip WebVtt StlText StlBinReader.
From Verif.Spec Require Import Outcome TextSpec LinesSpec Iso6937Spec SortSpec CollectSpec SubripUseSpec SsaUseSpec StlSamples CollectReadSpec.
From Verif.Proofs Require Import SortProofs SubripUseProofs WebVttUseProofs SsaSafeProofs CollectReadProofs FileUseProofs SsaClockProofs.
Import ListNotations.
Local Open Scope Z_scope.
Local Notation length := List.length.

(** C104.  The subtitles from one file all have times of the same rate, and no fades: milliseconds for SubRip, WebVTT and SSA,
    the frame rate of the header for binary STL, and no rate for text STL. *)
Theorem C104_subrip : forall s raws, subrip_reader_string s = Ok raws -> Forall (clocked milliseconds_rate) raws.
Proof. exact subrip_ms. Qed.
Print Assumptions C104_subrip.
Theorem C104_webvtt : forall s raws, vtt_reader_string s = Ok raws -> Forall (clocked milliseconds_rate) raws.
Proof. exact vtt_ms. Qed.
Print Assumptions C104_webvtt.
(** Also if they are read from a file, a buffer at a time. *)
Theorem C104_subrip_file : forall s raws, subrip_reader_file s = Ok raws -> Forall (clocked milliseconds_rate) raws.
Proof. exact subrip_file_ms. Qed.
Print Assumptions C104_subrip_file.
Theorem C104_webvtt_file : forall s raws, vtt_reader_file s = Ok raws -> Forall (clocked milliseconds_rate) raws.
Proof. exact vtt_file_ms. Qed.
Print Assumptions C104_webvtt_file.
Theorem C104_binary_stl : forall h input g subs, snd (stl_binary_read input (after h)) = Ok (g, subs) ->
  Forall (clocked (Some (mkR (frame_rate g) 1))) subs.
Proof. exact binary_clocked. Qed.
Print Assumptions C104_binary_stl.
Theorem C104_text_stl : forall s raws, stl_text_read true s = Ok raws -> Forall (clocked None) raws.
Proof. exact stl_text_clocked. Qed.
Print Assumptions C104_text_stl.
(** For SSA: if the start and end come before the text in the lines that say which fields dialogues have. *)
Theorem C104_ssa_partial : forall s raws, formats_timed s -> ssa_reader_string s = Ok raws -> Forall (clocked milliseconds_rate) raws.
Proof. exact ssa_ms. Qed.
Print Assumptions C104_ssa_partial.
(** In any SSA file, a time that is not in milliseconds is one that was never set. *)
Theorem C104_ssa_as_is : forall s raws, ssa_reader_string s = Ok raws ->
  Forall (fun r => (t_rate (r_from r) = milliseconds_rate \/ r_from r = mkT 0 0 None) /\ (t_rate (r_to r) = milliseconds_rate \/ r_to r = mkT 0 0 None) /\
                   r_fade_up r = None /\ r_fade_down r = None) raws.
Proof. exact ssa_maybe. Qed.
Print Assumptions C104_ssa_as_is.
Theorem C104_ssa_file_as_is : forall s raws, ssa_reader_file s = Ok raws ->
  Forall (fun r => (t_rate (r_from r) = milliseconds_rate \/ r_from r = mkT 0 0 None) /\ (t_rate (r_to r) = milliseconds_rate \/ r_to r = mkT 0 0 None) /\
                   r_fade_up r = None /\ r_fade_down r = None) raws.
Proof. exact ssa_file_maybe. Qed.
Print Assumptions C104_ssa_file_as_is.
Definition srt_sample : str := join [lf] [lit "1"; lit "00:00:01,000 --> 00:00:02,500"; lit "a <i>b</i>"; []; lit "2"; lit "00:00:00,500 --> 00:00:00,900"; lit "c"].
Definition vtt_sample : str := join [lf] [lit "WEBVTT"; []; lit "00:00:01.000 --> 00:00:02.500"; lit "a"; []; lit "00:00:00.500 --> 00:00:00.900"; lit "c"].
Definition text_stl_sample : str := lit "00:00:01:00 ,00:00:02:12,a|b" ++ lf :: lit "00:00:00:12 ,00:00:00:20,c" ++ [lf].
Definition ssa_sample : str := join [lf] [lit "[Events]"; lit "Format: Start, End, Text"; lit "Dialogue: 0:00:01.00,0:00:02.50,a{\i1}b"; lit "Dialogue: 0:00:00.50,0:00:00.90,c"].
Example C104_case : (exists a b c, subrip_reader_string srt_sample = Ok [a; b; c]) /\ (exists a b, vtt_reader_string vtt_sample = Ok [a; b]) /\
  (exists a b c, stl_text_read true text_stl_sample = Ok [a; b; c]) /\ formats_timed ssa_sample /\ (exists a b c, ssa_reader_string ssa_sample = Ok [a; b; c]) /\
  returns (snd (stl_binary_read (sample_header "00001" "23" ++ sample_block 3 0 sample_text) (after []))).
Proof.
  split; [eexists _, _, _; vm_compute; reflexivity|]. split; [eexists _, _; vm_compute; reflexivity|]. split; [eexists _, _, _; vm_compute; reflexivity|].
  split; [apply formats_check_ok; vm_compute; reflexivity|]. split; [eexists _, _, _; vm_compute; reflexivity|]. eexists. vm_compute. reflexivity.
Qed.
(** A dialogue whose text is in front of its start has no rate. *)
Theorem C104_ssa_refuted : exists s x y, ssa_reader_string s = Ok [x; y] /\ t_rate (r_from x) <> t_rate (r_from y).
Proof.
  exists (join [lf] [lit "[Events]"; lit "Format: Start, End, Text"; lit "Dialogue: 0:00:00.00,0:00:02.50,a"; lit "Format: Text, Start, End"; lit "Dialogue: b,0:00:00.00,0:00:02.50"]).
  eexists _, _. split; [vm_compute; reflexivity|discriminate].
Qed.
Print Assumptions C104_ssa_refuted.

(** C103.  What a reader gives can be collected. *)
Theorem C103_binary_stl : forall h input g subs, snd (stl_binary_read input (after h)) = Ok (g, subs) -> collectable subs.
Proof. exact binary_collectable. Qed.
Print Assumptions C103_binary_stl.
Theorem C103_text_stl : forall s raws, stl_text_read true s = Ok raws -> collectable raws.
Proof. exact stl_text_collectable. Qed.
Print Assumptions C103_text_stl.
(** For the others, if numbers are short: long milliseconds overflow when they are compared. *)
Theorem C103_subrip_partial : forall s raws, short_numbers s -> subrip_reader_string s = Ok raws -> collectable raws.
Proof. exact subrip_collectable. Qed.
Print Assumptions C103_subrip_partial.
Theorem C103_webvtt_partial : forall s raws, short_numbers s -> vtt_reader_string s = Ok raws -> collectable raws.
Proof. exact vtt_collectable. Qed.
Print Assumptions C103_webvtt_partial.
Theorem C103_subrip_file_partial : forall s raws, short_numbers s -> subrip_reader_file s = Ok raws -> collectable raws.
Proof. exact subrip_file_collectable. Qed.
Print Assumptions C103_subrip_file_partial.
Theorem C103_webvtt_file_partial : forall s raws, short_numbers s -> vtt_reader_file s = Ok raws -> collectable raws.
Proof. exact vtt_file_collectable. Qed.
Print Assumptions C103_webvtt_file_partial.
Theorem C103_ssa_partial : forall s raws, moderate_numbers s -> formats_timed s -> ssa_reader_string s = Ok raws -> collectable raws.
Proof. exact ssa_collectable. Qed.
Print Assumptions C103_ssa_partial.
Example C103_case : short_numbers srt_sample /\ short_numbers vtt_sample /\ moderate_numbers ssa_sample.
Proof. split; [apply short_check_ok; vm_compute; reflexivity|]. split; [apply short_check_ok; vm_compute; reflexivity|apply moderate_check_ok; vm_compute; reflexivity]. Qed.
Theorem C103_subrip_refuted : exists s raws, subrip_reader_string s = Ok raws /\ ~ collectable raws.
Proof.
  exists (join [lf] [lit "1"; lit "00:00:01,99999999 --> 00:00:02,500"; lit "a"; []; lit "2"; lit "00:00:01,500 --> 00:00:02,900"; lit "b"]). eexists. split; [vm_compute; reflexivity|].
  intros C. destruct (C _ insertion_sort_conforming) as (sorted & subs & groups & _ & E & _). vm_compute in E. discriminate.
Qed.
Print Assumptions C103_subrip_refuted.
Theorem C103_webvtt_refuted : exists s raws, vtt_reader_string s = Ok raws /\ ~ collectable raws.
Proof.
  exists (join [lf] [lit "WEBVTT"; []; lit "00:00:01.99999999 --> 00:00:02.500"; lit "a"; []; lit "00:00:01.500 --> 00:00:02.900"; lit "b"]). eexists. split; [vm_compute; reflexivity|].
  intros C. destruct (C _ insertion_sort_conforming) as (sorted & subs & groups & _ & E & _). vm_compute in E. discriminate.
Qed.
Print Assumptions C103_webvtt_refuted.
Theorem C103_ssa_refuted : exists s raws, moderate_numbers s /\ ssa_reader_string s = Ok raws /\ collect insertion_sort raws = Throw EUnknownFrameRate.
Proof.
  exists (join [lf] [lit "[Events]"; lit "Format: Start, End, Text"; lit "Dialogue: 0:00:00.00,0:00:02.50,a"; lit "Format: Text, Start, End"; lit "Dialogue: b,0:00:00.00,0:00:02.50"]).
  eexists. split; [apply moderate_check_ok; vm_compute; reflexivity|]. split; [vm_compute; reflexivity|vm_compute; reflexivity].
Qed.
Print Assumptions C103_ssa_refuted.
