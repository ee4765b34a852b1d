(** C113: files put one behind the other.  Statements only; proofs are in theories/Proofs. *)
From Coq Require Import ZArith List Bool Ascii String.
From Verif.Model Require Import Base Strings TimeModel Types Lines Subrip WebVtt.
From Verif.Spec Require Import Outcome TextSpec LinesSpec WebVttSpec JoinSpec.
From Verif.Proofs Require Import LinesProofs JoinProofs FileUseProofs.
Import ListNotations.
Local Open Scope Z_scope.

(** C113 *)
Theorem C113_subrip : forall a b r, ends_blank a ->
  (subrip_reader_string (a ++ b) = Ok r <-> exists ra rb, subrip_reader_string a = Ok ra /\ subrip_reader_string b = Ok rb /\ r = ra ++ rb).
Proof. exact subrip_joined. Qed.
Print Assumptions C113_subrip.
Definition srt_example : str := join [lf] [lit "1"; lit "00:00:01,000 --> 00:00:02,500"; lit "Hello <i>world"; []; []].
Example C113_subrip_case : ends_blank srt_example /\ exists x y, subrip_reader_string srt_example = Ok [x; y] /\
  subrip_reader_string (srt_example ++ srt_example) = Ok [x; y; x; y].
Proof.
  split; [exists (join [lf] [lit "1"; lit "00:00:01,000 --> 00:00:02,500"; lit "Hello <i>world"]); now left|].
  do 2 eexists. split; vm_compute; reflexivity.
Qed.
Theorem C113_webvtt : forall a b r, ends_blank a -> headed b ->
  (vtt_reader_string (a ++ b) = Ok r <-> exists ra rb, vtt_reader_string a = Ok ra /\ vtt_reader_string b = Ok rb /\ r = ra ++ rb).
Proof. exact vtt_joined. Qed.
Print Assumptions C113_webvtt.
(** The same of files, which are read a buffer at a time. *)
Theorem C113_subrip_file : forall a b r, ends_blank a ->
  (subrip_reader_file (a ++ b) = Ok r <-> exists ra rb, subrip_reader_file a = Ok ra /\ subrip_reader_file b = Ok rb /\ r = ra ++ rb).
Proof. exact subrip_file_joined. Qed.
Print Assumptions C113_subrip_file.
Theorem C113_webvtt_file : forall a b r, ends_blank a -> headed b ->
  (vtt_reader_file (a ++ b) = Ok r <-> exists ra rb, vtt_reader_file a = Ok ra /\ vtt_reader_file b = Ok rb /\ r = ra ++ rb).
Proof. exact vtt_file_joined. Qed.
Print Assumptions C113_webvtt_file.
Example C113_file_case : exists x y, subrip_reader_file srt_example = Ok [x; y] /\ subrip_reader_file (srt_example ++ srt_example) = Ok [x; y; x; y].
Proof. do 2 eexists. split; vm_compute; reflexivity. Qed.
Definition vtt_example : str := join [lf] [lit "WEBVTT - title"; []; lit "00:00:01.000 --> 00:00:02.500"; lit "Hello"; []; []].
Example C113_webvtt_case : ends_blank vtt_example /\ headed vtt_example /\ exists x, vtt_reader_string vtt_example = Ok [x].
Proof.
  split; [exists (join [lf] [lit "WEBVTT - title"; []; lit "00:00:01.000 --> 00:00:02.500"; lit "Hello"]); now left|]. split.
  - exists (lit "WEBVTT - title"). eexists. exists (lit "WEBVTT - title"). split; [apply lines_of_string_iff; vm_compute; reflexivity|].
    split; [exists (lit "WEBVTT - title"), []; split; [reflexivity|]; split; [constructor|]; split;
      [intros (x & c & G & L); change (lit "WEBVTT - title") with (lit "WEBVTT - titl" ++ ["e"%char]) in G; apply app_inj_tail in G as [_ <-]; destruct L; discriminate|
       right; split; [|reflexivity]; intros (x & G); discriminate G]|].
    split; [now exists (lit " - title")|]. intros (x & y & G). apply (f_equal (existsb (fun c => Ascii.eqb c ">"%char))) in G.
    rewrite !existsb_app in G. cbn in G. rewrite orb_true_r in G. discriminate G.
  - eexists. vm_compute. reflexivity.
Qed.
