(** C124: SubRip files as WebVTT files.  Statements only; proofs are in theories/Proofs. *)
From Coq Require Import ZArith List Bool Ascii String.
From Verif.Model Require Import Base Strings TimeModel Types Lines Subrip WebVtt.
From Verif.Spec Require Import Outcome TextSpec LinesSpec RawSpec SubripSpec SubripUseSpec WebVttSpec TextFileSpec RetimeSpec SameCuesSpec.
From Verif.Proofs Require Import LinesProofs RetimeProofs SameCuesProofs.
Import ListNotations.
Local Open Scope Z_scope.
Local Notation length := List.length.

(** C124.  Cues of text without tags, right-to-left marks and empty rows give the same subtitles in both formats. *)
Theorem C124_same_partial : forall s s', webvtt_of s s' -> simple_cues s -> exists raws, subrip_reader_string s = Ok raws /\ vtt_reader_string s' = Ok raws.
Proof. exact same_cues. Qed.
Print Assumptions C124_same_partial.
(** With any text, a WebVTT file gives the rows of its cues as they are, without looking at them. *)
Theorem C124_as_is : forall s s', webvtt_of s s' -> exists cs rowss, file_cues s cs /\ Forall2 cue_rows cs rowss /\
  vtt_reader_string s' = Ok (List.concat (map (fun p => plain_rows (cue_from (fst p)) (cue_to (fst p)) 0 (snd p)) (combine cs rowss))).
Proof. exact vtt_as_is. Qed.
Print Assumptions C124_as_is.
Definition srt_of (text : list string) : list str :=
  [lit "1"; lit "00:00:01,000 --> 00:01:02,500"] ++ map lit text ++ [[]; lit "2"; lit "00:00:03,000 --> 00:00:04,000"; lit "Bye"].
Definition vtt_of (text : list string) : list str :=
  [lit "1"; lit "00:00:01.000 --> 00:01:02.500"] ++ map lit text ++ [[]; lit "2"; lit "00:00:03.000 --> 00:00:04.000"; lit "Bye"].
Example two_cues text : Forall text_line (map lit text) -> webvtt_of (text_of_lines (srt_of text)) (text_of_lines (lit "WEBVTT" :: [] :: vtt_of text)).
Proof.
  intros T. exists (srt_of text), (vtt_of text).
  assert (TM : forall l f t, ~ In lf l -> WebVttProofs.treads ","%char (clean_line l) = Ok (inr (f, t)) -> times_line ","%char l f t) by exact times_comma.
  assert (CO : forall c : ascii, (c = "1"%char \/ c = "2"%char) -> text_line [c] /\ other_line [c]).
  { intros c [-> | ->]; (split; [apply text_of; [intros I; cbn in I; intuition discriminate|vm_compute; discriminate]|]; split; [intros I; cbn in I; intuition discriminate|]; eexists;
      split; [apply clean_line_iff; vm_compute; reflexivity|]; split; [intros (r & E); discriminate E|intros ([|? [|? x]] & y & E); discriminate E]). }
  split.
  - apply text_lines_text. unfold srt_of. rewrite !Forall_app. split; [repeat constructor; intros I; cbn in I; intuition discriminate|].
    split; [eapply Forall_impl; [|exact T]; intros l [N _]; exact N|repeat constructor; intros I; cbn in I; intuition discriminate].
  - split; [|reflexivity]. destruct (CO "1"%char (or_introl eq_refl)) as [A1 A2]. destruct (CO "2"%char (or_intror eq_refl)) as [B1 B2].
    eapply (as_cue (lit "1") (lit "00:00:01,000 --> 00:01:02,500") _ _ (map lit text) [[]; lit "2"; lit "00:00:03,000 --> 00:00:04,000"; lit "Bye"]); auto.
    + apply TM; [intros I; cbn in I; intuition discriminate|vm_compute; reflexivity].
    + eexists. split; [apply clean_line_iff; vm_compute; reflexivity|]. now exists (lit "00:00:01,000 "), (lit " 00:01:02,500").
    + right. exists [], [lit "2"; lit "00:00:03,000 --> 00:00:04,000"; lit "Bye"]. split; [reflexivity|exact cleaned_nothing].
    + apply as_blank; [exact cleaned_nothing|].
      eapply (as_cue (lit "2") (lit "00:00:03,000 --> 00:00:04,000") _ _ [lit "Bye"] [] []); auto; [| | |now left|constructor].
      * apply TM; [intros I; cbn in I; intuition discriminate|vm_compute; reflexivity].
      * eexists. split; [apply clean_line_iff; vm_compute; reflexivity|]. now exists (lit "00:00:03,000 "), (lit " 00:00:04,000").
      * constructor; [|constructor]. apply text_of; [intros I; cbn in I; intuition discriminate|vm_compute; discriminate].
Qed.
Example C124_same_case : let s := text_of_lines (srt_of ["Hello"; "you --> there"]%string) in let s' := text_of_lines (lit "WEBVTT" :: [] :: vtt_of ["Hello"; "you --> there"]%string) in
  webvtt_of s s' /\ simple_cues s /\ exists x y z, vtt_reader_string s' = Ok [x; y; z] /\ r_text y = lit "you --> there" /\ r_from z = mkT 3 0 (Some (mkR 1000 1)).
Proof.
  split; [|split].
  - apply two_cues. repeat constructor; (apply text_of; [intros I; cbn in I; intuition discriminate|vm_compute; discriminate]).
  - apply simple_of; vm_compute; intuition discriminate.
  - do 3 eexists. split; [vm_compute; reflexivity|]. split; reflexivity.
Qed.
(** Italics, which both formats write in the same way, are only for SubRip files; a WebVTT file shows the tags. *)
Theorem C124_refuted : exists s s' x y z x' z', webvtt_of s s' /\ subrip_reader_string s = Ok [x; y; z] /\ vtt_reader_string s' = Ok [x'; z'] /\
  r_text y = lit "world" /\ r_italic y = true /\ r_text x' = lit "Hello <i>world</i>" /\ r_italic x' = false.
Proof.
  exists (text_of_lines (srt_of ["Hello <i>world</i>"%string])), (text_of_lines (lit "WEBVTT" :: [] :: vtt_of ["Hello <i>world</i>"%string])). do 5 eexists.
  split; [apply two_cues; repeat constructor; (apply text_of; [intros I; cbn in I; intuition discriminate|vm_compute; discriminate])|].
  split; [vm_compute; reflexivity|]. split; [vm_compute; reflexivity|]. repeat split.
Qed.
Print Assumptions C124_refuted.
