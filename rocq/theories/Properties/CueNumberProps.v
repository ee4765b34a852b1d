(** C130, C131: the numbers and names of subtitles, and user data.  Statements only; proofs are in theories/Proofs. *)
From Coq Require Import ZArith List Bool Ascii String.
From Verif.Model Require Import Base Strings TimeModel Types Lines Subrip WebVtt Ssa StlBinReader.
From Verif.Spec Require Import SubripUseSpec Outcome TextSpec LinesSpec RawSpec WebVttSpec SsaSpec Iso6937Spec StlFileSpec StlSamples TextFileSpec JoinSpec CommentSpec TakeOutSpec RetimeSpec CueNumberSpec.
From Verif.Proofs Require Import LinesProofs SsaTextProofs SsaProofs WebVttProofs StlReadProofs RetimeProofs CueNumberProofs.
Import ListNotations.
Local Open Scope Z_scope.
Local Notation length := List.length.

(** C130.  SubRip: the line with the number of a cue can be any other that is not empty. *)
Theorem C130_subrip : forall a counter counter' b, a = [] \/ ends_blank a -> text_line counter -> text_line counter' ->
  same_but_shown (subrip_reader_string (a ++ counter ++ [lf] ++ b)) (subrip_reader_string (a ++ counter' ++ [lf] ++ b)).
Proof. exact subrip_number. Qed.
Print Assumptions C130_subrip.
Definition numbered_srt (n : string) : str := lit n ++ [lf] ++ join [lf] [lit "00:00:01,000 --> 00:00:02,000"; lit "Hello"; []; []].
Definition wrong_srt (n : string) : str := lit n ++ [lf] ++ join [lf] [lit "00:00:01,000 -> 00:00"; lit "Hello"; []; []].
Example C130_subrip_case : ends_blank (numbered_srt "1") /\ text_line (lit "2") /\ text_line (lit "Mary: 3") /\
  (exists x y, subrip_reader_string (numbered_srt "1" ++ numbered_srt "2") = Ok [x; y] /\ subrip_reader_string (numbered_srt "1" ++ numbered_srt "Mary: 3") = Ok [x; y]) /\
  exists c c', subrip_reader_string (numbered_srt "1" ++ wrong_srt "2") = Throw (ESubrip 6 (lit "00:00") (lit "time in the format h:m:s,ms") c) /\
    subrip_reader_string (numbered_srt "1" ++ wrong_srt "x") = Throw (ESubrip 6 (lit "00:00") (lit "time in the format h:m:s,ms") c') /\ c <> c'.
Proof.
  split; [exists (lit "1" ++ [lf] ++ join [lf] [lit "00:00:01,000 --> 00:00:02,000"; lit "Hello"]); left; reflexivity|].
  split; [apply text_of; [intros I; cbn in I; intuition discriminate|discriminate]|]. split; [apply text_of; [intros I; cbn in I; intuition discriminate|discriminate]|].
  split; [do 2 eexists; split; vm_compute; reflexivity|]. do 2 eexists. split; [vm_compute; reflexivity|]. split; [vm_compute; reflexivity|discriminate].
Qed.

(** WebVTT: a cue can have any names, or none. *)
Theorem C130_webvtt : forall a names names' b, ends_blank a -> Forall other_line names -> Forall other_line names' ->
  same_but_shown (vtt_reader_string (a ++ text_of_lines names ++ b)) (vtt_reader_string (a ++ text_of_lines names' ++ b)).
Proof. exact vtt_names. Qed.
Print Assumptions C130_webvtt.
Definition vtt_head : str := join [lf] [lit "WEBVTT"; []; []].
Definition vtt_rest : str := join [lf] [lit "00:00:01.000 --> 00:00:02.000"; lit "Hello"; lit "again"; []].
Example C130_webvtt_case : ends_blank vtt_head /\ Forall other_line [lit "intro"] /\ Forall other_line [lit "7"] /\
  exists x y, vtt_reader_string (vtt_head ++ text_of_lines [lit "intro"] ++ vtt_rest) = Ok [x; y] /\ vtt_reader_string (vtt_head ++ text_of_lines [lit "7"] ++ vtt_rest) = Ok [x; y] /\
    vtt_reader_string (vtt_head ++ text_of_lines [] ++ vtt_rest) = Ok [x; y].
Proof.
  assert (O : forall l, ~ In lf l -> ~ is_note (clean_line l) -> is_some (find_sub (clean_line l) (lit "-->")) = false -> other_line l).
  { intros l N A B. split; [exact N|]. exists (clean_line l). split; [now apply clean_line_iff|]. split; [exact A|]. intros H. apply arrow_iff in H. congruence. }
  split; [exists (lit "WEBVTT"); now left|].
  split; [constructor; [|constructor]; apply O; [intros I; cbn in I; intuition discriminate|intros (r & E); discriminate E|reflexivity]|].
  split; [constructor; [|constructor]; apply O; [intros I; cbn in I; intuition discriminate|intros (r & E); discriminate E|reflexivity]|].
  do 2 eexists. split; [vm_compute; reflexivity|]. split; vm_compute; reflexivity.
Qed.

(** SSA: the layer, the speaker and so on. *)
Theorem C130_ssa : forall ks vs vs' a c c' b, events_so_far ks a -> other_values ks vs vs' -> dialogue_with vs c -> dialogue_with vs' c' ->
  ssa_reader_string (a ++ c ++ b) = ssa_reader_string (a ++ c' ++ b).
Proof. exact ssa_names. Qed.
Print Assumptions C130_ssa.
Definition ssa_head : str := lit "[Events]" ++ [lf] ++ lit "Format: Layer, Start, End, Name, Text" ++ [lf].
Definition said (layer name : string) : str := (lit "Dialogue: " ++ lit layer ++ lit ",0:00:01.00,0:00:02.50," ++ lit name ++ lit ",Hello, you") ++ [lf].
Example C130_ssa_case : events_so_far [lit "Layer"; lit "Start"; lit "End"; lit "Name"; lit "Text"] ssa_head /\
  other_values [lit "Layer"; lit "Start"; lit "End"; lit "Name"; lit "Text"]
    [lit "0"; lit "0:00:01.00"; lit "0:00:02.50"; lit "Mary"; lit "Hello, you"] [lit "-1"; lit "0:00:01.00"; lit "0:00:02.50"; []; lit "Hello, you"] /\
  dialogue_with [lit "0"; lit "0:00:01.00"; lit "0:00:02.50"; lit "Mary"; lit "Hello, you"] (said "0" "Mary") /\
  exists x, ssa_reader_string (ssa_head ++ said "0" "Mary") = Ok [x] /\ ssa_reader_string (ssa_head ++ said "-1" "") = Ok [x].
Proof.
  split; [|split; [|split]].
  - exists [], (lit "Format: Layer, Start, End, Name, Text"), (lit "Format: Layer, Start, End, Name, Text"), (lit "Layer, Start, End, Name, Text"), [lit "Layer"; lit " Start"; lit " End"; lit " Name"; lit " Text"], [].
    split; [reflexivity|]. split; [now left|]. split; [intros I; cbn in I; intuition discriminate|].
    split; [eexists; split; [apply trim_iff; vm_compute; reflexivity|]; right; split; [intros (r & E); discriminate E|reflexivity]|].
    split; [exists (lit " Layer, Start, End, Name, Text"); split; [reflexivity|]; split; [intros I; cbn in I; intuition discriminate|apply trim_iff; vm_compute; reflexivity]|].
    split; [|split; [repeat constructor; apply trim_iff; vm_compute; reflexivity|exists []; split; [split; [constructor|reflexivity]|constructor]]].
    apply parts_iff. vm_compute. reflexivity.
  - apply other_more; [right; intros I; cbn in I; intuition discriminate|]. apply other_more; [now left|]. apply other_more; [now left|].
    apply other_more; [right; intros I; cbn in I; intuition discriminate|]. apply other_more; [now left|]. apply other_none.
  - exists (lit "Dialogue: 0,0:00:01.00,0:00:02.50,Mary,Hello, you"). eexists. split; [reflexivity|]. split; [intros I; cbn in I; intuition discriminate|].
    split; [apply trim_iff; vm_compute; reflexivity|]. eexists. split; [apply trim_iff; vm_compute; reflexivity|]. split; [reflexivity|]. split; [reflexivity|].
    repeat constructor; intros I; cbn in I; intuition discriminate.
  - eexists. split; vm_compute; reflexivity.
Qed.

(** From files, with number lines and names that fit the buffer. *)
Theorem C130_subrip_file : forall a counter counter' b, a = [] \/ ends_blank a -> text_line counter -> short_line counter -> text_line counter' -> short_line counter' ->
  same_but_shown (subrip_reader_file (a ++ counter ++ [lf] ++ b)) (subrip_reader_file (a ++ counter' ++ [lf] ++ b)).
Proof. exact subrip_number_file. Qed.
Print Assumptions C130_subrip_file.
Theorem C130_webvtt_file : forall a names names' b, ends_blank a -> Forall other_line names -> Forall short_line names -> Forall other_line names' -> Forall short_line names' ->
  same_but_shown (vtt_reader_file (a ++ text_of_lines names ++ b)) (vtt_reader_file (a ++ text_of_lines names' ++ b)).
Proof. exact vtt_names_file. Qed.
Print Assumptions C130_webvtt_file.
Theorem C130_ssa_file : forall ks vs vs' a c c' b, events_so_far ks a -> other_values ks vs vs' -> dialogue_with vs c -> dialogue_with vs' c' ->
  short_lines (a ++ c ++ b) -> short_lines (a ++ c' ++ b) -> ssa_reader_file (a ++ c ++ b) = ssa_reader_file (a ++ c' ++ b).
Proof. exact ssa_names_file. Qed.
Print Assumptions C130_ssa_file.
(** With the cases above, and these. *)
Example C130_file_case : short_line (lit "Mary: 3") /\ short_line (repeat "7"%char 254) /\ short_lines (ssa_head ++ said "0" "Mary" ++ []) /\ short_lines (ssa_head ++ said "-1" "" ++ []) /\
  exists x y, subrip_reader_file (numbered_srt "1" ++ repeat "7"%char 254 ++ skipn 1 (numbered_srt "2")) = Ok [x; y] /\
    subrip_reader_file (numbered_srt "1" ++ numbered_srt "2") = Ok [x; y].
Proof.
  assert (S : forall s, forallb (fun c => negb (Ascii.eqb c (ascii_of_nat 0))) s = true -> forallb (fun l => Nat.leb (length l) 254) (lines_of_string s) = true -> short_lines s).
  { intros s N L. rewrite forallb_forall in N, L. split; [intros I; specialize (N _ I); now rewrite Ascii.eqb_refl in N|].
    exists (lines_of_string s). split; [now apply lines_of_string_iff|]. apply Forall_forall. intros l I. apply Nat.leb_le. now apply L. }
  assert (T : forall l, Nat.leb (length l) 254 = true -> forallb (fun c => negb (Ascii.eqb c (ascii_of_nat 0))) l = true -> short_line l).
  { intros l L N. rewrite forallb_forall in N. split; [now apply Nat.leb_le|]. intros I. specialize (N _ I). now rewrite Ascii.eqb_refl in N. }
  split; [now apply T|]. split; [now apply T|]. split; [now apply S|]. split; [now apply S|].
  do 2 eexists. split; vm_compute; reflexivity.
Qed.

(** Binary STL: the numbers of groups and of subtitles, in every block of a file. *)
Theorem C130_binary_stl : forall h h' head blocks blocks' rest, length head = 1024%nat -> Forall2 renumbered blocks blocks' ->
  snd (stl_binary_read (head ++ List.concat blocks ++ rest) (after h)) = snd (stl_binary_read (head ++ List.concat blocks' ++ rest) (after h')).
Proof. exact stl_numbers. Qed.
Print Assumptions C130_binary_stl.
Definition stl_numbered (group low high extension : Z) : str :=
  map byte ([group; low; high; extension; 0; 0; 0; 1; 0; 0; 0; 2; 10; 3; 2; 0] ++ sample_text ++ repeat 0x8F 103).
Example C130_binary_stl_case : length (sample_header "00002" "23") = 1024%nat /\
  Forall2 renumbered [stl_numbered 0 1 0 255; stl_numbered 0 2 0 255] [stl_numbered 7 200 1 255; stl_numbered 0 0 0 255] /\
  exists g subs, snd (stl_binary_read (sample_header "00002" "23" ++ List.concat [stl_numbered 0 1 0 255; stl_numbered 0 2 0 255]) (after [])) = Ok (g, subs) /\ In (lit "you") (map r_text subs).
Proof.
  split; [reflexivity|]. split; [|do 2 eexists; split; [vm_compute; reflexivity|cbn; auto 10]].
  repeat constructor; do 3 eexists; (split; [apply (f_equal2 (@app ascii) (x1 := map byte [_; _; _])); reflexivity|]); (split; [apply (f_equal2 (@app ascii) (x1 := map byte [_; _; _])); reflexivity|]); now repeat split.
Qed.

(** C131.  A block of user data is read as a subtitle. *)
Theorem C131_refuted : exists head b g subs, user_data b /\ snd (stl_binary_read (head ++ b) (after [])) = Ok (g, subs) /\ In (lit "Hi") (map r_text subs).
Proof. exact user_data_shown. Qed.
Print Assumptions C131_refuted.
(** What happens: the extension block number is never looked at. *)
Theorem C131_as_is : forall h h' head blocks blocks' rest, length head = 1024%nat -> Forall2 other_extension blocks blocks' ->
  snd (stl_binary_read (head ++ List.concat blocks ++ rest) (after h)) = snd (stl_binary_read (head ++ List.concat blocks' ++ rest) (after h')).
Proof. exact stl_extensions. Qed.
Print Assumptions C131_as_is.
Example C131_case : length (sample_header "00001" "23") = 1024%nat /\ Forall2 other_extension [stl_numbered 0 1 0 255] [stl_numbered 0 1 0 254] /\ user_data (stl_numbered 0 1 0 254).
Proof.
  split; [reflexivity|]. split; [|split; reflexivity]. constructor; [|constructor]. exists (map byte [0; 1; 0]), (byte 255), (byte 254). eexists.
  split; [reflexivity|]. split; [reflexivity|]. split; reflexivity.
Qed.
