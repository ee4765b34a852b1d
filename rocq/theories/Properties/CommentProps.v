(** C114: comments, notes and empty lines do not matter.  Statements only; proofs are in theories/Proofs. *)
From Coq Require Import ZArith List Bool Ascii String.
From Verif.Model Require Import Base Strings TimeModel Types Lines Subrip WebVtt Ssa StlText.
From Verif.Spec Require Import Outcome TextSpec LinesSpec WebVttSpec SsaSpec TextFileSpec JoinSpec CommentSpec.
From Verif.Proofs Require Import SsaTextProofs SubripUseProofs CommentProofs.
Import ListNotations.
Local Open Scope Z_scope.

(** C114 *)
Theorem C114_ssa : forall mark a c b, mark = lit ";" \/ mark = lit "Comment:" -> whole_lines a -> comments mark c ->
  ssa_reader_string (a ++ c ++ b) = ssa_reader_string (a ++ b).
Proof. exact ssa_comments. Qed.
Print Assumptions C114_ssa.
Theorem C114_text_stl : forall good a c b, whole_lines a -> comments (lit "//") c -> stl_text_read good (a ++ c ++ b) = stl_text_read good (a ++ b).
Proof. exact text_stl_comments. Qed.
Print Assumptions C114_text_stl.
Example C114_comments_case : comments (lit ";") (lit " ; no : colon [Events]" ++ [cr; lf] ++ [lf]) /\
  comments (lit "Comment:") (lit "Comment: 0,0:00:01.00" ++ [lf]) /\
  comments (lit "//") (lit "// a, b, c" ++ [lf]) /\ whole_lines (lit "[Events]" ++ [lf]).
Proof.
  split; [|split; [|split; [|right; now exists (lit "[Events]")]]].
  - exists [lit " ; no : colon [Events]" ++ [cr]; []]. split.
    + split; [|reflexivity]. repeat constructor; intros I; cbn in I; intuition discriminate.
    + constructor; [|constructor; [|constructor]].
      * exists (lit "; no : colon [Events]"). split; [apply trim_iff; vm_compute; reflexivity|]. right. now exists (lit " no : colon [Events]").
      * exists []. split; [apply trim_iff; reflexivity|now left].
  - exists [lit "Comment: 0,0:00:01.00"]. split; [split; [|reflexivity]; repeat constructor; intros I; cbn in I; intuition discriminate|].
    constructor; [|constructor]. eexists. split; [apply trim_iff; vm_compute; reflexivity|]. right. now exists (lit " 0,0:00:01.00").
  - exists [lit "// a, b, c"]. split; [split; [|reflexivity]; repeat constructor; intros I; cbn in I; intuition discriminate|].
    constructor; [|constructor]. eexists. split; [apply trim_iff; vm_compute; reflexivity|]. right. now exists (lit " a, b, c").
Qed.
Theorem C114_subrip : forall a c b r, ends_blank a -> blank_lines c ->
  (subrip_reader_string (a ++ c ++ b) = Ok r <-> subrip_reader_string (a ++ b) = Ok r).
Proof. exact subrip_blanks. Qed.
Print Assumptions C114_subrip.
Theorem C114_webvtt : forall a c b r, ends_blank a -> note_block c ->
  (vtt_reader_string (a ++ c ++ b) = Ok r <-> vtt_reader_string (a ++ b) = Ok r).
Proof. exact vtt_notes. Qed.
Print Assumptions C114_webvtt.
Example C114_blank_case : ends_blank (join [lf] [lit "1"; []; []]) /\ blank_lines [lf; cr; lf] /\
  note_block (join [lf] [lit "NOTE"; lit "00:00:01.000 --> 00:00:02.500"; []; []]).
Proof.
  split; [exists (lit "1"); now left|]. split.
  - exists [[]; [cr]]. split; [split; [|reflexivity]; repeat constructor; intros I; cbn in I; intuition discriminate|].
    constructor; [now left|constructor; [now right|constructor]].
  - assert (U : forall l c, ~ In lf (l ++ [c]) -> c <> cr -> ~ begins_with bom (l ++ [c]) -> cleaned (l ++ [c]) (l ++ [c])).
    { intros l c N1 N2 N3. apply cleaned_unchanged. split; [exact N1|]. split; [|exact N3]. intros (x & y & E & [->| ->]); apply app_inj_tail in E; destruct E as [-> ->]; [apply N1; rewrite in_app_iff; right; now left|congruence]. }
    exists [lit "NOTE"; lit "00:00:01.000 --> 00:00:02.500"; []], (lit "NOTE"), [lit "00:00:01.000 --> 00:00:02.500"].
    split; [split; [|reflexivity]; repeat constructor; intros I; cbn in I; intuition discriminate|]. split; [|split; [now exists []|repeat constructor; discriminate]].
    constructor; [apply (U (lit "NOT") "E"%char); [intros I; cbn in I; intuition discriminate|discriminate|intros (x & G); discriminate G]|].
    constructor; [apply (U (lit "00:00:01.000 --> 00:00:02.50") "0"%char); [intros I; cbn in I; intuition discriminate|discriminate|intros (x & G); discriminate G]|].
    constructor; [apply blank_cleaned; now left|constructor].
Qed.
