(** C40, C73, C77, C100-C102: text files with more at the end, with other line ends, and with a byte order mark.  Statements only; proofs are
    in theories/Proofs. *)
From Coq Require Import ZArith Lia List Ascii String.
From Verif.Model Require Import Base Strings Types Subrip WebVtt Ssa StlText.
From Verif.Spec Require Import Outcome TextSpec LinesSpec StlFileSpec SubripUseSpec SsaSpec StlTextSpec TextFileSpec.
From Verif.Proofs Require Import TextFileProofs FileEndsProofs BomProofs.
Import ListNotations.
Local Open Scope Z_scope.
Local Notation length := List.length.

(** C100.  [a] is empty or ends in a newline; [b] is anything.  If [a] followed by [b] can be read, so can [a], and gives the
    first of its subtitles. *)
Theorem C100_subrip : forall a b, whole_lines a -> goes_on (subrip_reader_string a) (subrip_reader_string (a ++ b)).
Proof. exact subrip_more. Qed.
Print Assumptions C100_subrip.
Theorem C100_subrip_file : forall a b, whole_lines a -> goes_on (subrip_reader_file a) (subrip_reader_file (a ++ b)).
Proof. exact subrip_file_more. Qed.
Print Assumptions C100_subrip_file.
Theorem C100_webvtt : forall a b, whole_lines a -> goes_on (vtt_reader_string a) (vtt_reader_string (a ++ b)).
Proof. exact vtt_more. Qed.
Print Assumptions C100_webvtt.
Theorem C100_webvtt_file : forall a b, whole_lines a -> goes_on (vtt_reader_file a) (vtt_reader_file (a ++ b)).
Proof. exact vtt_file_more. Qed.
Print Assumptions C100_webvtt_file.
Theorem C100_ssa : forall a b, whole_lines a -> goes_on (ssa_reader_string a) (ssa_reader_string (a ++ b)).
Proof. exact ssa_more. Qed.
Print Assumptions C100_ssa.
Theorem C100_ssa_file : forall a b, whole_lines a -> goes_on (ssa_reader_file a) (ssa_reader_file (a ++ b)).
Proof. exact ssa_file_more. Qed.
Print Assumptions C100_ssa_file.
(** The text STL reader takes no notice of a line that is not finished, so [a] can be anything. *)
Theorem C100_text_stl : forall good a b, goes_on (stl_text_read good a) (stl_text_read good (a ++ b)).
Proof. exact stlt_more. Qed.
Print Assumptions C100_text_stl.
(** A file that is cut after the first line of text of a subtitle: the rest of that subtitle follows. *)
Example C100_case : whole_lines begun /\ exists x y z, subrip_reader_string begun = Ok [x] /\ subrip_reader_string (begun ++ ended) = Ok [x; y; z] /\
  map r_text [x; y; z] = [lit "Hello"; lit "world"; lit "again"].
Proof. split; [right; exists (removelast begun); vm_compute; reflexivity|]. do 3 eexists. repeat (split; [vm_compute; reflexivity|]); vm_compute; reflexivity. Qed.
(** In the middle of a line the file cannot be cut: part of a time is another time or none. *)
Example C100_case_inside : exists a b, ~ goes_on (subrip_reader_string a) (subrip_reader_string (a ++ b)).
Proof.
  exists (firstn 8 begun), (skipn 8 begun). intros G. destruct (G (match subrip_reader_string begun with Ok l => l | _ => [] end)) as (first & more & F & _); [vm_compute; reflexivity|].
  vm_compute in F. discriminate.
Qed.

(** C101.  [s'] is [s] with a carriage return before some or all of its newlines (see [dos]). *)
Theorem C101_subrip : forall s s', other_ends s s' -> same_outcome (subrip_reader_string s) (subrip_reader_string s').
Proof. exact subrip_ends. Qed.
Print Assumptions C101_subrip.
Theorem C101_webvtt : forall s s', other_ends s s' -> same_outcome (vtt_reader_string s) (vtt_reader_string s').
Proof. exact vtt_ends. Qed.
Print Assumptions C101_webvtt.
Theorem C101_ssa : forall s s', other_ends s s' -> ssa_reader_string s = ssa_reader_string s'.
Proof. exact ssa_ends. Qed.
Print Assumptions C101_ssa.
Theorem C101_text_stl : forall good s s', other_ends s s' -> stl_text_read good s = stl_text_read good s'.
Proof. exact stlt_ends. Qed.
Print Assumptions C101_text_stl.
(** Files, unless a line of 254 bytes, or 255 more, or 510 more and so on, has got a carriage return: the newline then comes into
    the next buffer.  Lines may be longer than the buffer (C40), and may have NULs. *)
Theorem C101_subrip_file_partial : forall s s', fitting_ends s s' -> same_outcome (subrip_reader_file s') (subrip_reader_file s).
Proof. intros s s'. exact (subrip_file_any_ends s s' s). Qed.
Print Assumptions C101_subrip_file_partial.
Theorem C101_webvtt_file_partial : forall s s', fitting_ends s s' -> same_outcome (vtt_reader_file s') (vtt_reader_file s).
Proof. intros s s'. exact (vtt_file_any_ends s s' s). Qed.
Print Assumptions C101_webvtt_file_partial.
Theorem C101_ssa_file_partial : forall s s', fitting_ends s s' -> ssa_reader_file s' = ssa_reader_file s.
Proof. intros s s'. exact (ssa_file_any_ends s s' s). Qed.
Print Assumptions C101_ssa_file_partial.
(** Where one has, it is as if there were an empty line after it. *)
Theorem C101_subrip_file_as_is : forall s s' t, ends_in_file s s' t -> same_outcome (subrip_reader_file s') (subrip_reader_file t).
Proof. exact subrip_file_any_ends. Qed.
Print Assumptions C101_subrip_file_as_is.
Theorem C101_webvtt_file_as_is : forall s s' t, ends_in_file s s' t -> same_outcome (vtt_reader_file s') (vtt_reader_file t).
Proof. exact vtt_file_any_ends. Qed.
Print Assumptions C101_webvtt_file_as_is.
Theorem C101_ssa_file_as_is : forall s s' t, ends_in_file s s' t -> ssa_reader_file s' = ssa_reader_file t.
Proof. exact ssa_file_any_ends. Qed.
Print Assumptions C101_ssa_file_as_is.
(** That is all there is. *)
Theorem C101_file_all : forall s s', other_ends s s' -> exists t, ends_in_file s s' t.
Proof. exact ends_exist. Qed.
Print Assumptions C101_file_all.
Example C101_file_case : fitting_ends (repeat "x"%char 300 ++ lf :: lit "y") (repeat "x"%char 300 ++ cr :: lf :: lit "y") /\
  ends_in_file (repeat "x"%char 254 ++ lf :: lit "y") (repeat "x"%char 254 ++ cr :: lf :: lit "y") (repeat "x"%char 254 ++ lf :: lf :: lit "y").
Proof.
  assert (X : forall n, ~ In lf (repeat "x"%char n)) by (intros n I; apply repeat_spec in I; discriminate).
  assert (Y : ~ In lf (lit "y")) by (intros [I|[]]; discriminate).
  split; [apply file_ends_added|apply file_ends_split]; try apply X; try (now apply file_ends_last); rewrite repeat_length; [discriminate|reflexivity].
Qed.
Example C101_case : forall s, other_ends s (dos s).
Proof. exact dos_other. Qed.
Example C101_case_dos : dos (lit "1" ++ [lf] ++ lit "00:00") = lit "1" ++ [cr; lf] ++ lit "00:00".
Proof. reflexivity. Qed.
(** A line of 254 bytes in a file: the newline that no longer fits is taken for an empty line, which ends the subtitle. *)
Theorem C101_file_refuted : exists s x y z, subrip_reader_file s = Ok [x; y] /\ subrip_reader_file (dos s) = Ok [z] /\
  r_text x = repeat "x"%char 254 /\ r_text y = lit "world" /\ r_text z = r_text x.
Proof.
  exists (join [lf] [lit "1"; lit "00:00:01,000 --> 00:00:02,500"; repeat "x"%char 254; lit "world"; []]).
  do 3 eexists. repeat (split; [vm_compute; reflexivity|]); vm_compute; reflexivity.
Qed.
Print Assumptions C101_file_refuted.

(** C102.  A byte order mark before a text that has none. *)
Theorem C102_subrip : forall s, ~ begins_with bom s -> same_outcome (subrip_reader_string (bom ++ s)) (subrip_reader_string s).
Proof. exact subrip_bom. Qed.
Print Assumptions C102_subrip.
(** A text with nothing but the mark is one with a line that is not the header. *)
Theorem C102_webvtt : forall s, s <> [] -> ~ begins_with bom s -> same_outcome (vtt_reader_string (bom ++ s)) (vtt_reader_string s).
Proof. exact vtt_bom. Qed.
Print Assumptions C102_webvtt.
(** If the text does not begin with white space. *)
Theorem C102_ssa_partial : forall s, (forall c r, s = c :: r -> ~ white c) -> ~ begins_with bom s -> ssa_reader_string (bom ++ s) = ssa_reader_string s.
Proof. exact ssa_bom. Qed.
Print Assumptions C102_ssa_partial.
Example C102_case : ~ begins_with bom begun /\ begun <> [] /\ (forall c r, begun = c :: r -> ~ white c) /\
  exists x, subrip_reader_string (bom ++ begun) = Ok [x] /\ r_text x = lit "Hello".
Proof.
  split; [intros [r E]; vm_compute in E; discriminate|]. split; [discriminate|]. split.
  - intros c r E. vm_compute in E. injection E as <- _. unfold white. vm_compute. intuition discriminate.
  - eexists. split; vm_compute; reflexivity.
Qed.
(** White space after the mark is not trimmed: the title of a section is not recognised. *)
Theorem C102_ssa_refuted : exists s x, ssa_reader_string s = Ok [x] /\ throws (ssa_reader_string (bom ++ s)).
Proof.
  exists (lit " [Events]" ++ lf :: lit "Format: Start, End, Text" ++ lf :: lit "Dialogue: 0:00:01.00,0:00:02.00,Hello" ++ [lf]).
  eexists. split; [vm_compute; reflexivity|]. eexists. vm_compute. reflexivity.
Qed.
Print Assumptions C102_ssa_refuted.
(** A first line of nothing but white space does no harm; any other one that begins with white space is as if it were not there if it has a
    colon, and otherwise the file cannot be read. *)
Theorem C102_ssa_blank : forall l rest, ~ In lf l -> Forall white l ->
  ssa_reader_string (bom ++ l ++ lf :: rest) = ssa_reader_string (l ++ lf :: rest).
Proof. exact ssa_bom_blank. Qed.
Print Assumptions C102_ssa_blank.
Theorem C102_ssa_as_is : forall l rest, ~ In lf l -> begins white l -> ~ Forall white l ->
  (In ":"%char l -> ssa_reader_string (bom ++ l ++ lf :: rest) = ssa_reader_string rest) /\
  (~ In ":"%char l -> ssa_reader_string (bom ++ l ++ lf :: rest) = Throw EProgramming).
Proof. exact ssa_bom_white. Qed.
Print Assumptions C102_ssa_as_is.
Example C102_ssa_as_is_case : ~ In lf (lit " PlayResX: 1920") /\ begins white (lit " PlayResX: 1920") /\ ~ Forall white (lit " PlayResX: 1920") /\
  In ":"%char (lit " PlayResX: 1920").
Proof.
  split; [vm_compute; intuition discriminate|]. split; [vm_compute; tauto|]. split; [|vm_compute; tauto].
  intros F. inversion F as [|? ? _ F1]; subst. inversion F1 as [|? ? W _]; subst. vm_compute in W. intuition discriminate.
Qed.
(** The text STL reader does not know the mark: it cannot read the file, or takes no notice of a setting. *)
Theorem C102_text_stl_refuted : exists s x, stl_text_read true s = Ok [x] /\ throws (stl_text_read true (bom ++ s)).
Proof.
  exists (lit "00:00:01:00 , 00:00:02:00 , Hello" ++ [lf]). eexists. split; [vm_compute; reflexivity|]. eexists. vm_compute. reflexivity.
Qed.
Print Assumptions C102_text_stl_refuted.
Theorem C102_text_stl_setting_refuted : exists s x y, stl_text_read true s = Ok [x] /\ stl_text_read true (bom ++ s) = Ok [y] /\
  r_bold x = true /\ r_bold y = false.
Proof.
  exists (lit "$Bold = True" ++ lf :: lit "00:00:01:00 , 00:00:02:00 , Hello" ++ [lf]). do 2 eexists. repeat (split; [vm_compute; reflexivity|]); vm_compute; reflexivity.
Qed.
Print Assumptions C102_text_stl_setting_refuted.
(** The first line is lost: if the file can be read it is as if that line were not there.  It can be read if there are not two commas in the line,
    and it cannot if the line is a subtitle. *)
Theorem C102_text_stl_as_is : forall l rest raws, ~ In lf l -> stl_text_read true (bom ++ l ++ lf :: rest) = Ok raws -> stl_text_read true rest = Ok raws.
Proof. exact stlt_bom_hides. Qed.
Print Assumptions C102_text_stl_as_is.
Theorem C102_text_stl_lost : forall l rest, ~ In lf l -> (forall a b c, l <> a ++ comma :: b ++ comma :: c) ->
  stl_text_read true (bom ++ l ++ lf :: rest) = stl_text_read true rest.
Proof. exact stlt_bom_no_fields. Qed.
Print Assumptions C102_text_stl_lost.
Theorem C102_text_stl_throws : forall l l' start finish text from rest, ~ In lf l -> trimmed l l' -> subtitle_line l' start finish text ->
  frame_time start from -> stl_text_read true (bom ++ l ++ lf :: rest) = Throw EBadLexicalCast.
Proof. exact stlt_bom_stops. Qed.
Print Assumptions C102_text_stl_throws.
Example C102_text_stl_lost_case : ~ In lf (lit "$Bold = True") /\ (forall a b c, lit "$Bold = True" <> a ++ comma :: b ++ comma :: c) /\
  stl_text_read true (lit "$Bold = True" ++ lf :: lit "00:00:01:00 , 00:00:02:00 , Hello" ++ [lf]) <> stl_text_read true (lit "00:00:01:00 , 00:00:02:00 , Hello" ++ [lf]).
Proof.
  split; [vm_compute; intuition discriminate|]. split.
  - intros a b c E. assert (I : In comma (lit "$Bold = True")) by (rewrite E; apply in_or_app; right; now left). vm_compute in I. intuition discriminate.
  - vm_compute. discriminate.
Qed.
Example C102_text_stl_throws_case : exists start finish text from, subtitle_line (lit "00:00:01:00 , 00:00:02:00 , Hello") start finish text /\ frame_time start from.
Proof. exact subtitle_line_exists. Qed.

(** C40, C73, C77.  Any file is read like a text: that of its buffers, each cut at the first NUL. *)
Theorem C40_as_is : forall s, exists bs ls, buffers s bs /\ Forall2 buffer_line bs ls /\
  same_outcome (subrip_reader_file s) (subrip_reader_string (text_of_lines ls)).
Proof. exact subrip_any_file. Qed.
Print Assumptions C40_as_is.
Theorem C73_as_is : forall s, exists bs ls, buffers s bs /\ Forall2 buffer_line bs ls /\
  same_outcome (vtt_reader_file s) (vtt_reader_string (text_of_lines ls)).
Proof. exact vtt_any_file. Qed.
Print Assumptions C73_as_is.
Theorem C77_as_is : forall s, exists bs ls, buffers s bs /\ Forall2 buffer_line bs ls /\
  ssa_reader_file s = ssa_reader_string (text_of_lines ls).
Proof. exact ssa_any_file. Qed.
Print Assumptions C77_as_is.
Example buffers_case : buffers (lit "a" ++ lf :: repeat "x"%char 255 ++ "y"%char :: ascii_of_nat 0 :: lit "z" ++ [lf])
    [lit "a" ++ [lf]; repeat "x"%char 255; "y"%char :: ascii_of_nat 0 :: lit "z" ++ [lf]] /\
  buffer_line ("y"%char :: ascii_of_nat 0 :: lit "z" ++ [lf]) (lit "y").
Proof.
  assert (N : forall s, existsb (Ascii.eqb lf) s = false -> ~ In lf s).
  { intros s E I. assert (T : existsb (Ascii.eqb lf) s = true) by (apply existsb_exists; exists lf; split; [exact I|apply Ascii.eqb_refl]). congruence. }
  split.
  - apply (buffers_line (lit "a")); [now apply N|cbn; lia|]. apply (buffers_full (repeat "x"%char 255)); [now apply N|reflexivity|].
    apply (buffers_line ("y"%char :: ascii_of_nat 0 :: lit "z") [] []); [now apply N|cbn; lia|constructor].
  - split; [intros [E|[]]; discriminate|]. split; [now apply N|]. right. right. now exists (lit "z" ++ [lf]).
Qed.
