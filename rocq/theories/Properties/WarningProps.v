(** C96, C97: warnings about text STL files, and numbers in messages.  Statements only; proofs are in theories/Proofs. *)
From Coq Require Import ZArith Lia Bool List Ascii String.
From Verif.Model Require Import Base Strings TimeModel Types StlText RawConvert.
From Verif.Spec Require Import Outcome TextSpec LinesSpec SsaSpec StlTextSpec FactorySpec DumpSpec WarningSpec.
From Verif.Proofs Require Import StringProofs SsaTextProofs StlTextProofs WarningProofs DumpsubsProofs LocaleStringProofs.
Import ListNotations.
Local Open Scope Z_scope.

(** C96.  Every text STL file has its warnings, only those are written, and they are told apart. *)
Theorem C96_warnings_written : forall s ws, text_stl_warnings s ws -> stl_text_output true s = on_lines ws.
Proof. exact text_warned. Qed.
Print Assumptions C96_warnings_written.
Theorem C96_warnings_exist : forall s, exists ws, text_stl_warnings s ws.
Proof. exact text_warnings_exist. Qed.
Print Assumptions C96_warnings_exist.
Theorem C96_warnings_unique : forall s ws ws', text_stl_warnings s ws -> text_stl_warnings s ws' -> ws = ws'.
Proof. exact warnings_unique. Qed.
Print Assumptions C96_warnings_unique.
(** A stream that is not good is not read. *)
Theorem C96_no_stream : forall s, stl_text_output false s = [].
Proof. exact no_stream_no_warning. Qed.
Print Assumptions C96_no_stream.
(** What reader_factory writes is determined too (see C95_shows). *)
Theorem C96_opening : forall path content, exists w, opening_text path content w /\ forall w', opening_text path content w' -> w' = w.
Proof.
  exact (fun path content => match opening path content with
    ex_intro _ w (conj W _) => ex_intro _ w (conj W (fun w' W' => opening_unique path content w' w W' W)) end).
Qed.
Print Assumptions C96_opening.
(** A file with an unknown setting, an empty line, a line without times and a line that stops the reader. *)
Example C96_case : let file := join [lf] (map lit ["$x"; "// c"; ""; "00:00:01 ,00:00:02:00,a"; "00:00:00:00 ,0:0:0:x,a"; "$y"; ""]%string) in
  text_stl_warnings file [lit "Unrecognised line $x"; lit "Unrecognised line "; lit "Unrecognised time 00:00:01";
    lit "Unrecognised line 00:00:01 ,00:00:02:00,a"].
Proof.
  cbv zeta. match goal with |- text_stl_warnings ?f ?w => destruct (text_warnings_exist f) as (ws & W); assert (E : ws = w) end;
    [|rewrite <- E; exact W].
  pose proof (text_warned _ _ W) as T. apply on_lines_inj.
  - destruct W as (ls & C & W). exact (file_warns_no_lf _ _ W (complete_no_lf _ _ C)).
  - repeat constructor; vm_compute; intuition discriminate.
  - rewrite <- T. vm_compute. reflexivity.
Qed.

(** C97.  Integers are written in decimal, *)
Theorem C97_signed : forall x, shown_int (locale_string_int x) x /\ shown_int (locale_string_long x) x.
Proof. exact int_written. Qed.
Print Assumptions C97_signed.
Theorem C97_unsigned_long : forall x, 0 <= x -> shown_int (locale_string_ulong x) x.
Proof. exact unsigned_written. Qed.
Print Assumptions C97_unsigned_long.
Theorem C97_unsigned_long_long_partial : forall x, 0 <= x < 2 ^ 63 -> shown_int (locale_string_ulonglong x) x.
Proof. exact long_written. Qed.
Print Assumptions C97_unsigned_long_long_partial.
(** but the larger unsigned long longs come out negative; *)
Theorem C97_unsigned_long_long_wraps : forall x, 2 ^ 63 <= x < 2 ^ 64 -> shown_int (locale_string_ulonglong x) (x - 2 ^ 64).
Proof. exact too_long_written. Qed.
Print Assumptions C97_unsigned_long_long_wraps.
Theorem C97_unsigned_long_long_refuted : exists x, 0 <= x < 2 ^ 64 /\ ~ shown_int (locale_string_ulonglong x) x.
Proof. exact wrong_long. Qed.
Print Assumptions C97_unsigned_long_long_refuted.
(** a string is left as it is. *)
Theorem C97_string : forall s, locale_string_string s = s.
Proof. exact (fun s => eq_refl). Qed.
Print Assumptions C97_string.
Example C97_case : locale_string_int (-120) = lit "-120" /\ locale_string_ulonglong (2 ^ 64 - 1) = lit "-1" /\
  locale_string_ulong (2 ^ 64 - 1) = lit "18446744073709551615".
Proof. repeat split; vm_compute; reflexivity. Qed.
