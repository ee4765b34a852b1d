(** C20-C22: the STL code tables, against the tables of EBU Tech 3264 (Spec/StlTableSpec.v).
    Statements only; proofs are in theories/Proofs. *)
From Coq Require Import ZArith List Ascii String.
From Verif.Model Require Import Base Strings StlTables.
From Verif.Spec Require Import Outcome StlTableSpec.
From Verif.Proofs Require Import StlTableProofs.
Import ListNotations.
Local Open Scope Z_scope.

(** C20, C21.  Each table is one to one; reading accepts exactly its codes (an unknown code raises STLError with the
    field's name and the code), writing gives exactly its codes, and descriptions are those of the table. *)
Theorem C20_languages : one_to_one ebu_languages /\
  reads_table language_file_to_enum (fun s => s) "language code" ebu_languages /\
  writes_table (fun l => let* c := language_enum_to_file l in Ok (lit c)) ebu_languages /\
  describes_table language_enum_to_description ebu_languages.
Proof. exact languages_table. Qed.
Print Assumptions C20_languages.
Theorem C20_language_descriptions : forall d l, language_description_to_enum d = Some l <-> exists c, In (c, l, d) ebu_languages.
Proof. exact description_back. Qed.
Print Assumptions C20_language_descriptions.
Theorem C20_display_standards : one_to_one ebu_display_standards /\
  reads_table display_standard_file_to_enum (fun s => s) "display standard code" ebu_display_standards /\
  describes_table display_standard_enum_to_description ebu_display_standards.
Proof. exact display_table. Qed.
Print Assumptions C20_display_standards.
Theorem C20_timecode_statuses : one_to_one ebu_timecode_statuses /\
  reads_table timecode_status_file_to_enum (fun s => s) "timecode status code" ebu_timecode_statuses /\
  describes_table timecode_status_enum_to_description ebu_timecode_statuses.
Proof. exact timecode_table. Qed.
Print Assumptions C20_timecode_statuses.
Theorem C20_cumulative_statuses : one_to_one ebu_cumulative_statuses /\
  reads_table cumulative_status_file_to_enum print_int "cumulative status code" ebu_cumulative_statuses /\
  writes_table cumulative_status_enum_to_file ebu_cumulative_statuses /\
  describes_table cumulative_status_enum_to_description ebu_cumulative_statuses.
Proof. exact cumulative_table. Qed.
Print Assumptions C20_cumulative_statuses.
Theorem C20_justifications : one_to_one ebu_justifications /\
  reads_table justification_file_to_enum print_int "justification code" ebu_justifications /\
  writes_table justification_enum_to_file ebu_justifications /\
  describes_table justification_enum_to_description ebu_justifications.
Proof. exact justification_table. Qed.
Print Assumptions C20_justifications.
Theorem C20_comments : one_to_one ebu_comments /\
  reads_table comment_file_to_enum print_int "comment code" ebu_comments /\
  writes_table comment_enum_to_file ebu_comments /\
  describes_table comment_enum_to_description ebu_comments.
Proof. exact comment_table. Qed.
Print Assumptions C20_comments.
(** The language groups other than UTF-8. *)
Theorem C20_language_groups_partial : forall c e, c <> lit "U8" ->
  (language_group_file_to_enum c = Ok e <-> exists d, In (c, e, d) ebu_language_groups).
Proof. exact language_group_codes. Qed.
Print Assumptions C20_language_groups_partial.
Theorem C20_language_group_descriptions_partial : forall e d, e <> LANGUAGE_GROUP_UTF8 ->
  (language_group_enum_to_description e = d <-> exists c, In (c, e, d) ebu_language_groups).
Proof. exact language_group_describes. Qed.
Print Assumptions C20_language_group_descriptions_partial.
(** The table as meant is one to one, but the library's is not: no code is read as UTF-8. *)
Theorem C20_language_groups_meant : one_to_one (ebu_language_groups ++ [utf8_language_group]).
Proof. exact language_group_one_to_one. Qed.
Print Assumptions C20_language_groups_meant.
Theorem C20_language_groups_refuted : exists e, forall c, language_group_file_to_enum c <> Ok e.
Proof. exact (ex_intro _ LANGUAGE_GROUP_UTF8 utf8_never). Qed.
Print Assumptions C20_language_groups_refuted.
Example C20_case : In (lit "09", LANGUAGE_ENGLISH, lit "English") ebu_languages.
Proof. vm_compute. tauto. Qed.

(** C21.  The rejection of unknown codes for the remaining table (the others are in [reads_table] above). *)
Theorem C21_unknown_codes : forall c,
  (forall e d, ~ In (c, e, d) ebu_languages) ->
  language_file_to_enum c =
  Throw (EStl (lit "Unknown " ++ lit "language code" ++ lit " " ++ c ++ lit " in binary STL file")).
Proof. exact (proj1 (proj2 (proj1 (proj2 languages_table)))). Qed.
Print Assumptions C21_unknown_codes.
Example C21_unknown_case : forall e d, ~ In (lit "2C", e, d) ebu_languages.
Proof. intros e d H. repeat (destruct H as [H|H]; [discriminate H|]). exact H. Qed.
Theorem C21_unknown_language_groups : forall c, c <> lit "U8" -> (forall e d, ~ In (c, e, d) ebu_language_groups) ->
  language_group_file_to_enum c =
  Throw (EStl (lit "Unknown " ++ lit "language group code" ++ lit " " ++ c ++ lit " in binary STL file")).
Proof. exact language_group_unknown. Qed.
Print Assumptions C21_unknown_language_groups.
Example C21_unknown_group_case : lit "05" <> lit "U8" /\ forall e d, ~ In (lit "05", e, d) ebu_language_groups.
Proof. split; [discriminate|]. intros e d H. repeat (destruct H as [H|H]; [discriminate H|]). exact H. Qed.

(** C22.  A UTF-8 file is not reported as UTF-8, it is reported as Latin/Hebrew. *)
Theorem C22_u8_is_utf8_refuted : language_group_file_to_enum (lit "U8") <> Ok LANGUAGE_GROUP_UTF8.
Proof. exact u8_wrong. Qed.
Print Assumptions C22_u8_is_utf8_refuted.
Theorem C22_utf8_description_refuted : language_group_enum_to_description LANGUAGE_GROUP_UTF8 = [].
Proof. exact utf8_description_empty. Qed.
Print Assumptions C22_utf8_description_refuted.
