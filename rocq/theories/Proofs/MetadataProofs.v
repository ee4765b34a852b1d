(** The metadata of a binary STL file. *)
From Coq Require Import ZArith Lia Bool List Ascii String.
From Verif.Model Require Import Base Strings Types Iso6937 StlTables StlBinReader.
From Verif.Spec Require Import Outcome TextSpec Iso6937Spec StlTableSpec StlFileSpec DumpSpec MetadataSpec.
From Verif.Proofs Require Import StringProofs StlTableProofs StlReadProofs DumpProofs.
Import ListNotations.
Local Open Scope Z_scope.

Lemma number_field b a n z : number_at b a n z -> exists z, number_at b a n z /\ shown_int (print_int z) z.
Proof. intros H. exists z. split; [exact H | apply print_int_shown]. Qed.
Lemma code_field {E : Type} (describe : E -> str) t b a n e : describes_table describe t -> code_at b a n t e ->
  exists c e', bytes_at b a n c /\ In (c, e', describe e) t.
Proof.
  intros D (c & d & B & I). exists c, e. split; [exact B|]. assert (X : describe e = d) by (apply D; now exists c). now rewrite X.
Qed.
Lemma group_known c e d : In (c, e, d) reader_language_groups -> e <> LANGUAGE_GROUP_UTF8.
Proof.
  intros I E. subst e. unfold reader_language_groups in I. apply in_app_or in I. destruct I as [I|[I|[]]]; [|discriminate].
  unfold ebu_language_groups in I. revert I. vm_compute. intros I. repeat (destruct I as [I|I]; [discriminate|]). exact I.
Qed.
Lemma header_metadata head g : header_read head g -> metadata_of head (stl_metadata g).
Proof.
  unfold header_read. intros H. repeat match goal with H : _ /\ _ |- _ => destruct H as (? & H) end.
  unfold metadata_of, metadata_fields, stl_metadata.
  repeat (apply Forall2_cons; [cbn [fst snd]; split; [reflexivity|]|]); try apply Forall2_nil; cbn [field_value];
    try assumption; try (now apply (number_field _ _ _ _); assumption); try (eexists; split; [eassumption | apply print_int_shown]).
  - apply code_field; [apply display_table | assumption].
  - match goal with H : exists _, bytes_at _ _ _ _ /\ _ |- _ => destruct H as (c & B & R) end. exists c, (frame_rate g). split; [exact B|]. split; [exact R | apply print_int_shown].
  - apply code_field; [apply languages_table | assumption].
  - match goal with H : code_at _ _ _ reader_language_groups _ |- _ => destruct H as (c & d & B & I) end.
    destruct (proj1 (language_group_describes (g_language_group g) _ (group_known _ _ _ I)) eq_refl) as (c' & I').
    exists c, (g_language_group g), d, c'. auto.
  - match goal with H : exists _, number_at _ _ _ _ /\ _ |- _ => destruct H as (r & B & R) end. exists r, (maximum_rows g). split; [exact B|]. split; [exact R | apply print_int_shown].
  - apply code_field; [apply timecode_table | assumption].
Qed.
Lemma file_metadata h input g subs : snd (stl_binary_read input (after h)) = Ok (g, subs) ->
  exists head rest, input = head ++ rest /\ List.length head = 1024%nat /\ metadata_of head (stl_metadata g).
Proof.
  intros H. apply read_iff in H. destruct H as (raws & top & (head & blocks & rest & rawss & lasts & E & HR & _) & _).
  exists head, (List.concat blocks ++ rest). split; [exact E|]. split; [apply HR | now apply header_metadata].
Qed.
(** A file never says that it is in UTF-8. *)
Lemma file_group h input g subs : snd (stl_binary_read input (after h)) = Ok (g, subs) ->
  g_language_group g <> LANGUAGE_GROUP_UTF8 /\ (bytes_at input 12 2 (lit "U8") -> g_language_group g = LANGUAGE_GROUP_LATIN_HEBREW).
Proof.
  intros H. apply read_iff in H. destruct H as (raws & top & (head & blocks & rest & rawss & lasts & E & HR & _) & _).
  assert (L : List.length head = 1024%nat) by apply HR. unfold header_read in HR. repeat match goal with H : _ /\ _ |- _ => destruct H as (? & H) end.
  match goal with H : code_at _ _ _ reader_language_groups _ |- _ => destruct H as (c & d & B & I) end.
  split; [exact (group_known _ _ _ I)|]. intros (p & q & E1 & L1 & _). destruct B as (p' & q' & E2 & L2 & L3).
  assert (C : c = lit "U8").
  { rewrite E1, E2 in E. rewrite <- !app_assoc in E. assert (F : firstn 12 (p ++ lit "U8" ++ q) = firstn 12 (p' ++ c ++ q' ++ List.concat blocks ++ rest)) by now rewrite E.
    assert (G : firstn 2 (skipn 12 (p ++ lit "U8" ++ q)) = firstn 2 (skipn 12 (p' ++ c ++ q' ++ List.concat blocks ++ rest))) by now rewrite E.
    rewrite (skipn_app 12 p), (skipn_app 12 p'), L1, L2, Nat.sub_diag, (skipn_all2 p), (skipn_all2 p'), !skipn_O in G by lia. cbn [app] in G.
    rewrite !firstn_app, L3 in G. rewrite (firstn_all2 c) in G by lia. cbn in G. rewrite app_nil_r in G. now symmetry. }
  subst c. unfold reader_language_groups in I. apply in_app_or in I. destruct I as [I|[I|[]]]; [|now injection I].
  exfalso. unfold ebu_language_groups in I. revert I. vm_compute. intros I. repeat (destruct I as [I|I]; [discriminate|]). exact I.
Qed.
