(** What is seen of pieces that are collected, written as a binary STL file and read back. *)
From Coq Require Import ZArith Reals Lia List Bool Ascii String.
From Verif.Model Require Import Base Strings Float TimeModel Types Collect StlUtil StlBinReader StlBinWriter Ssa.
From Verif.Spec Require Import Outcome TextSpec TimeSpec Utf8Spec Iso6937Spec SortSpec CollectSpec StlFileSpec StlWriteSpec StlRoundTripSpec LongTextSpec SsaUseSpec CollectReadSpec ConvertSpec ConvertSeenSpec.
From Verif.Proofs Require Import SortProofs CollectProofs UtfProofs Iso6937Proofs StlFileProofs StlWriterProofs StlUseProofs StlRoundTripProofs LongTextProofs LongSeenProofs CollectReadProofs ConvertProofs LoadSaveProofs.
Import ListNotations.
Local Open Scope Z_scope.
Local Notation length := List.length.

Theorem pieces_seen n a raws : all_comparable raws -> Forall raw_writable raws -> writer_ready n a raws -> seen_in_file a raws.
Proof.
  intros C W (RT & HO & RV & LN) sort h h' S.
  destruct (collect_spec sort raws S C) as (sorted & subs & groups & SS & ES & G). destruct (collected_writable sort raws S C W) as (subs' & ES' & WS).
  rewrite ES in ES'. apply Ok_inj in ES'. subst subs'. pose proof (collected_bytes sort raws subs S C ES) as BL.
  assert (A : acceptable n a subs).
  { split; [exact RT|]. split; [exact WS|]. split; [exact HO|]. split; [exact RV|]. eapply Forall_impl; [|exact BL]. intros s. apply Forall_impl.
    intros l L. change (length (List.concat (map r_text raws))) with (text_bytes raws) in LN. lia. }
  destruct (write_ok h subs a n A) as (file & WF & _). exists sorted, subs, groups, file. split; [exact ES|]. split; [exact SS|]. split; [exact G|]. split; [exact WF|].
  intros SZ. exact (blocks_are_seen h h' n a subs file A WF SZ).
Qed.
Theorem binary_seen h input g raws n a : snd (stl_binary_read input (after h)) = Ok (g, raws) -> 0 < maximum_rows g -> Forall not_above raws -> Forall no_nul raws ->
  writer_ready n a raws -> seen_in_file a raws.
Proof. intros E MR NA NN W. apply (pieces_seen n); [now apply (binary_comparable h input g)|now apply (binary_writable h input g)|exact W]. Qed.
Theorem ssa_seen s raws n a : moderate_numbers s -> formats_timed s -> ssa_reader_string s = Ok raws ->
  Forall times_from_zero raws -> Forall (fun r => StlWriteSpec.placed (r_vpos r)) raws -> Forall real_text raws -> writer_ready n a raws -> seen_in_file a raws.
Proof. intros MN FT E TZ PL RT W. destruct (ssa_writable s raws MN FT E TZ PL RT) as [C R]. now apply (pieces_seen n). Qed.
