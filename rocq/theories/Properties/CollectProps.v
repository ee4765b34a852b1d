(** C11-C14: collect().  Statements only; proofs are in theories/Proofs. *)
From Coq Require Import ZArith Ascii String List Bool Permutation Sorted Lia.
From Verif.Model Require Import Base Strings TimeModel Types Collect.
From Verif.Spec Require Import Outcome TimeSpec SortSpec CollectSpec.
From Verif.Proofs Require Import SortProofs CollectProofs.
Import ListNotations.
Local Open Scope Z_scope.

(** Two lines of one subtitle, then an earlier subtitle; given out of order. *)
Definition example_pieces : list raw :=
  [piece 4 6 (Some 1) (lit "b"); piece 4 6 (Some 1) (lit "c"); piece 4 6 (Some 2) (lit "d"); piece 1 2 None (lit "a")].

(** C11 *)
Theorem C11_collect_conserves : forall sort l,
  conforming sort -> all_comparable l ->
  exists sorted subs, stably_sorted l sorted /\ collect sort l = Ok subs /\
    Forall2 block_holds (concat (map l_blocks (concat (map s_lines subs)))) sorted.
Proof. exact collect_conserves. Qed.
Print Assumptions C11_collect_conserves.
Example C11_case : conforming insertion_sort /\ all_comparable example_pieces.
Proof. split; [exact insertion_sort_conforming | apply comparable_check; vm_compute; reflexivity]. Qed.

(** The stably sorted list is unique, so the result does not depend on the implementation of the sort. *)
Theorem C11_sort_unique : forall l a b,
  comparable l -> strict_weak l -> stably_sorted l a -> stably_sorted l b -> a = b.
Proof. exact stably_sorted_unique. Qed.
Print Assumptions C11_sort_unique.
Theorem C11_sort_independent : forall sort1 sort2 l,
  conforming sort1 -> conforming sort2 -> all_comparable l -> collect sort1 l = collect sort2 l.
Proof. exact collect_unique. Qed.
Print Assumptions C11_sort_independent.

(** C12 *)
Theorem C12_collect_groups : forall sort l,
  conforming sort -> all_comparable l ->
  exists sorted subs groups, stably_sorted l sorted /\ collect sort l = Ok subs /\ grouping sorted subs groups.
Proof. exact collect_spec. Qed.
Print Assumptions C12_collect_groups.
Theorem C12_nonempty : forall sort l subs,
  conforming sort -> all_comparable l -> collect sort l = Ok subs ->
  Forall (fun s => s_lines s <> [] /\ Forall (fun k => l_blocks k <> []) (s_lines s)) subs.
Proof. exact collect_nonempty. Qed.
Print Assumptions C12_nonempty.
Theorem C12_ordered : forall sort l subs,
  conforming sort -> all_comparable l -> collect sort l = Ok subs ->
  StronglySorted (fun s t => time_lt (s_from t) (s_from s) = Ok false) subs.
Proof. exact collect_ordered. Qed.
Print Assumptions C12_ordered.
Example C12_case : exists s t, collect insertion_sort example_pieces = Ok [s; t] /\
  map (fun l => map b_text (l_blocks l)) (s_lines t) = [[lit "b"; lit "c"]; [lit "d"]].
Proof. do 2 eexists. split; vm_compute; reflexivity. Qed.

(** C13 *)
Theorem C13_mixed_rates_throw : forall sort l x y,
  conforming sort -> all_defined l -> In x l -> In y l -> mixed_rates (r_from x) (r_from y) ->
  collect sort l = Throw EUnknownFrameRate.
Proof. exact collect_mixed. Qed.
Print Assumptions C13_mixed_rates_throw.
Example C13_case : let x := set_from (mkT 3 5 None) raw_default in let y := piece 4 6 (Some 1) [] in
  all_defined [x; y] /\ mixed_rates (r_from x) (r_from y).
Proof.
  cbn zeta. split.
  - split.
    + intros x y [<-|[<-|[]]] [<-|[<-|[]]]; unfold defined; repeat split; vm_compute; discriminate.
    + intros x [<-|[<-|[]]] r H; cbn in H; try discriminate; injection H as <-; reflexivity.
  - right. split; [intros H; now apply H | discriminate].
Qed.

(** C14.  Holds when pieces that start together also end and fade together. *)
Theorem C14_merged_partial : forall sort l,
  conforming sort -> all_comparable l -> starts_agree l ->
  exists sorted subs groups, stably_sorted l sorted /\ collect sort l = Ok subs /\ grouping sorted subs groups /\
    fully_merged groups.
Proof. exact collect_merges. Qed.
Print Assumptions C14_merged_partial.
Example C14_case : starts_agree example_pieces.
Proof.
  intros p q [<-|[<-|[<-|[<-|[]]]]] [<-|[<-|[<-|[<-|[]]]]] H; vm_compute in H; try discriminate H; repeat split.
Qed.

(** It fails in general: with times 0-1, 0-2, 0-1 the first and the third piece are not put together. *)
Theorem C14_merged_refuted : exists l s1 s2 s3, all_comparable l /\
  (forall sort, conforming sort -> collect sort l = Ok [s1; s2; s3]) /\
  time_eq (s_from s1) (s_from s3) = Ok true /\ time_eq (s_to s1) (s_to s3) = Ok true /\
  s_fade_up s1 = None /\ s_fade_up s3 = None /\ s_fade_down s1 = None /\ s_fade_down s3 = None.
Proof. exact interleaved. Qed.
Print Assumptions C14_merged_refuted.
