(** C111, C112: collect() and the order of the pieces.  Statements only; proofs are in theories/Proofs. *)
From Coq Require Import ZArith Ascii String List Bool Permutation.
From Verif.Model Require Import Base Strings TimeModel Types Collect.
From Verif.Spec Require Import Outcome TimeSpec SortSpec CollectSpec CollectOrderSpec.
From Verif.Proofs Require Import SortProofs CollectProofs CollectOrderProofs.
Import ListNotations.
Local Open Scope Z_scope.

(** C111 *)
Theorem C111_reordered : forall sort l l', conforming sort -> all_comparable l -> reordered l l' -> collect sort l' = collect sort l.
Proof. exact collect_reordered. Qed.
Print Assumptions C111_reordered.
Example C111_case : let l := [piece 4 6 (Some 1) (lit "b"); piece 4 6 (Some 2) (lit "c"); piece 1 2 None (lit "a")] in
  let l' := [piece 1 2 None (lit "a"); piece 4 6 (Some 1) (lit "b"); piece 4 6 (Some 2) (lit "c")] in
  conforming insertion_sort /\ all_comparable l /\ reordered l l' /\ exists s t, collect insertion_sort l = Ok [s; t].
Proof.
  split; [exact insertion_sort_conforming|]. split; [apply comparable_check; vm_compute; reflexivity|]. split.
  - apply (reordered_swap [_]); [vm_compute; reflexivity|]. apply (reordered_swap []); [vm_compute; reflexivity|]. constructor.
  - do 2 eexists. vm_compute. reflexivity.
Qed.
Theorem C111_any_order : forall sort l l', conforming sort -> all_comparable l -> all_apart l -> Permutation l l' -> collect sort l' = collect sort l.
Proof. exact collect_any_order. Qed.
Print Assumptions C111_any_order.
Example C111_any_order_case : all_apart [piece 4 6 None (lit "b"); piece 1 2 None (lit "a"); piece 2 4 (Some 1) (lit "c")].
Proof. repeat constructor. Qed.
(** Pieces that start together do have to stay in order: it is the order of their lines. *)
Example C111_together : collect insertion_sort [piece 4 6 (Some 2) (lit "c"); piece 4 6 (Some 1) (lit "b")] <>
  collect insertion_sort [piece 4 6 (Some 1) (lit "b"); piece 4 6 (Some 2) (lit "c")].
Proof. vm_compute. discriminate. Qed.

(** C112 *)
Theorem C112_parts : forall sort l1 l2, conforming sort -> all_comparable (l1 ++ l2) -> (forall x y, In x l1 -> In y l2 -> starts_before x y) ->
  exists s1 s2, collect sort l1 = Ok s1 /\ collect sort l2 = Ok s2 /\ collect sort (l1 ++ l2) = Ok (s1 ++ s2).
Proof. exact collect_parts. Qed.
Print Assumptions C112_parts.
Example C112_case : let l1 := [piece 1 2 None (lit "a"); piece 1 2 (Some 1) (lit "b")] in let l2 := [piece 4 6 (Some 2) (lit "c"); piece 3 4 None (lit "d")] in
  all_comparable (l1 ++ l2) /\ (forall x y, In x l1 -> In y l2 -> starts_before x y) /\
  exists s t u, collect insertion_sort l1 = Ok [s] /\ collect insertion_sort l2 = Ok [t; u].
Proof.
  split; [apply comparable_check; vm_compute; reflexivity|]. split.
  - intros x y [<-|[<-|[]]] [<-|[<-|[]]]; reflexivity.
  - do 3 eexists. split; vm_compute; reflexivity.
Qed.
