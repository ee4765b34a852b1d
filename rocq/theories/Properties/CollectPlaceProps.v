(** C12 again, with the places on the screen as Spec/PositionSpec.v has them.  Statements only; proofs are in theories/Proofs. *)
From Coq Require Import ZArith Ascii String List.
From Verif.Model Require Import Base Strings TimeModel Types Collect.
From Verif.Spec Require Import Outcome TimeSpec SortSpec PositionSpec CollectSpec CollectPlaceSpec.
From Verif.Proofs Require Import SortProofs CollectProofs CollectPlaceProofs.
Import ListNotations.
Local Open Scope Z_scope.

(** Pieces are on one line of a subtitle only if they are in the same place, and neighbouring lines are in different places. *)
Theorem C12_lines_by_place : forall sort l, conforming sort -> all_comparable l -> (forall r, In r l -> finite_proportion (r_vpos r)) ->
  exists sorted subs groups, stably_sorted l sorted /\ collect sort l = Ok subs /\ grouping sorted subs groups /\ Forall lines_by_place groups.
Proof. exact collect_places. Qed.
Print Assumptions C12_lines_by_place.
Example C12_lines_by_place_case : let l := [piece 4 6 (Some 1) (lit "b"); piece 4 6 (Some 1) (lit "c"); piece 4 6 (Some 2) (lit "d")] in
  conforming insertion_sort /\ all_comparable l /\ (forall r, In r l -> finite_proportion (r_vpos r)).
Proof.
  cbv zeta. split; [exact insertion_sort_conforming|]. split; [apply comparable_check; vm_compute; reflexivity|].
  intros r J p E. cbn [In] in J. destruct J as [<-|[<-|[<-|[]]]]; discriminate E.
Qed.
