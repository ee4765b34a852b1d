(** The contract of std::stable_sort with RawSubtitle's operator<, as far as collect() relies on it.
    Any function that meets it may be used by the model; insertion_sort is shown to meet it. *)
From Coq Require Import List Bool Permutation Sorted.
From Verif.Model Require Import Base TimeModel Types Collect.
From Verif.Spec Require Import Outcome.
Import ListNotations.

(** Every comparison between two elements returns. *)
Definition comparable (l : list raw) : Prop := forall x y, In x l -> In y l -> returns (raw_lt x y).

(** operator< is a strict weak order on the list, wherever it returns. *)
Definition strict_weak (l : list raw) : Prop :=
  (forall x b, In x l -> raw_lt x x = Ok b -> b = false) /\
  (forall x y z b, In x l -> In y l -> In z l -> raw_lt x y = Ok true -> raw_lt y z = Ok true -> raw_lt x z = Ok b -> b = true) /\
  (forall x y z b, In x l -> In y l -> In z l -> raw_lt x y = Ok false -> raw_lt y z = Ok false -> raw_lt x z = Ok b -> b = false).

(** Neither of two elements is before the other. *)
Definition equivalent (x y : raw) : bool :=
  match raw_lt x y, raw_lt y x with Ok false, Ok false => true | _, _ => false end.

(** [l'] is [l] in order of operator<, with equivalent elements in the order they had. *)
Definition stably_sorted (l l' : list raw) : Prop :=
  Permutation l l' /\
  StronglySorted (fun x y => raw_lt y x = Ok false) l' /\
  (forall x, In x l -> filter (equivalent x) l' = filter (equivalent x) l).

Record conforming (s : sorter) : Prop := {
  sorts : forall l, comparable l -> strict_weak l -> exists l', s l = Ok l' /\ stably_sorted l l';
  throws_only : forall l e, s l = Throw e -> exists x y, In x l /\ In y l /\ raw_lt x y = Throw e;
  undefined_only : forall l u, s l = Undef u ->
     ~ strict_weak l \/ exists x y u', In x l /\ In y l /\ raw_lt x y = Undef u';
  permutes : forall l l', s l = Ok l' -> strict_weak l -> (forall x y, In x l -> In y l -> defined (raw_lt x y)) ->
     Permutation l l' }.
