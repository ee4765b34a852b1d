(** Pieces of text in another order, and in two parts. *)
From Coq Require Import List Permutation.
From Verif.Model Require Import Base TimeModel Types.
Import ListNotations.

(** Two pieces start together, or one starts before the other, according to Time's operators. *)
Definition start_apart (p q : raw) : Prop := time_eq (r_from p) (r_from q) = Ok false.
Definition starts_before (p q : raw) : Prop := time_lt (r_from p) (r_from q) = Ok true.

(** [l'] comes from [l] by exchanging neighbours that do not start together, any number of times. *)
Inductive reordered : list raw -> list raw -> Prop :=
| reordered_same l : reordered l l
| reordered_swap before p q after l' : start_apart p q -> reordered (before ++ q :: p :: after) l' ->
    reordered (before ++ p :: q :: after) l'.

(** No two pieces start together. *)
Definition all_apart (l : list raw) : Prop := ForallOrdPairs start_apart l.
