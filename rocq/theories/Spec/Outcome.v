(** Vocabulary for stating properties: nothing here depends on how the model is written. *)
From Coq Require Import ZArith Bool List.
From Verif.Model Require Import Base.

(** A run that answers a yes/no question correctly. *)
Definition decides (x : res bool) (P : Prop) : Prop := (x = Ok true /\ P) \/ (x = Ok false /\ ~ P).

(** A run that ends with a value; with an exception; without undefined behaviour. *)
Definition returns {A} (x : res A) : Prop := exists a, x = Ok a.
Definition throws {A} (x : res A) : Prop := exists e, x = Throw e.
Definition defined {A} (x : res A) : Prop := forall u, x <> Undef u.

(** The values of a C++ int (32 bits). *)
Definition is_int (z : Z) : Prop := (-2147483648 <= z <= 2147483647)%Z.
