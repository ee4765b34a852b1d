(** Names of files, and what is in them. *)
From Coq Require Import ZArith List Bool Ascii String.
From Verif.Model Require Import Base.
From Verif.Spec Require Import LinesSpec SubripSpec.
Import ListNotations.
Local Notation length := List.length.

(** The last part of the path ends in a dot and [e], in any mixture of upper and lower case. *)
Definition named (path e : str) : Prop :=
  exists dir stem x, path = dir ++ stem ++ "."%char :: x /\ (dir = [] \/ ends_in (eq "/"%char) dir) /\
    ~ In "/"%char stem /\ ~ In "/"%char x /\ same_letters x e.
(** STL at offset 3, in a file of at least 11 bytes. *)
Definition stl_signature (content : str) : Prop :=
  (11 <= length content)%nat /\ exists a b c rest, content = a :: b :: c :: lit "STL" ++ rest.
