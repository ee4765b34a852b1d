(** Texts with override tags anywhere in them. *)
From Coq Require Import List Ascii String.
From Verif.Model Require Import Base.
From Verif.Spec Require Import SubripSpec.
Import ListNotations.

(** Characters with override tags among them, the bodies of the tags in order, and the characters in order. *)
Inductive mixed : list token -> list str -> str -> Prop :=
| mixed_none : mixed [] [] []
| mixed_char c toks bodies text : mixed toks bodies text -> mixed (TChar c :: toks) bodies (c :: text)
| mixed_tag body toks bodies text : mixed toks bodies text -> mixed (TSsa body :: toks) (body :: bodies) text.
