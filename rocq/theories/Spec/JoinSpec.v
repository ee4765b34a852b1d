(** Files put one behind the other. *)
From Coq Require Import List Ascii String.
From Verif.Model Require Import Base.
From Verif.Spec Require Import TextSpec LinesSpec WebVttSpec.
Import ListNotations.

(** The last line of a text is empty: two line ends at the end. *)
Definition ends_blank (s : str) : Prop := exists before, s = before ++ [lf; lf] \/ s = before ++ [lf; cr; lf].

(** The first line of a text says WEBVTT, perhaps with a byte order mark in front and a title behind, but no arrow. *)
Definition headed (s : str) : Prop :=
  exists l rest l', text_lines s (l :: rest) /\ cleaned l l' /\ begins_with (lit "WEBVTT") l' /\ ~ has_arrow l'.
