(** The lines of collected subtitles by where they are on the screen. *)
From Coq Require Import List.
From Verif.Model Require Import Base Types.
From Verif.Spec Require Import PositionSpec CollectSpec.
Import ListNotations.

(** All pieces of a line are in the place of its first piece. *)
Definition one_place (ps : list raw) : Prop :=
  match ps with [] => False | p :: rest => Forall (fun q => same_vertical (r_vpos p) (r_vpos q)) rest end.
(** The lines of a subtitle: one place each, and neighbours in different places. *)
Definition lines_by_place (ls : list (list raw)) : Prop :=
  Forall one_place ls /\ neighbours_differ (fun p q => same_vertical (r_vpos p) (r_vpos q)) ls.
