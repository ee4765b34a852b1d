(** Collecting what a reader gives. *)
From Coq Require Import ZArith List Bool Ascii String.
From Verif.Model Require Import Base TimeModel Types Collect.
From Verif.Spec Require Import Outcome TextSpec LinesSpec SortSpec CollectSpec SsaSpec.
Import ListNotations.
Local Open Scope Z_scope.

(** Whatever sort is used, collect() returns: subtitles made of the pieces in order of their start. *)
Definition collectable (raws : list raw) : Prop :=
  forall sort, conforming sort -> exists sorted subs groups, stably_sorted raws sorted /\ collect sort raws = Ok subs /\ grouping sorted subs groups.

(** The lines of an SSA file that say which fields dialogues have name the start and the end before the text. *)
Definition times_first (keys : list str) : Prop :=
  forall before after, keys = before ++ lit "Text" :: after -> In (lit "Start") before /\ In (lit "End") before.
Definition formats_timed (s : str) : Prop :=
  exists ls, text_lines s ls /\
    Forall (fun l => forall l' body parts keys, line_body l l' -> keyed l' (lit "Format") body -> parts_of [comma] body parts ->
                     Forall2 trimmed parts keys -> times_first keys) ls.

(** Both times have this rate (or none), and there are no fades. *)
Definition milliseconds_rate : option rational := Some (mkR 1000 1).
Definition clocked (rate : option rational) (r : raw) : Prop :=
  t_rate (r_from r) = rate /\ t_rate (r_to r) = rate /\ r_fade_up r = None /\ r_fade_down r = None.
