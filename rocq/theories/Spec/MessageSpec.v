(** The messages of exceptions. *)
From Coq Require Import ZArith List Bool Ascii String.
From Verif.Model Require Import Base.
From Verif.Spec Require Import TextSpec LinesSpec DumpSpec.
Import ListNotations.
Local Open Scope Z_scope.

(** A C string: what comes before the first NUL. *)
Definition up_to_nul (s t : str) : Prop :=
  exists rest, s = t ++ rest /\ Forall (fun c => char_code c <> 0) t /\ (rest = [] \/ exists c u, rest = c :: u /\ char_code c = 0).
(** How something that was seen is written. *)
Definition seen (saw t : str) : Prop := saw = [] /\ t = lit "an empty string" \/ saw <> [] /\ t = saw.
Definition subrip_message (n : Z) (saw expecting m : str) : Prop :=
  exists d t, shown_int d n /\ seen saw t /\ m = lit "Error in SubRip file line " ++ d ++ lit ": saw " ++ t ++ lit " when expecting " ++ expecting.
Definition webvtt_message (saw expecting m : str) : Prop :=
  exists t, seen saw t /\ m = lit "Error in WebVTT file: saw " ++ t ++ lit " when expecting " ++ expecting.
Definition assertion_message (file : str) (line : Z) (m : str) : Prop :=
  exists d, shown_int d line /\ m = lit "Programming error at " ++ file ++ lit ":" ++ d.
