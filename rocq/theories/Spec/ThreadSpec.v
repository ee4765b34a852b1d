(** Conversions in several threads: when two of them race, and what each should give. *)
From Coq Require Import ZArith List Bool Ascii Arith.
From Verif.Model Require Import Base Utf Iso6937 Threads.
From Verif.Spec Require Import Outcome TextSpec UnicodeSpec Iso6937Spec.
Import ListNotations.
Local Open Scope Z_scope.

(** Two threads are about to access the same map, and one of them is about to write. *)
Definition race (p : process) : Prop :=
  exists i j t u v w x, i <> j /\ nth_error (p_threads p) i = Some t /\ nth_error (p_threads p) j = Some u /\
    In (v, w) (accesses (p_globals p) t) /\ In (v, x) (accesses (p_globals p) u) /\ (w = true \/ x = true).

(** Two states of the process in which a map is the same. *)
Definition same_map (g g' : globals) (v : variable) : Prop :=
  match v with
  | VMain => g_main g = g_main g'
  | VAccent d => accent_map g d = accent_map g' d
  | VDiacriticals => g_keys g = g_keys g'
  end.
(** The maps of accents are variables of the program: there are the same ones in every state of it. *)
Definition same_variables (g g' : globals) : Prop := map fst (g_accents g) = map fst (g_accents g').

(** Bytes that mean something throughout. *)
Definition readable (s : str) : Prop := exists parts w, Forall2 glyph parts w /\ bytes s = concat parts.
Definition readable_job (j : job) : Prop := match j with ToUtf16 s => readable s | ToIso6937 _ => True end.

(** What a conversion gives in a process that has done nothing else. *)
Definition alone (j : job) (r : outcome) : Prop :=
  match j with
  | ToUtf16 s => exists w, snd (iso6937_to_utf16 tables_empty s) = Ok w /\ r = GaveText w
  | ToIso6937 w => r = GaveBytes (snd (utf16_to_iso6937 tables_empty w))
  end.

(** A process whose threads are about to do these jobs, at the beginning, and when the tables have been made. *)
Definition at_start (js : list job) : process := mkP globals_empty (map Testing js).
Definition tables_ready (js : list job) : process := mkP (fold_left (fun g a => assign a g) making globals_empty) (map Testing js).

(** The steps a conversion takes at most. *)
Definition job_length (j : job) : nat := match j with ToUtf16 s => length s | ToIso6937 w => length w end.
Definition enough (j : job) : nat := (length making + job_length j + 3)%nat.

(** One thread after the other: each runs to its end before the next begins. *)
Fixpoint one_by_one (i : nat) (js : list job) : list nat :=
  match js with
  | [] => []
  | j :: t => repeat i (enough j) ++ one_by_one (S i) t
  end.
(** The calls one after the other in a single thread. *)
Fixpoint in_sequence (t : tables) (js : list job) : list outcome :=
  match js with
  | [] => []
  | ToUtf16 s :: r =>
      match snd (iso6937_to_utf16 t s) with Ok w => GaveText w | _ => Crashed end :: in_sequence (fst (iso6937_to_utf16 t s)) r
  | ToIso6937 w :: r => GaveBytes (snd (utf16_to_iso6937 t w)) :: in_sequence (fst (utf16_to_iso6937 t w)) r
  end.
