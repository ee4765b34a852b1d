(** C98: conversions in several threads.  Statements only; proofs are in theories/Proofs. *)
From Coq Require Import ZArith Lia List Bool Ascii Arith.
From Verif.Model Require Import Base Utf Iso6937 Threads.
From Verif.Spec Require Import Outcome TextSpec UnicodeSpec Iso6937Spec ThreadSpec.
From Verif.Proofs Require Import ThreadProofs.
Import ListNotations.
Local Open Scope Z_scope.

(** C98.  When the tables have been made, any number of threads converting any readable text race in no schedule, and each
    gives what it gives alone. *)
Theorem C98_any_schedule_partial : forall js schedule, Forall readable_job js ->
  let p := run schedule (tables_ready js) in
  ~ race p /\ forall i j r, nth_error js i = Some j -> nth_error (p_threads p) i = Some (Finished r) -> alone j r.
Proof. exact any_schedule. Qed.
Print Assumptions C98_any_schedule_partial.
Example C98_readable_case : Forall readable_job [ToUtf16 [chr 0xC2; chr 101]; ToIso6937 [0; 0x4E00; 0xE9]].
Proof. constructor; [exact readable_e_acute|]. repeat constructor. Qed.
(** Such a process is what one conversion leaves. *)
Example C98_ready_case : p_globals (run (repeat 0%nat (enough (ToIso6937 []))) (at_start [ToIso6937 []])) = p_globals (tables_ready []).
Proof. vm_compute. reflexivity. Qed.

(** C98.  A thread that gets enough turns comes to its end, whatever the others do and whatever the tables are. *)
Theorem C98_all_finish : forall g js schedule i j, nth_error js i = Some j -> (enough j <= count_occ Nat.eq_dec schedule i)%nat ->
  exists r, nth_error (p_threads (run schedule (mkP g (map Testing js)))) i = Some (Finished r).
Proof. exact all_finish. Qed.
Print Assumptions C98_all_finish.
Example C98_enough_case : (enough (ToUtf16 [chr 65]) <= count_occ Nat.eq_dec (repeat 0%nat (enough (ToUtf16 [chr 65])) ++ [1%nat]) 0%nat)%nat.
Proof. vm_compute. lia. Qed.

(** C98.  Threads that run one after the other give what the calls give one after the other in one thread, any text. *)
Theorem C98_one_at_a_time : forall js, p_threads (run (one_by_one 0 js) (at_start js)) = map Finished (in_sequence tables_empty js).
Proof. exact one_at_a_time. Qed.
Print Assumptions C98_one_at_a_time.

(** C98.  What counts as an access is right: in any run, a step that changes one of the maps counts as a write of it. *)
Theorem C98_changes_are_writes : forall js schedule i t v, let p := run schedule (at_start js) in
  nth_error (p_threads p) i = Some t -> ~ same_map (p_globals p) (p_globals (process_step i p)) v -> In (v, true) (accesses (p_globals p) t).
Proof. exact changes_are_writes. Qed.
Print Assumptions C98_changes_are_writes.
(** The byte 128 is entered into main when it is read. *)
Example C98_change_case : let p := run (repeat 0%nat (length making + 2)) (at_start [ToUtf16 [chr 128]]) in
  nth_error (p_threads p) 0 = Some (Decoding [chr 128] None []) /\ ~ same_map (p_globals p) (p_globals (process_step 0 p)) VMain.
Proof. vm_compute. split; [reflexivity|]. discriminate. Qed.
(** C98.  And what a step does depends on nothing but the maps that it accesses. *)
Theorem C98_accesses_suffice : forall g g' t, same_variables g g' -> (forall v w, In (v, w) (accesses g t) -> same_map g g' v) ->
  snd (thread_step g t) = snd (thread_step g' t) /\
  forall v, In (v, true) (accesses g t) -> same_map (fst (thread_step g t)) (fst (thread_step g' t)) v.
Proof. exact accesses_suffice. Qed.
Print Assumptions C98_accesses_suffice.
Example C98_suffice_case : let g := mkG [(65, 65)] [(0xC1, []); (0xC2, [])] [] in let g' := mkG [(65, 65)] [(0xC1, []); (0xC2, [(65, 0xC1)])] [0xC2] in
  same_variables g g' /\ g <> g' /\ forall v w, In (v, w) (accesses g (Decoding [chr 65] None [])) -> same_map g g' v.
Proof. split; [reflexivity|]. split; [discriminate|]. intros v w [E|[]]. injection E as <- <-. reflexivity. Qed.

(** C98.  A step that follows a null pointer has entered it into the map of diacriticals first: it counts as a write too. *)
Theorem C98_crash_writes : forall g t, t <> Finished Crashed -> snd (thread_step g t) = Finished Crashed ->
  In (VDiacriticals, true) (accesses g t).
Proof. exact crash_writes. Qed.
Print Assumptions C98_crash_writes.
Example C98_crash_case : snd (thread_step globals_empty (Decoding [chr 101] (Some 0xC2) [])) = Finished Crashed.
Proof. reflexivity. Qed.

(** Two threads that make the first conversions of a process race. *)
Theorem C98_first_use_refuted : exists js schedule, Forall readable_job js /\ race (run schedule (at_start js)).
Proof. exists two. destruct first_use_race as (s & R). exists s. exact (conj two_readable R). Qed.
Print Assumptions C98_first_use_refuted.
(** Even if every step were atomic, a thread that meets half-made tables would dereference a null pointer. *)
Theorem C98_crash_refuted : exists js schedule, Forall readable_job js /\ In (Finished Crashed) (p_threads (run schedule (at_start js))).
Proof. exists two. destruct first_use_crash as (s & R). exists s. exact (conj two_readable R). Qed.
Print Assumptions C98_crash_refuted.
(** Or it would silently lose a character that it writes when it is alone. *)
Theorem C98_lost_refuted : exists j r r' schedule, alone j r /\ r <> r' /\
  nth_error (p_threads (run schedule (at_start [j; j]))) 1 = Some (Finished r').
Proof.
  destruct first_use_lost as (s & R & A). exists (ToIso6937 [0xE9]), (GaveBytes [chr 0xC2; chr 101]), (GaveBytes []), s.
  split; [exact A|]. split; [discriminate|exact R].
Qed.
Print Assumptions C98_lost_refuted.
(** A byte without meaning is entered into the table when it is read: a race even when the tables have been made. *)
Theorem C98_unreadable_refuted : exists js schedule, race (run schedule (tables_ready js)).
Proof. exists [ToUtf16 [chr 128]; ToUtf16 [chr 65]]. exact unreadable_race. Qed.
Print Assumptions C98_unreadable_refuted.
