(** C99: binary STL files that are cut short, and writers that are stopped.  [after h] is the state of the process after any
    sequence [h] of ISO 6937 conversions.  Statements only; proofs are in theories/Proofs. *)
From Coq Require Import ZArith Lia List Ascii String.
From Verif.Model Require Import Base Strings Types Iso6937 StlTables StlUtil StlBinReader StlBinWriter Saving.
From Verif.Spec Require Import Outcome Iso6937Spec StlFileSpec StlWriteSpec StlSamples StlRoundTripSpec SavingSpec.
From Verif.Proofs Require Import StlUseProofs StlRoundTripProofs SavingProofs.
Import ListNotations.
Local Open Scope Z_scope.
Local Notation length := List.length.

(** The program is stopped after any number of steps, each of which gets any number of bytes to the file, on any medium: the
    file is as it was before, or complete, or any attempt to read it fails with an exception that says what is missing. *)
Theorem C99_stopped_anywhere : forall h n a ss bytes m old steps, acceptable n a ss ->
  snd (write_stl_binary ss a (after h)) = Ok bytes -> Z.of_nat (length bytes) < 1024 + 128 * 100000 ->
  sv_file (save_run ss a (after h) m old steps) = old \/
  exists file, sv_file (save_run ss a (after h) m old steps) = Some file /\
    (file = bytes \/ header_missing file \/ block_missing file).
Proof. exact stopped. Qed.
Print Assumptions C99_stopped_anywhere.

(** More exactly, for any part of a written file. *)
Theorem C99_part_of_written : forall h n a ss file part, acceptable n a ss -> snd (write_stl_binary ss a (after h)) = Ok file ->
  Z.of_nat (length file) < 1024 + 128 * 100000 -> part_of part file ->
  ((length part < 1024)%nat -> header_missing part) /\ ((1024 <= length part)%nat -> block_missing part).
Proof. exact written_cut. Qed.
Print Assumptions C99_part_of_written.

(** And for the first [m] bytes of any file that can be read, whoever wrote it: what comes after the last block is not needed. *)
Theorem C99_part_of_any : forall h input g subs m, snd (stl_binary_read input (after h)) = Ok (g, subs) ->
  ((m < 1024)%nat -> header_missing (firstn m input)) /\
  ((1024 <= m)%nat -> Z.of_nat m < 1024 + 128 * tti_blocks g -> block_missing (firstn m input)) /\
  ((1024 <= m)%nat -> 1024 + 128 * tti_blocks g <= Z.of_nat m -> forall h', snd (stl_binary_read (firstn m input) (after h')) = Ok (g, subs)).
Proof. exact cut_anywhere. Qed.
Print Assumptions C99_part_of_any.

(** If the writer throws, whatever it was given, the file is as it was before. *)
Theorem C99_throw_leaves_file : forall h a ss m old steps e, sv_at (save_run ss a (after h) m old steps) = Threw e ->
  sv_file (save_run ss a (after h) m old steps) = old.
Proof. exact untouched_on_throw. Qed.
Print Assumptions C99_throw_leaves_file.

(** The writer comes to an end, and if the file could be opened and there is room for it, it is then complete. *)
Theorem C99_ends : forall ss a h bytes m old steps, snd (write_stl_binary ss a (after h)) = Ok bytes ->
  Forall (fun n => (0 < n)%nat) steps -> (S (length bytes) < length steps)%nat ->
  sv_at (save_run ss a (after h) m old steps) = Returned.
Proof. exact save_ends. Qed.
Print Assumptions C99_ends.
Theorem C99_complete : forall h a ss m old steps, sv_at (save_run ss a (after h) m old steps) = Returned ->
  exists bytes, snd (write_stl_binary ss a (after h)) = Ok bytes /\
    (can_open m = true -> (length bytes <= room m)%nat -> sv_file (save_run ss a (after h) m old steps) = Some bytes).
Proof. exact stored_on_return. Qed.
Print Assumptions C99_complete.

(** A subtitle written where a file was before: stopped after 1100 bytes, and not stopped. *)
Example C99_case : acceptable 25000 sample_args [sample_subtitle] /\
  exists bytes, snd (write_stl_binary [sample_subtitle] sample_args (after [])) = Ok bytes /\ length bytes = 1152%nat /\
    sv_file (save_run [sample_subtitle] sample_args (after []) (mkMedium true 2000) (Some (lit "old")) [1; 1000; 100]%nat) = Some (firstn 1100 bytes) /\
    save_run [sample_subtitle] sample_args (after []) (mkMedium true 2000) (Some (lit "old")) [1; 1000; 100; 52; 1]%nat = mkSave (Some bytes) Returned.
Proof. split; [exact sample_acceptable|]. eexists. split; [vm_compute; reflexivity|]. repeat split; vm_compute; reflexivity. Qed.
Example C99_case_throws : exists e,
  save_run [sample_subtitle] (mkW (Float.f_of_int 25) LANGUAGE_ENGLISH (lit "Title") [] [] [] [] [] (lit "1 Jan 2026") (lit "260102") 1 (lit "GBR") [] [] [])
    (after []) (mkMedium true 2000) (Some (lit "old")) [1; 1000]%nat =
  mkSave (Some (lit "old")) (Threw e).
Proof. eexists. vm_compute. reflexivity. Qed.

(** Only a reader notices.  The writer returns as usual when there is room for 1100 bytes only, and when the file cannot be
    opened at all. *)
Theorem C99_no_room_refuted : exists a ss bytes steps, acceptable 25000 a ss /\ snd (write_stl_binary ss a (after [])) = Ok bytes /\
  save_run ss a (after []) (mkMedium true 1100) None steps = mkSave (Some (firstn 1100 bytes)) Returned /\ (1100 < length bytes)%nat.
Proof.
  exists sample_args, [sample_subtitle]. eexists. exists [1; 1152]%nat. split; [exact sample_acceptable|]. split; [vm_compute; reflexivity|].
  split; [vm_compute; reflexivity|]. apply Nat.ltb_lt. vm_compute. reflexivity.
Qed.
Print Assumptions C99_no_room_refuted.
Theorem C99_not_opened_refuted : exists a ss steps, acceptable 25000 a ss /\
  save_run ss a (after []) (mkMedium false 2000) None steps = mkSave None Returned.
Proof. exists sample_args, [sample_subtitle], [1]%nat. split; [exact sample_acceptable|]. vm_compute. reflexivity. Qed.
Print Assumptions C99_not_opened_refuted.
