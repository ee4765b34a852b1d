(** C121: a program that uses the library for a while.  Statements only; proofs are in theories/Proofs. *)
From Coq Require Import ZArith List Ascii String.
From Verif.Model Require Import Base Float Types Iso6937 StlBinReader StlBinWriter Factory.
From Verif.Spec Require Import Iso6937Spec StlFileSpec StlWriteSpec StlSamples SessionSpec.
From Verif.Proofs Require Import StlUseProofs SessionProofs.
Import ListNotations.
Local Open Scope Z_scope.

(** C121.  Whatever the program has converted, read or written before, also with calls that failed: reading, opening,
    converting and writing give what they give in a new process. *)
Theorem C121_read : forall l file, snd (stl_binary_read file (after_session l)) = snd (stl_binary_read file (after [])).
Proof. exact session_read. Qed.
Print Assumptions C121_read.
Theorem C121_open : forall l path content, snd (reader_factory path content (after_session l)) = snd (reader_factory path content (after [])).
Proof. exact session_open. Qed.
Print Assumptions C121_open.
Theorem C121_decode : forall l s, snd (iso6937_to_utf16 (after_session l) s) = snd (iso6937_to_utf16 (after []) s).
Proof. exact session_decode. Qed.
Print Assumptions C121_decode.
Theorem C121_encode_partial : forall l w, ~ In 0 w -> snd (utf16_to_iso6937 (after_session l) w) = snd (utf16_to_iso6937 (after []) w).
Proof. exact session_encode. Qed.
Print Assumptions C121_encode_partial.
Theorem C121_write_partial : forall l ss a, without_nul ss ->
  snd (write_stl_binary ss a (after_session l)) = snd (write_stl_binary ss a (after [])).
Proof. exact session_write. Qed.
Print Assumptions C121_write_partial.
(** A session does to the tables what a sequence of conversions does, so that everything said above and below about
    [after h] holds after every session. *)
Theorem C121_conversions : forall l, exists h, after_session l = after h.
Proof. exact session_history. Qed.
Print Assumptions C121_conversions.

(** After reading a file whose text has a byte without a meaning, a NUL in a text is written as that byte; in a new process it is left out. *)
Theorem C121_write_refuted : exists file ss a n, acceptable n a [sample_subtitle] /\
  (exists g raws, snd (stl_binary_read file (after [])) = Ok (g, raws)) /\
  snd (write_stl_binary ss a (after_session [ReadStl file])) <> snd (write_stl_binary ss a (after [])).
Proof.
  exists odd_file, [nul_subtitle], sample_args, 25000. split; [exact sample_acceptable|]. split; [do 2 eexists; vm_compute; reflexivity|].
  vm_compute. discriminate.
Qed.
Print Assumptions C121_write_refuted.

(** A session with a file that is read, a file that is missing, a file that is not read, and a file that is written. *)
Example C121_case : without_nul [sample_subtitle] /\
  let l := [Open (lit "a.stl") (Some odd_file); Open (lit "b.srt") None; ReadStl (lit "no"); Convert (Encode [0x41]);
            Write [sample_subtitle] sample_args] in
  after_session l <> after [] /\ after_session l <> after [Encode []] /\
  exists file, snd (write_stl_binary [sample_subtitle] sample_args (after_session l)) = Ok file.
Proof.
  split.
  - repeat constructor; intros I; vm_compute in I; repeat (destruct I as [I|I]; [discriminate|]); exact I.
  - cbv zeta. split; [vm_compute; discriminate|]. split; [vm_compute; discriminate|]. eexists. vm_compute. reflexivity.
Qed.
