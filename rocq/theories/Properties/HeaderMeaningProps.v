(** C132-C134: what the header of a binary STL file says.  [after h] is the state of the process after any sequence [h] of
    ISO 6937 conversions.  Statements only; proofs are in theories/Proofs. *)
From Coq Require Import ZArith Lia List Ascii String.
From Verif.Model Require Import Base Float TimeModel Types Iso6937 StlBinReader StlBinWriter.
From Verif.Spec Require Import Outcome TextSpec Utf8Spec Iso6937Spec StlFileSpec StlWriteSpec StlSamples HeaderMeaningSpec.
From Verif.Proofs Require Import StlReadProofs StlUseProofs HeaderMeaningProofs.
Import ListNotations.
Local Open Scope Z_scope.
Local Notation length := List.length.

(** C132.  With text in ASCII the header says how many characters the longest row has. *)
Theorem C132_ascii_partial : forall h n a ss c, acceptable n a ss -> only_ascii ss -> longest_row ss c -> c < 100 ->
  exists file, snd (write_stl_binary ss a (after h)) = Ok file /\ (small file -> exists nl, bytes_at file 251 2 nl /\ number 2 c nl).
Proof. exact longest_ascii_counted. Qed.
Print Assumptions C132_ascii_partial.
Example C132_case : acceptable 25000 sample_args [sample_subtitle] /\ only_ascii [sample_subtitle] /\ longest_row [sample_subtitle] 5.
Proof. exact (conj sample_acceptable (conj (proj2 sample_row) (proj1 sample_row))). Qed.
(** A row of one character, an e with an acute accent, is recorded as 2. *)
Theorem C132_refuted : exists ss a n file nl, acceptable n a ss /\ longest_row ss 1 /\
  snd (write_stl_binary ss a (after [])) = Ok file /\ small file /\ bytes_at file 251 2 nl /\ number 2 2 nl.
Proof.
  exists [long_subtitle e_acute], sample_args, 25000. do 2 eexists. split; [exact e_acceptable|]. split; [exact e_row|].
  split; [vm_compute; reflexivity|]. split; [reflexivity|]. split; [apply at_bytes; vm_compute; reflexivity|exact number_two].
Qed.
Print Assumptions C132_refuted.
(** The number is never too small while it fits. *)
Theorem C132_as_is : forall h n a ss c, acceptable n a ss -> longest_row ss c ->
  exists file, snd (write_stl_binary ss a (after h)) = Ok file /\ (small file ->
    exists nl m, bytes_at file 251 2 nl /\ c <= m /\ (only_ascii ss -> m = c) /\ (m < 100 -> number 2 m nl)).
Proof. exact longest_counted. Qed.
Print Assumptions C132_as_is.
Example C132_as_is_case : acceptable 25000 sample_args [long_subtitle e_acute] /\ longest_row [long_subtitle e_acute] 1.
Proof. exact (conj e_acceptable e_row). Qed.

(** C133.  The time of the first subtitle in the header is right only for a subtitle that starts at 0. *)
Theorem C133_as_is : forall h n a s ss, acceptable n a (s :: ss) ->
  exists file f, snd (write_stl_binary (s :: ss) a (after h)) = Ok file /\ (small file ->
    bytes_at file 264 8 f /\ forall k, tells f (t_seconds (s_from s)) k <-> t_seconds (s_from s) = 0 /\ k = 0).
Proof. exact first_told. Qed.
Print Assumptions C133_as_is.
Example C133_case : acceptable 25000 sample_args (sample_subtitle :: []) /\ tells (lit "00000000") 0 0.
Proof. exact (conj sample_acceptable (proj2 (zeros_tell 0 0 ltac:(lia)) (conj eq_refl eq_refl))). Qed.
(** The first subtitle starts at one second; whatever its frame, the header does not say so. *)
Theorem C133_refuted : exists s a n file f, acceptable n a [s] /\ t_seconds (s_from s) = 1 /\
  snd (write_stl_binary [s] a (after [])) = Ok file /\ small file /\ bytes_at file 264 8 f /\ forall k, ~ tells f 1 k.
Proof.
  exists sample_subtitle, sample_args, 25000. do 2 eexists. split; [exact sample_acceptable|]. split; [reflexivity|].
  split; [vm_compute; reflexivity|]. split; [reflexivity|]. split; [apply (at_bytes _ _ _ (lit "00000000")); vm_compute; reflexivity|].
  intros k T. apply zeros_tell in T as [T _]; [discriminate|lia].
Qed.
Print Assumptions C133_refuted.

(** C134.  The header says code page 850; a text in it is right in that code page exactly if it is ASCII. *)
Theorem C134_written_as_is : forall h n a ss, acceptable n a ss ->
  exists file, snd (write_stl_binary ss a (after h)) = Ok file /\ (small file -> bytes_at file 0 3 (lit "850") /\
    forall at_ len s w, In (at_, len, s) (header_strings a) -> utf8 s w ->
      exists f, bytes_at file at_ len f /\ (reads_850 f (w ++ repeat 32 (len - length w)) <-> ascii_only w)).
Proof. exact strings_in_850. Qed.
Print Assumptions C134_written_as_is.
Example C134_written_case : acceptable 25000 e_args [sample_subtitle] /\ In (16%nat, 32%nat, e_acute) (header_strings e_args) /\ utf8 e_acute [0xE9].
Proof. exact (conj e_args_acceptable (conj (or_introl eq_refl) e_utf8)). Qed.
(** A title that is an e with an acute accent is written as two other characters. *)
Theorem C134_written_refuted : exists a n file f, acceptable n a [sample_subtitle] /\ utf8 (w_original_programme_title a) [0xE9] /\
  snd (write_stl_binary [sample_subtitle] a (after [])) = Ok file /\ small file /\ bytes_at file 0 3 (lit "850") /\ bytes_at file 16 32 f /\
  reads_850 f ([0x251C; 0xAE] ++ repeat 32 30).
Proof.
  exists e_args, 25000. do 2 eexists. split; [exact e_args_acceptable|]. split; [exact e_utf8|].
  split; [vm_compute; reflexivity|]. split; [reflexivity|]. split; [apply at_bytes; vm_compute; reflexivity|].
  split; [apply (at_bytes _ _ _ (field 32 e_acute)); vm_compute; reflexivity|exact e_field_850].
Qed.
Print Assumptions C134_written_refuted.
(** The reader gives a text of the header as UTF-8 exactly if it is ASCII. *)
Theorem C134_read_as_is : forall h input g subs at_ t f w, snd (stl_binary_read input (after h)) = Ok (g, subs) -> In (at_, t) (header_texts g) ->
  bytes_at input at_ 32 f -> reads_850 f w -> (utf8 t w <-> ascii_only w).
Proof. exact texts_from_850. Qed.
Print Assumptions C134_read_as_is.
Example C134_read_case : returns (snd (stl_binary_read e_file (after []))) /\ bytes_at e_file 16 32 e_title /\ reads_850 e_title (0xE9 :: repeat 32 31).
Proof. split; [vm_compute; eexists; reflexivity|]. split; [apply at_bytes; vm_compute; reflexivity|exact e_title_850]. Qed.
(** The title, an e with an acute accent in code page 850, is not given in UTF-8. *)
Theorem C134_read_refuted : exists input g subs, snd (stl_binary_read input (after [])) = Ok (g, subs) /\ bytes_at input 0 3 (lit "850") /\
  exists f w, bytes_at input 16 32 f /\ reads_850 f w /\ ~ utf8 (original_programme_title g) w.
Proof.
  exists e_file. do 2 eexists. split; [vm_compute; reflexivity|]. split; [apply at_bytes; vm_compute; reflexivity|].
  exists e_title, (0xE9 :: repeat 32 31). split; [apply at_bytes; vm_compute; reflexivity|]. split; [exact e_title_850|exact e_title_not_utf8].
Qed.
Print Assumptions C134_read_refuted.
