(** Properties of reader_factory (C55). *)
From Coq Require Import ZArith List Bool Ascii String.
From Verif.Model Require Import Base Strings Types StlBinReader StlText Subrip Factory.
From Verif.Spec Require Import Outcome TextSpec LinesSpec SubripSpec StlTextSpec StlSamples FactorySpec.
From Verif.Proofs Require Import StlReadProofs FactoryProofs.
Import ListNotations.
Local Open Scope Z_scope.
Local Notation length := List.length.

(** C55.  A name in .srt is read by the SubRip reader (and a missing file is refused). *)
Theorem C55_subrip : forall path content t, named path (lit "srt") ->
  reader_factory path (Some content) t = (t, let* subs := subrip_reader_file content in Ok (Some (mkReader [] subs))) /\
  reader_factory path None t = (t, Throw EProgramming).
Proof. exact factory_subrip. Qed.
Print Assumptions C55_subrip.
(** A name in .stl is read by the binary STL reader if the file has STL at offset 3, *)
Theorem C55_binary : forall path content t, named path (lit "stl") -> stl_signature content ->
  reader_factory path (Some content) t = (let$ x := stl_binary_read content in st_ret (Ok (Some (mkReader (stl_metadata (fst x)) (snd x))))) t.
Proof. exact factory_binary. Qed.
Print Assumptions C55_binary.
(** and otherwise by the text STL reader, which gives what the text means, *)
Theorem C55_text : forall path content t raws, named path (lit "stl") -> ~ stl_signature content -> text_stl_file content raws ->
  reader_factory path (Some content) t = (t, Ok (Some (mkReader [] raws))).
Proof. exact factory_text_means. Qed.
Print Assumptions C55_text.
(** or refuses it, unless the file is shorter than 11 bytes. *)
Theorem C55_text_refused : forall path content t, named path (lit "stl") -> ~ stl_signature content ->
  reader_factory path (Some content) t = (t, let* subs := (if Nat.leb 11 (length content) then stl_text_read true content else Ok []) in Ok (Some (mkReader [] subs))).
Proof. exact factory_text. Qed.
Print Assumptions C55_text_refused.
(** A missing .stl file gives a reader with nothing in it. *)
Theorem C55_missing : forall path t, named path (lit "stl") -> reader_factory path None t = (t, Ok (Some (mkReader [] []))).
Proof. exact factory_no_file. Qed.
Print Assumptions C55_missing.
(** Other names give no reader. *)
Theorem C55_null : forall path content t, ~ named path (lit "stl") -> ~ named path (lit "srt") -> reader_factory path content t = (t, Ok None).
Proof. exact factory_null. Qed.
Print Assumptions C55_null.
Example C55_case : named (lit "/films.old/Part 1.Final.SrT") (lit "srt") /\ named (lit "X.STL") (lit "stl") /\
  ~ named (lit "/films.stl/x") (lit "stl") /\ ~ named (lit "x.stl.bak") (lit "stl") /\ ~ named (lit "x.txt") (lit "srt") /\
  stl_signature (sample_header "00001" "23") /\ ~ stl_signature (lit "//comment about STL") /\
  text_stl_file (lit "//comment about STL" ++ [lf]) [].
Proof.
  rewrite <- !stl_ext, <- !srt_ext, <- !signature_iff, <- StlTextProofs.text_stl_iff.
  repeat split; try (vm_compute; discriminate); vm_compute; reflexivity.
Qed.
