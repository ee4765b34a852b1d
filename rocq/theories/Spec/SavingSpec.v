(** What a reader makes of part of a binary STL file, and what may be found where one is being written. *)
From Coq Require Import ZArith List Ascii String.
From Verif.Model Require Import Base Strings Types Iso6937 StlBinReader.
From Verif.Spec Require Import Iso6937Spec.
Import ListNotations.

Definition no_header : exn := EStl (lit "Could not read GSI block from binary STL file").
Definition no_block : exn := EStl (lit "Could not read TTI block from binary STL file").

(** Reading it, whatever conversions were done before, fails because the header is not all there; because a block is not. *)
Definition header_missing (file : str) : Prop := forall h, snd (stl_binary_read file (after h)) = Throw no_header.
Definition block_missing (file : str) : Prop := forall h, snd (stl_binary_read file (after h)) = Throw no_block.

(** Some of the bytes at the beginning of a file, and not all. *)
Definition part_of (part whole : str) : Prop := exists c rest, whole = part ++ c :: rest.
