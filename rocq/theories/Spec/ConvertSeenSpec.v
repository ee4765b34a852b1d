(** What is seen of pieces that are collected, written as a binary STL file and read back. *)
From Coq Require Import ZArith List Bool Ascii String.
From Verif.Model Require Import Base TimeModel Types Collect StlBinReader StlBinWriter.
From Verif.Spec Require Import Outcome Iso6937Spec SortSpec CollectSpec StlFileSpec StlWriteSpec StlRoundTripSpec LongTextSpec.
Import ListNotations.
Local Open Scope Z_scope.
Local Notation length := List.length.

(** Whatever stable sort is used and whatever was converted before, [raws] can be collected (into [subs]) and written, and if the
    file has less than 100000 blocks then each subtitle is seen as [seen_in_blocks] says, on the rows that its lines are written to:
    its text cut into blocks, each of them seen on its own from its highest row down and without style, and all of it only as far up
    as is needed. *)
Definition seen_in_file (a : writer_args) (raws : list raw) : Prop :=
  forall sort h h', conforming sort -> exists sorted subs groups file,
    collect sort raws = Ok subs /\ stably_sorted raws sorted /\ grouping sorted subs groups /\ snd (write_stl_binary subs a (after h)) = Ok file /\
    (Z.of_nat (length file) < 1024 + 128 * 100000 ->
     exists rowss k lasts g pieces, Forall2 has_rows subs rowss /\ length lasts = length pieces /\ needed k (List.concat lasts) /\
       snd (stl_binary_read file (after h')) = Ok (g, List.concat pieces) /\
       Forall2 (fun sr lr => seen_in_blocks (fst sr) (snd sr) k (fst lr) (snd lr)) (combine subs rowss) (combine lasts pieces)).
