(** A program that uses the library for a while: conversions, files opened and read, files written, in any order.  The
    conversion tables are the only thing that the library keeps from one call to the next. *)
From Coq Require Import ZArith List Bool Ascii String.
From Verif.Model Require Import Base Types Iso6937 StlBinReader StlBinWriter Factory.
From Verif.Spec Require Import Iso6937Spec StlSamples.
Import ListNotations.
Local Open Scope Z_scope.

Inductive act : Type :=
| Convert (c : call)                                    (* iso6937_to_utf16 or utf16_to_iso6937 *)
| ReadStl (file : str)                                  (* STLBinaryReader *)
| Open (path : str) (content : option str)              (* reader_factory; None if there is no such file *)
| Write (ss : list subtitle) (a : writer_args).         (* write_stl_binary *)

(** The tables after a call, also if the call ends with an exception. *)
Definition after_act (t : tables) (x : act) : tables :=
  match x with
  | Convert c => after_call t c
  | ReadStl file => fst (stl_binary_read file t)
  | Open path content => fst (reader_factory path content t)
  | Write ss a => fst (write_stl_binary ss a t)
  end.

(** After a whole session that began in a new process. *)
Definition after_session (l : list act) : tables := fold_left after_act l (after []).

(** No text of these subtitles has a NUL byte. *)
Definition without_nul (ss : list subtitle) : Prop :=
  Forall (fun s => Forall (fun l => Forall (fun k => ~ In zero (b_text k)) (l_blocks l)) (s_lines s)) ss.

(** A file whose text has a byte without a meaning. *)
Definition odd_file : str :=
  match snd (write_stl_binary [sample_subtitle] sample_args (after [])) with
  | Ok file => firstn 1040 file ++ chr 127 :: skipn 1041 file
  | _ => []
  end.
(** A text with a NUL byte. *)
Definition nul_subtitle : subtitle := long_subtitle [zero].
