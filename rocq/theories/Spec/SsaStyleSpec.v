(** The styles of an SSA file. *)
From Coq Require Import ZArith List Ascii String.
From Verif.Model Require Import Base Types Ssa.
From Verif.Spec Require Import TextSpec LinesSpec SsaSpec TextFileSpec CommentSpec.
Import ListNotations.
Local Notation length := List.length.

(** The value of the (last) key Name. *)
Inductive named : list str -> list str -> str -> Prop :=
| named_here k v ks vs name : trimmed k (lit "Name") -> trimmed v name -> Forall (fun k => ~ trimmed k (lit "Name")) ks -> named (k :: ks) (v :: vs) name
| named_later k v ks vs name : named ks vs name -> named (k :: ks) (v :: vs) name.
(** A line with a style that has a name, in a part of the file with these keys. *)
Definition style_with (keys : list str) (name l : str) : Prop :=
  ~ In lf l /\ exists u body vs, line_body l u /\ keyed u (lit "Style") body /\ parts_of [comma] body vs /\ length vs = length keys /\ named keys vs name.
Definition style_text (s : str) : Prop := exists ls, of_lines ls s /\ Forall (fun l => exists u body, line_body l u /\ keyed u (lit "Style") body) ls.
(** A file up to some of its styles; a line with their keys is before them. *)
Definition styles_so_far (keys : list str) (s : str) : Prop :=
  exists a h l u body d, s = a ++ lit h ++ [lf] ++ l ++ [lf] ++ d /\ whole_lines a /\ In h ["[V4 Styles]"; "[V4+ Styles]"]%string /\
    ~ In lf l /\ line_body l u /\ keyed u (lit "Format") body /\ parts_of [comma] body keys /\ style_text d.
Definition can_be_read (s : str) : Prop := exists r, ssa_reader_string s = Ok r.
