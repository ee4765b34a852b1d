(** Comments, notes and empty lines. *)
From Coq Require Import List Ascii String.
From Verif.Model Require Import Base.
From Verif.Spec Require Import TextSpec LinesSpec WebVttSpec SsaSpec.
Import ListNotations.

(** A text of these lines, each of them ended. *)
Definition of_lines (ls : list str) (s : str) : Prop := Forall (fun l => ~ In lf l) ls /\ s = List.concat (map (fun l => l ++ [lf]) ls).
(** White space, or a comment after white space. *)
Definition comment_line (mark : str) (l : str) : Prop := exists l', trimmed l l' /\ (l' = [] \/ begins_with mark l').
Definition comments (mark : str) (s : str) : Prop := exists ls, of_lines ls s /\ Forall (comment_line mark) ls.
(** Empty lines. *)
Definition blank_lines (s : str) : Prop := exists ls, of_lines ls s /\ Forall (fun l => l = [] \/ l = [cr]) ls.
(** NOTE, lines that are not empty, and an empty one. *)
Definition note_block (s : str) : Prop :=
  exists ls l comment, of_lines ls s /\ Forall2 cleaned ls (l :: comment ++ [[]]) /\ is_note l /\ Forall (fun k => k <> []) comment.
