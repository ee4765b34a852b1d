(** The pieces of text that readers give. *)
From Coq Require Import ZArith List Ascii String.
From Verif.Model Require Import Base Types.
From Verif.Spec Require Import TextSpec LinesSpec Utf8Spec SsaTagSpec.
Import ListNotations.
Local Open Scope Z_scope.

(** All texts, one after the other. *)
Definition texts (raws : list raw) : str := List.concat (map r_text raws).

(** [taken_from s t]: the text [t] is what is left of [s] when some of its characters are taken away. *)
Inductive taken_from : str -> str -> Prop :=
| taken_nil : taken_from [] []
| taken_kept c s t : taken_from s t -> taken_from (c :: s) (c :: t)
| taken_away c s t : taken_from s t -> taken_from (c :: s) t.

(** Some text, on one line. *)
Definition some_text (r : raw) : Prop := r_text r <> [].
Definition one_line (r : raw) : Prop := ~ In lf (r_text r).

(** A text in UTF-8. *)
Definition valid (s : str) : Prop := exists w, utf8 s w.
Definition valid_text (r : raw) : Prop := valid (r_text r).
(** What follows this character, if anything does, is an ASCII character. *)
Definition ascii_after (x : ascii) (s : str) : Prop := forall a c b, s = a ++ x :: c :: b -> char_code c < 128.
