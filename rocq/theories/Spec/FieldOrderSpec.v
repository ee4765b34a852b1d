(** The order of the fields in the sections of an SSA file. *)
From Coq Require Import ZArith List Permutation Ascii String.
From Verif.Model Require Import Base Types.
From Verif.Spec Require Import TextSpec LinesSpec SsaSpec TextFileSpec.
Import ListNotations.
Local Notation length := List.length.

(** Keys with their values. *)
Inductive fields : list str -> list str -> list (str * str) -> Prop :=
| fields_end : fields [] [] []
| fields_more k v ks vs k' v' kvs : trimmed k k' -> trimmed v v' -> fields ks vs kvs -> fields (k :: ks) (v :: vs) ((k', v') :: kvs).
(** A line that begins with a word and a colon. *)
Definition line_with (word l body : str) : Prop := ~ In lf l /\ exists u, line_body l u /\ keyed u word body.
Definition format_line (l : str) (keys : list str) : Prop := exists body, line_with (lit "Format") l body /\ parts_of [comma] body keys.

(** The lines of a section of styles, each with its keys and values. *)
Definition styles_section (h : string) (styles : list (list (str * str))) (ls : list str) : Prop :=
  exists l keys rest, ls = lit h :: l :: rest /\ In h ["[V4 Styles]"; "[V4+ Styles]"]%string /\ format_line l keys /\
    Forall2 (fun l kvs => exists body vs, line_with (lit "Style") l body /\ parts_of [comma] body vs /\ fields keys vs kvs) rest styles.
(** The lines of a section of events; all commas after the last key belong to its value. *)
Definition events_section (events : list (list (str * str))) (ls : list str) : Prop :=
  exists l keys rest, ls = lit "[Events]" :: l :: rest /\ format_line l keys /\
    Forall2 (fun l kvs => exists body vs, line_with (lit "Dialogue") l body /\ field_values (length keys) body vs /\ fields keys vs kvs) rest events.

(** The same fields in another order. *)
Definition once (kvs : list (str * str)) : Prop := NoDup (map fst kvs).
Definition reordered (kvs kvs' : list (str * str)) : Prop := once kvs /\ Permutation kvs kvs'.
(** The text is the last field, and the margins are after the style. *)
Definition style_first (kvs : list (str * str)) : Prop :=
  forall p v q kv, kvs = p ++ (lit "Style", v) :: q -> In kv p -> ~ In (fst kv) [lit "MarginL"; lit "MarginR"; lit "MarginV"].
Definition text_last (kvs : list (str * str)) : Prop := exists p t, kvs = p ++ [(lit "Text", t)].
(** There are no more styles. *)
Definition no_styles (s : str) : Prop := forall ls l u, text_lines s ls -> In l ls -> line_body l u -> ~ In u [lit "[V4 Styles]"; lit "[V4+ Styles]"].
