(** The warnings about a text STL file. *)
From Coq Require Import ZArith List Bool Ascii String.
From Verif.Model Require Import Base Float TimeModel Types.
From Verif.Spec Require Import Outcome TextSpec LinesSpec SsaSpec StlTextSpec FactorySpec.
Import ListNotations.
Local Notation length := List.length.

Definition unknown_line (l : str) : str := lit "Unrecognised line " ++ l.
Definition unknown_time (s : str) : str := lit "Unrecognised time " ++ s.
Definition known_time (s : str) : Prop := exists t, frame_time s t.
(** A time that stops the reader. *)
Definition fatal_time (s : str) : Prop := bad_time s \/ big_time s.

(** The warnings about a line, in their order. *)
Inductive line_warns (l : str) : list str -> Prop :=
| warns_comment : is_comment l -> line_warns l []
| warns_setting name v : setting_line l name v -> line_warns l []
| warns_unknown : ~ is_comment l -> (forall name v, ~ setting_line l name v) ->
    (forall start finish text, ~ subtitle_line l start finish text) -> line_warns l [unknown_line l]
| warns_fatal start finish text : subtitle_line l start finish text -> fatal_time start -> line_warns l []
| warns_fine start finish text : subtitle_line l start finish text -> known_time start -> known_time finish \/ fatal_time finish ->
    line_warns l []
| warns_finish start finish text : subtitle_line l start finish text -> known_time start -> no_time finish ->
    line_warns l [unknown_time finish; unknown_line l]
| warns_start start finish text : subtitle_line l start finish text -> no_time start -> known_time finish ->
    line_warns l [unknown_time start; unknown_line l]
| warns_start_fatal start finish text : subtitle_line l start finish text -> no_time start -> fatal_time finish ->
    line_warns l [unknown_time start]
| warns_both start finish text : subtitle_line l start finish text -> no_time start -> no_time finish ->
    line_warns l [unknown_time start; unknown_time finish; unknown_line l].

(** The warnings about all lines up to the first that stops the reader. *)
Inductive file_warns : list str -> list str -> Prop :=
| warns_end : file_warns [] []
| warns_stop l l' ls ws o : trimmed l l' -> text_stops l' o -> line_warns l' ws -> file_warns (l :: ls) ws
| warns_more l l' ls ws wss : trimmed l l' -> (forall o, ~ text_stops l' o) -> line_warns l' ws -> file_warns ls wss ->
    file_warns (l :: ls) (ws ++ wss).
(** Each on a line of its own. *)
Definition on_lines (ws : list str) : str := List.concat (map (fun w => w ++ [lf]) ws).
Definition text_stl_warnings (s : str) (ws : list str) : Prop := exists ls, complete_lines s ls /\ file_warns ls ws.

(** What is written while a file is opened by reader_factory. *)
Inductive opening_text (path content : str) : str -> Prop :=
| opening_text_stl ws : named path (lit "stl") -> ~ stl_signature content -> (11 <= length content)%nat ->
    text_stl_warnings content ws -> opening_text path content (on_lines ws)
| opening_quiet : ~ named path (lit "stl") \/ stl_signature content \/ (length content < 11)%nat -> opening_text path content [].
