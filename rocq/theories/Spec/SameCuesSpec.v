(** SubRip files as WebVTT files. *)
From Coq Require Import ZArith List Bool Ascii String.
From Verif.Model Require Import Base TimeModel Types.
From Verif.Spec Require Import TextSpec LinesSpec RawSpec SubripSpec SubripUseSpec WebVttSpec TextFileSpec RetimeSpec.
Import ListNotations.

(** 00:00:01,000 is 00:00:01.000 in WebVTT. *)
Definition dots (timing : str) : str := map (fun c => if Ascii.eqb c ","%char then "."%char else c) timing.
Definition blank_line (l : str) : Prop := cleaned l [].
Definition ends_or_blank_line (ls : list str) : Prop := ls = [] \/ exists l more, ls = l :: more /\ blank_line l.
(** The lines of a SubRip file as those of a WebVTT file after its header; a counter is an identifier. *)
Inductive as_webvtt : list str -> list str -> Prop :=
| as_end : as_webvtt [] []
| as_blank l ls ls' : blank_line l -> as_webvtt ls ls' -> as_webvtt (l :: ls) (l :: ls')
| as_cue counter timing from to text rest rest' : text_line counter -> other_line counter ->
    times_line ","%char timing from to -> (exists l, cleaned timing l /\ has_arrow l) -> Forall text_line text -> ends_or_blank_line rest -> as_webvtt rest rest' ->
    as_webvtt (counter :: timing :: text ++ rest) (counter :: dots timing :: text ++ rest').
Definition webvtt_of (s s' : str) : Prop := exists ls ls', text_lines s ls /\ as_webvtt ls ls' /\ s' = text_of_lines (lit "WEBVTT" :: [] :: ls').

(** Rows of text without anything that SubRip files have a use for. *)
Definition simple_row (row : str) : Prop := row <> [] /\ ~ In "<"%char row /\ ~ In "{"%char row /\ ~ contains u202b row.
Definition simple_cues (s : str) : Prop := forall cs c rows row, file_cues s cs -> In c cs -> cue_rows c rows -> In row rows -> simple_row row.
