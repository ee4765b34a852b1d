(** Numbers in SSA and ASS files that are too large for the ints they are put into: the only undefined behaviour. *)
From Coq Require Import ZArith List Bool Ascii String.
From Verif.Model Require Import Base Float TimeModel Types RawConvert.
From Verif.Spec Require Import Outcome TextSpec LinesSpec StlFileSpec RawSpec SsaTagSpec SsaSpec.
From Verif.Model Require Import Ssa.
Import ListNotations.
Local Open Scope Z_scope.
Local Notation length := List.length.

(** Steps one after the other, of which one goes wrong. *)
Definition stops_in_turn {A B : Type} (step : A -> B -> A -> Prop) (stop : A -> B -> Prop) (a : A) (l : list B) : Prop :=
  exists before b after a1, l = before ++ b :: after /\ in_turn step a before a1 /\ stop a1 b.

Definition too_big (s : str) : Prop := exists v, c_number s v /\ ~ is_int v.

(** One of the numbers of a time is too big, or the time in seconds or the fraction in milliseconds is. *)
Definition ssa_time_overflows (s : str) : Prop :=
  exists hs ms ss cs h m sec c, four_parts s hs ms ss cs /\ c_number hs h /\ c_number ms m /\ c_number ss sec /\ c_number cs c /\
    ~ (is_int h /\ is_int m /\ is_int sec /\ is_int c /\ is_int (c * 10) /\ time_fits h m sec).

(** The margins of what is in the middle are subtracted, and the width of the screen is doubled. *)
Definition margins_overflow (c : ssa_context) (h : href) : Prop :=
  h = HORIZONTAL_CENTRE_OF_SCREEN /\ ~ (is_int (left_margin c - right_margin c) /\ is_int (2 * play_res_x c)).
Definition tag_overflows (c : ssa_context) (t : str) : Prop :=
  exists k h v, In (k, (h, v)) keypad /\ t = tag "an" ++ lit k /\ margins_overflow c h.
Inductive cut_overflows (c : ssa_context) (size : flt) : raw -> list item -> Prop :=
| overflows_char r x its : cut_overflows c size r its -> cut_overflows c size r (Char x :: its)
| overflows_tag r t its : tag_overflows c t -> cut_overflows c size r (Tag t :: its)
| overflows_later r t r1 its : override c r t r1 -> cut_overflows c size r1 its -> cut_overflows c size r (Tag t :: its)
| overflows_break r r1 its : row_below size r r1 -> cut_overflows c size r1 its -> cut_overflows c size r (Break :: its).
Definition text_overflows (c : ssa_context) (base : raw) (s : str) : Prop :=
  margins_overflow c (h_ref (r_hpos base)) \/
  exists its r, ssa_text s its /\ first_look c base r /\ cut_overflows c (row_size c base) r its.

(** Styles. *)
Definition number_keys : list str := map lit ["Fontsize"; "MarginV"; "MarginL"; "MarginR"]%string.
Definition colour_keys : list str := map lit ["PrimaryColour"; "BackColour"]%string.
Definition style_entry_overflows (key x : str) : Prop :=
  too_big x /\ (In key number_keys \/ In key colour_keys /\ ~ begins (eq "&"%char) x).
Definition style_step_overflows (st : style) (kv : str * str) : Prop :=
  exists k v, trimmed (fst kv) k /\ trimmed (snd kv) v /\ style_entry_overflows k v.
Definition style_line_overflows (format line : str) : Prop :=
  exists ks vs, parts_of [comma] format ks /\ parts_of [comma] line vs /\ length ks = length vs /\
    stops_in_turn style_step style_step_overflows base_style (combine ks vs).

(** Dialogues. *)
Inductive event_entry_overflows (f : ssa_reader) (ev : ssa_event) : str -> str -> Prop :=
| overflows_time key x : key = lit "Start" \/ key = lit "End" -> ssa_time_overflows x -> event_entry_overflows f ev key x
| overflows_margin key x : key = lit "MarginL" \/ key = lit "MarginR" -> too_big x -> event_entry_overflows f ev key x
| overflows_text x : text_overflows (text_context f ev) (ev_sub ev) x -> event_entry_overflows f ev (lit "Text") x.
Definition event_step_overflows (f : ssa_reader) (ev : ssa_event) (kv : str * str) : Prop :=
  exists v, trimmed (snd kv) v /\ event_entry_overflows f ev (fst kv) v.
Definition dialogue_overflows (f : ssa_reader) (body : str) : Prop :=
  sr_event_format f <> [] /\ exists vs, field_values (length (sr_event_format f)) body vs /\
    stops_in_turn (event_step f) (event_step_overflows f) new_event (combine (sr_event_format f) vs).

(** Files. *)
Inductive keyed_overflows (f : ssa_reader) : str -> str -> Prop :=
| overflows_res key body : sr_part f = INFO -> key = lit "PlayResX" \/ key = lit "PlayResY" -> too_big body -> keyed_overflows f key body
| overflows_style body : sr_part f = STYLES -> sr_style_format f <> [] -> style_line_overflows (sr_style_format f) body ->
    keyed_overflows f (lit "Style") body
| overflows_dialogue body : sr_part f = EVENTS -> dialogue_overflows f body -> keyed_overflows f (lit "Dialogue") body.
Definition ssa_line_overflows (f : ssa_reader) (line : str) : Prop :=
  exists l key body, line_body line l /\ ~ begins (fun c => c = ";"%char \/ c = "["%char) l /\ keyed l key body /\ keyed_overflows f key body.
Definition ssa_file_overflows (s : str) : Prop :=
  exists ls, text_lines s ls /\ stops_in_turn ssa_line_read ssa_line_overflows new_file ls.
