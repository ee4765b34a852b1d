(** Files in which one subtitle has other times. *)
From Coq Require Import ZArith List Ascii String.
From Verif.Model Require Import Base TimeModel Types StlBinReader.
From Verif.Spec Require Import TextSpec LinesSpec RawSpec SsaSpec StlTextSpec TextFileSpec StlFileSpec CommentSpec WebVttSpec TakeOutSpec.
Import ListNotations.
Local Notation length := List.length.

Definition lasts (from to : time) (r : raw) : Prop := r_from r = from /\ r_to r = to.
(** With [c'] in place of [c], what came of [c] has other times, and nothing else is changed. *)
Definition retimes (read : str -> res (list raw)) (a c c' b : str) (from to from' to' : time) : Prop :=
  forall r, read (a ++ c ++ b) = Ok r ->
    exists ra rc rb, r = ra ++ rc ++ rb /\ read a = Ok ra /\ read (a ++ c) = Ok (ra ++ rc) /\ Forall (lasts from to) rc /\
      read (a ++ c' ++ b) = Ok (ra ++ map (with_times from' to') rc ++ rb).

(** A cue of a SubRip or WebVTT file: lines before its times, its times, its text and an empty line. *)
Definition cue_with (head : list str) (timing : str) (text : list str) : str := text_of_lines (head ++ [timing] ++ text ++ [[]]).
Definition times_line (sep : ascii) (l : str) (from to : time) : Prop := ~ In lf l /\ exists l', cleaned l l' /\ timing_line sep l' from to.
Definition text_line (l : str) : Prop := ~ In lf l /\ exists l', cleaned l l' /\ l' <> [].
(** In a WebVTT file: lines that mean nothing, and times with an arrow between them. *)
Definition other_line (l : str) : Prop := ~ In lf l /\ exists l', cleaned l l' /\ ~ is_note l' /\ ~ has_arrow l'.
Definition arrow_line (l : str) (from to : time) : Prop :=
  ~ In lf l /\ exists l', cleaned l l' /\ ~ is_note l' /\ has_arrow l' /\ timing_line "."%char l' from to.

(** An SSA file up to some dialogues of the events with these keys, and a dialogue with these values. *)
Definition events_so_far (keys : list str) (s : str) : Prop :=
  exists a l u body parts d, s = a ++ lit "[Events]" ++ [lf] ++ l ++ [lf] ++ d /\ whole_lines a /\ ~ In lf l /\ line_body l u /\ keyed u (lit "Format") body /\ parts_of [comma] body parts /\ Forall2 trimmed parts keys /\ dialogues d.
Definition dialogue_with (vs : list str) (s : str) : Prop :=
  exists l body, s = l ++ [lf] /\ ~ In lf l /\ trimmed l (lit "Dialogue:" ++ body) /\ exists body', trimmed body body' /\ field_values (length vs) body' vs.
(** The values before the text: the same but for those of Start and End. *)
Inductive other_times (from to from' to' : time) : str -> str -> str -> Prop :=
| other_start v v' x x' : trimmed v x -> trimmed v' x' -> ssa_time x from -> ssa_time x' from' -> other_times from to from' to' (lit "Start") v v'
| other_end v v' x x' : trimmed v x -> trimmed v' x' -> ssa_time x to -> ssa_time x' to' -> other_times from to from' to' (lit "End") v v'
| other_same k v : ~ In k [lit "Start"; lit "End"; lit "Text"] -> other_times from to from' to' k v v.
Inductive values_other_times (from to from' to' : time) : list str -> list str -> list str -> Prop :=
| values_none : values_other_times from to from' to' [] [] []
| values_more k v v' ks vs vs' : other_times from to from' to' k v v' -> values_other_times from to from' to' ks vs vs' ->
    values_other_times from to from' to' (k :: ks) (v :: vs) (v' :: vs').

(** A subtitle of a text STL file. *)
Definition stl_subtitle (l text : str) (from to : time) : Prop :=
  ~ In lf l /\ exists l' start finish, trimmed l l' /\ subtitle_line l' start finish text /\ frame_time start from /\ frame_time finish to.

(** Blocks of a binary STL file that are the same but for the times. *)
Definition other_timecodes (b b' : str) : Prop :=
  exists p t t' q, b = p ++ t ++ q /\ b' = p ++ t' ++ q /\ length p = 5%nat /\ length t = 8%nat /\ length t' = 8%nat.
