(** Where the times of subtitles come from. *)
From Coq Require Import ZArith QArith List Ascii String.
From Verif.Model Require Import Base TimeModel Types.
From Verif.Spec Require Import TextSpec LinesSpec TimeSpec WebVttSpec SsaSpec StlTextSpec StlFileSpec.
Import ListNotations.
Local Notation length := List.length.

(** [in_order says units raws]: each piece has the start and end that a unit of the file (a line or a block) says, and the
    pieces come in the order of the units they come from.  There may be any number of pieces from a unit. *)
Inductive in_order {A : Type} (says : A -> time -> time -> Prop) : list A -> list raw -> Prop :=
| order_end : in_order says [] []
| order_next u us raws : in_order says us raws -> in_order says (u :: us) raws
| order_piece u us r raws : says u (r_from r) (r_to r) -> in_order says (u :: us) raws -> in_order says (u :: us) (r :: raws).

(** What lines of SubRip, WebVTT and text STL files and blocks of binary STL files say. *)
Definition srt_says (l : str) (from to : time) : Prop := exists l', cleaned l l' /\ timing_line ","%char l' from to.
Definition vtt_says (l : str) (from to : time) : Prop := exists l', cleaned l l' /\ has_arrow l' /\ timing_line "."%char l' from to.
Definition stl_says (l : str) (from to : time) : Prop :=
  exists l' start finish text, trimmed l l' /\ subtitle_line l' start finish text /\ frame_time start from /\ frame_time finish to.
Definition block_says (rate : Z) (b : str) (from to : time) : Prop := timecode_at b 5 rate from /\ timecode_at b 9 rate to.

(** The keys of a line of an SSA file that says which fields dialogues have. *)
Definition format_line (l : str) (keys : list str) : Prop :=
  exists l' body parts, line_body l l' /\ keyed l' (lit "Format") body /\ parts_of [comma] body parts /\ Forall2 trimmed parts keys.
(** The time in a field with this key, and one that may never have been set. *)
Definition field_time (kvs : list (str * str)) (key : string) (t : time) : Prop :=
  exists v v', In (lit key, v) kvs /\ trimmed v v' /\ ssa_time v' t.
Definition field_or_unset (kvs : list (str * str)) (key : string) (t : time) : Prop := field_time kvs key t \/ t = mkT 0 0 None.
(** What a dialogue says in a file of these lines. *)
Definition ssa_says (time_of : list (str * str) -> string -> time -> Prop) (ls : list str) (l : str) (from to : time) : Prop :=
  exists f keys l' body vs, In f ls /\ format_line f keys /\ line_body l l' /\ keyed l' (lit "Dialogue") body /\
    field_values (length keys) body vs /\ time_of (combine keys vs) "Start"%string from /\ time_of (combine keys vs) "End"%string to.

(** The blocks of a binary STL file. *)
Definition file_blocks (input : str) (n : Z) (blocks : list str) : Prop :=
  exists head rest, input = head ++ List.concat blocks ++ rest /\ length head = 1024%nat /\ Forall (fun b => length b = 128%nat) blocks /\
    Z.of_nat (length blocks) = Z.max 0 n.

(** The one is no later than the other: in seconds at their rate, or by seconds and then by frames if there is no rate. *)
Definition no_later (a b : time) : Prop :=
  t_rate a = t_rate b /\
  match t_rate a with
  | Some r => (instant_at r a <= instant_at r b)%Q
  | None => (t_seconds a < t_seconds b \/ t_seconds a = t_seconds b /\ t_frames a <= t_frames b)%Z
  end.
Definition forwards (r : raw) : Prop := no_later (r_from r) (r_to r).
(** No unit of a file has its end before its start. *)
Definition all_forwards {A : Type} (says : A -> time -> time -> Prop) (us : list A) : Prop :=
  forall u from to, In u us -> says u from to -> no_later from to.
