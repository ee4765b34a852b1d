(** What collect() must produce: a partition of the sorted pieces into subtitles and lines. *)
From Coq Require Import List Bool ZArith.
From Verif.Model Require Import Base TimeModel Types Collect.
From Verif.Spec Require Import Outcome TimeSpec SortSpec.
Import ListNotations.

(** Two pieces have the same start, end and fades, according to Time's operator==. *)
Definition same_optional_time (a b : option time) : Prop :=
  match a, b with
  | None, None => True
  | Some x, Some y => time_eq x y = Ok true
  | _, _ => False
  end.
Definition same_times (p q : raw) : Prop :=
  time_eq (r_from p) (r_from q) = Ok true /\ time_eq (r_to p) (r_to q) = Ok true /\
  same_optional_time (r_fade_up p) (r_fade_up q) /\ same_optional_time (r_fade_down p) (r_fade_down q).

(** All comparisons collect() may need return: no mixture of known and unknown rates, no overflow. *)
Definition optional_returns (a b : option time) : Prop :=
  match a, b with Some x, Some y => returns (time_eq x y) | _, _ => True end.
Definition all_comparable (l : list raw) : Prop :=
  (forall x y, In x l -> In y l ->
     returns (time_lt (r_from x) (r_from y)) /\ returns (time_eq (r_from x) (r_from y)) /\
     returns (time_eq (r_to x) (r_to y)) /\
     optional_returns (r_fade_up x) (r_fade_up y) /\ optional_returns (r_fade_down x) (r_fade_down y)) /\
  (forall x, In x l -> rate_ok (r_from x)).

(** A block holds the text and format of a piece. *)
Definition block_holds (b : block) (p : raw) : Prop :=
  b_text b = r_text p /\ b_font b = r_font p /\ b_font_size b = r_font_size p /\ b_effect b = r_effect p /\
  b_effect_colour b = r_effect_colour p /\ b_colour b = r_colour p /\ b_bold b = r_bold p /\
  b_italic b = r_italic p /\ b_underline b = r_underline p.

(** A line holds a non-empty list of pieces; its position is that of the first, and the others have a
    vertical position that is == to it. *)
Definition line_holds (l : line) (ps : list raw) : Prop :=
  match ps with
  | [] => False
  | p :: rest => l_hpos l = r_hpos p /\ l_vpos l = r_vpos p /\ Forall2 block_holds (l_blocks l) ps /\
                 Forall (fun q => vpos_eqb (r_vpos p) (r_vpos q) = true) rest
  end.

(** Neighbouring lists of pieces: the first pieces are not related by [same]. *)
Fixpoint neighbours_differ (same : raw -> raw -> Prop) (ls : list (list raw)) : Prop :=
  match ls with
  | (p :: _) :: (((q :: _) :: _) as rest) => ~ same p q /\ neighbours_differ same rest
  | _ => True
  end.

(** A subtitle holds a non-empty list of lines of pieces with its times; neighbouring lines differ in
    vertical position. *)
Definition subtitle_holds (s : subtitle) (ls : list (list raw)) : Prop :=
  match concat ls with
  | [] => False
  | p :: rest =>
      s_from s = r_from p /\ s_to s = r_to p /\ s_fade_up s = r_fade_up p /\ s_fade_down s = r_fade_down p /\
      Forall2 line_holds (s_lines s) ls /\
      Forall (same_times p) rest /\
      neighbours_differ (fun p q => vpos_eqb (r_vpos p) (r_vpos q) = true) ls
  end.

(** [subs] is a correct grouping of the sorted list [l], with [groups] as its pieces. *)
Definition grouping (l : list raw) (subs : list subtitle) (groups : list (list (list raw))) : Prop :=
  concat (map (@concat raw) groups) = l /\
  Forall2 subtitle_holds subs groups /\
  neighbours_differ same_times (map (@concat raw) groups).

(** No comparison collect() may make overflows. *)
Definition optional_defined (a b : option time) : Prop :=
  match a, b with Some x, Some y => defined (time_eq x y) | _, _ => True end.
Definition all_defined (l : list raw) : Prop :=
  (forall x y, In x l -> In y l ->
     defined (time_lt (r_from x) (r_from y)) /\ defined (time_eq (r_from x) (r_from y)) /\
     defined (time_eq (r_to x) (r_to y)) /\
     optional_defined (r_fade_up x) (r_fade_up y) /\ optional_defined (r_fade_down x) (r_fade_down y)) /\
  (forall x, In x l -> rate_ok (r_from x)).

(** Pieces in different subtitles never have the same times. *)
Definition fully_merged (groups : list (list (list raw))) : Prop :=
  forall before g1 between g2 after p q, groups = before ++ g1 :: between ++ g2 :: after ->
    In p (concat g1) -> In q (concat g2) -> ~ same_times p q.

(** All pieces that start together have the same end and fades. *)
Definition starts_agree (l : list raw) : Prop :=
  forall p q, In p l -> In q l -> time_eq (r_from p) (r_from q) = Ok true -> same_times p q.
