(** Subtitles as pieces again. *)
From Coq Require Import List Bool ZArith.
From Coq.Floats Require Import SpecFloat.
From Verif.Model Require Import Base Float TimeModel Types Collect.
From Verif.Spec Require Import Outcome SortSpec.
Import ListNotations.

(** A block with the position of its line and the times of its subtitle. *)
Definition piece_of (s : subtitle) (l : line) (b : block) : raw :=
  mkRaw (b_text b) (b_font b) (b_font_size b) (b_effect b) (b_effect_colour b) (b_colour b) (b_bold b) (b_italic b) (b_underline b)
    (l_hpos l) (l_vpos l) (s_from s) (s_to s) (s_fade_up s) (s_fade_down s).
Definition pieces_of (subs : list subtitle) : list raw :=
  concat (map (fun s => concat (map (fun l => map (piece_of s l) (l_blocks l)) (s_lines s))) subs).

(** If there is a line as well as a proportion, then the proportion is not NaN. *)
Definition position_ok (v : vpos) : Prop := v_line v = None \/ v_prop v <> Some S754_nan.

(** The pieces of a file stay together once they are collected, whatever sort is used. *)
Definition stays_collected (raws : list raw) : Prop :=
  forall sort sort' subs, conforming sort -> conforming sort' -> collect sort raws = Ok subs -> collect sort' (pieces_of subs) = Ok subs.
