(** Files with a part in the middle taken out, put in or moved. *)
From Coq Require Import ZArith List Ascii String.
From Verif.Model Require Import Base Types StlBinReader.
From Verif.Spec Require Import TextSpec LinesSpec SsaSpec CommentSpec StlFileSpec.
Import ListNotations.

(** With [c] in the middle there are the subtitles that there are without it, and those that [c] adds to [a], in between. *)
Definition removable (read : str -> res (list raw)) (a c b : str) : Prop :=
  forall r, read (a ++ c ++ b) = Ok r <->
    exists ra rc rb, read a = Ok ra /\ read (a ++ c) = Ok (ra ++ rc) /\ read (a ++ b) = Ok (ra ++ rb) /\ r = ra ++ rc ++ rb.
(** [c] and [d] can change places, and so do their subtitles. *)
Definition movable (read : str -> res (list raw)) (a c d b : str) : Prop :=
  forall r, read (a ++ c ++ d ++ b) = Ok r ->
    exists ra rc rd rb, r = ra ++ rc ++ rd ++ rb /\ read (a ++ c) = Ok (ra ++ rc) /\ read (a ++ d) = Ok (ra ++ rd) /\
      read (a ++ d ++ c ++ b) = Ok (ra ++ rd ++ rc ++ rb).

(** Dialogues of an SSA file. *)
Definition dialogues (s : str) : Prop :=
  exists ls, of_lines ls s /\ Forall (fun l => exists l', trimmed l l' /\ begins_with (lit "Dialogue:") l') ls.
(** A line of a text STL file whose last row is empty. *)
Definition open_row (l : str) : Prop := exists t, trimmed l (t ++ ["|"%char]).
(** Lines of a text STL file that do not leave a row open: no bars, or no carets and something in the last row. *)
Definition closed_stl_lines (s : str) : Prop :=
  exists ls, of_lines ls s /\ Forall (fun l => ~ In "|"%char l \/ ~ In "^"%char l /\ ~ open_row l) ls.
(** Lines of a text STL file that set nothing: no settings, no carets in the texts, and something in the last row. *)
Definition plain_stl_lines (s : str) : Prop :=
  exists ls, of_lines ls s /\ Forall (fun l => ~ In "$"%char l /\ ~ In "^"%char l /\ ~ open_row l) ls.

(** Blocks of a binary STL file, and the subtitles in them, in the rows that the blocks give. *)
Definition blocks_read (g : gsi) (blocks : list str) (raws : list raw) : Prop :=
  exists rawss, Forall2 (fun b x => exists last, block_read g b x last) blocks rawss /\ raws = List.concat rawss.
Definition tti_size (b : str) : Prop := List.length b = 128%nat.
(** Headers of files whose blocks are read alike. *)
Definition same_reading (g g' : gsi) : Prop := frame_rate g = frame_rate g' /\ maximum_rows g = maximum_rows g'.
