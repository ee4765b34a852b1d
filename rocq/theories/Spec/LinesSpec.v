(** Lines of text files, and the timing lines that SubRip and WebVTT files have in common. *)
From Coq Require Import ZArith List Bool Ascii String.
From Verif.Model Require Import Base TimeModel.
From Verif.Spec Require Import Outcome TextSpec.
Import ListNotations.
Local Open Scope Z_scope.
Local Notation length := List.length.

Definition lf : ascii := ascii_of_nat 10.
Definition cr : ascii := ascii_of_nat 13.
Definition space : ascii := ascii_of_nat 32.
Definition begins_with (pat s : str) : Prop := exists rest, s = pat ++ rest.
Definition contains (pat s : str) : Prop := exists before after, s = before ++ pat ++ after.
Definition ends_in (P : ascii -> Prop) (s : str) : Prop := exists before c, s = before ++ [c] /\ P c.

(** The lines of a text; a newline at the very end does not start another one. *)
Inductive text_lines : str -> list str -> Prop :=
| lines_none : text_lines [] []
| lines_last l : l <> [] -> ~ In lf l -> text_lines l [l]
| lines_more l rest ls : ~ In lf l -> text_lines rest ls -> text_lines (l ++ lf :: rest) (l :: ls).

(** A line without the carriage returns and newlines at its end, and then without a byte order mark. *)
Definition bom : str := map ascii_of_nat [239; 187; 191]%nat.
Definition line_end (c : ascii) : Prop := c = lf \/ c = cr.
Definition cleaned (l l' : str) : Prop :=
  exists u ends, l = u ++ ends /\ Forall line_end ends /\ ~ ends_in line_end u /\
    (u = bom ++ l' \/ ~ begins_with bom u /\ l' = u).

(** The parts of a text between separators that cannot overlap. *)
Definition parts_of (sep text : str) (parts : list str) : Prop :=
  parts <> [] /\ text = join sep parts /\ Forall (fun p => ~ contains sep p) parts.

(** LINE SEPARATOR, U+2028, and RIGHT-TO-LEFT EMBEDDING, U+202B, in UTF-8. *)
Definition u2028 : str := map ascii_of_nat [226; 128; 168]%nat.
Definition u202b : str := map ascii_of_nat [226; 128; 171]%nat.

(** * Timing lines *)

(** A decimal int with an optional sign. *)
Inductive integer : str -> Z -> Prop :=
| integer_plain s v : numeral s v -> is_int v -> integer s v
| integer_plus s v : numeral s v -> is_int v -> integer ("+"%char :: s) v
| integer_minus s v : numeral s v -> is_int (- v) -> integer ("-"%char :: s) (- v).

(** hours:minutes:seconds and, after the separator [sep], milliseconds. *)
Definition cue_time_parts (sep : ascii) (s : str) (h m sec ms : Z) : Prop :=
  exists hs mins secs mss, s = hs ++ ":"%char :: mins ++ ":"%char :: secs ++ sep :: mss /\
    integer hs h /\ integer mins m /\ integer secs sec /\ integer mss ms.
Definition time_fits (h m sec : Z) : Prop :=
  is_int (h * 3600) /\ is_int (m * 60) /\ is_int (h * 3600 + m * 60) /\ is_int (h * 3600 + m * 60 + sec).
Definition cue_time (sep : ascii) (s : str) (t : time) : Prop :=
  exists h m sec ms, cue_time_parts sep s h m sec ms /\ time_fits h m sec /\ t = mkT (h * 3600 + m * 60 + sec) ms (Some (mkR 1000 1)).

(** Fields with one or more spaces between them. *)
Inductive spaced : str -> list str -> Prop :=
| spaced_one f : ~ In space f -> spaced f [f]
| spaced_more f n rest fs : ~ In space f -> ~ begins_with [space] rest -> spaced rest fs ->
    spaced (f ++ repeat space (S n) ++ rest) (f :: fs).
Definition fields (line : str) (fs : list str) : Prop :=
  exists body n, line = body ++ repeat space n /\ ~ ends_in (eq space) body /\ spaced body fs.

(** Start, something, end, and either nothing or four more fields (which are ignored). *)
Definition timing_line (sep : ascii) (line : str) (from to : time) : Prop :=
  exists f0 f1 f2 more, fields line (f0 :: f1 :: f2 :: more) /\ (length more = 0%nat \/ length more = 4%nat) /\
    cue_time sep f0 from /\ cue_time sep f2 to.
