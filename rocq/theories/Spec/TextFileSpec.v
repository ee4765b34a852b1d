(** Text files with other line ends, with a byte order mark, and with more at the end. *)
From Coq Require Import Arith List Ascii String.
From Verif.Model Require Import Base Types.
From Verif.Spec Require Import TextSpec LinesSpec.
Import ListNotations.
Local Notation length := List.length.

(** The same text but for a carriage return before some of the newlines. *)
Inductive other_ends : str -> str -> Prop :=
| ends_nil : other_ends [] []
| ends_same c s s' : other_ends s s' -> other_ends (c :: s) (c :: s')
| ends_added s s' : other_ends s s' -> other_ends (lf :: s) (cr :: lf :: s').

(** Before every newline. *)
Definition dos (s : str) : str := flat_map (fun c => if Ascii.eqb c lf then [cr; lf] else [c]) s.

(** A text after which another line can follow. *)
Definition whole_lines (s : str) : Prop := s = [] \/ exists t, s = t ++ [lf].

(** What comes of a longer text goes on from what comes of a shorter one: if the longer one can be read, so can the shorter
    one, and its subtitles are the first of the longer one's. *)
Definition goes_on (shorter longer : res (list raw)) : Prop :=
  forall all, longer = Ok all -> exists first more, shorter = Ok first /\ all = first ++ more.

(** A SubRip file that is cut after the first line of text of a subtitle, and the rest of it. *)
Definition begun : str := join [lf] [list_ascii_of_string "1"; list_ascii_of_string "00:00:01,000 --> 00:00:02,500"; list_ascii_of_string "Hello"; []].
Definition ended : str := join [lf] [list_ascii_of_string "world"; []; list_ascii_of_string "2"; list_ascii_of_string "00:00:03,000 --> 00:00:04,500"; list_ascii_of_string "again"].

(** What the reader gets of a file, one buffer at a time: up to and with a newline if there is one among the next 255 bytes,
    otherwise 255 bytes (or what is left). *)
Inductive buffers : str -> list str -> Prop :=
| buffers_end : buffers [] []
| buffers_line l rest bs : ~ In lf l -> (length l <= 254)%nat -> buffers rest bs -> buffers (l ++ lf :: rest) ((l ++ [lf]) :: bs)
| buffers_full l rest bs : ~ In lf l -> length l = 255%nat -> buffers rest bs -> buffers (l ++ rest) (l :: bs)
| buffers_last l : l <> [] -> ~ In lf l -> (length l < 255)%nat -> buffers l [l].
(** The line of a buffer: without the newline, and cut at the first NUL. *)
Definition buffer_line (b l : str) : Prop :=
  ~ In (ascii_of_nat 0) l /\ ~ In lf l /\ (b = l \/ b = l ++ [lf] \/ exists z, b = l ++ ascii_of_nat 0 :: z).
(** A text of these lines. *)
Definition text_of_lines (ls : list str) : str := List.concat (map (fun l => l ++ [lf]) ls).
(** [s'] is [s] with a carriage return before some of the newlines; [t] is [s] with an empty line after those lines that have got
    one and are 254 bytes long, or 255 more, or 510 more and so on. *)
Inductive ends_in_file : str -> str -> str -> Prop :=
| file_ends_last l : ~ In lf l -> ends_in_file l l l
| file_ends_same l s s' t : ~ In lf l -> ends_in_file s s' t -> ends_in_file (l ++ lf :: s) (l ++ lf :: s') (l ++ lf :: t)
| file_ends_added l s s' t : ~ In lf l -> (length l mod 255 <> 254)%nat -> ends_in_file s s' t ->
    ends_in_file (l ++ lf :: s) (l ++ cr :: lf :: s') (l ++ lf :: t)
| file_ends_split l s s' t : ~ In lf l -> (length l mod 255 = 254)%nat -> ends_in_file s s' t ->
    ends_in_file (l ++ lf :: s) (l ++ cr :: lf :: s') (l ++ lf :: lf :: t).
(** None of those lines has got a carriage return. *)
Definition fitting_ends (s s' : str) : Prop := ends_in_file s s' s.
