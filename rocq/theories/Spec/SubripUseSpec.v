(** What users of the SubRip reader rely on. *)
From Coq Require Import ZArith List Bool Ascii String.
From Verif.Model Require Import Base Float TimeModel Types Ssa.
From Verif.Spec Require Import Outcome TextSpec Utf8Spec LinesSpec StlFileSpec RawSpec SsaTagSpec SubripSpec StopSpec.
Import ListNotations.
Local Open Scope Z_scope.
Local Notation length := List.length.

(** * Plain files *)

Definition line_break (e : str) : Prop := e = [lf] \/ e = [cr; lf].
(** A line that reading does not change. *)
Definition unchanged (l : str) : Prop := ~ In lf l /\ ~ ends_in line_end l /\ ~ begins_with bom l.
(** Text without tags and special characters. *)
Definition plain (l : str) : Prop :=
  l <> [] /\ unchanged l /\ ~ contains u2028 l /\ ~ contains u202b l /\ ~ In "<"%char l /\ ~ In "{"%char l.

(** A SubRip file with these cues. *)
Inductive srt : list cue -> str -> Prop :=
| srt_end : srt [] []
| srt_blank e cs s : line_break e -> srt cs s -> srt cs (e ++ s)
| srt_cue counter e1 from e2 to e3 text e4 cs s f t :
    counter <> [] -> unchanged counter -> line_break e1 -> cue_time ","%char f from -> cue_time ","%char t to -> line_break e2 ->
    Forall plain text -> line_break e3 -> line_break e4 -> srt cs s ->
    srt (mkCue from to text :: cs)
      (counter ++ e1 ++ f ++ lit " --> " ++ t ++ e2 ++ List.concat (map (fun l => l ++ e3) text) ++ e4 ++ s).
(** There may be a byte order mark in front. *)
Definition srt_file (cs : list cue) (s : str) : Prop := srt cs s \/ exists s', s = bom ++ s' /\ srt cs s'.

(** * Looks *)

Record look : Type := mkLook { lk_bold : bool; lk_italic : bool; lk_underline : bool; lk_colour : colour }.
Definition plain_look : look := mkLook false false false all_white.
Definition styled_raw (from to : time) (n : Z) (k : look) (text : str) : raw :=
  mkRaw text None (mkFS None None) None None (lk_colour k) (lk_bold k) (lk_italic k) (lk_underline k)
    (mkH HORIZONTAL_CENTRE_OF_SCREEN (f_of_int 0)) (mkV None (Some n) None (Some TOP_OF_SUBTITLE)) from to None None.

(** The subtitles of lines of plain text, numbered from [n]. *)
Fixpoint plain_rows (from to : time) (n : Z) (lines : list str) : list raw :=
  match lines with [] => [] | l :: rest => styled_raw from to n plain_look l :: plain_rows from to (n + 1) rest end.
Definition plain_cue (c : cue) : list raw := plain_rows (cue_from c) (cue_to c) 0 (cue_text c).

(** * Tagged text *)

(** A character with its line and look. *)
Definition cell : Type := (Z * look * ascii)%type.
(** [shown n k open toks cells k']: the characters of [toks], on line [n], starting in the look [k]; [open] are the colours
    to return to when font tags are closed, the present one first. *)
Inductive shown (n : Z) : look -> list colour -> list token -> list cell -> look -> Prop :=
| shown_end k cs : shown n k cs [] [] k
| shown_char k cs c toks l k' : shown n k cs toks l k' -> shown n k cs (TChar c :: toks) ((n, k, c) :: l) k'
| shown_bold k cs on toks l k' : shown n (mkLook on (lk_italic k) (lk_underline k) (lk_colour k)) cs toks l k' -> shown n k cs (TBold on :: toks) l k'
| shown_italic k cs on toks l k' : shown n (mkLook (lk_bold k) on (lk_underline k) (lk_colour k)) cs toks l k' -> shown n k cs (TItalic on :: toks) l k'
| shown_underline k cs on toks l k' : shown n (mkLook (lk_bold k) (lk_italic k) on (lk_colour k)) cs toks l k' -> shown n k cs (TUnderline on :: toks) l k'
| shown_font k cs a col toks l k' : font_colour_is a col ->
    shown n (mkLook (lk_bold k) (lk_italic k) (lk_underline k) col) (col :: cs) toks l k' -> shown n k cs (TFont a :: toks) l k'
| shown_font_end k c0 c1 cs toks l k' :
    shown n (mkLook (lk_bold k) (lk_italic k) (lk_underline k) c1) (c1 :: cs) toks l k' -> shown n k (c0 :: c1 :: cs) (TFontEnd :: toks) l k'.
(** Lines from number [n] on. *)
Inductive shown_rows : Z -> look -> list str -> list cell -> Prop :=
| shown_none n k : shown_rows n k [] []
| shown_more n k row rest toks l k' l' : lexed row toks -> shown n k [all_white] toks l k' -> shown_rows (n + 1) k' rest l' ->
    shown_rows n k (row :: rest) (l ++ l').
Definition no_ssa_tag (row : str) : Prop := forall toks body, lexed row toks -> ~ In (TSsa body) toks.

(** Subtitles, as characters; all have the times of the cue, and no text is empty. *)
Inductive cells_of (from to : time) : list raw -> list cell -> Prop :=
| cells_none : cells_of from to [] []
| cells_more n k text rest l : text <> [] -> cells_of from to rest l ->
    cells_of from to (styled_raw from to n k text :: rest) (map (fun c => (n, k, c)) text ++ l).

(** The cues of a file. *)
Definition file_cues (s : str) (cs : list cue) : Prop := exists ls ls', text_lines s ls /\ Forall2 cleaned ls ls' /\ cues_in ls' cs.
(** The rows of text of a cue; a LINE SEPARATOR starts another. *)
Definition cue_rows (c : cue) (rows : list str) : Prop :=
  exists liness, Forall2 (parts_of u2028) (cue_text c) liness /\ rows = List.concat liness.
(** The characters of a cue, with the looks that its tags give them. *)
Definition cue_cells (c : cue) (cells : list cell) : Prop := exists rows, cue_rows c rows /\ shown_rows 0 plain_look rows cells.
(** Subtitles that show these characters. *)
Definition shows (c : cue) (raws : list raw) : Prop := exists cells, cue_cells c cells /\ cells_of (cue_from c) (cue_to c) raws cells.
Definition ordinary (c : cue) : Prop := forall rows row, cue_rows c rows -> In row rows -> no_ssa_tag row /\ ~ contains u202b row.

(** * Safe files *)

(** The rows of text that a file could have. *)
Definition row_of (s row : str) : Prop :=
  exists ls l l' parts, text_lines s ls /\ In l ls /\ cleaned l l' /\ parts_of u2028 l' parts /\ In row parts.
Definition opens (t : token) : bool := match t with TFont _ => true | _ => false end.
Definition closes (t : token) : bool := match t with TFontEnd => true | _ => false end.
Definition count (f : token -> bool) (toks : list token) : nat := length (filter f toks).
(** Font tags are not closed more often than opened. *)
Definition fonts_nest (toks : list token) : Prop := forall a b, toks = a ++ b -> (count closes a <= count opens a)%nat.
(** No number has more than five digits. *)
Definition short_numbers (s : str) : Prop := forall before d after, s = before ++ d ++ after -> Forall is_digit_char d -> (length d <= 5)%nat.

(** * Errors *)

(** Line [n] of the text has the offending text; the context is the last five lines up to it, cleaned, and perhaps the next two lines. *)
Definition error_points (s : str) (n : Z) (saw : str) (context : list str) : Prop :=
  exists before l after before' l' c, text_lines s (before ++ l :: after) /\ Forall2 cleaned before before' /\ cleaned l l' /\
    recent (before' ++ [l']) c /\ n = Z.of_nat (length before) + 1 /\ contains saw l' /\
    (context = c \/ exists next, upcoming after next /\ context = c ++ next).

(** * Files and strings *)

Definition nul : ascii := ascii_of_nat 0.
(** Lines fit the buffer. *)
Definition short_lines (s : str) : Prop := ~ In nul s /\ exists ls, text_lines s ls /\ Forall (fun l => (length l <= 254)%nat) ls.
(** The same outcome, but for the line ends of the context of an error. *)
Definition same_line (a b : str) : Prop := exists l, cleaned a l /\ cleaned b l.
Inductive same_outcome : res (list raw) -> res (list raw) -> Prop :=
| same_ok r : same_outcome (Ok r) (Ok r)
| same_undef u : same_outcome (Undef u) (Undef u)
| same_subrip n saw why c c' : Forall2 same_line c c' -> same_outcome (Throw (ESubrip n saw why c)) (Throw (ESubrip n saw why c'))
| same_webvtt saw why c c' : Forall2 same_line c c' -> same_outcome (Throw (EWebVtt saw why c)) (Throw (EWebVtt saw why c'))
| same_throw e : same_outcome (Throw e) (Throw e).

(** * SSA tags *)

(** One override after another. *)
Inductive overrides : raw -> list str -> raw -> Prop :=
| overrides_none r : overrides r [] r
| overrides_more r body r1 bodies r2 : override default_ssa r (bslash :: body) r1 -> overrides r1 bodies r2 -> overrides r (body :: bodies) r2.
