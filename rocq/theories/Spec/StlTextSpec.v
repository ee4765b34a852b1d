(** Text STL files: what they look like and what they mean. *)
From Coq Require Import ZArith List Bool Ascii String.
From Verif.Model Require Import Base Float TimeModel Types.
From Verif.Spec Require Import Outcome TextSpec LinesSpec StlFileSpec RawSpec SsaSpec StopSpec.
Import ListNotations.
Local Open Scope Z_scope.
Local Notation length := List.length.

(** The lines of a text that end in a newline. *)
Inductive complete_lines : str -> list str -> Prop :=
| complete_none s : ~ In lf s -> complete_lines s []
| complete_more l rest ls : ~ In lf l -> complete_lines rest ls -> complete_lines (l ++ lf :: rest) (l :: ls).

(** * Times: h:m:s:f, at a rate that the file does not tell *)

Definition four_fields (s a b c d : str) : Prop := parts_of [":"%char] s [a; b; c; d].
Definition frame_time (s : str) (t : time) : Prop :=
  exists a b c d h m sec f, four_fields s a b c d /\ integer a h /\ integer b m /\ integer c sec /\ integer d f /\
    time_fits h m sec /\ t = mkT (h * 3600 + m * 60 + sec) f None.
(** Something that does not look like a time; something that does, but has other fields than ints; too many hours. *)
Definition no_time (s : str) : Prop := forall a b c d, ~ four_fields s a b c d.
Definition bad_time (s : str) : Prop :=
  exists a b c d, four_fields s a b c d /\ ~ (is_integer a /\ is_integer b /\ is_integer c /\ is_integer d).
Definition big_time (s : str) : Prop :=
  exists a b c d h m sec, four_fields s a b c d /\ integer a h /\ integer b m /\ integer c sec /\ is_integer d /\ ~ time_fits h m sec.

(** * Lines *)

Definition is_comment (l : str) : Prop := begins_with (lit "//") l.
Definition is_setting (l : str) : Prop := begins_with (lit "$") l.
(** $name = value *)
Definition setting_line (l name value : str) : Prop :=
  is_setting l /\ exists n v, l = n ++ "="%char :: v /\ ~ In "="%char n /\ ~ In "="%char v /\ trimmed n name /\ trimmed v value.
(** from,to,text *)
Definition three_fields (l from to text : str) : Prop := l = from ++ comma :: to ++ comma :: text /\ ~ In comma from /\ ~ In comma to.
(** The start time is taken from what is in front of the last character before the comma, which is meant to be a space. *)
Definition subtitle_line (l start finish text : str) : Prop :=
  ~ is_comment l /\ ~ is_setting l /\ text <> [] /\
  exists from x to, three_fields l (from ++ [x]) to text /\ from <> [] /\ trimmed from start /\ trimmed to finish.

(** * Text: | is the end of a line, and ^B, ^I and ^U turn a style on or off *)

Definition is_bar (c : ascii) : Prop := c = "|"%char.
Definition is_caret (c : ascii) : Prop := c = "^"%char.
Definition plain_char (c : ascii) : Prop := ~ is_bar c /\ ~ is_caret c.
Definition toggled (c : ascii) (r r' : raw) : Prop :=
  c = "B"%char /\ r' = with_bold (negb (r_bold r)) r \/ c = "I"%char /\ r' = with_italic (negb (r_italic r)) r \/
  c = "U"%char /\ r' = with_underline (negb (r_underline r)) r \/ c <> "B"%char /\ c <> "I"%char /\ c <> "U"%char /\ r' = r.

(** [pieces r s r' ps]: the text [s] starts in the look [r], leaves [r'], and gives [ps].  The line number of a piece is
    the number of bars since the piece before. *)
Inductive pieces : raw -> str -> raw -> list raw -> Prop :=
| pieces_end r : pieces r [] r []
| pieces_bar r n c s r' ps : is_bar c -> v_line (r_vpos r) = Some n -> pieces (with_line (n + 1) r) s r' ps -> pieces r (c :: s) r' ps
| pieces_toggle r x c r1 s r' ps : is_caret x -> toggled c r r1 -> pieces r1 s r' ps -> pieces r (x :: c :: s) r' ps
| pieces_caret r c : is_caret c -> pieces r [c] r []
| pieces_text r t s r' ps : t <> [] -> Forall plain_char t -> (s = [] \/ begins (fun c => ~ plain_char c) s) ->
    pieces (with_line 0 r) s r' ps -> pieces r (t ++ s) r' (with_text t r :: ps).

(** * Files *)

(** [line_means r l r' rs]: the line [l] (without white space around it) in the look [r]. *)
Inductive line_means (r : raw) : str -> raw -> list raw -> Prop :=
| means_font l v : setting_line l (lit "$FontName") v -> line_means r l (with_font (Some v) r) []
| means_bold l v b : setting_line l (lit "$Bold") v -> (b = true <-> v = lit "True") -> line_means r l (with_bold b r) []
| means_italic l v b : setting_line l (lit "$Italic") v -> (b = true <-> v = lit "True") -> line_means r l (with_italic b r) []
| means_underline l v b : setting_line l (lit "$Underlined") v -> (b = true <-> v = lit "True") -> line_means r l (with_underline b r) []
| means_size l v n : setting_line l (lit "$FontSize") v -> integer v n ->
    line_means r l (with_font_size (mkFS (fs_prop (r_font_size r)) (Some n)) r) []
| means_unknown l name v : setting_line l name v ->
    ~ In name (map lit ["$FontName"; "$Bold"; "$Italic"; "$Underlined"; "$FontSize"]%string) -> line_means r l r []
| means_subtitle l start finish from to text r' rs : subtitle_line l start finish text -> frame_time start from -> frame_time finish to ->
    pieces (with_times from to r) text r' rs -> line_means r l r' rs
| means_no_times l start finish text : subtitle_line l start finish text ->
    (no_time start /\ (no_time finish \/ exists to, frame_time finish to) \/ no_time finish /\ (exists from, frame_time start from)) ->
    line_means r l r []
| means_nothing l : (forall name v, ~ setting_line l name v) -> (forall start finish text, ~ subtitle_line l start finish text) -> line_means r l r [].

Inductive lines_mean : raw -> list str -> raw -> list raw -> Prop :=
| lines_mean_nil r : lines_mean r [] r []
| lines_mean_cons r l l' r1 rs ls r2 rss : trimmed l l' -> line_means r l' r1 rs -> lines_mean r1 ls r2 rss ->
    lines_mean r (l :: ls) r2 (rs ++ rss).

(** No times, no style, on line 0 below the top of the subtitle. *)
Definition white_text : colour := mkC (f_of_int 1) (f_of_int 1) (f_of_int 1).
Definition new_look : raw :=
  mkRaw [] None (mkFS None None) None None white_text false false false (mkH HORIZONTAL_CENTRE_OF_SCREEN (f_of_int 0))
    (mkV None (Some 0) None (Some TOP_OF_SUBTITLE)) (mkT 0 0 None) (mkT 0 0 None) None None.
Definition text_stl_file (s : str) (raws : list raw) : Prop :=
  exists ls r, complete_lines s ls /\ lines_mean new_look ls r raws.

(** The (trimmed) lines that stop the reader: the cast of a field to int throws, or the seconds do not fit an int. *)
Inductive text_stops : str -> res (list raw) -> Prop :=
| stops_size l v : setting_line l (lit "$FontSize") v -> ~ is_integer v -> text_stops l (Throw EBadLexicalCast)
| stops_start l start finish text : subtitle_line l start finish text -> bad_time start -> text_stops l (Throw EBadLexicalCast)
| stops_start_big l start finish text : subtitle_line l start finish text -> big_time start -> text_stops l (Undef UbIntOverflow)
| stops_finish l start finish text : subtitle_line l start finish text -> (no_time start \/ exists t, frame_time start t) ->
    bad_time finish -> text_stops l (Throw EBadLexicalCast)
| stops_finish_big l start finish text : subtitle_line l start finish text -> (no_time start \/ exists t, frame_time start t) ->
    big_time finish -> text_stops l (Undef UbIntOverflow).
Definition text_stl_stops (s : str) (o : res (list raw)) : Prop :=
  exists before l after l' r raws, complete_lines s (before ++ l :: after) /\ lines_mean new_look before r raws /\ trimmed l l' /\ text_stops l' o.
(** A subtitle whose start, or whose end if the start is not wrong, has more seconds than fit an int. *)
Definition text_stl_overflows (s : str) : Prop :=
  exists before l after l' r raws start finish text, complete_lines s (before ++ l :: after) /\ lines_mean new_look before r raws /\ trimmed l l' /\
    subtitle_line l' start finish text /\ (big_time start \/ (no_time start \/ exists t, frame_time start t) /\ big_time finish).
