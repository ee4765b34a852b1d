(** WebVTT files: what they look like, what they mean, and why reading stops. *)
From Coq Require Import ZArith List Bool Ascii String.
From Verif.Model Require Import Base Float TimeModel Types.
From Verif.Spec Require Import Outcome TextSpec LinesSpec RawSpec SubripSpec StopSpec SubripUseSpec.
Import ListNotations.
Local Open Scope Z_scope.
Local Notation length := List.length.

Definition is_note (l : str) : Prop := begins_with (lit "NOTE") l.
Definition has_arrow (l : str) : Prop := contains (lit "-->") l.
Definition ends_or_blank (ls : list str) : Prop := ls = [] \/ exists more, ls = [] :: more.

(** The cues in the (cleaned) lines after the header.  Lines without an arrow (identifiers, settings) mean nothing, and
    neither do notes, which go on to an empty line. *)
Inductive vtt_cues : list str -> list cue -> Prop :=
| vtt_end : vtt_cues [] []
| vtt_other l ls cs : ~ is_note l -> ~ has_arrow l -> vtt_cues ls cs -> vtt_cues (l :: ls) cs
| vtt_note l comment rest cs : is_note l -> Forall (fun l => l <> []) comment -> ends_or_blank rest -> vtt_cues rest cs ->
    vtt_cues (l :: comment ++ rest) cs
| vtt_cue timing from to text rest cs : ~ is_note timing -> has_arrow timing -> timing_line "."%char timing from to ->
    Forall (fun l => l <> []) text -> ends_or_blank rest -> vtt_cues rest cs ->
    vtt_cues (timing :: text ++ rest) (mkCue from to text :: cs).

(** Every row of text is a subtitle; tags are not looked at. *)
Definition vtt_subtitles (c : cue) (raws : list raw) : Prop := exists rows, cue_rows c rows /\ raws = plain_rows (cue_from c) (cue_to c) 0 rows.

(** A file has a header line in front; an empty one has no subtitles. *)
Inductive vtt_lines : list str -> list raw -> Prop :=
| vtt_empty : vtt_lines [] []
| vtt_headed h h' ls ls' cs rawss : cleaned h h' -> begins_with (lit "WEBVTT") h' -> Forall2 cleaned ls ls' -> vtt_cues ls' cs ->
    Forall2 vtt_subtitles cs rawss -> vtt_lines (h :: ls) (List.concat rawss).
Definition vtt_file (s : str) (raws : list raw) : Prop := exists ls, text_lines s ls /\ vtt_lines ls raws.

(** * Why reading stops *)

Inductive vtt_place : Type := AtHeader | AtData | AtCueText | AtNote.
Inductive vtt_next : list str -> vtt_place -> Prop :=
| vnext_first : vtt_next [] AtHeader
| vnext_header ls l : vtt_next ls AtHeader -> vtt_next (ls ++ [l]) AtData
| vnext_note ls l : vtt_next ls AtData -> is_note l -> vtt_next (ls ++ [l]) AtNote
| vnext_timing ls l : vtt_next ls AtData -> ~ is_note l -> has_arrow l -> vtt_next (ls ++ [l]) AtCueText
| vnext_other ls l : vtt_next ls AtData -> ~ is_note l -> ~ has_arrow l -> vtt_next (ls ++ [l]) AtData
| vnext_text ls l : vtt_next ls AtCueText -> l <> [] -> vtt_next (ls ++ [l]) AtCueText
| vnext_text_over ls : vtt_next ls AtCueText -> vtt_next (ls ++ [[]]) AtData
| vnext_comment ls l : vtt_next ls AtNote -> l <> [] -> vtt_next (ls ++ [l]) AtNote
| vnext_note_over ls : vtt_next ls AtNote -> vtt_next (ls ++ [[]]) AtData.

(** Faults of timing lines, with the text and the expectation that are reported; [None] is an overflow of an int. *)
Inductive timing_fault (sep : ascii) : str -> option (str * str * bool) -> Prop :=
| fault_form l body k fs : fields l fs -> length fs <> 3%nat -> length fs <> 7%nat -> l = body ++ repeat space k -> ~ ends_in (eq space) body ->
    timing_fault sep l (Some (body, lit "a time line", true))
| fault_start l f0 f1 f2 more why : fields l (f0 :: f1 :: f2 :: more) -> (length more = 0%nat \/ length more = 4%nat) -> time_refused sep f0 why ->
    timing_fault sep l (Some (f0, why, false))
| fault_start_big l f0 f1 f2 more : fields l (f0 :: f1 :: f2 :: more) -> (length more = 0%nat \/ length more = 4%nat) -> time_overflows sep f0 ->
    timing_fault sep l None
| fault_finish l f0 f1 f2 more from why : fields l (f0 :: f1 :: f2 :: more) -> (length more = 0%nat \/ length more = 4%nat) -> cue_time sep f0 from ->
    time_refused sep f2 why -> timing_fault sep l (Some (f2, why, false))
| fault_finish_big l f0 f1 f2 more from : fields l (f0 :: f1 :: f2 :: more) -> (length more = 0%nat \/ length more = 4%nat) -> cue_time sep f0 from ->
    time_overflows sep f2 -> timing_fault sep l None.

(** [vtt_line_stops context next p l o]: the line [l] at the place [p] stops the reader; the lines [next] after it are
    reported as well if it has the wrong form. *)
Inductive vtt_line_stops (context next : list str) : vtt_place -> str -> res (list raw) -> Prop :=
| vstop_header l : ~ begins_with (lit "WEBVTT") l -> vtt_line_stops context next AtHeader l (Throw EWebVttHeader)
| vstop_timing l saw why (more : bool) : ~ is_note l -> has_arrow l -> timing_fault "."%char l (Some (saw, why, more)) ->
    vtt_line_stops context next AtData l (Throw (EWebVtt saw why (context ++ if more then next else [])))
| vstop_overflow l : ~ is_note l -> has_arrow l -> timing_fault "."%char l None -> vtt_line_stops context next AtData l (Undef UbIntOverflow).

Definition vtt_stops (ls : list str) (o : res (list raw)) : Prop :=
  exists before l after before' l' raws p context next,
    ls = before ++ l :: after /\ Forall2 cleaned before before' /\ cleaned l l' /\ vtt_lines before raws /\
    vtt_next before' p /\ recent (before' ++ [l']) context /\ upcoming after next /\ vtt_line_stops context next p l' o.

(** * Files made of cues, identifiers and notes *)

(** A line that means nothing. *)
Definition remark (l : str) : Prop := unchanged l /\ ~ is_note l /\ ~ has_arrow l.
Definition vtt_plain (l : str) : Prop := l <> [] /\ unchanged l /\ ~ contains u2028 l.
Inductive vtt_body : list cue -> str -> Prop :=
| body_end : vtt_body [] []
| body_remark l e cs s : remark l -> line_break e -> vtt_body cs s -> vtt_body cs (l ++ e ++ s)
| body_note l comment e1 e2 e3 cs s : unchanged l -> is_note l -> Forall (fun l => l <> [] /\ unchanged l) comment ->
    line_break e1 -> line_break e2 -> line_break e3 -> vtt_body cs s ->
    vtt_body cs (l ++ e1 ++ List.concat (map (fun l => l ++ e2) comment) ++ e3 ++ s)
| body_cue from to f t text e1 e2 e3 cs s : cue_time "."%char f from -> cue_time "."%char t to -> Forall vtt_plain text ->
    line_break e1 -> line_break e2 -> line_break e3 -> vtt_body cs s ->
    vtt_body (mkCue from to text :: cs) (f ++ lit " --> " ++ t ++ e1 ++ List.concat (map (fun l => l ++ e2) text) ++ e3 ++ s).
Definition vtt_text (cs : list cue) (s : str) : Prop :=
  exists mark h e body, s = mark ++ (lit "WEBVTT" ++ h) ++ e ++ body /\ (mark = [] \/ mark = bom) /\ unchanged (lit "WEBVTT" ++ h) /\ line_break e /\ vtt_body cs body.

(** Where an error is. *)
Definition vtt_error_points (s : str) (saw : str) (context : list str) : Prop :=
  exists before l after before' l' c, text_lines s (before ++ l :: after) /\ Forall2 cleaned before before' /\ cleaned l l' /\
    recent (before' ++ [l']) c /\ contains saw l' /\ has_arrow l' /\ (context = c \/ exists next, upcoming after next /\ context = c ++ next).

(** * Timing lines as the WebVTT standard has them *)

Definition n_digits (n : nat) (s : str) (v : Z) : Prop := numeral s v /\ length s = n.
(** mm:ss.ttt, and the same after two or more digits of hours. *)
Definition minutes_time (s : str) (m sec ms : Z) : Prop :=
  exists mm ss ttt, s = mm ++ ":"%char :: ss ++ "."%char :: ttt /\ n_digits 2 mm m /\ n_digits 2 ss sec /\ n_digits 3 ttt ms /\ m < 60 /\ sec < 60.
Inductive standard_time : bool -> str -> time -> Prop :=
| std_short s m sec ms : minutes_time s m sec ms -> standard_time false s (mkT (m * 60 + sec) ms (Some (mkR 1000 1)))
| std_hours hs s h m sec ms : numeral hs h -> (2 <= length hs)%nat -> minutes_time s m sec ms ->
    standard_time true (hs ++ ":"%char :: s) (mkT (h * 3600 + m * 60 + sec) ms (Some (mkR 1000 1))).
(** Start and end with an arrow between them, and settings after that, all separated by spaces (the standard also has tabs). *)
Definition setting (s : str) : Prop := exists name value, s = name ++ ":"%char :: value /\ name <> [] /\ value <> [] /\ ~ In space s /\ unchanged s.
Inductive settings_text : list str -> str -> Prop :=
| settings_none : settings_text [] []
| settings_more n s rest t : setting s -> settings_text rest t -> settings_text (s :: rest) (repeat space (S n) ++ s ++ t).
Definition standard_timing (hours : bool) (settings : list str) (l : str) (from to : time) : Prop :=
  exists f t j k st, l = f ++ repeat space (S j) ++ lit "-->" ++ repeat space (S k) ++ t ++ st /\
    standard_time hours f from /\ standard_time hours t to /\ settings_text settings st.
(** A file with one cue. *)
Definition one_cue (l text : str) : str := join [lf] [lit "WEBVTT"; []; l; text].
