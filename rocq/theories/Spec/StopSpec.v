(** Why reading a SubRip file stops without a result. *)
From Coq Require Import ZArith List Bool Ascii String.
From Verif.Model Require Import Base Float TimeModel Types Ssa.
From Verif.Spec Require Import Outcome TextSpec LinesSpec StlFileSpec RawSpec SsaTagSpec SubripSpec.
Import ListNotations.
Local Open Scope Z_scope.
Local Notation length := List.length.

(** * Times *)

Definition is_integer (s : str) : Prop := exists v, integer s v.
Definition two_colons (a b c : str) : str := a ++ ":"%char :: b ++ ":"%char :: c.
Definition no_colon (s : str) : Prop := ~ In ":"%char s.
Definition no_sep (sep : ascii) (s : str) : Prop := ~ In sep s.

(** [time_refused sep s why]: [s] is not a time, and [why] says what was expected instead. *)
Inductive time_refused (sep : ascii) : str -> str -> Prop :=
| refused_colons s : (forall a b c, no_colon a -> no_colon b -> no_colon c -> s <> two_colons a b c) ->
    time_refused sep s (lit "time in the format h:m:s,ms")
| refused_separator a b c : no_colon a -> no_colon b -> no_colon c ->
    (forall x y, no_sep sep x -> no_sep sep y -> c <> x ++ sep :: y) ->
    time_refused sep (two_colons a b c) (lit "time in the format h:m:s" ++ sep :: lit "ms")
| refused_hour a b x y : no_colon a -> no_colon b -> no_colon (x ++ sep :: y) -> no_sep sep x -> no_sep sep y ->
    ~ is_integer a -> time_refused sep (two_colons a b (x ++ sep :: y)) (lit "integer hour value")
| refused_minute a b x y : is_integer a -> no_colon b -> no_colon (x ++ sep :: y) -> no_sep sep x -> no_sep sep y ->
    ~ is_integer b -> time_refused sep (two_colons a b (x ++ sep :: y)) (lit "integer minute value")
| refused_second a b x y : is_integer a -> is_integer b -> no_colon (x ++ sep :: y) -> no_sep sep x -> no_sep sep y ->
    ~ is_integer x -> time_refused sep (two_colons a b (x ++ sep :: y)) (lit "integer second value")
| refused_millisecond a b x y : is_integer a -> is_integer b -> is_integer x -> no_colon y -> no_sep sep y ->
    ~ is_integer y -> time_refused sep (two_colons a b (x ++ sep :: y)) (lit "integer millisecond value").
(** A time whose seconds do not fit an int. *)
Definition time_overflows (sep : ascii) (s : str) : Prop := exists h m sec ms, cue_time_parts sep s h m sec ms /\ ~ time_fits h m sec.

(** * Font tags *)

(** There is a colour in hexadecimal, but it has the wrong length; or there is no colour. *)
Inductive no_font_colour (attributes : str) : Prop :=
| wrong_length s digits : last_place (fun s => exists ds, hash_colour s ds) attributes s -> hash_colour s digits ->
    length digits <> 6%nat -> length digits <> 8%nat -> no_font_colour attributes
| nothing_there : (forall before s ds, attributes = before ++ s -> ~ hash_colour s ds) ->
    (forall before s r g b, attributes = before ++ s -> ~ rgba_colour s r g b) -> no_font_colour attributes.
(** A colour in decimal with a number that does not fit an int. *)
Definition font_overflows (attributes : str) : Prop :=
  (forall before s ds, attributes = before ++ s -> ~ hash_colour s ds) /\
  exists s r g b, last_place (fun s => exists r g b, rgba_colour s r g b) attributes s /\ rgba_colour s r g b /\ ~ (is_int r /\ is_int g /\ is_int b).

(** * Lines of text *)

(** [well_formed d toks d']: tokens that cause no trouble when [d] font tags are open, and leave [d'] of them open. *)
Inductive well_formed : nat -> list token -> nat -> Prop :=
| wf_end d : well_formed d [] d
| wf_char d c toks d' : well_formed d toks d' -> well_formed d (TChar c :: toks) d'
| wf_bold d on toks d' : well_formed d toks d' -> well_formed d (TBold on :: toks) d'
| wf_italic d on toks d' : well_formed d toks d' -> well_formed d (TItalic on :: toks) d'
| wf_underline d on toks d' : well_formed d toks d' -> well_formed d (TUnderline on :: toks) d'
| wf_font d a k toks d' : font_colour_is a k -> well_formed (S d) toks d' -> well_formed d (TFont a :: toks) d'
| wf_font_end d toks d' : well_formed d toks d' -> well_formed (S d) (TFontEnd :: toks) d'
| wf_ssa d body toks d' : (forall e, ~ bad_override (bslash :: body) e) -> well_formed d toks d' -> well_formed d (TSsa body :: toks) d'.

Definition needs_colour : str := lit "a colour in the format #rrggbb #rrggbbaa or rgba(rr,gg,bb,aa)".

(** Tokens that stop the reader. *)
Inductive token_stops (n : Z) (context : list str) (d : nat) : token -> res (list raw) -> Prop :=
| stop_font a : no_font_colour a -> token_stops n context d (TFont a) (Throw (ESubrip n a needs_colour context))
| stop_font_number a : font_overflows a -> token_stops n context d (TFont a) (Undef UbIntOverflow)
| stop_font_end : d = 0%nat -> token_stops n context d TFontEnd (Undef UbEmptyVector)
| stop_ssa body e : bad_override (bslash :: body) e -> token_stops n context d (TSsa body) (Throw e).
Definition row_stops (n : Z) (context : list str) (row : str) (o : res (list raw)) : Prop :=
  exists before tok after d, lexed row (before ++ tok :: after) /\ well_formed 0 before d /\ token_stops n context d tok o.
Definition row_fine (row : str) : Prop := exists toks d, lexed row toks /\ well_formed 0 toks d.

(** * Where in a cue a line is *)

Inductive place : Type := AtCounter | AtTiming | AtText.
(** [comes_next ls p]: after the lines [ls], the next is at the place [p]. *)
Inductive comes_next : list str -> place -> Prop :=
| next_first : comes_next [] AtCounter
| next_blank ls : comes_next ls AtCounter -> comes_next (ls ++ [[]]) AtCounter
| next_counter ls l : comes_next ls AtCounter -> l <> [] -> comes_next (ls ++ [l]) AtTiming
| next_timing ls l : comes_next ls AtTiming -> comes_next (ls ++ [l]) AtText
| next_text ls l : comes_next ls AtText -> l <> [] -> comes_next (ls ++ [l]) AtText
| next_over ls : comes_next ls AtText -> comes_next (ls ++ [[]]) AtCounter.

(** The last five (or all) lines. *)
Definition recent (ls context : list str) : Prop :=
  exists older, ls = older ++ context /\ (length context <= 5)%nat /\ (older = [] \/ length context = 5%nat).
(** The first two (or all) lines. *)
Definition upcoming (ls next : list str) : Prop :=
  exists later, ls = next ++ later /\ (length next <= 2)%nat /\ (later = [] \/ length next = 2%nat).

(** [line_stops n context next p l o]: the (cleaned) line [l], which is number [n], at the place [p], stops the reader with
    the outcome [o]; [context] is what is reported, and [next] is added to that if the line has the wrong form. *)
Inductive line_stops (n : Z) (context next : list str) : place -> str -> res (list raw) -> Prop :=
| stop_form l body k fs : fields l fs -> length fs <> 3%nat -> length fs <> 7%nat -> l = body ++ repeat space k -> ~ ends_in (eq space) body ->
    line_stops n context next AtTiming l (Throw (ESubrip n body (lit "a time/position line") (context ++ next)))
| stop_start l f0 f1 f2 more why : fields l (f0 :: f1 :: f2 :: more) -> (length more = 0%nat \/ length more = 4%nat) -> time_refused ","%char f0 why ->
    line_stops n context next AtTiming l (Throw (ESubrip n f0 why context))
| stop_start_big l f0 f1 f2 more : fields l (f0 :: f1 :: f2 :: more) -> (length more = 0%nat \/ length more = 4%nat) -> time_overflows ","%char f0 ->
    line_stops n context next AtTiming l (Undef UbIntOverflow)
| stop_finish l f0 f1 f2 more from why : fields l (f0 :: f1 :: f2 :: more) -> (length more = 0%nat \/ length more = 4%nat) -> cue_time ","%char f0 from ->
    time_refused ","%char f2 why -> line_stops n context next AtTiming l (Throw (ESubrip n f2 why context))
| stop_finish_big l f0 f1 f2 more from : fields l (f0 :: f1 :: f2 :: more) -> (length more = 0%nat \/ length more = 4%nat) -> cue_time ","%char f0 from ->
    time_overflows ","%char f2 -> line_stops n context next AtTiming l (Undef UbIntOverflow)
| stop_text l before row after o : l <> [] -> parts_of u2028 l (before ++ row :: after) -> Forall row_fine before -> row_stops n context row o ->
    line_stops n context next AtText l o.

(** A file stops at the first line that does. *)
Definition subrip_stops (ls : list str) (o : res (list raw)) : Prop :=
  exists before l after before' l' raws p context next,
    ls = before ++ l :: after /\ Forall2 cleaned before before' /\ cleaned l l' /\ subrip_lines before raws /\
    comes_next before' p /\ recent (before' ++ [l']) context /\ upcoming after next /\
    line_stops (Z.of_nat (length before) + 1) context next p l' o.
