(** SubRip files: what they look like and what they mean. *)
From Coq Require Import ZArith List Bool Ascii String.
From Verif.Model Require Import Base Float TimeModel Types Ssa.
From Verif.Spec Require Import Outcome TextSpec LinesSpec StlFileSpec RawSpec SsaTagSpec.
Import ListNotations.
Local Open Scope Z_scope.
Local Notation length := List.length.

(** * Cues *)

Record cue : Type := mkCue { cue_from : time; cue_to : time; cue_text : list str }.

(** The cues in the (cleaned) lines of a file: a counter line, a timing line, and text up to an empty line. *)
Inductive cues_in : list str -> list cue -> Prop :=
| cues_end : cues_in [] []
| cues_blank ls cs : cues_in ls cs -> cues_in ([] :: ls) cs
| cues_counter counter : counter <> [] -> cues_in [counter] []
| cues_cue counter timing from to text rest cs :
    counter <> [] -> timing_line ","%char timing from to -> Forall (fun l => l <> []) text ->
    (rest = [] \/ exists more, rest = [] :: more) -> cues_in rest cs ->
    cues_in (counter :: timing :: text ++ rest) (mkCue from to text :: cs).

(** * Tags in the text *)

Inductive token : Type :=
| TBold (on : bool) | TItalic (on : bool) | TUnderline (on : bool) | TFont (attributes : str) | TFontEnd | TSsa (body : str) | TChar (c : ascii).

(** Letters that differ at most in their case. *)
Definition same_letter (a b : ascii) : Prop :=
  a = b \/ exists k, 0 <= k < 26 /\ (char_code a = 65 + k /\ char_code b = 97 + k \/ char_code a = 97 + k /\ char_code b = 65 + k).
Definition same_letters : str -> str -> Prop := Forall2 same_letter.

Definition simple_tags : list (string * token) :=
  [("<b>", TBold true); ("{b}", TBold true); ("</b>", TBold false); ("{/b}", TBold false);
   ("<i>", TItalic true); ("{i}", TItalic true); ("</i>", TItalic false); ("{/i}", TItalic false);
   ("<u>", TUnderline true); ("{u}", TUnderline true); ("</u>", TUnderline false); ("{/u}", TUnderline false);
   ("</font>", TFontEnd)]%string.

(** Everything up to a closing character, or to the end. *)
Inductive up_to (stop : ascii) : str -> str -> str -> Prop :=
| up_to_stop body rest : ~ In stop body -> up_to stop (body ++ stop :: rest) body rest
| up_to_end body : ~ In stop body -> up_to stop body body [].

(** [tag_at s tok rest]: the text [s] starts with the tag [tok]; [rest] is after it. *)
Inductive tag_at : str -> token -> str -> Prop :=
| tag_simple p name tok rest : In (name, tok) simple_tags -> same_letters p (lit name) -> tag_at (p ++ rest) tok rest
| tag_font p s body rest : same_letters p (lit "<font") -> up_to ">"%char s body rest -> tag_at (p ++ s) (TFont body) rest
| tag_ssa s body rest : up_to "}"%char s body rest -> tag_at ("{"%char :: bslash :: s) (TSsa body) rest.

Inductive lexed : str -> list token -> Prop :=
| lexed_end : lexed [] []
| lexed_tag s tok rest toks : tag_at s tok rest -> lexed rest toks -> lexed s (tok :: toks)
| lexed_char c s toks : (forall tok rest, ~ tag_at (c :: s) tok rest) -> lexed s toks -> lexed (c :: s) (TChar c :: toks).

(** * Font colours *)

Definition dquote : ascii := ascii_of_nat 34.
Definition squote : ascii := ascii_of_nat 39.
Definition quote_or_nothing (q : str) : Prop := q = [] \/ q = [dquote] \/ q = [squote].

(** color= and a hash and hexadecimal digits, as many as there are. *)
Definition hash_colour (s digits : str) : Prop :=
  exists q rest, s = lit "color=" ++ q ++ "#"%char :: digits ++ rest /\ quote_or_nothing q /\ digits <> [] /\ Forall is_hex_char digits /\
    ~ begins is_hex_char rest.
(** color= and rgba with four numbers; the fourth is ignored. *)
Definition padded (s : str) (v : Z) : Prop := exists a d b, s = a ++ d ++ b /\ Forall white a /\ numeral d v /\ Forall white b.
Definition rgba_colour (s : str) (r g b : Z) : Prop :=
  exists rs gs bs as_ a rest, s = lit "color=" ++ dquote :: lit "rgba(" ++ join (lit ",") [rs; gs; bs; as_] ++ ")"%char :: dquote :: rest /\
    padded rs r /\ padded gs g /\ padded bs b /\ padded as_ a.

(** The last place in a text where something holds. *)
Definition last_place (P : str -> Prop) (text s : str) : Prop :=
  P s /\ exists before, text = before ++ s /\ forall before' s', text = before' ++ s' -> P s' -> (length before' <= length before)%nat.

Inductive font_colour_is (attributes : str) : colour -> Prop :=
| font_hash s r1 r2 g1 g2 b1 b2 vr1 vr2 vg1 vg2 vb1 vb2 alpha :
    last_place (fun s => exists ds, hash_colour s ds) attributes s ->
    hash_colour s ([r1; r2; g1; g2; b1; b2] ++ alpha) -> (length alpha = 0%nat \/ length alpha = 2%nat) ->
    hex_digit r1 vr1 -> hex_digit r2 vr2 -> hex_digit g1 vg1 -> hex_digit g2 vg2 -> hex_digit b1 vb1 -> hex_digit b2 vb2 ->
    font_colour_is attributes (mkC (share (16 * vr1 + vr2)) (share (16 * vg1 + vg2)) (share (16 * vb1 + vb2)))
| font_rgba s r g b :
    (forall before s' ds, attributes = before ++ s' -> ~ hash_colour s' ds) ->
    last_place (fun s => exists r g b, rgba_colour s r g b) attributes s ->
    rgba_colour s r g b -> is_int r -> is_int g -> is_int b ->
    font_colour_is attributes (mkC (share r) (share g) (share b)).

(** * What a text line means *)

Definition all_white : colour := mkC (f_of_int 1) (f_of_int 1) (f_of_int 1).
(** SSA tags are understood as in an SSA file of the default size. *)
Definition default_ssa : ssa_context := mkCtx 288 288 all_white 0 0.

(** The look that a tag gives to the text after it; [before] holds the colours of the font tags that are open. *)
Inductive restyled : raw -> list colour -> token -> raw -> list colour -> Prop :=
| restyle_bold r cs on : restyled r cs (TBold on) (with_bold on r) cs
| restyle_italic r cs on : restyled r cs (TItalic on) (with_italic on r) cs
| restyle_underline r cs on : restyled r cs (TUnderline on) (with_underline on r) cs
| restyle_font r cs attributes k : font_colour_is attributes k -> restyled r cs (TFont attributes) (with_colour k r) (k :: cs)
| restyle_font_end r k k' cs : restyled r (k :: k' :: cs) TFontEnd (with_colour k' r) (k' :: cs).

(** [pieces r cs text toks ps r' last]: when [toks] are read in the look [r], with [text] read since the last tag, the pieces
    of text [ps] are complete; [r'] and [last] are the look and the text that is left.
    An SSA tag does not end a piece: it changes the look of the text in front of it as well. *)
Inductive pieces : raw -> list colour -> str -> list token -> list raw -> raw -> str -> Prop :=
| pieces_end r cs text : pieces r cs text [] [] r text
| pieces_char r cs text c toks ps r' last :
    pieces r cs (text ++ [c]) toks ps r' last -> pieces r cs text (TChar c :: toks) ps r' last
| pieces_tag r cs text tok r1 cs1 toks ps r' last :
    restyled r cs tok r1 cs1 -> pieces r1 cs1 [] toks ps r' last -> pieces r cs text (tok :: toks) (with_piece text r ++ ps) r' last
| pieces_ssa r cs text body r1 toks ps r' last :
    override default_ssa r (bslash :: body) r1 -> pieces r1 cs text toks ps r' last -> pieces r cs text (TSsa body :: toks) ps r' last.

(** A text without its right-to-left embeddings. *)
Definition without_rtl (text text' : str) : Prop := exists parts, parts_of u202b text parts /\ text' = List.concat parts.

(** The subtitles of lines of text that are numbered from [n] on: each starts in the look that the one before it ended with,
    but no font tag is open. *)
Inductive rows : Z -> raw -> list str -> list raw -> Prop :=
| rows_none n r : rows n r [] []
| rows_more n r line rest toks ps r' last last' raws :
    lexed line toks -> pieces (with_line n r) [all_white] [] toks ps r' last -> without_rtl last last' ->
    rows (n + 1) r' rest raws ->
    rows n r (line :: rest) (ps ++ with_piece last' r' ++ raws).

(** White, upright, no decoration, centred. *)
Definition cue_look (from to : time) : raw :=
  mkRaw [] None (mkFS None None) None None all_white false false false (mkH HORIZONTAL_CENTRE_OF_SCREEN (f_of_int 0))
    (mkV None (Some 0) None (Some TOP_OF_SUBTITLE)) from to None None.

(** A line of the file may have several lines of text with LINE SEPARATORs in between. *)
Definition cue_subtitles (c : cue) (raws : list raw) : Prop :=
  exists liness, Forall2 (parts_of u2028) (cue_text c) liness /\ rows 0 (cue_look (cue_from c) (cue_to c)) (List.concat liness) raws.

(** What a file with these lines means. *)
Definition subrip_lines (ls : list str) (raws : list raw) : Prop :=
  exists ls' cs rawss, Forall2 cleaned ls ls' /\ cues_in ls' cs /\ Forall2 cue_subtitles cs rawss /\ raws = List.concat rawss.
Definition subrip_file (s : str) (raws : list raw) : Prop := exists ls, text_lines s ls /\ subrip_lines ls raws.
