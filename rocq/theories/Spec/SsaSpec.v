(** SSA and ASS files: what they look like and what they mean. *)
From Coq Require Import ZArith List Bool Ascii String.
From Verif.Model Require Import Base Float TimeModel Types RawConvert.
From Verif.Spec Require Import Outcome TextSpec LinesSpec StlFileSpec RawSpec SsaTagSpec.
From Verif.Model Require Import Ssa.
Import ListNotations.
Local Open Scope Z_scope.
Local Notation length := List.length.

(** * The text of a dialogue *)

Inductive item : Type := Char (c : ascii) | Break | Tag (t : str).

(** The tags of a block in braces: what is in front of the first backslash, and what each backslash starts. *)
Definition block_tags (body : str) (tags : list str) : Prop :=
  exists first rest, parts_of [bslash] body (first :: rest) /\ tags = first :: map (cons bslash) rest.
Definition break_char (c : ascii) : Prop := c = "n"%char \/ c = "N"%char.

(** Escapes other than those of line breaks disappear, and so does the last tag of a block that is not closed. *)
Inductive ssa_text : str -> list item -> Prop :=
| text_end : ssa_text [] []
| text_char c s its : c <> "{"%char -> c <> bslash -> ~ line_end c -> ssa_text s its -> ssa_text (c :: s) (Char c :: its)
| text_line_end c s its : line_end c -> ssa_text s its -> ssa_text (c :: s) its
| text_break c s its : break_char c -> ssa_text s its -> ssa_text (bslash :: c :: s) (Break :: its)
| text_escape c s its : ~ break_char c -> ssa_text s its -> ssa_text (bslash :: c :: s) its
| text_lone_backslash : ssa_text [bslash] []
| text_block body tags s its : ~ In "}"%char body -> block_tags body tags -> ssa_text s its ->
    ssa_text ("{"%char :: body ++ "}"%char :: s) (map Tag tags ++ its)
| text_open_block body tags last : ~ In "}"%char body -> block_tags body (tags ++ [last]) -> ssa_text ("{"%char :: body) (map Tag tags).

(** One row down: away from the top, or nearer to the bottom. *)
Definition shifted (size : flt) (ref : vref) (p : flt) : flt :=
  match ref with
  | BOTTOM_OF_SCREEN => f_of_d (dsub (d_of_f p) size)
  | _ => f_of_d (dadd (d_of_f p) size)
  end.
Definition row_below (size : flt) (r r' : raw) : Prop :=
  exists ref p, v_ref (r_vpos r) = Some ref /\ v_prop (r_vpos r) = Some p /\ r' = with_proportion (shifted size ref p) r.

(** [cut_up c size r text its ps]: [its] are read in the look [r], with [text] read since the last tag or line break. *)
Inductive cut_up (c : ssa_context) (size : flt) : raw -> str -> list item -> list raw -> Prop :=
| cut_end r text : cut_up c size r text [] (with_piece text r)
| cut_char r text x its ps : cut_up c size r (text ++ [x]) its ps -> cut_up c size r text (Char x :: its) ps
| cut_tag r text t r1 its ps : override c r t r1 -> cut_up c size r1 [] its ps -> cut_up c size r text (Tag t :: its) (with_piece text r ++ ps)
| cut_break r text r1 its ps : row_below size r r1 -> cut_up c size r1 [] its ps -> cut_up c size r text (Break :: its) (with_piece text r ++ ps).

(** The first tag that is refused. *)
Inductive cut_refused (c : ssa_context) (size : flt) : raw -> list item -> exn -> Prop :=
| refused_char r x its e : cut_refused c size r its e -> cut_refused c size r (Char x :: its) e
| refused_tag r t its e : bad_override t e -> cut_refused c size r (Tag t :: its) e
| refused_later r t r1 its e : override c r t r1 -> cut_refused c size r1 its e -> cut_refused c size r (Tag t :: its) e
| refused_break r r1 its e : row_below size r r1 -> cut_refused c size r1 its e -> cut_refused c size r (Break :: its) e.

(** How often a backslash is followed by n or N. *)
Inductive break_marks : str -> Z -> Prop :=
| marks_end : break_marks [] 0
| marks_one c s n : break_char c -> break_marks (c :: s) n -> break_marks (bslash :: c :: s) (n + 1)
| marks_other c s n : ~ (c = bslash /\ begins break_char s) -> break_marks s n -> break_marks (c :: s) n.

(** The look of the first piece, at the edge or in the middle of the screen, and the height of a row. *)
Definition reference_of (base : raw) : vref := match v_ref (r_vpos base) with Some v => v | None => BOTTOM_OF_SCREEN end.
Definition usual_size (c : ssa_context) : flt := f_of_d (ddiv (d_of_int 72) (d_of_int (play_res_y c))).
Definition size_of (c : ssa_context) (base : raw) : flt := match fs_prop (r_font_size base) with Some p => p | None => usual_size c end.
Definition row_size (c : ssa_context) (base : raw) : flt := dmul (d_of_f (size_of c base)) (d_lit 12 10).
Definition first_look (c : ssa_context) (base r : raw) : Prop :=
  exists x, margin_offset c (h_ref (r_hpos base)) x /\
    r = with_font_size (mkFS (Some (size_of c base)) (fs_points (r_font_size base)))
          (with_horizontal (h_ref (r_hpos base)) x
            (with_vpos (mkV (Some (f_of_int 0)) (v_line (r_vpos base)) (v_lines (r_vpos base)) (Some (reference_of base))) (with_text [] base))).

(** Away from the edge, or about the middle. *)
Definition margin_of (base : raw) : flt := match v_prop (r_vpos base) with Some p => p | None => f_of_int 0 end.
Definition final_proportion (base : raw) (n : Z) (size : flt) (ref : vref) (p : flt) : flt :=
  match ref with
  | TOP_OF_SCREEN | TOP_OF_SUBTITLE => fadd p (margin_of base)
  | VERTICAL_CENTRE_OF_SCREEN => f_of_d (dsub (d_of_f p) (ddiv (dmul (d_of_int (n + 1)) size) (d_of_int 2)))
  | BOTTOM_OF_SCREEN => f_of_d (dadd (d_of_f (fadd p (margin_of base))) (dmul (d_of_int n) size))
  end.
Definition finished (base : raw) (n : Z) (size : flt) (r r' : raw) : Prop :=
  exists ref p, v_ref (r_vpos r) = Some ref /\ v_prop (r_vpos r) = Some p /\ r' = with_proportion (final_proportion base n size ref p) r.

(** What a text means to which the look [base] applies. *)
Definition text_subtitles (c : ssa_context) (base : raw) (s : str) (raws : list raw) : Prop :=
  exists its r n ps, ssa_text s its /\ first_look c base r /\ break_marks s n /\
    cut_up c (row_size c base) r (r_text base) its ps /\ Forall2 (finished base n (row_size c base)) ps raws.
Definition text_refused (c : ssa_context) (base : raw) (s : str) (e : exn) : Prop :=
  exists its r, ssa_text s its /\ first_look c base r /\ cut_refused c (row_size c base) r its e.

(** * Steps one after the other *)

Inductive in_turn {A B : Type} (step : A -> B -> A -> Prop) : A -> list B -> A -> Prop :=
| turn_end a : in_turn step a [] a
| turn_step a b a1 l a2 : step a b a1 -> in_turn step a1 l a2 -> in_turn step a (b :: l) a2.
Definition fails_in_turn {A B : Type} (step : A -> B -> A -> Prop) (fail : A -> B -> exn -> Prop) (a : A) (l : list B) (e : exn) : Prop :=
  exists before b after a1, l = before ++ b :: after /\ in_turn step a before a1 /\ fail a1 b e.

(** * Fields *)

Definition trimmed (s t : str) : Prop :=
  exists a b, s = a ++ t ++ b /\ Forall white a /\ Forall white b /\ ~ begins white t /\ ~ ends_in white t.
Definition comma : ascii := ","%char.
(** An int as C reads it. *)
Definition int_text (s : str) (v : Z) : Prop := c_number s v /\ is_int v.

(** Times: h:m:s.c, where c counts hundredths; any of the separators may be a colon or a dot. *)
Definition time_sign (c : ascii) : Prop := c = ":"%char \/ c = "."%char.
Definition no_time_sign (s : str) : Prop := Forall (fun c => ~ time_sign c) s.
Definition four_parts (s hs ms ss cs : str) : Prop :=
  exists x y z, s = hs ++ x :: ms ++ y :: ss ++ z :: cs /\ time_sign x /\ time_sign y /\ time_sign z /\
    no_time_sign hs /\ no_time_sign ms /\ no_time_sign ss /\ no_time_sign cs.
Definition ssa_time (s : str) (t : time) : Prop :=
  exists hs ms ss cs h m sec c, four_parts s hs ms ss cs /\ int_text hs h /\ int_text ms m /\ int_text ss sec /\ int_text cs c /\
    is_int (c * 10) /\ time_fits h m sec /\ t = mkT (h * 3600 + m * 60 + sec) (c * 10) (Some (mkR 1000 1)).
Definition not_ssa_time (s : str) : Prop := forall hs ms ss cs, ~ four_parts s hs ms ss cs.

(** * Styles *)

Definition base_style : style :=
  mkStyle [] None 72 (mkC (f_of_int 255) (f_of_int 255) (f_of_int 255)) None false false false None
    HORIZONTAL_CENTRE_OF_SCREEN BOTTOM_OF_SCREEN 0 0 0.

(** A colour: hexadecimal after &H, or decimal. *)
Inductive style_colour_is : str -> colour -> Prop :=
| colour_hex s k : colour_text s k -> style_colour_is s k
| colour_decimal s v : ~ begins (eq "&"%char) s -> int_text s v -> style_colour_is s (bgr v).
Definition bad_style_colour (s : str) (e : exn) : Prop :=
  begins (eq "&"%char) s /\ (forall t, s <> lit "&H" ++ t) /\ e = ESsa (lit "Badly formatted colour tag " ++ s).

(** Anything that is not on the keypad is in the middle of the bottom. *)
Definition alignment (v : str) (h : href) (vr : vref) : Prop :=
  (exists k, In (k, (h, vr)) keypad /\ v = lit k) \/
  ((forall k hv, In (k, hv) keypad -> v <> lit k) /\ h = HORIZONTAL_CENTRE_OF_SCREEN /\ vr = BOTTOM_OF_SCREEN).
Definition is_yes (v : str) (b : bool) : Prop := b = true <-> v = lit "-1".

Definition style_keys : list str :=
  map lit ["Name"; "Fontname"; "Fontsize"; "PrimaryColour"; "BackColour"; "Bold"; "Italic"; "Underline"; "BorderStyle"; "Alignment";
           "MarginV"; "MarginL"; "MarginR"]%string.
Inductive style_entry : style -> str -> str -> style -> Prop :=
| entry_name n f z p k b i u e h v mv ml mr x : style_entry (mkStyle n f z p k b i u e h v mv ml mr) (lit "Name") x (mkStyle x f z p k b i u e h v mv ml mr)
| entry_font n f z p k b i u e h v mv ml mr x : style_entry (mkStyle n f z p k b i u e h v mv ml mr) (lit "Fontname") x (mkStyle n (Some x) z p k b i u e h v mv ml mr)
| entry_size n f z p k b i u e h v mv ml mr x y : int_text x y ->
    style_entry (mkStyle n f z p k b i u e h v mv ml mr) (lit "Fontsize") x (mkStyle n f y p k b i u e h v mv ml mr)
| entry_primary n f z p k b i u e h v mv ml mr x y : style_colour_is x y ->
    style_entry (mkStyle n f z p k b i u e h v mv ml mr) (lit "PrimaryColour") x (mkStyle n f z y k b i u e h v mv ml mr)
| entry_back n f z p k b i u e h v mv ml mr x y : style_colour_is x y ->
    style_entry (mkStyle n f z p k b i u e h v mv ml mr) (lit "BackColour") x (mkStyle n f z p (Some y) b i u e h v mv ml mr)
| entry_bold n f z p k b i u e h v mv ml mr x y : is_yes x y ->
    style_entry (mkStyle n f z p k b i u e h v mv ml mr) (lit "Bold") x (mkStyle n f z p k y i u e h v mv ml mr)
| entry_italic n f z p k b i u e h v mv ml mr x y : is_yes x y ->
    style_entry (mkStyle n f z p k b i u e h v mv ml mr) (lit "Italic") x (mkStyle n f z p k b y u e h v mv ml mr)
| entry_underline n f z p k b i u e h v mv ml mr x y : is_yes x y ->
    style_entry (mkStyle n f z p k b i u e h v mv ml mr) (lit "Underline") x (mkStyle n f z p k b i y e h v mv ml mr)
| entry_shadow n f z p k b i u e h v mv ml mr :
    style_entry (mkStyle n f z p k b i u e h v mv ml mr) (lit "BorderStyle") (lit "1") (mkStyle n f z p k b i u (Some SHADOW) h v mv ml mr)
| entry_no_shadow st x : x <> lit "1" -> style_entry st (lit "BorderStyle") x st
| entry_align n f z p k b i u e h v mv ml mr x h' v' : alignment x h' v' ->
    style_entry (mkStyle n f z p k b i u e h v mv ml mr) (lit "Alignment") x (mkStyle n f z p k b i u e h' v' mv ml mr)
| entry_margin_v n f z p k b i u e h v mv ml mr x y : int_text x y ->
    style_entry (mkStyle n f z p k b i u e h v mv ml mr) (lit "MarginV") x (mkStyle n f z p k b i u e h v y ml mr)
| entry_margin_l n f z p k b i u e h v mv ml mr x y : int_text x y ->
    style_entry (mkStyle n f z p k b i u e h v mv ml mr) (lit "MarginL") x (mkStyle n f z p k b i u e h v mv y mr)
| entry_margin_r n f z p k b i u e h v mv ml mr x y : int_text x y ->
    style_entry (mkStyle n f z p k b i u e h v mv ml mr) (lit "MarginR") x (mkStyle n f z p k b i u e h v mv ml y)
| entry_other st key x : ~ In key style_keys -> style_entry st key x st.
Definition bad_style_entry (key x : str) (e : exn) : Prop := (key = lit "PrimaryColour" \/ key = lit "BackColour") /\ bad_style_colour x e.

(** A style line: as many values as the format line has keys. *)
Definition style_step (st : style) (kv : str * str) (st' : style) : Prop :=
  exists k v, trimmed (fst kv) k /\ trimmed (snd kv) v /\ style_entry st k v st'.
Definition style_step_fails (st : style) (kv : str * str) (e : exn) : Prop :=
  exists k v, trimmed (fst kv) k /\ trimmed (snd kv) v /\ bad_style_entry k v e.
Definition style_line (format line : str) (st : style) : Prop :=
  exists ks vs, parts_of [comma] format ks /\ parts_of [comma] line vs /\ length ks = length vs /\ in_turn style_step base_style (combine ks vs) st.
Definition style_line_refused (format line : str) (e : exn) : Prop :=
  exists ks vs, parts_of [comma] format ks /\ parts_of [comma] line vs /\
    (length ks <> length vs /\ e = EProgramming \/
     length ks = length vs /\ fails_in_turn style_step style_step_fails base_style (combine ks vs) e).

(** * Dialogues *)

(** The values of [n] fields, of which only the last may have commas in it. *)
Definition field_values (n : nat) (body : str) (vs : list str) : Prop :=
  length vs = n /\ body = join [comma] vs /\ Forall (fun v => ~ In comma v) (removelast vs).

(** The style with a name, if there is one, and otherwise the one that is called Default; the last one that has the name. *)
Inductive last_style : list (str * style) -> str -> style -> Prop :=
| last_here name st l : last_style ((name, st) :: l) name st
| last_before name st name' st' l : name <> name' -> last_style l name st -> last_style ((name', st') :: l) name st.
Definition no_style (l : list (str * style)) (name : str) : Prop := forall st, ~ In (name, st) l.
Inductive style_for (l : list (str * style)) (name : str) : option style -> Prop :=
| style_named st : last_style l name st -> style_for l name (Some st)
| style_fallback st : no_style l name -> last_style l (lit "Default") st -> style_for l name (Some st)
| style_none : no_style l name -> no_style l (lit "Default") -> style_for l name None.
Definition starless (s t : str) : Prop := exists n, s = repeat "*"%char n ++ t /\ ~ begins (eq "*"%char) t.

(** The look a style gives. *)
Definition vertical_of (res_y : Z) (st : style) (v : vpos) : vpos :=
  mkV (match st_vref st with
       | VERTICAL_CENTRE_OF_SCREEN => v_prop v
       | _ => Some (fdiv (f_of_int (st_vertical_margin st)) (f_of_int res_y))
       end) (v_line v) (v_lines v) (Some (st_vref st)).
Definition styled (res_y : Z) (st : style) (r : raw) : raw :=
  mkRaw (r_text r) (st_font_name st) (mkFS (Some (fdiv (f_of_int (st_font_size st)) (f_of_int res_y))) None) (st_effect st) (st_back_colour st)
    (st_primary_colour st) (st_bold st) (st_italic st) (st_underline st) (mkH (st_href st) (h_prop (r_hpos r)))
    (vertical_of res_y st (r_vpos r)) (r_from r) (r_to r) (r_fade_up r) (r_fade_down r).

Definition event_keys : list str := map lit ["Start"; "End"; "Style"; "MarginV"; "MarginL"; "MarginR"; "Text"]%string.
(** The context of a text: the colour that is the style's own is white if there is no style. *)
Definition text_context (f : ssa_reader) (ev : ssa_event) : ssa_context :=
  mkCtx (sr_res_x f) (sr_res_y f)
    (match ev_style ev with Some st => st_primary_colour st | None => mkC (f_of_int 1) (f_of_int 1) (f_of_int 1) end) (ev_left ev) (ev_right ev).

Inductive event_entry (f : ssa_reader) : ssa_event -> str -> str -> ssa_event -> Prop :=
| event_start r st l rt out x t : ssa_time x t -> event_entry f (mkEv r st l rt out) (lit "Start") x (mkEv (with_times t (r_to r) r) st l rt out)
| event_end r st l rt out x t : ssa_time x t -> event_entry f (mkEv r st l rt out) (lit "End") x (mkEv (with_times (r_from r) t r) st l rt out)
| event_style r st l rt out x name s : starless x name -> style_for (sr_styles f) name (Some s) ->
    event_entry f (mkEv r st l rt out) (lit "Style") x (mkEv (styled (sr_res_y f) s r) (Some s) (st_left_margin s) (st_right_margin s) out)
| event_no_style ev x name : starless x name -> style_for (sr_styles f) name None -> event_entry f ev (lit "Style") x ev
| event_margin_v r st l rt out x : x <> lit "0" -> v_ref (r_vpos r) <> Some VERTICAL_CENTRE_OF_SCREEN ->
    event_entry f (mkEv r st l rt out) (lit "MarginV") x
      (mkEv (with_proportion (fdiv (raw_convert_float x) (f_of_int (sr_res_y f))) r) st l rt out)
| event_keep_margin_v ev x : x = lit "0" \/ v_ref (r_vpos (ev_sub ev)) = Some VERTICAL_CENTRE_OF_SCREEN -> event_entry f ev (lit "MarginV") x ev
| event_margin_l r st l rt out x y : x <> lit "0" -> int_text x y -> event_entry f (mkEv r st l rt out) (lit "MarginL") x (mkEv r st y rt out)
| event_keep_margin_l ev : event_entry f ev (lit "MarginL") (lit "0") ev
| event_margin_r r st l rt out x y : x <> lit "0" -> int_text x y -> event_entry f (mkEv r st l rt out) (lit "MarginR") x (mkEv r st l y out)
| event_keep_margin_r ev : event_entry f ev (lit "MarginR") (lit "0") ev
| event_text r st l rt out x raws : text_subtitles (text_context f (mkEv r st l rt out)) r x raws ->
    event_entry f (mkEv r st l rt out) (lit "Text") x (mkEv r st l rt (out ++ raws))
| event_other ev key x : ~ In key event_keys -> event_entry f ev key x ev.
Inductive bad_event_entry (f : ssa_reader) (ev : ssa_event) : str -> str -> exn -> Prop :=
| bad_time key x : key = lit "Start" \/ key = lit "End" -> not_ssa_time x -> bad_event_entry f ev key x EProgramming
| bad_text x e : text_refused (text_context f ev) (ev_sub ev) x e -> bad_event_entry f ev (lit "Text") x e.

Definition event_step (f : ssa_reader) (ev : ssa_event) (kv : str * str) (ev' : ssa_event) : Prop :=
  exists v, trimmed (snd kv) v /\ event_entry f ev (fst kv) v ev'.
Definition event_step_fails (f : ssa_reader) (ev : ssa_event) (kv : str * str) (e : exn) : Prop :=
  exists v, trimmed (snd kv) v /\ bad_event_entry f ev (fst kv) v e.
(** No text, no style, no font, no position; white. *)
Definition no_time : time := mkT 0 0 None.
Definition new_event : ssa_event :=
  mkEv (mkRaw [] None (mkFS None None) None None (mkC (f_of_int 1) (f_of_int 1) (f_of_int 1)) false false false
          (mkH HORIZONTAL_CENTRE_OF_SCREEN (f_of_int 0)) (mkV None None None None) no_time no_time None None) None 0 0 [].
Definition dialogue_line (f : ssa_reader) (body : str) (raws : list raw) : Prop :=
  sr_event_format f <> [] /\ exists vs ev, field_values (length (sr_event_format f)) body vs /\
    in_turn (event_step f) new_event (combine (sr_event_format f) vs) ev /\ raws = ev_out ev.
Definition dialogue_refused (f : ssa_reader) (body : str) (e : exn) : Prop :=
  sr_event_format f = [] /\ e = EProgramming \/
  (forall vs, ~ field_values (length (sr_event_format f)) body vs) /\ e = EProgramming \/
  sr_event_format f <> [] /\ exists vs, field_values (length (sr_event_format f)) body vs /\
    fails_in_turn (event_step f) (event_step_fails f) new_event (combine (sr_event_format f) vs) e.

(** * Files *)

(** A line without white space around it, and then without a byte order mark. *)
Definition line_body (line l : str) : Prop := exists u, trimmed line u /\ (u = bom ++ l \/ ~ begins_with bom u /\ l = u).
Definition with_part (p : ssa_part) (f : ssa_reader) : ssa_reader :=
  mkSsa p (sr_res_x f) (sr_res_y f) (sr_styles f) (sr_style_format f) (sr_event_format f) (sr_subs f).
(** Headings; any other one changes nothing. *)
Definition headings : list (string * ssa_part) :=
  [("[Script Info]", INFO); ("[V4 Styles]", STYLES); ("[V4+ Styles]", STYLES); ("[Events]", EVENTS)]%string.
(** key: body *)
Definition keyed (l key body : str) : Prop := exists rest, l = key ++ ":"%char :: rest /\ ~ In ":"%char key /\ trimmed rest body.
Definition known_keys (p : ssa_part) : list str :=
  match p with
  | INFO => [lit "PlayResX"; lit "PlayResY"]
  | STYLES => [lit "Format"; lit "Style"]
  | EVENTS => [lit "Format"; lit "Dialogue"]
  end.

Inductive keyed_entry : ssa_reader -> str -> str -> ssa_reader -> Prop :=
| entry_res_x x y ss sf ef subs body v : int_text body v ->
    keyed_entry (mkSsa INFO x y ss sf ef subs) (lit "PlayResX") body (mkSsa INFO v y ss sf ef subs)
| entry_res_y x y ss sf ef subs body v : int_text body v ->
    keyed_entry (mkSsa INFO x y ss sf ef subs) (lit "PlayResY") body (mkSsa INFO x v ss sf ef subs)
| entry_style_format x y ss sf ef subs body :
    keyed_entry (mkSsa STYLES x y ss sf ef subs) (lit "Format") body (mkSsa STYLES x y ss body ef subs)
| entry_style x y ss sf ef subs body st : sf <> [] -> style_line sf body st ->
    keyed_entry (mkSsa STYLES x y ss sf ef subs) (lit "Style") body (mkSsa STYLES x y ((st_name st, st) :: ss) sf ef subs)
| entry_event_format x y ss sf ef subs body parts keys : parts_of [comma] body parts -> Forall2 trimmed parts keys ->
    keyed_entry (mkSsa EVENTS x y ss sf ef subs) (lit "Format") body (mkSsa EVENTS x y ss sf keys subs)
| entry_dialogue x y ss sf ef subs body raws : dialogue_line (mkSsa EVENTS x y ss sf ef subs) body raws ->
    keyed_entry (mkSsa EVENTS x y ss sf ef subs) (lit "Dialogue") body (mkSsa EVENTS x y ss sf ef (subs ++ raws))
| entry_unknown f key body : ~ In key (known_keys (sr_part f)) -> keyed_entry f key body f.
Inductive keyed_refused (f : ssa_reader) : str -> str -> exn -> Prop :=
| refused_no_format body : sr_part f = STYLES -> sr_style_format f = [] -> keyed_refused f (lit "Style") body EProgramming
| refused_style body e : sr_part f = STYLES -> sr_style_format f <> [] -> style_line_refused (sr_style_format f) body e ->
    keyed_refused f (lit "Style") body e
| refused_dialogue body e : sr_part f = EVENTS -> dialogue_refused f body e -> keyed_refused f (lit "Dialogue") body e.

Inductive ssa_line_read : ssa_reader -> str -> ssa_reader -> Prop :=
| line_blank f line : line_body line [] -> ssa_line_read f line f
| line_comment f line s : line_body line (";"%char :: s) -> ssa_line_read f line f
| line_heading f line h p : line_body line (lit h) -> In (h, p) headings -> ssa_line_read f line (with_part p f)
| line_other_heading f line s : line_body line ("["%char :: s) -> (forall h p, In (h, p) headings -> "["%char :: s <> lit h) -> ssa_line_read f line f
| line_keyed f line l key body f' : line_body line l -> ~ begins (fun c => c = ";"%char \/ c = "["%char) l -> keyed l key body ->
    keyed_entry f key body f' -> ssa_line_read f line f'.
Inductive ssa_line_refused (f : ssa_reader) (line : str) : exn -> Prop :=
| refused_no_colon l : line_body line l -> l <> [] -> ~ begins (fun c => c = ";"%char \/ c = "["%char) l -> ~ In ":"%char l ->
    ssa_line_refused f line EProgramming
| refused_keyed l key body e : line_body line l -> ~ begins (fun c => c = ";"%char \/ c = "["%char) l -> keyed l key body ->
    keyed_refused f key body e -> ssa_line_refused f line e.

(** 288 by 288, no styles, no formats. *)
Definition new_file : ssa_reader := mkSsa INFO 288 288 [] [] [] [].
Definition ssa_file (s : str) (raws : list raw) : Prop :=
  exists ls f, text_lines s ls /\ in_turn ssa_line_read new_file ls f /\ raws = sr_subs f.
Definition ssa_file_refused (s : str) (e : exn) : Prop :=
  exists ls, text_lines s ls /\ fails_in_turn ssa_line_read ssa_line_refused new_file ls e.
