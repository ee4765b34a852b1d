(** /repo/src/ssa_reader.{h,cc}. *)
From Coq Require Import ZArith List Bool Ascii String.
From Coq.Floats Require Import SpecFloat.
From Verif.Model Require Import Base Strings Float TimeModel Types Lines RawConvert Compose.
Import ListNotations.
Local Open Scope Z_scope.

(** The character of ssa_reader.cc 343, 358 and 365. *)
Definition backslash : ascii := chr 92.

(** A string with a backslash in front: the tags \i1 and so on. *)
Definition tag_lit (s : string) : str := backslash :: lit s.

(** strtoll (s, nullptr, 16): white space, sign, optional 0x, digits; clamped to 64 bits. *)
Definition strtoll16 (s : str) : Z :=
  let '(neg, d) := take_sign (drop_while is_space s) in
  let d' := match d with
            | z :: x :: y :: t => if Ascii.eqb z "0"%char && Ascii.eqb (lower x) "x"%char && is_xdigit y
                                  then y :: t else d
            | _ => d
            end in
  let m := hex_val (take_while is_xdigit d') in
  let v := if neg then - m else m in
  Z.max (- 2 ^ 63) (Z.min (2 ^ 63 - 1) v).

(** (n / 255.0) converted to float. *)
Definition over_255 (n : Z) : flt := f_of_d (ddiv (d_of_int n) (d_of_int 255)).

(** Colour whose red is the low byte, then green, then blue (ssa_reader.cc 72-76 and 185-189). *)
Definition bgr_colour (v : Z) : colour :=
  mkC (over_255 (Z.shiftr (Z.land v 255) 0))
      (over_255 (Z.shiftr (Z.land v 65280) 8))
      (over_255 (Z.shiftr (Z.land v 16711680) 16)).

(** h_colour, ssa_reader.cc 56-77. *)
Definition h_colour (s : str) : res colour :=
  match s with
  | a :: b :: _ =>
      if Ascii.eqb a "&"%char && Ascii.eqb b "H"%char then
        Ok (bgr_colour (strtoll16 (drop_while (is_any_of (lit "&H")) s)))
      else Throw (ESsa (compose (lit "Badly formatted colour tag %1") [s]))
  | _ => Throw (ESsa (compose (lit "Badly formatted colour tag %1") [s]))
  end.

(** class Style, ssa_reader.cc 79-192. *)
Record style : Type := mkStyle {
  st_name : str;
  st_font_name : option str;
  st_font_size : Z;
  st_primary_colour : colour;
  st_back_colour : option colour;
  st_bold : bool;
  st_italic : bool;
  st_underline : bool;
  st_effect : option effect;
  st_href : href;
  st_vref : vref;
  st_vertical_margin : Z;
  st_left_margin : Z;
  st_right_margin : Z }.

(** Style::Style (), ssa_reader.cc 82-91 (and the initialisers of 93-101). *)
Definition style_default : style :=
  mkStyle [] None 72 (mkC (f_of_int 255) (f_of_int 255) (f_of_int 255)) None false false false None
          HORIZONTAL_CENTRE_OF_SCREEN BOTTOM_OF_SCREEN 0 0 0.

(** Style::colour, ssa_reader.cc 177-191. *)
Definition style_colour (c : str) : res colour :=
  match c with
  | a :: _ => if Ascii.eqb a "&"%char then h_colour c
              else let* i := raw_convert_int c in Ok (bgr_colour i)
  | [] => let* i := raw_convert_int c in Ok (bgr_colour i)
  end.

(** The vertical and horizontal reference of an Alignment value, ssa_reader.cc 136-149. *)
Definition alignment_vref (v : str) : vref :=
  if str_eqb v (lit "7") || str_eqb v (lit "8") || str_eqb v (lit "9") then TOP_OF_SCREEN
  else if str_eqb v (lit "4") || str_eqb v (lit "5") || str_eqb v (lit "6") then VERTICAL_CENTRE_OF_SCREEN
  else BOTTOM_OF_SCREEN.
(** The horizontal reference of an Alignment value, ssa_reader.cc 136-149. *)
Definition alignment_href (v : str) : href :=
  if str_eqb v (lit "1") || str_eqb v (lit "4") || str_eqb v (lit "7") then LEFT_OF_SCREEN
  else if str_eqb v (lit "3") || str_eqb v (lit "6") || str_eqb v (lit "9") then RIGHT_OF_SCREEN
  else HORIZONTAL_CENTRE_OF_SCREEN.

(** One key/value pair of a style line, ssa_reader.cc 113-156. *)
Definition style_field (s : style) (key val : str) : res style :=
  let k := trim key in
  let v := trim val in
  let '(mkStyle n fn fz pc bc b i u e h vr vm lm rm) := s in
  if str_eqb k (lit "Name") then Ok (mkStyle v fn fz pc bc b i u e h vr vm lm rm)
  else if str_eqb k (lit "Fontname") then Ok (mkStyle n (Some v) fz pc bc b i u e h vr vm lm rm)
  else if str_eqb k (lit "Fontsize") then
    let* x := raw_convert_int v in Ok (mkStyle n fn x pc bc b i u e h vr vm lm rm)
  else if str_eqb k (lit "PrimaryColour") then
    let* x := style_colour v in Ok (mkStyle n fn fz x bc b i u e h vr vm lm rm)
  else if str_eqb k (lit "BackColour") then
    let* x := style_colour v in Ok (mkStyle n fn fz pc (Some x) b i u e h vr vm lm rm)
  else if str_eqb k (lit "Bold") then Ok (mkStyle n fn fz pc bc (str_eqb v (lit "-1")) i u e h vr vm lm rm)
  else if str_eqb k (lit "Italic") then Ok (mkStyle n fn fz pc bc b (str_eqb v (lit "-1")) u e h vr vm lm rm)
  else if str_eqb k (lit "Underline") then Ok (mkStyle n fn fz pc bc b i (str_eqb v (lit "-1")) e h vr vm lm rm)
  else if str_eqb k (lit "BorderStyle") then
    Ok (mkStyle n fn fz pc bc b i u (if str_eqb v (lit "1") then Some SHADOW else e) h vr vm lm rm)
  else if str_eqb k (lit "Alignment") then
    Ok (mkStyle n fn fz pc bc b i u e (alignment_href v) (alignment_vref v) vm lm rm)
  else if str_eqb k (lit "MarginV") then
    let* x := raw_convert_int v in Ok (mkStyle n fn fz pc bc b i u e h vr x lm rm)
  else if str_eqb k (lit "MarginL") then
    let* x := raw_convert_int v in Ok (mkStyle n fn fz pc bc b i u e h vr vm x rm)
  else if str_eqb k (lit "MarginR") then
    let* x := raw_convert_int v in Ok (mkStyle n fn fz pc bc b i u e h vr vm lm x)
  else Ok s.

(** The loop over the fields of a style line, ssa_reader.cc 112-157. *)
Fixpoint style_fields (s : style) (kv : list (str * str)) : res style :=
  match kv with
  | [] => Ok s
  | (k, v) :: t => let* s' := style_field s k v in style_fields s' t
  end.

(** Style::Style (string, string), ssa_reader.cc 93-158. *)
Definition style_parse (format_line style_line : str) : res style :=
  let keys := split (is_any_of (lit ",")) format_line in
  let vals := split (is_any_of (lit ",")) style_line in
  let* _ := sub_assert (negb (is_nil keys)) in
  let* _ := sub_assert (negb (is_nil vals)) in
  let* _ := sub_assert (Nat.eqb (List.length keys) (List.length vals)) in
  style_fields style_default (combine keys vals).

(** class SSAReader::Context, ssa_reader.h 44-62. *)
Record ssa_context : Type := mkCtx {
  play_res_x : Z; play_res_y : Z; primary_colour : colour; left_margin : Z; right_margin : Z }.

(** Context::update_horizontal_position, ssa_reader.cc 195-209. *)
Definition update_horizontal_position (ctx : ssa_context) (sub : raw) : res raw :=
  match h_ref (r_hpos sub) with
  | LEFT_OF_SCREEN => Ok (set_hprop (fdiv (f_of_int (left_margin ctx)) (f_of_int (play_res_x ctx))) sub)
  | HORIZONTAL_CENTRE_OF_SCREEN =>
      let* d := isub (left_margin ctx) (right_margin ctx) in
      let* w := imul 2 (play_res_x ctx) in
      Ok (set_hprop (fdiv (f_of_int d) (f_of_int w)) sub)
  | RIGHT_OF_SCREEN => Ok (set_hprop (fdiv (f_of_int (right_margin ctx)) (f_of_int (play_res_x ctx))) sub)
  end.

(** SSAReader::parse_time, ssa_reader.cc 212-224. *)
Definition ssa_parse_time (t : str) : res time :=
  match split (is_any_of (lit ":.")) t with
  | [b0; b1; b2; b3] =>
      let* h := raw_convert_int b0 in
      let* m := raw_convert_int b1 in
      let* s := raw_convert_int b2 in
      let* c := raw_convert_int b3 in
      let* ms := imul c 10 in
      from_hms h m s ms
  | _ => Throw EProgramming
  end.

(** The \an tags, ssa_reader.cc 242-277. *)
Definition an_tag (tag : str) : option (href * vref) :=
  if str_eqb tag (tag_lit "an1") then Some (LEFT_OF_SCREEN, BOTTOM_OF_SCREEN)
  else if str_eqb tag (tag_lit "an2") then Some (HORIZONTAL_CENTRE_OF_SCREEN, BOTTOM_OF_SCREEN)
  else if str_eqb tag (tag_lit "an3") then Some (RIGHT_OF_SCREEN, BOTTOM_OF_SCREEN)
  else if str_eqb tag (tag_lit "an4") then Some (LEFT_OF_SCREEN, VERTICAL_CENTRE_OF_SCREEN)
  else if str_eqb tag (tag_lit "an5") then Some (HORIZONTAL_CENTRE_OF_SCREEN, VERTICAL_CENTRE_OF_SCREEN)
  else if str_eqb tag (tag_lit "an6") then Some (RIGHT_OF_SCREEN, VERTICAL_CENTRE_OF_SCREEN)
  else if str_eqb tag (tag_lit "an7") then Some (LEFT_OF_SCREEN, TOP_OF_SCREEN)
  else if str_eqb tag (tag_lit "an8") then Some (HORIZONTAL_CENTRE_OF_SCREEN, TOP_OF_SCREEN)
  else if str_eqb tag (tag_lit "an9") then Some (RIGHT_OF_SCREEN, TOP_OF_SCREEN)
  else None.

(** SSAReader::parse_tag, ssa_reader.cc 227-299. The last branch of the \c case (296) cannot be reached. *)
Definition parse_tag (sub : raw) (tag : str) (ctx : ssa_context) : res raw :=
  if str_eqb tag (tag_lit "i1") then Ok (set_italic true sub)
  else if str_eqb tag (tag_lit "i0") || str_eqb tag (tag_lit "i") then Ok (set_italic false sub)
  else if str_eqb tag (tag_lit "b1") then Ok (set_bold true sub)
  else if str_eqb tag (tag_lit "b0") then Ok (set_bold false sub)
  else if str_eqb tag (tag_lit "u1") then Ok (set_underline true sub)
  else if str_eqb tag (tag_lit "u0") then Ok (set_underline false sub)
  else match an_tag tag with
  | Some (h, v) => update_horizontal_position ctx (set_vref (Some v) (set_href h sub))
  | None =>
      if starts_with tag (tag_lit "pos") then
        match split (is_any_of (lit "(,")) tag with
        | [_; x; y] =>
            Ok (set_vprop (Some (fdiv (raw_convert_float y) (f_of_int (play_res_y ctx))))
               (set_vref (Some TOP_OF_SCREEN)
               (set_hprop (fdiv (raw_convert_float x) (f_of_int (play_res_x ctx)))
               (set_href LEFT_OF_SCREEN sub))))
        | _ => Throw EProgramming
        end
      else if starts_with tag (tag_lit "fs") then
        let* _ := sub_assert (Nat.ltb 3 (List.length tag)) in
        Ok (set_font_size
              (set_proportional (r_font_size sub)
                 (fdiv (raw_convert_float (skipn 3 tag)) (f_of_int (play_res_y ctx)))) sub)
      else if starts_with tag (tag_lit "c") then
        if Nat.ltb 2 (List.length tag) then
          let* c := h_colour (firstn (List.length tag - 3) (skipn 2 tag)) in
          Ok (set_colour c sub)
        else Ok (set_colour (primary_colour ctx) sub)
      else Ok sub
  end.

(** Counting line breaks in the raw text, ssa_reader.cc 339-347. *)
Fixpoint count_line_breaks (line : str) : Z :=
  match line with
  | a :: ((b :: _) as t) =>
      (if Ascii.eqb a backslash && (Ascii.eqb b "n"%char || Ascii.eqb b "N"%char) then 1 else 0)
      + count_line_breaks t
  | _ => 0
  end.

(** The states of the parser of a line, ssa_reader.cc 308-312. *)
Inductive ssa_state : Type := TEXT | TAG | BACKSLASH.

(** if (!current.text.empty()) { subs.push_back (current); current.text = ""; } (ssa_reader.cc 366-369, 382-385) *)
Definition ssa_flush (current : raw) (subs : list raw) : raw * list raw :=
  match r_text current with
  | [] => (current, subs)
  | _ => (set_text [] current, subs ++ [current])
  end.

(** The character loop, ssa_reader.cc 352-400, including the push of what is left at the end.
    [line_size] is a double. *)
Fixpoint ssa_chars (ctx : ssa_context) (line_size : flt) (line : str) (st : ssa_state)
         (current : raw) (tag : str) (subs : list raw) : res (list raw) :=
  match line with
  | [] => Ok (snd (ssa_flush current subs))
  | c :: t =>
      match st with
      | TEXT =>
          if Ascii.eqb c "{"%char then ssa_chars ctx line_size t TAG current tag subs
          else if Ascii.eqb c backslash then ssa_chars ctx line_size t BACKSLASH current tag subs
          else if negb (Ascii.eqb c (chr 13)) && negb (Ascii.eqb c newline) then
            ssa_chars ctx line_size t TEXT (set_text (r_text current ++ [c]) current) tag subs
          else ssa_chars ctx line_size t TEXT current tag subs
      | TAG =>
          if Ascii.eqb c "}"%char || Ascii.eqb c backslash then
            let '(current', subs') := ssa_flush current subs in
            let* current'' := parse_tag current' tag ctx in
            if Ascii.eqb c "}"%char then ssa_chars ctx line_size t TEXT current'' [] subs'
            else ssa_chars ctx line_size t TAG current'' [c] subs'
          else ssa_chars ctx line_size t TAG current (tag ++ [c]) subs
      | BACKSLASH =>
          if Ascii.eqb c "n"%char || Ascii.eqb c "N"%char then
            let '(current', subs') := ssa_flush current subs in
            let* r := opt_get (v_ref (r_vpos current')) in
            let* p := opt_get (v_prop (r_vpos current')) in
            let p' := if vref_eqb r BOTTOM_OF_SCREEN then dsub (d_of_f p) line_size
                      else dadd (d_of_f p) line_size in
            ssa_chars ctx line_size t TEXT (set_vprop (Some (f_of_d p')) current') tag subs'
          else ssa_chars ctx line_size t TEXT current tag subs
      end
  end.

(** base.vertical_position.proportional.get_value_or (0) *)
Definition base_margin (base : raw) : flt :=
  match v_prop (r_vpos base) with Some p => p | None => S754_zero false end.

(** Finishing off the vertical position of one piece, ssa_reader.cc 402-422. *)
Definition ssa_finish (base : raw) (line_breaks : Z) (line_size : flt) (sub : raw) : res raw :=
  let* r := opt_get (v_ref (r_vpos sub)) in
  let* p := opt_get (v_prop (r_vpos sub)) in
  Ok (set_vprop (Some
    match r with
    | TOP_OF_SCREEN | TOP_OF_SUBTITLE => fadd p (base_margin base)
    | VERTICAL_CENTRE_OF_SCREEN =>
        f_of_d (dsub (d_of_f p) (ddiv (dmul (d_of_int (line_breaks + 1)) line_size) (d_of_int 2)))
    | BOTTOM_OF_SCREEN =>
        f_of_d (dadd (d_of_f (fadd p (base_margin base))) (dmul (d_of_int line_breaks) line_size))
    end) sub).

(** SSAReader::parse_line, ssa_reader.cc 305-425.  int overflow of the number of line breaks is not modelled. *)
Definition parse_line (base : raw) (line : str) (ctx : ssa_context) : res (list raw) :=
  let current := match v_ref (r_vpos base) with
                 | None => set_vref (Some BOTTOM_OF_SCREEN) base
                 | Some _ => base
                 end in
  let current := set_vprop (Some (f_of_int 0)) current in
  let* current := update_horizontal_position ctx current in
  let current := match fs_prop (r_font_size current) with
                 | None => set_font_size
                             (set_proportional (r_font_size current)
                                (f_of_d (ddiv (d_of_int 72) (d_of_int (play_res_y ctx))))) current
                 | Some _ => current
                 end in
  let line_breaks := count_line_breaks line in
  let* fp := fs_proportional (r_font_size current) (play_res_y ctx) in
  let line_size := dmul (d_of_f fp) (d_lit 12 10) in
  let* subs := ssa_chars ctx line_size line TEXT current [] [] in
  mapM (ssa_finish base line_breaks line_size) subs.

(** State of the loop in SSAReader::read, ssa_reader.cc 430-440, and the subtitles so far. *)
Inductive ssa_part : Type := INFO | STYLES | EVENTS.
(** The variables of the loop, ssa_reader.cc 430-440, with _subs. *)
Record ssa_reader : Type := mkSsa {
  sr_part : ssa_part;
  sr_res_x : Z;
  sr_res_y : Z;
  sr_styles : list (str * style);   (* std::map<string, Style>: newest binding first *)
  sr_style_format : str;
  sr_event_format : list str;
  sr_subs : list raw }.

(** Their initial values, ssa_reader.cc 430-440. *)
Definition ssa_init : ssa_reader := mkSsa INFO 288 288 [] [] [] [].

(** map::find *)
Fixpoint style_find (name : str) (l : list (str * style)) : option style :=
  match l with
  | [] => None
  | (n, s) :: t => if str_eqb n name then Some s else style_find name t
  end.

(** One iteration of the loop, on a list of at least two elements. *)
Fixpoint join_last_two (l : list str) : list str :=
  match l with
  | [a; b] => [a ++ lit "," ++ b]
  | a :: t => a :: join_last_two t
  | [] => []
  end.
(** The loop of ssa_reader.cc 504-508; fuel: the number of fields. *)
Fixpoint reassemble (fuel : nat) (n : nat) (event : list str) : res (list str) :=
  if Nat.ltb n (List.length event) then
    match fuel with
    | O => Undef UbFuel
    | S k =>
        if Nat.ltb (List.length event) 2 then Undef UbEmptyVector
        else reassemble k n (join_last_two event)
    end
  else Ok event.

(** The variables of the field loop, ssa_reader.cc 513-516. *)
Record ssa_event : Type := mkEv {
  ev_sub : raw; ev_style : option style; ev_left : Z; ev_right : Z; ev_out : list raw }.

(** Assignments from a style, ssa_reader.cc 539-553. *)
Definition apply_style (res_y : Z) (st : style) (sub : raw) : raw :=
  let sub := set_font (st_font_name st) sub in
  let sub := set_font_size (from_proportional (fdiv (f_of_int (st_font_size st)) (f_of_int res_y))) sub in
  let sub := set_colour (st_primary_colour st) sub in
  let sub := set_effect_colour (st_back_colour st) sub in
  let sub := set_bold (st_bold st) sub in
  let sub := set_italic (st_italic st) sub in
  let sub := set_underline (st_underline st) sub in
  let sub := set_effect (st_effect st) sub in
  let sub := set_href (st_href st) sub in
  let sub := set_vref (Some (st_vref st)) sub in
  if negb (vref_eqb (st_vref st) VERTICAL_CENTRE_OF_SCREEN) then
    set_vprop (Some (fdiv (f_of_int (st_vertical_margin st)) (f_of_int res_y))) sub
  else sub.

(** One field of a Dialogue line, ssa_reader.cc 519-572. *)
Definition event_field (r : ssa_reader) (ev : ssa_event) (key val : str) : res ssa_event :=
  let v := trim val in
  let '(mkEv sub st l rt out) := ev in
  if str_eqb key (lit "Start") then
    let* t := ssa_parse_time v in Ok (mkEv (set_from t sub) st l rt out)
  else if str_eqb key (lit "End") then
    let* t := ssa_parse_time v in Ok (mkEv (set_to t sub) st l rt out)
  else if str_eqb key (lit "Style") then
    let v := trim_left_if (is_any_of (lit "*")) v in
    let chosen := match style_find v (sr_styles r) with
                  | Some s => Some s
                  | None => style_find (lit "Default") (sr_styles r)
                  end in
    match chosen with
    | Some s => Ok (mkEv (apply_style (sr_res_y r) s sub) (Some s) (st_left_margin s) (st_right_margin s) out)
    | None => Ok ev
    end
  else if str_eqb key (lit "MarginV") then
    if negb (str_eqb v (lit "0")) && negb (opt_eqb vref_eqb (v_ref (r_vpos sub)) (Some VERTICAL_CENTRE_OF_SCREEN)) then
      Ok (mkEv (set_vprop (Some (fdiv (raw_convert_float v) (f_of_int (sr_res_y r)))) sub) st l rt out)
    else Ok ev
  else if str_eqb key (lit "MarginL") then
    if negb (str_eqb v (lit "0")) then let* x := raw_convert_int v in Ok (mkEv sub st x rt out) else Ok ev
  else if str_eqb key (lit "MarginR") then
    if negb (str_eqb v (lit "0")) then let* x := raw_convert_int v in Ok (mkEv sub st l x out) else Ok ev
  else if str_eqb key (lit "Text") then
    let ctx := mkCtx (sr_res_x r) (sr_res_y r)
                 (match st with Some s => st_primary_colour s | None => white end) l rt in
    let* subs := parse_line sub v ctx in
    Ok (mkEv sub st l rt (out ++ subs))
  else Ok ev.

(** The loop over the fields of an event, ssa_reader.cc 518-573. *)
Fixpoint event_fields (r : ssa_reader) (ev : ssa_event) (kv : list (str * str)) : res ssa_event :=
  match kv with
  | [] => Ok ev
  | (k, v) :: t => let* ev' := event_field r ev k v in event_fields r ev' t
  end.

(** A Dialogue body, ssa_reader.cc 497-573. *)
Definition dialogue (r : ssa_reader) (body : str) : res (list raw) :=
  let* _ := sub_assert (negb (is_nil (sr_event_format r))) in
  let event := split (is_any_of (lit ",")) body in
  let* event := reassemble (List.length event) (List.length (sr_event_format r)) event in
  let* _ := sub_assert (negb (is_nil event)) in
  let* _ := sub_assert (Nat.eqb (List.length (sr_event_format r)) (List.length event)) in
  let* ev := event_fields r (mkEv raw_default None 0 0 []) (combine (sr_event_format r) event) in
  Ok (ev_out ev).

(** One line of the file, ssa_reader.cc 448-575. *)
Definition ssa_line (r : ssa_reader) (raw_line : str) : res ssa_reader :=
  let line := remove_unicode_bom (trim raw_line) in
  let '(mkSsa part rx ry styles sf ef subs) := r in
  if starts_with line (lit ";") || is_nil line then Ok r
  else if starts_with line (lit "[") then
    if str_eqb line (lit "[Script Info]") then Ok (mkSsa INFO rx ry styles sf ef subs)
    else if str_eqb line (lit "[V4 Styles]") || str_eqb line (lit "[V4+ Styles]") then
      Ok (mkSsa STYLES rx ry styles sf ef subs)
    else if str_eqb line (lit "[Events]") then Ok (mkSsa EVENTS rx ry styles sf ef subs)
    else Ok r
  else
    match find_sub line (lit ":") with
    | None => Throw EProgramming
    | Some colon =>
        let type := firstn colon line in
        let body := trim (skipn (colon + 1) line) in
        match part with
        | INFO =>
            if str_eqb type (lit "PlayResX") then
              let* x := raw_convert_int body in Ok (mkSsa part x ry styles sf ef subs)
            else if str_eqb type (lit "PlayResY") then
              let* y := raw_convert_int body in Ok (mkSsa part rx y styles sf ef subs)
            else Ok r
        | STYLES =>
            if str_eqb type (lit "Format") then Ok (mkSsa part rx ry styles body ef subs)
            else if str_eqb type (lit "Style") then
              let* _ := sub_assert (negb (is_nil sf)) in
              let* s := style_parse sf body in
              Ok (mkSsa part rx ry ((st_name s, s) :: styles) sf ef subs)
            else Ok r
        | EVENTS =>
            if str_eqb type (lit "Format") then
              Ok (mkSsa part rx ry styles sf (map trim (split (is_any_of (lit ",")) body)) subs)
            else if str_eqb type (lit "Dialogue") then
              let* out := dialogue r body in
              Ok (mkSsa part rx ry styles sf ef (subs ++ out))
            else Ok r
        end
    end.

(** The loop over the lines, ssa_reader.cc 442-577. *)
Fixpoint ssa_lines (r : ssa_reader) (lines : list str) : res ssa_reader :=
  match lines with
  | [] => Ok r
  | l :: t => let* r' := ssa_line r l in ssa_lines r' t
  end.

(** SSAReader::read, ssa_reader.cc 427-578, on the lines that get_line delivers; returns _subs. *)
Definition ssa_read (lines : list str) : res (list raw) :=
  let* r := ssa_lines ssa_init lines in Ok (sr_subs r).

(** SSAReader::SSAReader (string) and (FILE pointer), ssa_reader.cc 44-54. *)
Definition ssa_reader_string (s : str) : res (list raw) := ssa_read (lines_of_string s).
(** SSAReader::SSAReader (FILE pointer), ssa_reader.cc 50-54. *)
Definition ssa_reader_file (s : str) : res (list raw) := ssa_read (lines_of_file s).
