(** C46-C51, C76-C80: reading SSA and ASS files.  Statements only; proofs are in theories/Proofs. *)
From Coq Require Import ZArith Reals Lra Lia List Bool Ascii String.
From Verif.Model Require Import Base Float TimeModel Types.
From Verif.Spec Require Import Outcome TextSpec LinesSpec StlFileSpec RawSpec PositionSpec NumberSpec SsaTagSpec SsaSpec SubripUseSpec SsaUseSpec SsaOverflowSpec.
From Verif.Model Require Import Ssa.
From Verif.Proofs Require Import LinesProofs SsaTextProofs SsaProofs SsaUseProofs SsaLayoutProofs SsaSafeProofs SsaOverflowProofs.
Import ListNotations.
Local Open Scope Z_scope.
Local Notation length := List.length.

(** Some cases below are about this file. *)
Definition sample (styles style text : string) : str :=
  join [lf] (map lit ["[Script Info]"; "PlayResX: 1920"; "PlayResY: 1080"; ""; styles;
    "Format: Name, Fontname, Fontsize, PrimaryColour, Alignment, MarginL, MarginR, MarginV"; style; "";
    "[Events]"; "; this is a comment"; "Format: Layer, Start, End, Style, Text"; ("Dialogue: 0,0:00:01.23,0:00:04.5,*Default," ++ text)])%string.
Definition sample_style : string := "Style: Default,Arial,20,&H00FF8000,2,10,10,30"%string.

(** C76.  What is read is exactly what the format says: the subtitles, the exceptions, and undefined behaviour. *)
Theorem C76_reads_the_file : forall s raws, ssa_reader_string s = Ok raws <-> ssa_file s raws.
Proof. exact ssa_string_iff. Qed.
Print Assumptions C76_reads_the_file.
Theorem C76_exceptions : forall s e, ssa_reader_string s = Throw e <-> ssa_file_refused s e.
Proof. exact ssa_string_refused. Qed.
Print Assumptions C76_exceptions.
Theorem C76_undefined : forall s u, ssa_reader_string s = Undef u <-> u = UbIntOverflow /\ ssa_file_overflows s.
Proof. exact ssa_string_undefined. Qed.
Print Assumptions C76_undefined.
(** Between them these say what becomes of every file. *)
Theorem C76_all_there_is : forall s, (exists raws, ssa_file s raws) \/ (exists e, ssa_file_refused s e) \/ ssa_file_overflows s.
Proof. exact ssa_string_total. Qed.
Print Assumptions C76_all_there_is.
Example C76_case : exists a b, ssa_file (sample "[V4+ Styles]" sample_style "Hello, {\i1}world") [a; b] /\
  r_text a = lit "Hello, " /\ r_italic a = false /\ r_text b = lit "world" /\ r_italic b = true /\ r_font b = Some (lit "Arial") /\
  r_from b = mkT 1 230 (Some (mkR 1000 1)) /\ r_to b = mkT 4 50 (Some (mkR 1000 1)).
Proof. eexists _, _. split; [apply ssa_string_iff; vm_compute; reflexivity|]. now repeat split. Qed.
Example C76_exception_case : exists e, ssa_file_refused (sample "[V4+ Styles]" "Style: Default,Arial,20" "Hello") e.
Proof. eexists. apply ssa_string_refused. vm_compute. reflexivity. Qed.

Example C76_undefined_case : ssa_file_overflows (sample "[V4+ Styles]" "Style: Default,Arial,20,2147483648,2,10,10,30" "Hello") /\
  ssa_file_overflows (sample "[V4+ Styles]" "Style: Default,Arial,20,0,2,2000000000,-2000000000,30" "Hello") /\
  ssa_file_overflows (sample "[V4+ Styles]" "Style: Default,Arial,20,0,1,2000000000,-2000000000,30" "Hello {\an2}world").
Proof. repeat split; eapply (proj1 (ssa_string_undefined _ _)); vm_compute; reflexivity. Qed.

(** C46.  The text is all that is after the other fields, commas included. *)
Theorem C46_text_field : forall f ks vs text raws, sr_event_format f = ks ++ [lit "Text"] -> length vs = length ks ->
  Forall (fun v => ~ In comma v) vs -> ~ In (lit "Text") ks ->
  (dialogue f (join [comma] (vs ++ [text])) = Ok raws <->
   exists ev t, in_turn (event_step f) new_event (combine ks vs) ev /\ trimmed text t /\ text_subtitles (text_context f ev) (ev_sub ev) t raws).
Proof. exact text_field. Qed.
Print Assumptions C46_text_field.
Theorem C46_plain_text : forall f ks vs text raws, sr_event_format f = ks ++ [lit "Text"] -> length vs = length ks ->
  Forall (fun v => ~ In comma v) vs -> ~ In (lit "Text") ks -> plain_text text -> tidy text -> text <> [] ->
  dialogue f (join [comma] (vs ++ [text])) = Ok raws -> exists r, raws = [r] /\ r_text r = text.
Proof. exact plain_text_field. Qed.
Print Assumptions C46_plain_text.
Definition sample_reader : ssa_reader := mkSsa EVENTS 1920 1080 [] [] (map lit ["Start"; "End"; "Text"]%string) [].
Example C46_case : exists r, dialogue sample_reader (lit "0:00:01.23,0:00:04.50,one, two,,three") = Ok [r] /\ r_text r = lit "one, two,,three" /\
  lit "0:00:01.23,0:00:04.50,one, two,,three" = join [comma] ([lit "0:00:01.23"; lit "0:00:04.50"] ++ [lit "one, two,,three"]).
Proof. eexists. split; [vm_compute; reflexivity|]. now split. Qed.

(** C47.  The pieces are the text without tags and breaks, and each character has the look of the tags in front of it. *)
Theorem C47_looks : forall base s c raws, r_text base = [] -> parse_line base s c = Ok raws ->
  exists its r, ssa_text s its /\ first_look c base r /\ ssa_shown c r its (List.concat (map cells raws)) /\
    List.concat (map r_text raws) = letters its /\ Forall (fun r => r_text r <> []) raws.
Proof. exact looks_of_text. Qed.
Print Assumptions C47_looks.
(** ... and a text without tags that are refused is read. *)
Theorem C47_texts_are_read : forall base s its c, margins_fit c -> ssa_text s its -> Forall known_tag its -> exists raws, parse_line base s c = Ok raws.
Proof. exact text_read. Qed.
Print Assumptions C47_texts_are_read.
Definition plain_look : raw := ev_sub new_event.
Definition screen : ssa_context := mkCtx 1920 1080 (mkC (f_of_int 1) (f_of_int 1) (f_of_int 1)) 0 0.
Example C47_case : exists a b, parse_line plain_look (lit "a{\b1\i1}b") screen = Ok [a; b] /\ r_bold a = false /\ r_bold b = true /\ r_italic b = true.
Proof. eexists _, _. split; [vm_compute; reflexivity|]. now repeat split. Qed.
Example C47_read_case : margins_fit screen /\ exists its, ssa_text (lit "a{\b1\i1}b") its /\ Forall known_tag its /\ its = [Char "a"%char; Tag []; Tag (tag "b1"); Tag (tag "i1"); Char "b"%char].
Proof.
  split; [unfold margins_fit, is_int; cbn; lia|]. eexists. split; [apply lex_iff; vm_compute; reflexivity|]. split; [|reflexivity].
  repeat constructor; cbn [known_tag]; intros e B; inversion B.
Qed.

(** C48.  Rows are 1.2 times the size of the font apart, from the margin at the top or down to the margin at the bottom, or around the middle.
    Missing: texts in which a backslash is followed by another and then by n (see below), and those with alignments or positions. *)
Theorem C48_rows_partial : forall base s its c raws n z m, parse_line base s c = Ok raws -> r_text base = [] -> ssa_text s its -> Forall stays its ->
  break_marks s n -> n = breaks its -> n <= 1000000 ->
  float_value (size_of c base) z -> (0 <= z)%R -> (IZR (n + 1) * (6 / 5 * z) <= 1)%R -> float_value (margin_of base) m -> (Rabs m <= 1)%R ->
  exists kr, raws = map snd kr /\ List.concat (map letters_on kr) = letters_in_rows 0 its /\
    Forall (fun p => placed (reference_of base) (row_offset (reference_of base) n (fst p) m (6 / 5 * z)) ((IZR (fst p) + 2) / 4194304) (snd p)) kr.
Proof. exact rows_placed. Qed.
Print Assumptions C48_rows_partial.
(** What is placed in any text without alignments and positions: as if every backslash in front of n or N was a line break. *)
Theorem C48_as_is : forall base s its c raws n z m, parse_line base s c = Ok raws -> r_text base = [] -> ssa_text s its -> Forall stays its ->
  break_marks s n -> n <= 1000000 ->
  float_value (size_of c base) z -> (0 <= z)%R -> (IZR (n + 1) * (6 / 5 * z) <= 1)%R -> float_value (margin_of base) m -> (Rabs m <= 1)%R ->
  exists kr, raws = map snd kr /\ List.concat (map letters_on kr) = letters_in_rows 0 its /\
    Forall (fun p => placed (reference_of base) (row_offset (reference_of base) n (fst p) m (6 / 5 * z)) ((IZR (fst p) + 2) / 4194304) (snd p)) kr.
Proof. exact rows_as_is. Qed.
Print Assumptions C48_as_is.
(** In a\\nb there is no line break, but it is placed as if there was one. *)
Theorem C48_rows_refuted : exists s r, parse_line plain_look s screen = Ok [r] /\ r_text r = lit "anb" /\ ssa_text s [Char "a"; Char "n"; Char "b"]%char /\
  v_ref (r_vpos r) = Some BOTTOM_OF_SCREEN /\ exists p x, v_prop (r_vpos r) = Some p /\ float_value p x /\ (x > 7 / 100)%R.
Proof.
  exists (lit "a\\nb"). eexists. split; [vm_compute; reflexivity|]. split; [reflexivity|]. split; [apply lex_iff; reflexivity|]. split; [reflexivity|].
  eexists _, _. split; [reflexivity|]. split; [repeat split|]. exact refuted_row.
Qed.
Print Assumptions C48_rows_refuted.
Example C48_case : exists a b, parse_line plain_look (lit "a\Nb") screen = Ok [a; b] /\ break_marks (lit "a\Nb") 1 /\
  ssa_text (lit "a\Nb") [Char "a"; Break; Char "b"]%char /\ Forall stays [Char "a"; Break; Char "b"]%char /\ breaks [Char "a"; Break; Char "b"]%char = 1.
Proof.
  eexists _, _. split; [vm_compute; reflexivity|]. split; [apply marks_iff; reflexivity|]. split; [apply lex_iff; reflexivity|]. split; [|reflexivity].
  repeat constructor.
Qed.

(** C49.  \an1 to \an9 are the corners of the keypad; text without them is where its style says, and styles use the same numbers. *)
Theorem C49_align_tag : forall base k h v s its c raws, In (k, (h, v)) keypad -> r_text base = [] -> ssa_text s its -> Forall stays its ->
  parse_line base (lit "{" ++ tag "an" ++ lit k ++ lit "}" ++ s) c = Ok raws ->
  Forall (fun r => h_ref (r_hpos r) = h /\ v_ref (r_vpos r) = Some v) raws.
Proof. exact align_tag. Qed.
Print Assumptions C49_align_tag.
Theorem C49_no_tag : forall base s its c raws, ssa_text s its -> Forall stays its -> parse_line base s c = Ok raws ->
  Forall (fun r => h_ref (r_hpos r) = h_ref (r_hpos base) /\ v_ref (r_vpos r) = Some (reference_of base)) raws.
Proof. exact keeps_alignment. Qed.
Print Assumptions C49_no_tag.
Theorem C49_style : forall format line value h v st, style_parse format line = Ok st -> last_value (lit "Alignment") format line value -> alignment value h v ->
  st_href st = h /\ st_vref st = v.
Proof. exact style_alignment. Qed.
Print Assumptions C49_style.
Theorem C49_style_without : forall format line st, style_parse format line = Ok st -> no_key (lit "Alignment") format ->
  st_href st = HORIZONTAL_CENTRE_OF_SCREEN /\ st_vref st = BOTTOM_OF_SCREEN.
Proof. exact style_no_alignment. Qed.
Print Assumptions C49_style_without.
Example C49_case : exists a b, parse_line plain_look (lit "{" ++ tag "an" ++ lit "9" ++ lit "}" ++ lit "a\Nb") screen = Ok [a; b].
Proof. eexists _, _. vm_compute. reflexivity. Qed.
Example C49_style_case : exists st, style_parse (lit "Name, Alignment, Alignment") (lit "x, 3, 4") = Ok st /\
  last_value (lit "Alignment") (lit "Name, Alignment, Alignment") (lit "x, 3, 4") (lit "4") /\ alignment (lit "4") LEFT_OF_SCREEN VERTICAL_CENTRE_OF_SCREEN.
Proof.
  eexists. split; [vm_compute; reflexivity|]. split.
  - exists [lit "Name"; lit " Alignment"; lit " Alignment"], [lit "x"; lit " 3"; lit " 4"], [(lit "Name", lit "x"); (lit " Alignment", lit " 3")], (lit " Alignment"), (lit " 4"), [].
    split; [apply parts_iff; reflexivity|]. split; [apply parts_iff; reflexivity|]. split; [reflexivity|]. split; [reflexivity|].
    split; [apply trim_iff; reflexivity|]. split; [apply trim_iff; reflexivity|]. intros k' v' [].
  - left. exists "4"%string. split; [|reflexivity]. cbn [In keypad]. tauto.
Qed.

(** C50.  Colours: blue, green and red bytes. *)
Theorem C50_colour_tag : forall base alpha bs gs rs b g r s c raws, alpha_or_none alpha -> hex_pair bs b -> hex_pair gs g -> hex_pair rs r -> r_text base = [] ->
  plain_text s -> s <> [] -> parse_line base (lit "{" ++ tag "c" ++ lit "&H" ++ alpha ++ bs ++ gs ++ rs ++ lit "&}" ++ s) c = Ok raws ->
  exists x, raws = [x] /\ r_text x = s /\ r_colour x = rgb r g b.
Proof. exact colour_tag. Qed.
Print Assumptions C50_colour_tag.
Theorem C50_style_colour : forall format line value r g b st, style_parse format line = Ok st -> last_value (lit "PrimaryColour") format line value ->
  written_colour value r g b -> st_primary_colour st = rgb r g b.
Proof. exact style_primary. Qed.
Print Assumptions C50_style_colour.
Theorem C50_style_back_colour : forall format line value r g b st, style_parse format line = Ok st -> last_value (lit "BackColour") format line value ->
  written_colour value r g b -> st_back_colour st = Some (rgb r g b).
Proof. exact style_back. Qed.
Print Assumptions C50_style_back_colour.
Example C50_case : exists x, parse_line plain_look (lit "{" ++ tag "c" ++ lit "&H" ++ [] ++ lit "fF" ++ lit "80" ++ lit "00" ++ lit "&}" ++ lit "blue") screen = Ok [x] /\
  hex_pair (lit "fF") 255 /\ hex_pair (lit "80") 128 /\ hex_pair (lit "00") 0 /\ plain_text (lit "blue").
Proof.
  eexists. split; [vm_compute; reflexivity|]. assert (H : forall a b x y, hex_digit a x -> hex_digit b y -> hex_pair [a; b] (16 * x + y)) by (intros a b x y A B; now exists a, x, b, y).
  assert (D : forall c v, let k := char_code c in (48 <= k <= 57 /\ v = k - 48) \/ (65 <= k <= 70 /\ v = k - 55) \/ (97 <= k <= 102 /\ v = k - 87) -> hex_digit c v) by (intros; unfold hex_digit; exact H0 || lia).
  split; [apply (H "f" "F" 15 15)%char; apply D; cbv; intuition discriminate|]. split; [apply (H "8" "0" 8 0)%char; apply D; cbv; intuition discriminate|].
  split; [apply (H "0" "0" 0 0)%char; apply D; cbv; intuition discriminate|].
  repeat constructor; try discriminate; intros [E|E]; discriminate.
Qed.

(** C51.  Times count hundredths of a second; anything else than four parts is an exception. *)
Theorem C51_times : forall hs ms ss cs h m s c, numeral hs h -> numeral ms m -> numeral ss s -> numeral cs c ->
  h * 3600 + m * 60 + s < 2 ^ 31 -> c * 10 < 2 ^ 31 ->
  ssa_parse_time (hs ++ lit ":" ++ ms ++ lit ":" ++ ss ++ lit "." ++ cs) = Ok (mkT (h * 3600 + m * 60 + s) (c * 10) (Some (mkR 1000 1))).
Proof. exact time_read. Qed.
Print Assumptions C51_times.
Theorem C51_all_times : forall s t, ssa_parse_time s = Ok t <-> ssa_time s t.
Proof. exact parse_time_iff. Qed.
Print Assumptions C51_all_times.
Theorem C51_bad_times : forall s e, ssa_parse_time s = Throw e <-> not_ssa_time s /\ e = EProgramming.
Proof. exact parse_time_refused. Qed.
Print Assumptions C51_bad_times.
Example C51_case : ssa_parse_time (lit "1:02:03.45") = Ok (mkT 3723 450 (Some (mkR 1000 1))) /\ ssa_time (lit "1:02:03.45") (mkT 3723 450 (Some (mkR 1000 1))) /\ not_ssa_time (lit "1:02:03").
Proof.
  split; [vm_compute; reflexivity|]. split; [apply parse_time_iff; vm_compute; reflexivity|].
  apply (parse_time_refused (lit "1:02:03") EProgramming). vm_compute. reflexivity.
Qed.

(** C77.  A file whose lines fit the reader's buffer, without NULs, is read like the string of its content. *)
Theorem C77_file_like_string_partial : forall s, short_lines s -> ssa_reader_file s = ssa_reader_string s.
Proof. exact ssa_file_same. Qed.
Print Assumptions C77_file_like_string_partial.
(** The rest of a long comment is not a comment. *)
Theorem C77_file_like_string_refuted : exists s, ssa_reader_string s = Ok [] /\ throws (ssa_reader_file s).
Proof. exists (";"%char :: repeat "x"%char 260). split; [vm_compute; reflexivity|]. eexists. vm_compute. reflexivity. Qed.
Print Assumptions C77_file_like_string_refuted.
Example C77_case : short_lines (sample "[V4+ Styles]" sample_style "Hello").
Proof.
  split; [intros I|].
  - assert (C : existsb (Ascii.eqb nul) (sample "[V4+ Styles]" sample_style "Hello") = true) by (apply existsb_exists; exists nul; split; [exact I|now rewrite Ascii.eqb_refl]).
    revert C. vm_compute. discriminate.
  - eexists. split; [apply lines_of_string_iff; vm_compute; reflexivity|]. repeat constructor; cbn; lia.
Qed.

(** C78.  No undefined behaviour in files in which numbers are short; C76_undefined says just when there is some. *)
Theorem C78_safe_partial : forall s, moderate_numbers s -> defined (ssa_reader_string s).
Proof. exact moderate_defined. Qed.
Print Assumptions C78_safe_partial.
(** 600000 hours are too many seconds for an int. *)
Theorem C78_safe_refuted : exists s u, ssa_reader_string s = Undef u.
Proof.
  exists (join [lf] (map lit ["[Events]"; "Format: Start, Text"; "Dialogue: 600000:00:01.23,Hello"]%string)). eexists. vm_compute. reflexivity.
Qed.
Print Assumptions C78_safe_refuted.
Theorem C78_as_is : forall s, defined (ssa_reader_string s) <-> ~ ssa_file_overflows s.
Proof. exact ssa_string_defined. Qed.
Print Assumptions C78_as_is.
Example C78_case : moderate_numbers (sample "[V4+ Styles]" sample_style "It is {\c&H001122334455&}1999").
Proof. apply moderate_check_ok. vm_compute. reflexivity. Qed.

(** C79.  \pos(x,y) puts text at x and y on a screen of PlayResX by PlayResY, if there is no vertical margin. *)
Theorem C79_position_partial : forall base xs x ys y s c raws, number xs x -> number ys y -> (Rabs x <= IZR (2 ^ 23))%R -> (Rabs y <= IZR (2 ^ 23))%R ->
  0 < play_res_x c < 2 ^ 24 -> 0 < play_res_y c < 2 ^ 24 -> float_value (margin_of base) 0 -> r_text base = [] -> plain_text s -> s <> [] ->
  parse_line base (lit "{" ++ tag "pos" ++ lit "(" ++ xs ++ lit "," ++ ys ++ lit ")}" ++ s) c = Ok raws ->
  exists r p, raws = [r] /\ r_text r = s /\
    h_ref (r_hpos r) = LEFT_OF_SCREEN /\ float_value (h_prop (r_hpos r)) (nearest_float (nearest_float x / IZR (play_res_x c))) /\
    v_ref (r_vpos r) = Some TOP_OF_SCREEN /\ v_prop (r_vpos r) = Some p /\ float_value p (nearest_float (nearest_float y / IZR (play_res_y c))).
Proof. exact pos_tag. Qed.
Print Assumptions C79_position_partial.
(** A margin of 108 of 1080 moves text that is to be at 0 to 1/10. *)
Theorem C79_position_refuted : exists r, ssa_reader_string (sample "[V4+ Styles]" "Style: Default,Arial,20,&H00FF8000,2,10,10,108" "{\pos(0,0)}Hello") = Ok [r] /\
  r_text r = lit "Hello" /\ v_ref (r_vpos r) = Some TOP_OF_SCREEN /\ v_prop (r_vpos r) = Some (f_of_d (d_lit 1 10)).
Proof. eexists. split; [vm_compute; reflexivity|]. split; [reflexivity|]. split; [reflexivity|]. vm_compute. reflexivity. Qed.
Print Assumptions C79_position_refuted.
(** With a margin, the margin is added to the vertical position. *)
Theorem C79_as_is : forall m base xs x ys y s c raws, number xs x -> number ys y -> (Rabs x <= IZR (2 ^ 23))%R -> (Rabs y <= IZR (2 ^ 23))%R ->
  0 < play_res_x c < 2 ^ 24 -> 0 < play_res_y c < 2 ^ 24 -> float_value (margin_of base) m -> (Rabs m <= 1)%R -> r_text base = [] -> plain_text s -> s <> [] ->
  parse_line base (lit "{" ++ tag "pos" ++ lit "(" ++ xs ++ lit "," ++ ys ++ lit ")}" ++ s) c = Ok raws ->
  exists r p, raws = [r] /\ r_text r = s /\
    h_ref (r_hpos r) = LEFT_OF_SCREEN /\ float_value (h_prop (r_hpos r)) (nearest_float (nearest_float x / IZR (play_res_x c))) /\
    v_ref (r_vpos r) = Some TOP_OF_SCREEN /\ v_prop (r_vpos r) = Some p /\ float_value p (nearest_float (nearest_float (nearest_float y / IZR (play_res_y c)) + m)).
Proof. exact pos_tag_margin. Qed.
Print Assumptions C79_as_is.
Example C79_case : exists r, parse_line plain_look (lit "{" ++ tag "pos" ++ lit "(" ++ lit "960" ++ lit "," ++ lit "270" ++ lit ")}" ++ lit "Hello") screen = Ok [r] /\
  number (lit "960") 960 /\ float_value (margin_of plain_look) 0.
Proof.
  eexists. split; [vm_compute; reflexivity|]. split; [|repeat split].
  replace 960%R with (960 * powerRZ 10 0)%R by (cbn; lra). change (lit "960") with ([] ++ lit "960" ++ []). apply number_plain; [constructor|]. apply scientific_plain; [|constructor].
  apply (decimal_whole (lit "960") 960). apply (StringProofs.digits_numeral (lit "960")); [discriminate|repeat constructor].
Qed.

(** C80.  [V4 Styles] number alignments differently; the library reads them like those of [V4+ Styles], so only those at the bottom are right. *)
Theorem C80_v4_alignment_partial : forall format line k h v st, In (k, (h, v)) v4_alignments -> In k ["1"; "2"; "3"]%string ->
  style_parse format line = Ok st -> last_value (lit "Alignment") format line (lit k) -> st_href st = h /\ st_vref st = v.
Proof. exact v4_bottom. Qed.
Print Assumptions C80_v4_alignment_partial.
(** Every other number gives another position. *)
Theorem C80_as_is : forall format line k h v st, In (k, (h, v)) v4_alignments -> style_parse format line = Ok st -> last_value (lit "Alignment") format line (lit k) ->
  (st_href st = h /\ st_vref st = v <-> In k ["1"; "2"; "3"]%string).
Proof. exact v4_all. Qed.
Print Assumptions C80_as_is.
Example C80_case : exists st, style_parse (lit "Name, Alignment") (lit "x, 10") = Ok st /\
  last_value (lit "Alignment") (lit "Name, Alignment") (lit "x, 10") (lit "10") /\ In ("10"%string, (HORIZONTAL_CENTRE_OF_SCREEN, VERTICAL_CENTRE_OF_SCREEN)) v4_alignments.
Proof.
  eexists. split; [vm_compute; reflexivity|]. split.
  - exists [lit "Name"; lit " Alignment"], [lit "x"; lit " 10"], [(lit "Name", lit "x")], (lit " Alignment"), (lit " 10"), [].
    split; [apply parts_iff; reflexivity|]. split; [apply parts_iff; reflexivity|]. split; [reflexivity|]. split; [reflexivity|].
    split; [apply trim_iff; reflexivity|]. split; [apply trim_iff; reflexivity|]. intros k' v' [].
  - cbn [In v4_alignments]. tauto.
Qed.
Theorem C80_v4_alignment_refuted : exists r, ssa_reader_string (sample "[V4 Styles]" "Style: Default,Arial,20,&H00FF8000,6,10,10,30" "Hello") = Ok [r] /\
  In ("6"%string, (HORIZONTAL_CENTRE_OF_SCREEN, TOP_OF_SCREEN)) v4_alignments /\ h_ref (r_hpos r) <> HORIZONTAL_CENTRE_OF_SCREEN /\ v_ref (r_vpos r) <> Some TOP_OF_SCREEN.
Proof. eexists. split; [vm_compute; reflexivity|]. split; [cbn [In v4_alignments]; tauto|]. split; discriminate. Qed.
Print Assumptions C80_v4_alignment_refuted.
