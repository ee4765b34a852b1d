(** C36-C42, C70, C71: reading SubRip files.  Statements only; proofs are in theories/Proofs. *)
From Coq Require Import ZArith Lia List Bool Ascii String.
From Verif.Model Require Import Base TimeModel Types Ssa Subrip.
From Verif.Spec Require Import Outcome TextSpec Utf8Spec LinesSpec StlFileSpec RawSpec SsaTagSpec SubripSpec StopSpec SubripUseSpec SubripTagSpec.
From Verif.Proofs Require UtfProofs SubripFontProofs.
From Verif.Proofs Require Import LinesProofs SubripProofs SubripStopProofs SubripUseProofs SubripTagProofs.
Import ListNotations.
Local Open Scope Z_scope.
Local Notation length := List.length.

(** C71.  What is read is exactly what the format says: the subtitles, the exceptions, and undefined behaviour. *)
Theorem C71_reads_the_file : forall s raws, subrip_reader_string s = Ok raws <-> subrip_file s raws.
Proof. exact subrip_string_iff. Qed.
Print Assumptions C71_reads_the_file.
Theorem C71_exceptions : forall s e, subrip_reader_string s = Throw e <-> exists ls, text_lines s ls /\ subrip_stops ls (Throw e).
Proof. exact string_throws. Qed.
Print Assumptions C71_exceptions.
Theorem C71_undefined : forall s u, subrip_reader_string s = Undef u <-> exists ls, text_lines s ls /\ subrip_stops ls (Undef u).
Proof. exact string_undefined. Qed.
Print Assumptions C71_undefined.
Example C71_case : exists a b, subrip_file (join [lf] [lit "1"; lit "00:00:01,000 --> 00:00:02,500"; lit "Hello <i>world</i>"; []]) [a; b] /\
  r_text a = lit "Hello " /\ r_italic a = false /\ r_text b = lit "world" /\ r_italic b = true.
Proof. eexists _, _. split; [apply subrip_string_iff; vm_compute; reflexivity|]. now repeat split. Qed.
Example C71_exception_case : exists e ls, text_lines (join [lf] [lit "1"; lit "no time"]) ls /\ subrip_stops ls (Throw e).
Proof. eexists. apply string_throws. vm_compute. reflexivity. Qed.
Example C71_undefined_case : exists u ls, text_lines (join [lf] [lit "1"; lit "00:00:01,000 --> 00:00:02,500"; lit "</font>"]) ls /\ subrip_stops ls (Undef u).
Proof. eexists. apply string_undefined. vm_compute. reflexivity. Qed.

(** C36.  Plain cues come back: one subtitle for each line, with the times of the cue, numbered from 0. *)
Theorem C36_plain_files : forall cs s, srt_file cs s -> subrip_reader_string s = Ok (List.concat (map plain_cue cs)).
Proof. exact plain_file. Qed.
Print Assumptions C36_plain_files.
Example C36_case : exists a b, srt_file [mkCue a b [lit "Hello"; lit "there"]]
  (bom ++ lit "1" ++ [cr; lf] ++ lit "00:00:01,000" ++ lit " --> " ++ lit "01:00:02,500" ++ [lf] ++ (lit "Hello" ++ [lf]) ++ (lit "there" ++ [lf]) ++ [lf]).
Proof.
  exists (mkT 1 0 (Some (mkR 1000 1))), (mkT 3602 500 (Some (mkR 1000 1))). right. eexists. split; [reflexivity|].
  assert (U : forall l c, ~ In lf (l ++ [c]) -> c <> cr -> ~ begins_with bom (l ++ [c]) -> unchanged (l ++ [c])).
  { intros l c N1 N2 N3. split; [exact N1|]. split; [|exact N3]. intros (x & y & E & [->| ->]); apply app_inj_tail in E; destruct E as [-> ->]; [apply N1; rewrite in_app_iff; right; now left|congruence]. }
  assert (P : forall l c, ~ In lf (l ++ [c]) -> c <> cr -> ~ In "<"%char (l ++ [c]) -> ~ In "{"%char (l ++ [c]) -> ~ In (ascii_of_nat 226) (l ++ [c]) -> ~ In (ascii_of_nat 239) (l ++ [c]) -> plain (l ++ [c])).
  { intros l c N1 N2 N3 N4 N5 N6. split; [now destruct l|]. split; [apply U; [exact N1|exact N2|]|split; [|split; [|now split]]].
    - intros (r & E). apply N6. rewrite E. now left.
    - intros (x & y & E). apply N5. rewrite E, !in_app_iff. right. left. now left.
    - intros (x & y & E). apply N5. rewrite E, !in_app_iff. right. left. now left. }
  change (lit "1" ++ [cr; lf] ++ lit "00:00:01,000" ++ lit " --> " ++ lit "01:00:02,500" ++ [lf] ++ (lit "Hello" ++ [lf]) ++ (lit "there" ++ [lf]) ++ [lf])
    with (lit "1" ++ [cr; lf] ++ lit "00:00:01,000" ++ lit " --> " ++ lit "01:00:02,500" ++ [lf] ++ List.concat (map (fun l => l ++ [lf]) [lit "Hello"; lit "there"]) ++ [lf] ++ []).
  apply srt_cue; try (now left); try (now right); try (apply subrip_time_ok; vm_compute; reflexivity); try constructor; try discriminate.
  - intros I. cbn in I. intuition discriminate.
  - split; [intros (x & y & E & L)|intros (r & E); discriminate]. destruct x as [|x0 x]; [injection E as <-; destruct L; discriminate|destruct x; discriminate].
  - apply (P (lit "Hell") "o"%char); cbn; intuition discriminate.
  - constructor; [|constructor]. apply (P (lit "ther") "e"%char); cbn; intuition discriminate.
Qed.

(** C37.  Times: hours:minutes:seconds,milliseconds with decimal ints is accepted and means what it says; anything else is
    refused with what was expected, unless the seconds of the time overflow an int. *)
Theorem C37_times_accepted : forall s t, convert_time s (lit ",") = Ok (CTime t) <-> cue_time ","%char s t.
Proof. exact subrip_time_ok. Qed.
Print Assumptions C37_times_accepted.
Theorem C37_times_refused : forall s why, convert_time s (lit ",") = Ok (CExpected why) <-> time_refused ","%char s why.
Proof. exact subrip_time_refused. Qed.
Print Assumptions C37_times_refused.
Theorem C37_times_overflow : forall s u, convert_time s (lit ",") = Undef u <-> u = UbIntOverflow /\ time_overflows ","%char s.
Proof. exact subrip_time_stopped. Qed.
Print Assumptions C37_times_overflow.
Theorem C37_no_other_exception : forall s e, convert_time s (lit ",") <> Throw e.
Proof. exact subrip_time_throws. Qed.
Print Assumptions C37_no_other_exception.
Example C37_accepted : cue_time ","%char (lit "01:02:03,456") (mkT 3723 456 (Some (mkR 1000 1))).
Proof. apply subrip_time_ok. vm_compute. reflexivity. Qed.
Example C37_refused : time_refused ","%char (lit "01:02:x,456") (lit "integer second value") /\ time_refused ","%char (lit "01:02:03.456") (lit "time in the format h:m:s,ms").
Proof. split; apply subrip_time_refused; vm_compute; reflexivity. Qed.
Example C37_overflows : time_overflows ","%char (lit "1000000:00:00,000").
Proof. apply (subrip_time_stopped _ UbIntOverflow). vm_compute. reflexivity. Qed.

(** C38.  In cues without SSA tags and right-to-left marks, the subtitles show the characters outside the tags, each
    with the look that the tags before it give.  Such a cue is read if its font tags have colours and are closed at most once. *)
Theorem C38_tags : forall s cs raws, file_cues s cs -> Forall ordinary cs -> subrip_reader_string s = Ok raws ->
  exists rawss, raws = List.concat rawss /\ Forall2 shows cs rawss.
Proof. exact tagged_file. Qed.
Print Assumptions C38_tags.
Theorem C38_read : forall s cs, file_cues s cs -> Forall ordinary cs -> Forall (fun c => exists cells, cue_cells c cells) cs ->
  exists raws, subrip_reader_string s = Ok raws.
Proof. exact tagged_file_read. Qed.
Print Assumptions C38_read.
Theorem C38_cues_unique : forall s cs cs', file_cues s cs -> file_cues s cs' -> cs = cs'.
Proof. exact file_cues_unique. Qed.
Print Assumptions C38_cues_unique.
(** Tags in either form and any case. *)
Example C38_case : exists k, font_colour_is (lit " color='#00ff00'") k /\
  exists toks, lexed (lit "a{B}b<font color='#00ff00'>c</Font>d") toks /\
  shown 0 plain_look [all_white] toks
    [(0, plain_look, "a"%char); (0, mkLook true false false all_white, "b"%char); (0, mkLook true false false k, "c"%char);
     (0, mkLook true false false all_white, "d"%char)] (mkLook true false false all_white).
Proof.
  destruct (font_colour 1 [] (lit " color='#00ff00'")) as [k| |] eqn:E; [|exfalso; revert E; vm_compute; discriminate..].
  pose proof (proj1 (SubripFontProofs.font_colour_iff _ _ _ _) E) as F. exists k. split; [exact F|].
  exists [TChar "a"%char; TBold true; TChar "b"%char; TFont (lit " color='#00ff00'"); TChar "c"%char; TFontEnd; TChar "d"%char]. split.
  - apply (lex_ok 100). vm_compute. reflexivity.
  - do 3 constructor. apply (shown_font 0 _ _ _ k); [exact F|]. repeat constructor.
Qed.

(** C39.  Reading is defined for files whose numbers are short and whose font tags nest; in general exactly when
    nothing in C71_undefined happens. *)
Theorem C39_defined_partial : forall s, short_numbers s -> (forall row toks, row_of s row -> lexed row toks -> fonts_nest toks) ->
  defined (subrip_reader_string s).
Proof. exact safe_file. Qed.
Print Assumptions C39_defined_partial.
(** A closing font tag on its own pops the last colour and then reads the one before it; a long hour overflows. *)
Theorem C39_defined_refuted : exists s, subrip_reader_string s = Undef UbEmptyVector.
Proof. exists (join [lf] [lit "1"; lit "00:00:01,000 --> 00:00:02,500"; lit "</font>"]). vm_compute. reflexivity. Qed.
Print Assumptions C39_defined_refuted.
Theorem C39_hours_refuted : exists s, subrip_reader_string s = Undef UbIntOverflow.
Proof. exists (join [lf] [lit "1"; lit "600000:00:01,000 --> 00:00:02,500"]). vm_compute. reflexivity. Qed.
Print Assumptions C39_hours_refuted.
Theorem C39_as_is : forall s, defined (subrip_reader_string s) <-> forall u ls, text_lines s ls -> ~ subrip_stops ls (Undef u).
Proof. exact string_defined. Qed.
Print Assumptions C39_as_is.
Example C39_case : let s := join [lf] [lit "1"; lit "0:0:1,0 --> 0:0:2,5"; lit "<font color=#ffffff>x</font>"] in
  short_numbers s /\ (forall row toks, row_of s row -> lexed row toks -> fonts_nest toks).
Proof. apply safe_check_ok. vm_compute. reflexivity. Qed.

(** C40.  A file whose lines fit the reader's buffer, without NULs, is read like the string of its content. *)
Theorem C40_file_like_string_partial : forall s, short_lines s -> same_outcome (subrip_reader_file s) (subrip_reader_string s).
Proof. exact file_same. Qed.
Print Assumptions C40_file_like_string_partial.
(** A longer line becomes two. *)
Theorem C40_file_like_string_refuted : exists s, ~ same_outcome (subrip_reader_file s) (subrip_reader_string s).
Proof.
  exists (join [lf] [lit "1"; lit "00:00:01,000 --> 00:00:02,500"; repeat "x"%char 260]). intros H. remember (subrip_reader_file _) as a eqn:A. remember (subrip_reader_string _) as b eqn:B.
  assert (LA : match a with Ok l => length l = 2%nat | _ => False end) by (subst a; vm_compute; reflexivity).
  assert (LB : match b with Ok l => length l = 1%nat | _ => False end) by (subst b; vm_compute; reflexivity).
  clear A B. destruct H; try contradiction. rewrite LA in LB. discriminate.
Qed.
Print Assumptions C40_file_like_string_refuted.
Example C40_case : short_lines (join [lf] [lit "1"; lit "00:00:01,000 --> 00:00:02,500"; repeat "x"%char 250]).
Proof.
  split; [intros I|].
  - assert (C : existsb (Ascii.eqb nul) (join [lf] [lit "1"; lit "00:00:01,000 --> 00:00:02,500"; repeat "x"%char 250]) = true) by (apply existsb_exists; exists nul; split; [exact I|now rewrite Ascii.eqb_refl]).
    revert C. vm_compute. discriminate.
  - eexists. split; [apply lines_of_string_iff; vm_compute; reflexivity|]. repeat constructor; cbn; lia.
Qed.

(** C41.  An error names the line, text that is in it, and lines around it. *)
Theorem C41_error_place : forall s n saw why context, subrip_reader_string s = Throw (ESubrip n saw why context) -> error_points s n saw context.
Proof. exact error_place. Qed.
Print Assumptions C41_error_place.
Example C41_case : let s := join [lf] [lit "1"; lit "00:00:01,000 --> 00:00:02,500"; lit "a"; []; lit "2"; lit "0 --> 1  "; lit "b"; []; lit "3"] in
  subrip_reader_string s = Throw (ESubrip 6 (lit "0") (lit "time in the format h:m:s,ms") [lit "00:00:01,000 --> 00:00:02,500"; lit "a"; []; lit "2"; lit "0 --> 1  "]).
Proof. vm_compute. reflexivity. Qed.

(** C42.  In UTF-8 text without tags, no right-to-left mark is left. *)
Theorem C42_marks_removed_partial : forall s w raws x, utf8 s w -> ~ In "<"%char s -> ~ In "{"%char s ->
  subrip_reader_string s = Ok raws -> In x raws -> ~ contains u202b (r_text x).
Proof. exact marks_removed. Qed.
Print Assumptions C42_marks_removed_partial.
(** Text in front of a tag keeps it. *)
Theorem C42_marks_removed_refuted : exists s w raws x, utf8 s w /\ subrip_reader_string s = Ok raws /\ In x raws /\ contains u202b (r_text x).
Proof.
  assert (U : Forall scalar (map char_code (join [lf] [lit "1"; lit "0:0:1,0 --> 0:0:2,5"]) ++ [10; 0x202B] ++ map char_code (lit "<i>x</i>"))).
  { apply Forall_forall. intros v I. assert (C : forallb (fun v => (0 <=? v) && (v <? 0x3000)) (map char_code (join [lf] [lit "1"; lit "0:0:1,0 --> 0:0:2,5"]) ++ [10; 0x202B] ++ map char_code (lit "<i>x</i>")) = true) by (vm_compute; reflexivity).
    rewrite forallb_forall in C. specialize (C v I). unfold scalar. lia. }
  eexists _, _, _, _. split; [exact (UtfProofs.wide_to_utf8_ok _ U)|]. split; [vm_compute; reflexivity|]. split; [left; reflexivity|]. now exists [], [].
Qed.
Print Assumptions C42_marks_removed_refuted.
(** In any UTF-8 text without override tags, marks are only left in pieces of text that stand directly in front of a tag. *)
Theorem C42_as_is : forall s w raws x, utf8 s w -> ~ contains ["{"%char; bslash] s -> subrip_reader_string s = Ok raws -> In x raws ->
  contains u202b (r_text x) -> contains (r_text x ++ ["<"%char]) s \/ contains (r_text x ++ ["{"%char]) s.
Proof. exact marks_in_front. Qed.
Print Assumptions C42_as_is.
Example C42_as_is_case : let s := join [lf] [lit "1"; lit "0:0:1,0 --> 0:0:2,5"; u202b ++ lit "a<i>b" ++ u202b] in
  exists x y, subrip_reader_string s = Ok [x; y] /\ r_text x = u202b ++ lit "a" /\ r_text y = lit "b".
Proof. do 2 eexists. split; [vm_compute; reflexivity|]. split; reflexivity. Qed.
Example C42_case : exists s w raws x, utf8 s w /\ contains u202b s /\ ~ In "<"%char s /\ ~ In "{"%char s /\ subrip_reader_string s = Ok raws /\ In x raws /\ r_text x = lit "x".
Proof.
  assert (U : Forall scalar (map char_code (join [lf] [lit "1"; lit "0:0:1,0 --- 0:0:2,5"]) ++ [10; 0x202B] ++ map char_code (lit "x"))).
  { apply Forall_forall. intros v I. assert (C : forallb (fun v => (0 <=? v) && (v <? 0x3000)) (map char_code (join [lf] [lit "1"; lit "0:0:1,0 --- 0:0:2,5"]) ++ [10; 0x202B] ++ map char_code (lit "x")) = true) by (vm_compute; reflexivity).
    rewrite forallb_forall in C. specialize (C v I). unfold scalar. lia. }
  eexists _, _, _, _. split; [exact (UtfProofs.wide_to_utf8_ok _ U)|]. split; [exists (join [lf] [lit "1"; lit "0:0:1,0 --- 0:0:2,5"] ++ [lf]), (lit "x"); vm_compute; reflexivity|].
  split; [vm_compute; intuition discriminate|]. split; [vm_compute; intuition discriminate|]. split; [vm_compute; reflexivity|]. split; [left; reflexivity|]. reflexivity.
Qed.

(** C70.  SSA tags in front of the text of a line style it. *)
Theorem C70_ssa_tags_partial : forall s from to row bodies text r, file_cues s [mkCue from to [row]] -> ~ contains u2028 row ->
  lexed row (map TSsa bodies ++ map TChar text) -> text <> [] -> ~ contains u202b text -> overrides (cue_look from to) bodies r ->
  subrip_reader_string s = Ok [with_text text r].
Proof. exact tags_in_front. Qed.
Print Assumptions C70_ssa_tags_partial.
(** Elsewhere they style the text before them too. *)
Theorem C70_ssa_tags_refuted : exists s x, subrip_reader_string s = Ok [x] /\
  s = join [lf] [lit "1"; lit "0:0:1,0 --> 0:0:2,5"; lit "ab{" ++ [bslash] ++ lit "i1}cd"] /\ r_text x = lit "abcd" /\ r_italic x = true.
Proof. exists (join [lf] [lit "1"; lit "0:0:1,0 --> 0:0:2,5"; lit "ab{" ++ [bslash] ++ lit "i1}cd"]). eexists. split; [vm_compute; reflexivity|]. now repeat split. Qed.
Print Assumptions C70_ssa_tags_refuted.
Example C70_case : exists s from to row bodies text r, file_cues s [mkCue from to [row]] /\ ~ contains u2028 row /\
  lexed row (map TSsa bodies ++ map TChar text) /\ text <> [] /\ ~ contains u202b text /\ overrides (cue_look from to) bodies r /\ r_italic r = true.
Proof.
  exists (join [lf] [lit "1"; lit "0:0:1,0 --> 0:0:2,5"; lit "{" ++ [bslash] ++ lit "i1}cd"]), (mkT 1 0 (Some (mkR 1000 1))), (mkT 2 5 (Some (mkR 1000 1))),
    (lit "{" ++ [bslash] ++ lit "i1}cd"), [lit "i1"], (lit "cd"), (with_italic true (cue_look (mkT 1 0 (Some (mkR 1000 1))) (mkT 2 5 (Some (mkR 1000 1))))).
  assert (NC : forall l p, ~ In (ascii_of_nat 226) l -> ~ contains (ascii_of_nat 226 :: p) l).
  { intros l p N (x & y & E). apply N. rewrite E, in_app_iff. right. now left. }
  split; [|split; [|split; [|split; [|split; [|split]]]]].
  - eexists _, _. split; [apply lines_of_string_iff; vm_compute; reflexivity|]. split; [apply cleaned_map; vm_compute; reflexivity|].
    apply (cues_cue (lit "1") (lit "0:0:1,0 --> 0:0:2,5") _ _ [lit "{" ++ [bslash] ++ lit "i1}cd"] [] []); try discriminate; try (now left); try constructor; try discriminate; try constructor.
    exists (lit "0:0:1,0"), (lit "-->"), (lit "0:0:2,5"), []. split; [apply fields_iff; vm_compute; reflexivity|]. split; [now left|]. split; apply subrip_time_ok; vm_compute; reflexivity.
  - apply NC. vm_compute. intuition discriminate.
  - apply (lex_ok 100). vm_compute. reflexivity.
  - discriminate.
  - apply NC. vm_compute. intuition discriminate.
  - eapply overrides_more; [|constructor]. apply (override_style _ _ "i1"). now left.
  - reflexivity.
Qed.
(** Wherever the tags are, they style all of the text of the line, also that in front of them. *)
Theorem C70_as_is : forall s from to row toks bodies text text' r, file_cues s [mkCue from to [row]] -> ~ contains u2028 row ->
  lexed row toks -> mixed toks bodies text -> without_rtl text text' -> text' <> [] -> overrides (cue_look from to) bodies r ->
  subrip_reader_string s = Ok [with_text text' r].
Proof. exact tags_anywhere. Qed.
Print Assumptions C70_as_is.
Example C70_as_is_case : exists row toks bodies text text' r, let s := join [lf] [lit "1"; lit "0:0:1,0 --> 0:0:2,5"; row] in
  let from := mkT 1 0 (Some (mkR 1000 1)) in let to := mkT 2 5 (Some (mkR 1000 1)) in
  file_cues s [mkCue from to [row]] /\ ~ contains u2028 row /\ lexed row toks /\ mixed toks bodies text /\ without_rtl text text' /\
  text' = lit "abcd" /\ overrides (cue_look from to) bodies r /\ r_italic r = true.
Proof.
  exists (lit "ab{" ++ [bslash] ++ lit "i1}cd"), [TChar "a"; TChar "b"; TSsa (lit "i1"); TChar "c"; TChar "d"], [lit "i1"], (lit "abcd"), (lit "abcd"),
    (with_italic true (cue_look (mkT 1 0 (Some (mkR 1000 1))) (mkT 2 5 (Some (mkR 1000 1))))).
  assert (NC : forall l p, ~ In (ascii_of_nat 226) l -> ~ contains (ascii_of_nat 226 :: p) l).
  { intros l p N (x & y & E). apply N. rewrite E, in_app_iff. right. now left. }
  cbv zeta. split; [|split; [|split; [|split; [|split; [|split; [|split]]]]]].
  - eexists _, _. split; [apply lines_of_string_iff; vm_compute; reflexivity|]. split; [apply cleaned_map; vm_compute; reflexivity|].
    apply (cues_cue (lit "1") (lit "0:0:1,0 --> 0:0:2,5") _ _ [lit "ab{" ++ [bslash] ++ lit "i1}cd"] [] []); try discriminate; try (now left); try constructor; try discriminate; try constructor.
    exists (lit "0:0:1,0"), (lit "-->"), (lit "0:0:2,5"), []. split; [apply fields_iff; vm_compute; reflexivity|]. split; [now left|]. split; apply subrip_time_ok; vm_compute; reflexivity.
  - apply NC. vm_compute. intuition discriminate.
  - apply (lex_ok 100). vm_compute. reflexivity.
  - repeat constructor.
  - exists [lit "abcd"]. split; [|reflexivity]. split; [discriminate|]. split; [reflexivity|]. constructor; [|constructor]. apply NC. vm_compute. intuition discriminate.
  - reflexivity.
  - eapply overrides_more; [|constructor]. apply (override_style _ _ "i1"). now left.
  - reflexivity.
Qed.
