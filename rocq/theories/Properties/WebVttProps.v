(** C43-C45, C72-C75: reading WebVTT files.  Statements only; proofs are in theories/Proofs. *)
From Coq Require Import ZArith Lia List Bool Ascii String.
From Verif.Model Require Import Base TimeModel Types Subrip WebVtt.
From Verif.Spec Require Import Outcome TextSpec LinesSpec RawSpec SubripSpec StopSpec SubripUseSpec WebVttSpec.
From Verif.Proofs Require Import LinesProofs SubripStopProofs SubripUseProofs WebVttProofs WebVttUseProofs.
Import ListNotations.
Local Open Scope Z_scope.
Local Notation length := List.length.

(** C75.  What is read is exactly what the format says: the subtitles, the exceptions, and undefined behaviour. *)
Theorem C75_reads_the_file : forall s raws, vtt_reader_string s = Ok raws <-> vtt_file s raws.
Proof. exact vtt_string_iff. Qed.
Print Assumptions C75_reads_the_file.
Theorem C75_exceptions : forall s e, vtt_reader_string s = Throw e <-> exists ls, text_lines s ls /\ vtt_stops ls (Throw e).
Proof. exact vtt_string_throws. Qed.
Print Assumptions C75_exceptions.
Theorem C75_undefined : forall s u, vtt_reader_string s = Undef u <-> exists ls, text_lines s ls /\ vtt_stops ls (Undef u).
Proof. exact vtt_string_undefined. Qed.
Print Assumptions C75_undefined.
Example C75_case : exists a b, vtt_file (join [lf] [lit "WEBVTT"; []; lit "NOTE x"; lit "a --> b"; []; lit "1"; lit "00:00:01.000 --> 00:00:02.500"; lit "Hello"; lit "world"; []]) [a; b] /\
  r_text a = lit "Hello" /\ v_line (r_vpos a) = Some 0 /\ r_text b = lit "world" /\ v_line (r_vpos b) = Some 1.
Proof. eexists _, _. split; [apply vtt_string_iff; vm_compute; reflexivity|]. now repeat split. Qed.
Example C75_exception_case : exists e ls, text_lines (join [lf] [lit "WEBVTT"; lit "1 --> 2"]) ls /\ vtt_stops ls (Throw e).
Proof. eexists. apply vtt_string_throws. vm_compute. reflexivity. Qed.
Example C75_undefined_case : exists u ls, text_lines (join [lf] [lit "WEBVTT"; lit "600000:00:01.000 --> 00:00:02.500"]) ls /\ vtt_stops ls (Undef u).
Proof. eexists. apply vtt_string_undefined. vm_compute. reflexivity. Qed.

(** C43.  Cues come back from a file with identifiers and comments between them. *)
Theorem C43_rendered_files : forall cs s, vtt_text cs s -> vtt_reader_string s = Ok (List.concat (map plain_cue cs)).
Proof. exact rendered_file. Qed.
Print Assumptions C43_rendered_files.
Example C43_case : exists a b, vtt_text [mkCue a b [lit "Hi"]]
  (bom ++ lit "WEBVTT" ++ [lf] ++ (lit "NOTE" ++ [lf] ++ (lit "7 --> 8" ++ [lf]) ++ [lf] ++ lit "id" ++ [cr; lf] ++ lit "00:00:01.000" ++ lit " --> " ++ lit "01:00:02.500" ++ [lf] ++ (lit "Hi" ++ [lf]) ++ [lf])).
Proof.
  exists (mkT 1 0 (Some (mkR 1000 1))), (mkT 3602 500 (Some (mkR 1000 1))).
  assert (U : forall l c, ~ In lf (l ++ [c]) -> c <> cr -> ~ In (ascii_of_nat 239) (l ++ [c]) -> unchanged (l ++ [c])).
  { intros l c N1 N2 N3. split; [exact N1|]. split; [|intros (r & E); apply N3; rewrite E; now left].
    intros (x & y & E & [->| ->]); apply app_inj_tail in E; destruct E as [-> ->]; [apply N1; rewrite in_app_iff; right; now left|congruence]. }
  exists bom, [], [lf]. eexists. split; [reflexivity|]. split; [now right|]. split; [apply (U (lit "WEBVT") "T"%char); cbn; intuition discriminate|]. split; [now left|].
  change ((lit "7 --> 8" ++ [lf]) ++ [lf] ++ ?x) with (List.concat (map (fun l => l ++ [lf]) [lit "7 --> 8"]) ++ [lf] ++ x).
  apply (body_note (lit "NOTE") [lit "7 --> 8"] [lf] [lf] [lf]); try (now left).
  - apply (U (lit "NOT") "E"%char); cbn; intuition discriminate.
  - now exists [].
  - constructor; [|constructor]. split; [discriminate|]. apply (U (lit "7 --> ") "8"%char); cbn; intuition discriminate.
  - apply (body_remark (lit "id") [cr; lf]); [|now right|].
    + split; [apply (U (lit "i") "d"%char); cbn; intuition discriminate|]. split; [intros (r & E); discriminate|]. intros (x & y & E). destruct x as [|x0 [|x1 [|x2 x]]]; discriminate.
    + change ((lit "Hi" ++ [lf]) ++ [lf]) with (List.concat (map (fun l => l ++ [lf]) [lit "Hi"]) ++ [lf] ++ []).
      apply (body_cue _ _ (lit "00:00:01.000") (lit "01:00:02.500") [lit "Hi"] [lf] [lf] [lf]); try (now left); try (apply (convert_time_ok "."%char sep_dot dot_colon); vm_compute; reflexivity); [|constructor].
      constructor; [|constructor]. split; [discriminate|]. split; [apply (U (lit "H") "i"%char); cbn; intuition discriminate|].
      intros (x & y & E). destruct x as [|x0 [|x1 [|x2 x]]]; discriminate.
Qed.

(** C44.  The header error is for files whose first line does not begin with WEBVTT, and only for them. *)
Theorem C44_header : forall s, vtt_reader_string s = Throw EWebVttHeader <->
  exists l ls l', text_lines s (l :: ls) /\ cleaned l l' /\ ~ begins_with (lit "WEBVTT") l'.
Proof. exact header_error. Qed.
Print Assumptions C44_header.
Example C44_case : exists l ls l', text_lines (lit "webvtt") (l :: ls) /\ cleaned l l' /\ ~ begins_with (lit "WEBVTT") l'.
Proof. apply header_error. vm_compute. reflexivity. Qed.

(** C45.  The reader returns or throws one of its two exceptions, unless a time overflows. *)
Theorem C45_undefined_is_overflow : forall s u, vtt_reader_string s = Undef u -> u = UbIntOverflow /\
  exists ls l l' fs f, text_lines s ls /\ In l ls /\ cleaned l l' /\ has_arrow l' /\ fields l' fs /\ In f fs /\ time_overflows "."%char f.
Proof. exact vtt_undefined_why. Qed.
Print Assumptions C45_undefined_is_overflow.
Theorem C45_exceptions : forall s e, vtt_reader_string s = Throw e -> e = EWebVttHeader \/ exists saw why ctx, e = EWebVtt saw why ctx.
Proof. exact vtt_throws_what. Qed.
Print Assumptions C45_exceptions.
Theorem C45_short_numbers : forall s, short_numbers s -> defined (vtt_reader_string s).
Proof. exact vtt_safe. Qed.
Print Assumptions C45_short_numbers.
Example C45_undefined_case : vtt_reader_string (join [lf] [lit "WEBVTT"; lit "600000:00:01.000 --> 00:00:02.500"]) = Undef UbIntOverflow.
Proof. vm_compute. reflexivity. Qed.
Example C45_exception_case : exists saw why ctx, vtt_reader_string (join [lf] [lit "WEBVTT"; lit "1 --> 2"]) = Throw (EWebVtt saw why ctx).
Proof. eexists _, _, _. vm_compute. reflexivity. Qed.
Example C45_short_case : short_numbers (join [lf] [lit "WEBVTT"; lit "0:0:1.0 --> 99999:0:2.5"; lit "x"]).
Proof. apply short_check_ok. vm_compute. reflexivity. Qed.

(** C72.  Timing lines of the standard are read if they have hours and no settings (or four of them). *)
Theorem C72_standard_timing_partial : forall settings l from to text, standard_timing true settings l from to ->
  (length settings = 0%nat \/ length settings = 4%nat) -> is_int (t_seconds from) -> is_int (t_seconds to) -> vtt_plain text ->
  vtt_reader_string (one_cue l text) = Ok [styled_raw from to 0 plain_look text].
Proof. exact standard_read. Qed.
Print Assumptions C72_standard_timing_partial.
(** Hours are optional in the standard, but not here; and other numbers of settings are refused. *)
Theorem C72_minutes_refuted : exists l from to, standard_timing false [] l from to /\ forall raws, vtt_reader_string (one_cue l (lit "x")) <> Ok raws.
Proof.
  exists (lit "00:01.000 --> 00:02.500"), (mkT 1 0 (Some (mkR 1000 1))), (mkT 2 500 (Some (mkR 1000 1))). split; [|intros raws; vm_compute; discriminate].
  assert (N : forall s, Forall (fun c => Strings.is_digit c = true) s -> s <> [] -> numeral s (Strings.dec_val s)) by (intros s F E; now apply StringProofs.digits_numeral).
  exists (lit "00:01.000"), (lit "00:02.500"), 0%nat, 0%nat, []. split; [reflexivity|]. split; [|split; [|constructor]].
  - apply (std_short _ 0 1 0). exists (lit "00"), (lit "01"), (lit "000"). split; [reflexivity|]. split; [|split; [|split; [|lia]]]; (split; [apply N; [repeat constructor|discriminate]|reflexivity]).
  - apply (std_short _ 0 2 500). exists (lit "00"), (lit "02"), (lit "500"). split; [reflexivity|]. split; [|split; [|split; [|lia]]]; (split; [apply N; [repeat constructor|discriminate]|reflexivity]).
Qed.
Print Assumptions C72_minutes_refuted.
Theorem C72_settings_refuted : exists l from to, standard_timing true [lit "align:start"] l from to /\ forall raws, vtt_reader_string (one_cue l (lit "x")) <> Ok raws.
Proof.
  exists (lit "00:00:01.000 --> 00:00:02.500 align:start"), (mkT 1 0 (Some (mkR 1000 1))), (mkT 2 500 (Some (mkR 1000 1))). split; [|intros raws; vm_compute; discriminate].
  assert (N : forall s, Forall (fun c => Strings.is_digit c = true) s -> s <> [] -> numeral s (Strings.dec_val s)) by (intros s F E; now apply StringProofs.digits_numeral).
  exists (lit "00:00:01.000"), (lit "00:00:02.500"), 0%nat, 0%nat, (repeat space 1 ++ lit "align:start" ++ []). split; [reflexivity|]. split; [|split].
  - apply (std_hours (lit "00") (lit "00:01.000") 0 0 1 0); [apply N; [repeat constructor|discriminate]|cbn; lia|]. exists (lit "00"), (lit "01"), (lit "000"). split; [reflexivity|].
    split; [|split; [|split; [|lia]]]; (split; [apply N; [repeat constructor|discriminate]|reflexivity]).
  - apply (std_hours (lit "00") (lit "00:02.500") 0 0 2 500); [apply N; [repeat constructor|discriminate]|cbn; lia|]. exists (lit "00"), (lit "02"), (lit "500"). split; [reflexivity|].
    split; [|split; [|split; [|lia]]]; (split; [apply N; [repeat constructor|discriminate]|reflexivity]).
  - apply settings_more; [|constructor]. exists (lit "align"), (lit "start"). split; [reflexivity|]. split; [discriminate|]. split; [discriminate|]. split; [cbn; intuition discriminate|].
    split; [cbn; intuition discriminate|]. split; [|intros (r & E); discriminate]. intros (b & c & E & L). change (lit "align:start") with (lit "align:star" ++ ["t"%char]) in E.
    apply app_inj_tail in E. destruct E as [_ <-]. destruct L; discriminate.
Qed.
Print Assumptions C72_settings_refuted.
(** In general: without hours, or with another number of settings, the error of the WebVTT reader is thrown. *)
Theorem C72_as_is : forall hours settings l from to text, standard_timing hours settings l from to -> vtt_plain text ->
  (hours = false \/ length settings <> 0%nat /\ length settings <> 4%nat) ->
  exists saw why ctx, vtt_reader_string (one_cue l text) = Throw (EWebVtt saw why ctx).
Proof. exact standard_refused. Qed.
Print Assumptions C72_as_is.
Example C72_case : standard_timing true [] (lit "00:00:01.000 --> 00:00:02.500") (mkT 1 0 (Some (mkR 1000 1))) (mkT 2 500 (Some (mkR 1000 1))).
Proof.
  assert (N : forall s, Forall (fun c => Strings.is_digit c = true) s -> s <> [] -> numeral s (Strings.dec_val s)) by (intros s F E; now apply StringProofs.digits_numeral).
  exists (lit "00:00:01.000"), (lit "00:00:02.500"), 0%nat, 0%nat, []. split; [reflexivity|]. split; [|split; [|constructor]].
  - apply (std_hours (lit "00") (lit "00:01.000") 0 0 1 0); [apply N; [repeat constructor|discriminate]|cbn; lia|]. exists (lit "00"), (lit "01"), (lit "000"). split; [reflexivity|].
    split; [|split; [|split; [|lia]]]; (split; [apply N; [repeat constructor|discriminate]|reflexivity]).
  - apply (std_hours (lit "00") (lit "00:02.500") 0 0 2 500); [apply N; [repeat constructor|discriminate]|cbn; lia|]. exists (lit "00"), (lit "02"), (lit "500"). split; [reflexivity|].
    split; [|split; [|split; [|lia]]]; (split; [apply N; [repeat constructor|discriminate]|reflexivity]).
Qed.

(** C73.  A file whose lines fit the reader's buffer, without NULs, is read like the string of its content. *)
Theorem C73_file_like_string_partial : forall s, short_lines s -> same_outcome (vtt_reader_file s) (vtt_reader_string s).
Proof. exact vtt_file_same. Qed.
Print Assumptions C73_file_like_string_partial.
(** A longer line becomes two. *)
Theorem C73_file_like_string_refuted : exists s, ~ same_outcome (vtt_reader_file s) (vtt_reader_string s).
Proof.
  exists (join [lf] [lit "WEBVTT"; lit "00:00:01.000 --> 00:00:02.500"; repeat "x"%char 260]). intros H. remember (vtt_reader_file _) as a eqn:A. remember (vtt_reader_string _) as b eqn:B.
  assert (LA : match a with Ok l => length l = 2%nat | _ => False end) by (subst a; vm_compute; reflexivity).
  assert (LB : match b with Ok l => length l = 1%nat | _ => False end) by (subst b; vm_compute; reflexivity).
  clear A B. destruct H; try contradiction. rewrite LA in LB. discriminate.
Qed.
Print Assumptions C73_file_like_string_refuted.
Example C73_case : short_lines (join [lf] [lit "WEBVTT"; lit "00:00:01.000 --> 00:00:02.500"; repeat "x"%char 250]).
Proof.
  split; [intros I|].
  - assert (C : existsb (Ascii.eqb nul) (join [lf] [lit "WEBVTT"; lit "00:00:01.000 --> 00:00:02.500"; repeat "x"%char 250]) = true) by (apply existsb_exists; exists nul; split; [exact I|now rewrite Ascii.eqb_refl]).
    revert C. vm_compute. discriminate.
  - eexists. split; [apply lines_of_string_iff; vm_compute; reflexivity|]. repeat constructor; cbn; lia.
Qed.

(** C74.  An error has text that is in the offending line, and lines around it. *)
Theorem C74_error_place : forall s saw why context, vtt_reader_string s = Throw (EWebVtt saw why context) -> vtt_error_points s saw context.
Proof. exact vtt_error_place. Qed.
Print Assumptions C74_error_place.
Example C74_case : vtt_reader_string (join [lf] [lit "WEBVTT"; []; lit "1 --> 2 x"; lit "a"; lit "b"; lit "c"]) =
  Throw (EWebVtt (lit "1 --> 2 x") (lit "a time line") [lit "WEBVTT"; []; lit "1 --> 2 x"; lit "a"; lit "b"]).
Proof. vm_compute. reflexivity. Qed.
