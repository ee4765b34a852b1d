(** C123: the times of one subtitle can be changed.  Statements only; proofs are in theories/Proofs. *)
From Coq Require Import ZArith List Bool Ascii String.
From Verif.Model Require Import Base Strings TimeModel Types Lines Subrip WebVtt Ssa StlText StlBinReader.
From Verif.Spec Require Import Outcome TextSpec LinesSpec RawSpec WebVttSpec SsaSpec StlTextSpec Iso6937Spec StlFileSpec StlSamples TextFileSpec JoinSpec CommentSpec TakeOutSpec RetimeSpec.
From Verif.Proofs Require Import LinesProofs SsaTextProofs SsaProofs WebVttProofs StlTextProofs StlReadProofs RetimeProofs RetimeStlProofs.
Import ListNotations.
Local Open Scope Z_scope.
Local Notation length := List.length.

(** C123.  SubRip. *)
Theorem C123_subrip : forall a counter l l' text b f t f' t', a = [] \/ ends_blank a -> text_line counter ->
  times_line ","%char l f t -> times_line ","%char l' f' t' -> Forall text_line text ->
  retimes subrip_reader_string a (cue_with [counter] l text) (cue_with [counter] l' text) b f t f' t'.
Proof. exact subrip_retimes. Qed.
Print Assumptions C123_subrip.
Definition at_ms (s ms : Z) : time := mkT s ms (Some (mkR 1000 1)).
Definition srt (l : string) : str := cue_with [lit "1"] (lit l) [lit "Hello <i>world"; lit "again"].
Definition srt_before : str := cue_with [lit "1"] (lit "00:00:00,100 --> 00:00:00,200") [lit "First"].
Example C123_subrip_case :
  (ends_blank srt_before /\ text_line (lit "1") /\ times_line ","%char (lit "00:00:01,000 --> 00:00:02,500") (at_ms 1 0) (at_ms 2 500) /\
   times_line ","%char (lit "00:01:03,004 --> 00:01:04,000") (at_ms 63 4) (at_ms 64 0) /\ Forall text_line [lit "Hello <i>world"; lit "again"]) /\
  exists w x y z, subrip_reader_string (srt_before ++ srt "00:00:01,000 --> 00:00:02,500") = Ok [w; x; y; z] /\
    subrip_reader_string (srt_before ++ srt "00:01:03,004 --> 00:01:04,000") = Ok ([w] ++ map (with_times (at_ms 63 4) (at_ms 64 0)) [x; y; z]).
Proof.
  split.
  - split; [apply cue_blank|]. split; [apply text_of; [intros I; cbn in I; intuition discriminate|vm_compute; discriminate]|].
    split; [apply times_comma; [intros I; cbn in I; intuition discriminate|vm_compute; reflexivity]|].
    split; [apply times_comma; [intros I; cbn in I; intuition discriminate|vm_compute; reflexivity]|].
    repeat constructor; (apply text_of; [intros I; cbn in I; intuition discriminate|vm_compute; discriminate]).
  - do 4 eexists. split; vm_compute; reflexivity.
Qed.

(** WebVTT. *)
Theorem C123_webvtt : forall a head l l' text b f t f' t', ends_blank a -> Forall other_line head ->
  arrow_line l f t -> arrow_line l' f' t' -> Forall text_line text ->
  retimes vtt_reader_string a (cue_with head l text) (cue_with head l' text) b f t f' t'.
Proof. exact vtt_retimes. Qed.
Print Assumptions C123_webvtt.
Definition vtt_before : str := join [lf] [lit "WEBVTT"; []; []].
Definition vtt (l : string) : str := cue_with [lit "cue"] (lit l) [lit "Hello"; lit "again"].
Example C123_webvtt_case :
  (ends_blank vtt_before /\ Forall other_line [lit "cue"] /\ arrow_line (lit "00:00:01.000 --> 00:00:02.500") (at_ms 1 0) (at_ms 2 500) /\
   arrow_line (lit "00:01:03.004 --> 00:01:04.000") (at_ms 63 4) (at_ms 64 0) /\ Forall text_line [lit "Hello"; lit "again"]) /\
  exists x y z t, vtt_reader_string (vtt_before ++ vtt "00:00:01.000 --> 00:00:02.500" ++ vtt "00:00:01.000 --> 00:00:02.500") = Ok [x; y; z; t] /\
    vtt_reader_string (vtt_before ++ vtt "00:01:03.004 --> 00:01:04.000" ++ vtt "00:00:01.000 --> 00:00:02.500") = Ok (map (with_times (at_ms 63 4) (at_ms 64 0)) [x; y] ++ [z; t]).
Proof.
  split.
  - split; [exists (lit "WEBVTT"); now left|]. split.
    { constructor; [|constructor]. split; [intros I; cbn in I; intuition discriminate|]. exists (lit "cue"). split; [apply clean_line_iff; vm_compute; reflexivity|].
      split; [intros (r & E); discriminate E|]. intros (u & v & E). assert (I : In "-"%char (lit "cue")) by (rewrite E; apply in_or_app; right; now left). cbn in I. intuition discriminate. }
    split; [|split]; [apply arrow_dot..|].
    1, 5: intros I; cbn in I; intuition discriminate.
    1, 4: intros (r & E); discriminate E.
    1, 3: eexists (_ :: _ :: _ :: _ :: _ :: _ :: _ :: _ :: _ :: _ :: _ :: _ :: _ :: []), _; reflexivity.
    1, 2: vm_compute; reflexivity.
    repeat constructor; (apply text_of; [intros I; cbn in I; intuition discriminate|vm_compute; discriminate]).
  - do 4 eexists. split; vm_compute; reflexivity.
Qed.

(** SSA: the text comes last and after the times. *)
Theorem C123_ssa : forall ks vs vs' text a c c' b f t f' t', events_so_far (ks ++ [lit "Text"]) a -> In (lit "Start") ks -> In (lit "End") ks ->
  values_other_times f t f' t' ks vs vs' -> dialogue_with (vs ++ [text]) c -> dialogue_with (vs' ++ [text]) c' ->
  retimes ssa_reader_string a c c' b f t f' t'.
Proof. exact ssa_retimes. Qed.
Print Assumptions C123_ssa.
Definition ssa_before : str := lit "[Events]" ++ [lf] ++ lit "Format: Start, End, Style, Text" ++ [lf].
Definition ssa (times : string) : str := (lit "Dialogue: " ++ lit times ++ lit ",S,{\i1}Hello, {\b1}you") ++ [lf].
Example C123_ssa_case :
  (events_so_far ([lit "Start"; lit "End"; lit "Style"] ++ [lit "Text"]) ssa_before /\
   values_other_times (at_ms 1 0) (at_ms 2 500) (at_ms 63 40) (at_ms 64 0) [lit "Start"; lit "End"; lit "Style"]
     [lit "0:00:01.00"; lit "0:00:02.50"; lit "S"] [lit "0:01:03.04"; lit "0:01:04.00"; lit "S"] /\
   dialogue_with ([lit "0:00:01.00"; lit "0:00:02.50"; lit "S"] ++ [lit "{\i1}Hello, {\b1}you"]) (ssa "0:00:01.00,0:00:02.50")) /\
  exists x y z t, ssa_reader_string (ssa_before ++ ssa "0:00:01.00,0:00:02.50" ++ ssa "0:00:01.00,0:00:02.50") = Ok [x; y; z; t] /\
    ssa_reader_string (ssa_before ++ ssa "0:01:03.04,0:01:04.00" ++ ssa "0:00:01.00,0:00:02.50") = Ok (map (with_times (at_ms 63 40) (at_ms 64 0)) [x; y] ++ [z; t]).
Proof.
  split; [split; [|split]|].
  - exists [], (lit "Format: Start, End, Style, Text"), (lit "Format: Start, End, Style, Text"), (lit "Start, End, Style, Text"), [lit "Start"; lit " End"; lit " Style"; lit " Text"], [].
    split; [reflexivity|]. split; [now left|]. split; [intros I; cbn in I; intuition discriminate|].
    split; [eexists; split; [apply trim_iff; vm_compute; reflexivity|]; right; split; [intros (r & E); discriminate E|reflexivity]|].
    split; [exists (lit " Start, End, Style, Text"); split; [reflexivity|]; split; [intros I; cbn in I; intuition discriminate|apply trim_iff; vm_compute; reflexivity]|].
    split; [|split; [repeat constructor; apply trim_iff; vm_compute; reflexivity|exists []; split; [split; [constructor|reflexivity]|constructor]]].
    apply parts_iff. vm_compute. reflexivity.
  - repeat constructor.
    + eapply other_start; [apply trim_iff; vm_compute; reflexivity|apply trim_iff; vm_compute; reflexivity|apply parse_time_iff; vm_compute; reflexivity|apply parse_time_iff; vm_compute; reflexivity].
    + eapply other_end; [apply trim_iff; vm_compute; reflexivity|apply trim_iff; vm_compute; reflexivity|apply parse_time_iff; vm_compute; reflexivity|apply parse_time_iff; vm_compute; reflexivity].
    + intros I. cbn in I. intuition discriminate.
  - exists (lit "Dialogue: 0:00:01.00,0:00:02.50,S,{\i1}Hello, {\b1}you"). eexists. split; [reflexivity|]. split; [intros I; cbn in I; intuition discriminate|].
    split; [apply trim_iff; vm_compute; reflexivity|]. eexists. split; [apply trim_iff; vm_compute; reflexivity|]. split; [reflexivity|]. split; [reflexivity|].
    repeat constructor; intros I; cbn in I; intuition discriminate.
  - do 4 eexists. split; vm_compute; reflexivity.
Qed.

(** Text STL. *)
Theorem C123_text_stl : forall good a l l' text b f t f' t', whole_lines a -> stl_subtitle l text f t -> stl_subtitle l' text f' t' ->
  retimes (stl_text_read good) a (l ++ [lf]) (l' ++ [lf]) b f t f' t'.
Proof. exact stl_retimes. Qed.
Print Assumptions C123_text_stl.
Definition stl_before : str := lit "$Bold = True" ++ [lf].
Definition stl (times : string) : str := lit times ++ lit ",^IHello|you".
Example C123_text_stl_case :
  (whole_lines stl_before /\ stl_subtitle (stl "00:00:01:00 , 00:00:02:10 ") (lit "^IHello|you") (mkT 1 0 None) (mkT 2 10 None) /\
   stl_subtitle (stl "00:01:03:04 ,00:01:04:00") (lit "^IHello|you") (mkT 63 4 None) (mkT 64 0 None)) /\
  exists x y z t, stl_text_read true (stl_before ++ (stl "00:00:01:00 , 00:00:02:10 " ++ [lf]) ++ (stl "00:00:01:00 , 00:00:02:10 " ++ [lf])) = Ok [x; y; z; t] /\
    stl_text_read true (stl_before ++ (stl "00:01:03:04 ,00:01:04:00" ++ [lf]) ++ (stl "00:00:01:00 , 00:00:02:10 " ++ [lf])) =
      Ok (map (with_times (mkT 63 4 None) (mkT 64 0 None)) [x; y] ++ [z; t]).
Proof.
  split; [split; [right; now exists (lit "$Bold = True")|split]|].
  - apply (stl_subtitle_of _ (lit "00:00:01:00") " "%char (lit " 00:00:02:10 ")); try (vm_compute; reflexivity); try discriminate;
      try (intros I; cbn in I; intuition discriminate); intros (r & E); discriminate E.
  - apply (stl_subtitle_of _ (lit "00:01:03:04") " "%char (lit "00:01:04:00")); try (vm_compute; reflexivity); try discriminate;
      try (intros I; cbn in I; intuition discriminate); intros (r & E); discriminate E.
  - do 4 eexists. split; vm_compute; reflexivity.
Qed.

(** Binary STL: a block with other timecodes.  [k]: by how many rows the subtitles of the file move up (see C30). *)
Theorem C123_binary_stl : forall h h' head g before b b' rest f t f' t' subs,
  header_read head g -> Forall tti_size before -> tti_size b -> other_timecodes b b' -> Z.of_nat (length before) < tti_blocks g ->
  timecode_at b 5 (frame_rate g) f -> timecode_at b 9 (frame_rate g) t -> timecode_at b' 5 (frame_rate g) f' -> timecode_at b' 9 (frame_rate g) t' ->
  snd (stl_binary_read (head ++ List.concat before ++ b ++ rest) (after h)) = Ok (g, subs) ->
  exists ra rc rb pc last k, subs = ra ++ rc ++ rb /\ block_read g b pc last /\ Forall2 (moved_up k) pc rc /\ Forall (lasts f t) rc /\
    snd (stl_binary_read (head ++ List.concat before ++ b' ++ rest) (after h')) = Ok (g, ra ++ map (with_times f' t') rc ++ rb).
Proof. exact stl_block_retimed. Qed.
Print Assumptions C123_binary_stl.
Definition block_at (times : list Z) : str :=
  map byte [0; 1; 0; 255; 0] ++ map byte times ++ map byte ([3; 2; 0] ++ sample_text ++ repeat 0x8F 103).
Example C123_binary_stl_case : exists g, header_read (sample_header "00002" "23") g /\ tti_size (block_at [0; 0; 1; 0; 0; 0; 2; 10]) /\
  other_timecodes (block_at [0; 0; 1; 0; 0; 0; 2; 10]) (block_at [0; 1; 3; 4; 0; 1; 4; 0]) /\ 1 < tti_blocks g /\
  timecode_at (block_at [0; 0; 1; 0; 0; 0; 2; 10]) 5 (frame_rate g) (mkT 1 0 (Some (mkR 25 1))) /\ timecode_at (block_at [0; 0; 1; 0; 0; 0; 2; 10]) 9 (frame_rate g) (mkT 2 10 (Some (mkR 25 1))) /\
  exists x y z u v, snd (stl_binary_read (sample_header "00002" "23" ++ sample_block 9 0 [97] ++ block_at [0; 0; 1; 0; 0; 0; 2; 10]) (after [])) = Ok (g, [x; y; z; u; v]) /\
    snd (stl_binary_read (sample_header "00002" "23" ++ sample_block 9 0 [97] ++ block_at [0; 1; 3; 4; 0; 1; 4; 0]) (after [])) =
      Ok (g, [x] ++ map (with_times (mkT 63 4 (Some (mkR 25 1))) (mkT 64 0 (Some (mkR 25 1)))) [y; z; u; v]).
Proof.
  eexists. split; [apply header_iff; [reflexivity|vm_compute; reflexivity]|]. split; [reflexivity|].
  split; [eexists _, _, _, _; split; [reflexivity|]; split; [reflexivity|]; repeat split|]. split; [reflexivity|].
  split; [apply tc_iff; [vm_compute; repeat constructor|vm_compute; reflexivity]|]. split; [apply tc_iff; [vm_compute; repeat constructor|vm_compute; reflexivity]|].
  do 5 eexists. split; vm_compute; reflexivity.
Qed.
