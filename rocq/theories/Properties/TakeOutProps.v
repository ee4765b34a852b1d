(** C122: a subtitle can be taken out, put in or moved.  Statements only; proofs are in theories/Proofs. *)
From Coq Require Import ZArith List Bool Ascii String.
From Verif.Model Require Import Base Strings TimeModel Types Lines Subrip WebVtt Ssa StlText StlBinReader.
From Verif.Spec Require Import Outcome TextSpec LinesSpec WebVttSpec SsaSpec Iso6937Spec StlFileSpec StlSamples TextFileSpec JoinSpec CommentSpec TakeOutSpec.
From Verif.Proofs Require Import SsaTextProofs StlReadProofs TakeOutProofs TakeOutStlProofs.
Import ListNotations.
Local Open Scope Z_scope.
Local Notation length := List.length.

(** C122.  SubRip. *)
Theorem C122_subrip : forall a c b, a = [] \/ ends_blank a -> ends_blank c -> removable subrip_reader_string a c b.
Proof. exact subrip_removable. Qed.
Print Assumptions C122_subrip.
Theorem C122_subrip_file : forall a c b, a = [] \/ ends_blank a -> ends_blank c -> removable subrip_reader_file a c b.
Proof. exact subrip_file_removable. Qed.
Print Assumptions C122_subrip_file.
Theorem C122_subrip_moved : forall a c d b, a = [] \/ ends_blank a -> ends_blank c -> ends_blank d -> movable subrip_reader_string a c d b.
Proof. exact subrip_movable. Qed.
Print Assumptions C122_subrip_moved.
Theorem C122_subrip_file_moved : forall a c d b, a = [] \/ ends_blank a -> ends_blank c -> ends_blank d -> movable subrip_reader_file a c d b.
Proof. exact subrip_file_movable. Qed.
Print Assumptions C122_subrip_file_moved.
Definition srt_cue (counter text : string) : str := join [lf] [lit counter; lit "00:00:01,000 --> 00:00:02,500"; lit text; []; []].
Example C122_subrip_case : ends_blank (srt_cue "1" "Hello <i>world") /\ exists x y z t,
  subrip_reader_string (srt_cue "1" "Hello <i>world" ++ srt_cue "2" "again" ++ srt_cue "3" "and again") = Ok [x; y; z; t] /\
  subrip_reader_string (srt_cue "1" "Hello <i>world" ++ srt_cue "3" "and again" ++ srt_cue "2" "again") = Ok [x; y; t; z] /\
  subrip_reader_string (srt_cue "1" "Hello <i>world" ++ srt_cue "3" "and again") = Ok [x; y; t].
Proof.
  split; [exists (join [lf] [lit "1"; lit "00:00:01,000 --> 00:00:02,500"; lit "Hello <i>world"]); now left|].
  do 4 eexists. split; [vm_compute; reflexivity|]. split; vm_compute; reflexivity.
Qed.

(** WebVTT. *)
Theorem C122_webvtt : forall a c b, ends_blank a -> ends_blank c -> removable vtt_reader_string a c b.
Proof. exact vtt_removable. Qed.
Print Assumptions C122_webvtt.
Theorem C122_webvtt_file : forall a c b, ends_blank a -> ends_blank c -> removable vtt_reader_file a c b.
Proof. exact vtt_file_removable. Qed.
Print Assumptions C122_webvtt_file.
Theorem C122_webvtt_moved : forall a c d b, ends_blank a -> ends_blank c -> ends_blank d -> movable vtt_reader_string a c d b.
Proof. exact vtt_movable. Qed.
Print Assumptions C122_webvtt_moved.
Theorem C122_webvtt_file_moved : forall a c d b, ends_blank a -> ends_blank c -> ends_blank d -> movable vtt_reader_file a c d b.
Proof. exact vtt_file_movable. Qed.
Print Assumptions C122_webvtt_file_moved.
Definition vtt_head : str := join [lf] [lit "WEBVTT"; []; []].
Definition vtt_cue (text : string) : str := join [lf] [lit "00:00:01.000 --> 00:00:02.500"; lit text; []; []].
Example C122_webvtt_case : ends_blank vtt_head /\ ends_blank (vtt_cue "Hello") /\ exists x y,
  vtt_reader_string (vtt_head ++ vtt_cue "Hello" ++ vtt_cue "you") = Ok [x; y] /\
  vtt_reader_string (vtt_head ++ vtt_cue "you" ++ vtt_cue "Hello") = Ok [y; x] /\ vtt_reader_string (vtt_head ++ vtt_cue "you") = Ok [y].
Proof.
  split; [exists (lit "WEBVTT"); now left|]. split; [exists (join [lf] [lit "00:00:01.000 --> 00:00:02.500"; lit "Hello"]); now left|].
  do 2 eexists. split; [vm_compute; reflexivity|]. split; vm_compute; reflexivity.
Qed.

(** SSA. *)
Theorem C122_ssa : forall a c b, whole_lines a -> dialogues c -> removable ssa_reader_string a c b.
Proof. exact ssa_removable. Qed.
Print Assumptions C122_ssa.
Theorem C122_ssa_moved : forall a c d b, whole_lines a -> dialogues c -> dialogues d -> movable ssa_reader_string a c d b.
Proof. exact ssa_movable. Qed.
Print Assumptions C122_ssa_moved.
Definition ssa_head : str := join [lf] [lit "[Events]"; lit "Format: Start, End, Style, Text"; []].
Definition ssa_dialogue (text : string) : str := lit "Dialogue: 0:00:01.00,0:00:02.50,S," ++ lit text ++ [lf].
Example C122_ssa_case : whole_lines ssa_head /\ dialogues (ssa_dialogue "{\i1}Hello") /\ exists x y,
  ssa_reader_string (ssa_head ++ ssa_dialogue "{\i1}Hello" ++ ssa_dialogue "you") = Ok [x; y] /\
  ssa_reader_string (ssa_head ++ ssa_dialogue "you" ++ ssa_dialogue "{\i1}Hello") = Ok [y; x] /\
  ssa_reader_string (ssa_head ++ ssa_dialogue "you") = Ok [y].
Proof.
  split; [right; now exists (join [lf] [lit "[Events]"; lit "Format: Start, End, Style, Text"])|]. split.
  - exists [lit "Dialogue: 0:00:01.00,0:00:02.50,S,{\i1}Hello"].
    split; [split; [|reflexivity]; repeat constructor; intros I; cbn in I; intuition discriminate|].
    constructor; [|constructor]. eexists. split; [apply trim_iff; vm_compute; reflexivity|]. now exists (lit " 0:00:01.00,0:00:02.50,S,{\i1}Hello").
  - do 2 eexists. split; [vm_compute; reflexivity|]. split; vm_compute; reflexivity.
Qed.

(** Text STL: lines that set nothing, after lines that leave no row open. *)
Theorem C122_text_stl_partial : forall good a c b, closed_stl_lines a -> plain_stl_lines c -> removable (stl_text_read good) a c b.
Proof. exact stl_text_removable. Qed.
Print Assumptions C122_text_stl_partial.
Theorem C122_text_stl_moved_partial : forall good a c d b, closed_stl_lines a -> plain_stl_lines c -> plain_stl_lines d ->
  movable (stl_text_read good) a c d b.
Proof. exact stl_text_movable. Qed.
Print Assumptions C122_text_stl_moved_partial.
Definition stl_head : str := lit "$Bold = True" ++ [lf].
Definition stl_line (text : string) : str := lit "00:00:01:00 , 00:00:02:00 ," ++ lit text ++ [lf].
Example C122_text_stl_case : closed_stl_lines (stl_head ++ stl_line "^I1") /\ plain_stl_lines (stl_line "Hello|you") /\ exists x y z t,
  stl_text_read true ((stl_head ++ stl_line "^I1") ++ stl_line "Hello|you" ++ stl_line "again") = Ok [x; y; z; t] /\
  stl_text_read true ((stl_head ++ stl_line "^I1") ++ stl_line "again" ++ stl_line "Hello|you") = Ok [x; t; y; z] /\
  stl_text_read true ((stl_head ++ stl_line "^I1") ++ stl_line "again") = Ok [x; t].
Proof.
  split; [|split].
  - exists [lit "$Bold = True"; lit "00:00:01:00 , 00:00:02:00 ,^I1"]. split; [split; [|reflexivity]; repeat constructor; intros I; cbn in I; intuition discriminate|].
    repeat constructor; intros I; cbn in I; intuition discriminate.
  - exists [lit "00:00:01:00 , 00:00:02:00 ,Hello|you"]. split; [split; [|reflexivity]; repeat constructor; intros I; cbn in I; intuition discriminate|].
    constructor; [|constructor]. split; [intros I; cbn in I; intuition discriminate|]. split; [intros I; cbn in I; intuition discriminate|].
    intros (t & T). apply trim_iff in T. change (trim _) with (lit "00:00:01:00 , 00:00:02:00 ,Hello|yo" ++ ["u"%char]) in T. apply app_inj_tail in T. destruct T. discriminate.
  - do 4 eexists. split; [vm_compute; reflexivity|]. split; vm_compute; reflexivity.
Qed.
(** A style that is not turned off, or a row that is left open, is for the next subtitles too. *)
Theorem C122_text_stl_refuted : exists a c c' b, closed_stl_lines a /\ whole_lines c /\ whole_lines c' /\
  ~ removable (stl_text_read true) a c b /\ ~ removable (stl_text_read true) a c' b.
Proof.
  exists stl_head, (stl_line "^IHello"), (stl_line "Hello|"), (stl_line "again").
  split; [exists [lit "$Bold = True"]; split; [split; [|reflexivity]|]; repeat constructor; intros I; cbn in I; intuition discriminate|].
  split; [right; exists (lit "00:00:01:00 , 00:00:02:00 ,^IHello"); reflexivity|].
  split; [right; exists (lit "00:00:01:00 , 00:00:02:00 ,Hello|"); reflexivity|].
  split; intros H; edestruct H as [G _]; clear H; destruct G as (ra & rc & rb & A & C & B & E);
    [vm_compute; reflexivity| |vm_compute; reflexivity|]; vm_compute in A; injection A as <-; vm_compute in C, B; injection C as <-; injection B as <-; discriminate E.
Qed.
Print Assumptions C122_text_stl_refuted.

(** Binary STL: blocks can always change places.  [k]: by how many rows the subtitles of the file move up (see C30). *)
Theorem C122_binary_stl_moved : forall h h' head g before c d rest subs,
  header_read head g -> Forall tti_size before -> Forall tti_size c -> Forall tti_size d ->
  Z.of_nat (length before + length c + length d) <= tti_blocks g ->
  snd (stl_binary_read (head ++ List.concat before ++ List.concat c ++ List.concat d ++ rest) (after h)) = Ok (g, subs) ->
  exists ra rc rd rb pc pd k, subs = ra ++ rc ++ rd ++ rb /\
    blocks_read g c pc /\ Forall2 (moved_up k) pc rc /\ blocks_read g d pd /\ Forall2 (moved_up k) pd rd /\
    snd (stl_binary_read (head ++ List.concat before ++ List.concat d ++ List.concat c ++ rest) (after h')) = Ok (g, ra ++ rd ++ rc ++ rb).
Proof. exact stl_moved. Qed.
Print Assumptions C122_binary_stl_moved.
(** Blocks can be taken out, with another number of blocks in the header, and the others stay as they are, if all rows fit. *)
Theorem C122_binary_stl_partial : forall h h' head head' g g' before mid rest subs raws top,
  header_read head g -> header_read head' g' -> same_reading g g' -> Forall tti_size before -> Forall tti_size mid ->
  Z.of_nat (length before) <= tti_blocks g' -> tti_blocks g = tti_blocks g' + Z.of_nat (length mid) ->
  stl_contents (head ++ List.concat before ++ List.concat mid ++ rest) g raws top -> top <= maximum_rows g ->
  snd (stl_binary_read (head ++ List.concat before ++ List.concat mid ++ rest) (after h)) = Ok (g, subs) ->
  exists ra rc rb, subs = ra ++ rc ++ rb /\ blocks_read g before ra /\ blocks_read g mid rc /\
    snd (stl_binary_read (head' ++ List.concat before ++ rest) (after h')) = Ok (g', ra ++ rb).
Proof. exact stl_taken_out_fits. Qed.
Print Assumptions C122_binary_stl_partial.
(** If they do not, the others can move down. *)
Theorem C122_binary_stl_as_is : forall h h' head head' g g' before mid rest subs,
  header_read head g -> header_read head' g' -> same_reading g g' -> Forall tti_size before -> Forall tti_size mid ->
  Z.of_nat (length before) <= tti_blocks g' -> tti_blocks g = tti_blocks g' + Z.of_nat (length mid) ->
  snd (stl_binary_read (head ++ List.concat before ++ List.concat mid ++ rest) (after h)) = Ok (g, subs) ->
  exists pa pc pb d d' subs',
    blocks_read g before pa /\ blocks_read g mid pc /\ 0 <= d' <= d /\ Forall2 (moved_up d) (pa ++ pc ++ pb) subs /\
    snd (stl_binary_read (head' ++ List.concat before ++ rest) (after h')) = Ok (g', subs') /\ Forall2 (moved_up d') (pa ++ pb) subs'.
Proof. exact stl_taken_out. Qed.
Print Assumptions C122_binary_stl_as_is.
Definition stl_one : str := sample_block 3 0 sample_text.
Definition stl_two : str := sample_block 9 0 [97].
Definition count_1 : str := sample_header "00001" "23".
Definition count_2 : str := sample_header "00002" "23".
Example C122_binary_stl_case : exists g g', header_read count_2 g /\ header_read count_1 g' /\ same_reading g g' /\
  Forall tti_size [stl_one] /\ Forall tti_size [stl_two] /\ Z.of_nat (length [stl_one]) <= tti_blocks g' /\ tti_blocks g = tti_blocks g' + Z.of_nat (length [stl_two]) /\
  exists raws, stl_contents (count_2 ++ List.concat [stl_one] ++ List.concat [stl_two] ++ []) g raws 9 /\ 9 <= maximum_rows g.
Proof.
  do 2 eexists. split; [apply header_iff; [reflexivity|vm_compute; reflexivity]|]. split; [apply header_iff; [reflexivity|vm_compute; reflexivity]|].
  split; [split; reflexivity|]. split; [repeat constructor|]. split; [repeat constructor|]. split; [vm_compute; discriminate|]. split; [reflexivity|].
  eexists. split; [|vm_compute; discriminate]. exists count_2, [stl_one; stl_two], []. eexists [_; _], [Some 4; Some 9].
  split; [reflexivity|]. split; [apply header_iff; [reflexivity|vm_compute; reflexivity]|]. split; [reflexivity|].
  split; [constructor; [apply block_iff; [reflexivity|vm_compute; reflexivity]|constructor; [apply block_iff; [reflexivity|vm_compute; reflexivity]|constructor]]|].
  split; [reflexivity|]. split; [reflexivity|]. split; [right; right; now left|]. split; [discriminate|].
  intros r [[= <-]|[[= <-]|[]]]; discriminate.
Qed.
(** The block that is taken out is too low: the other one moves back down. *)
Theorem C122_binary_stl_refuted : exists head head' g g' block low r r' x, header_read head g /\ header_read head' g' /\ same_reading g g' /\
  tti_blocks g = tti_blocks g' + 1 /\
  snd (stl_binary_read (head ++ block ++ low) (after [])) = Ok (g, [r; x]) /\ snd (stl_binary_read (head' ++ block) (after [])) = Ok (g', [r']) /\
  on_row r (-1) /\ on_row r' 1.
Proof.
  exists (sample_header "00002" "05"), (sample_header "00001" "05"). do 2 eexists. exists (sample_block 1 0 [98]), (sample_block 7 0 [97]). do 3 eexists.
  split; [apply header_iff; [reflexivity|vm_compute; reflexivity]|]. split; [apply header_iff; [reflexivity|vm_compute; reflexivity]|].
  split; [split; reflexivity|]. split; [reflexivity|]. split; [vm_compute; reflexivity|]. split; [vm_compute; reflexivity|]. split; reflexivity.
Qed.
Print Assumptions C122_binary_stl_refuted.
