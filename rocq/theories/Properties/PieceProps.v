(** The pieces of text that readers give. *)
From Coq Require Import ZArith Lia Reals List Bool Ascii String.
From Verif.Model Require Import Base Float TimeModel Types Lines Ssa Subrip WebVtt StlText StlBinReader.
From Verif.Spec Require StlFileSpec.
From Verif.Spec Require Import Outcome TextSpec LinesSpec Utf8Spec StlSamples Iso6937Spec SsaTagSpec PositionSpec PieceSpec ColourRangeSpec.
From Verif.Proofs Require Import PieceProofs PieceUtf8Proofs ColourRangeProofs FileUseProofs.
From Verif.Properties Require Import CollectReadProps.
Import ListNotations.
Local Open Scope Z_scope.

(** C107.  Readers of text files do not invent text: what they give is what is left of the file when some of its characters are
    taken away. *)
Theorem C107_subrip : forall s raws, subrip_reader_string s = Ok raws -> taken_from s (texts raws).
Proof. exact subrip_taken. Qed.
Print Assumptions C107_subrip.
Theorem C107_webvtt : forall s raws, vtt_reader_string s = Ok raws -> taken_from s (texts raws).
Proof. exact vtt_taken. Qed.
Print Assumptions C107_webvtt.
Theorem C107_ssa : forall s raws, ssa_reader_string s = Ok raws -> taken_from s (texts raws).
Proof. exact ssa_taken. Qed.
Print Assumptions C107_ssa.
Theorem C107_text_stl : forall s raws, stl_text_read true s = Ok raws -> taken_from s (texts raws).
Proof. exact stl_text_taken. Qed.
Print Assumptions C107_text_stl.
(** And from files, which are read a buffer at a time. *)
Theorem C107_subrip_file : forall s raws, subrip_reader_file s = Ok raws -> taken_from s (texts raws).
Proof. exact subrip_file_taken. Qed.
Print Assumptions C107_subrip_file.
Theorem C107_webvtt_file : forall s raws, vtt_reader_file s = Ok raws -> taken_from s (texts raws).
Proof. exact vtt_file_taken. Qed.
Print Assumptions C107_webvtt_file.
Theorem C107_ssa_file : forall s raws, ssa_reader_file s = Ok raws -> taken_from s (texts raws).
Proof. exact ssa_file_taken. Qed.
Print Assumptions C107_ssa_file.
Example C107_case :
  (exists raws, subrip_reader_string srt_sample = Ok raws /\ texts raws = lit "a bc") /\ (exists raws, vtt_reader_string vtt_sample = Ok raws /\ texts raws = lit "ac") /\
  (exists raws, ssa_reader_string ssa_sample = Ok raws /\ texts raws = lit "abc") /\ (exists raws, stl_text_read true text_stl_sample = Ok raws /\ texts raws = lit "abc").
Proof. split; [|split; [|split]]; (eexists; split; [vm_compute; reflexivity|reflexivity]). Qed.

(** C108.  Every piece has some text, which is on one line. *)
Theorem C108_subrip : forall s raws, subrip_reader_string s = Ok raws -> Forall some_text raws /\ Forall one_line raws.
Proof. intros s raws E. split; [exact (subrip_some_text s raws E)|exact (subrip_one_line s raws E)]. Qed.
Print Assumptions C108_subrip.
Theorem C108_ssa : forall s raws, ssa_reader_string s = Ok raws -> Forall some_text raws /\ Forall one_line raws.
Proof. intros s raws E. split; [exact (ssa_some_text s raws E)|exact (ssa_one_line s raws E)]. Qed.
Print Assumptions C108_ssa.
Theorem C108_text_stl : forall s raws, stl_text_read true s = Ok raws -> Forall some_text raws /\ Forall one_line raws.
Proof. intros s raws E. split; [exact (stl_text_some_text s raws E)|exact (stl_text_one_line s raws E)]. Qed.
Print Assumptions C108_text_stl.
Theorem C108_subrip_file : forall s raws, subrip_reader_file s = Ok raws -> Forall some_text raws /\ Forall one_line raws.
Proof. exact subrip_file_pieces. Qed.
Print Assumptions C108_subrip_file.
Theorem C108_ssa_file : forall s raws, ssa_reader_file s = Ok raws -> Forall some_text raws /\ Forall one_line raws.
Proof. exact ssa_file_pieces. Qed.
Print Assumptions C108_ssa_file.
Theorem C108_webvtt_lines : forall s raws, vtt_reader_string s = Ok raws -> Forall one_line raws.
Proof. exact vtt_one_line. Qed.
Print Assumptions C108_webvtt_lines.
(** If there are no LINE SEPARATORs in the file: one at the end of a line makes a piece without text. *)
Theorem C108_webvtt_partial : forall s raws, ~ contains u2028 s -> vtt_reader_string s = Ok raws -> Forall some_text raws.
Proof. exact vtt_some_text. Qed.
Print Assumptions C108_webvtt_partial.
Example C108_case : ~ contains u2028 vtt_sample.
Proof. intros (a & b & E). pose proof (f_equal (fun s => existsb (fun c => Ascii.eqb c (ascii_of_nat 226)) s) E) as F. cbv beta in F. rewrite !existsb_app in F. cbn [existsb u2028 map] in F.
  rewrite Ascii.eqb_refl in F. cbn [orb] in F. rewrite Bool.orb_true_r in F. vm_compute in F. discriminate. Qed.
Theorem C108_webvtt_refuted : exists s raws, vtt_reader_string s = Ok raws /\ ~ Forall some_text raws.
Proof.
  exists (join [lf] [lit "WEBVTT"; []; lit "00:00:01.000 --> 00:00:02.500"; lit "a" ++ u2028]). eexists. split; [vm_compute; reflexivity|].
  intros F. inversion F as [|? ? _ F']. inversion F' as [|? ? N _]. now apply N.
Qed.
Print Assumptions C108_webvtt_refuted.

(** In a binary STL file a control code that starts a row makes one. *)
Theorem C108_binary_stl_refuted : exists input g subs, snd (stl_binary_read input (after [])) = Ok (g, subs) /\ ~ Forall some_text subs.
Proof.
  exists (sample_header "00001" "23" ++ sample_block 3 0 [1; 82; 101; 100]). do 2 eexists. split; [vm_compute; reflexivity|].
  intros F. inversion F as [|? ? N _]. now apply N.
Qed.
Print Assumptions C108_binary_stl_refuted.
(** A byte 10 in the text of a block (bytes 16 to 127) is kept as a line feed: only without one is every piece on one line. *)
Theorem C108_binary_stl_lines_partial : forall h input g subs,
  (forall n text, StlFileSpec.bytes_at input (1040 + 128 * n) 112 text -> ~ In lf text) ->
  snd (stl_binary_read input (after h)) = Ok (g, subs) -> Forall one_line subs.
Proof. exact binary_one_line. Qed.
Print Assumptions C108_binary_stl_lines_partial.
Example C108_binary_stl_lines_case : exists input g subs,
  (forall n text, StlFileSpec.bytes_at input (1040 + 128 * n) 112 text -> ~ In lf text) /\
  snd (stl_binary_read input (after [])) = Ok (g, subs) /\ map r_text subs = [lit "Hi"].
Proof.
  exists (sample_header "00001" "23" ++ sample_block 3 0 [72; 105]). do 2 eexists. split; [|split; vm_compute; reflexivity].
  intros n text (p & q & E & LP & LT) I. destruct n as [|n].
  - assert (T : text = firstn 112 (skipn 1040 (sample_header "00001" "23" ++ sample_block 3 0 [72; 105]))).
    { rewrite E, skipn_app, skipn_all2 by lia. cbn [app]. replace (1040 - List.length p)%nat with 0%nat by lia. cbn [skipn]. rewrite firstn_app, firstn_all2, LT, Nat.sub_diag by lia. cbn [firstn]. now rewrite app_nil_r. }
    assert (K : existsb (Ascii.eqb lf) text = true) by (apply existsb_exists; exists lf; split; [exact I|apply Ascii.eqb_refl]).
    rewrite T in K. vm_compute in K. discriminate K.
  - apply (f_equal (@List.length ascii)) in E. rewrite !app_length, LP, LT in E. change (List.length (sample_header "00001" "23")) with 1024%nat in E.
    change (List.length (sample_block 3 0 [72; 105])) with 128%nat in E. lia.
Qed.
Theorem C108_binary_stl_lines_refuted : exists input g subs, snd (stl_binary_read input (after [])) = Ok (g, subs) /\ ~ Forall one_line subs.
Proof.
  exists (sample_header "00001" "23" ++ sample_block 3 0 [72; 10; 73]). do 2 eexists. split; [vm_compute; reflexivity|].
  intros F. inversion F as [|? ? N _]. apply N. right. now left.
Qed.
Print Assumptions C108_binary_stl_lines_refuted.

(** C109.  If a file is in UTF-8, so is every piece. *)
Theorem C109_subrip : forall s raws, valid s -> subrip_reader_string s = Ok raws -> Forall valid_text raws.
Proof. exact subrip_valid. Qed.
Print Assumptions C109_subrip.
Theorem C109_webvtt : forall s raws, valid s -> vtt_reader_string s = Ok raws -> Forall valid_text raws.
Proof. exact vtt_valid. Qed.
Print Assumptions C109_webvtt.
(** Binary STL files are in another encoding; their texts are always in UTF-8. *)
Theorem C109_binary_stl : forall h input g subs, snd (stl_binary_read input (after h)) = Ok (g, subs) -> Forall valid_text subs.
Proof. exact binary_valid. Qed.
Print Assumptions C109_binary_stl.
(** In the others a backslash or a caret takes away the byte after it, which should be all of a character. *)
Theorem C109_ssa_partial : forall s raws, ascii_after bslash s -> valid s -> ssa_reader_string s = Ok raws -> Forall valid_text raws.
Proof. exact ssa_valid. Qed.
Print Assumptions C109_ssa_partial.
Theorem C109_text_stl_partial : forall s raws, ascii_after "^"%char s -> valid s -> stl_text_read true s = Ok raws -> Forall valid_text raws.
Proof. exact stl_text_valid. Qed.
Print Assumptions C109_text_stl_partial.
Definition accented_srt : str := join [lf] [lit "1"; lit "00:00:01,000 --> 00:00:02,500"; lit "caf" ++ e_acute].
Definition accented_ssa (escape : string) : str := join [lf] [lit "[Events]"; lit "Format: Start, End, Text"; lit "Dialogue: 0:00:01.00,0:00:02.50,a" ++ lit escape ++ e_acute].
Definition accented_stl (escape : string) : str := (lit "00:00:01:00 ,00:00:02:12,a" ++ lit escape ++ e_acute) ++ [lf].
Lemma accented_valid p q : ascii_check p = true -> ascii_check q = true -> valid (p ++ e_acute ++ q).
Proof. intros P Q. apply valid_app; [now apply valid_ascii|]. apply valid_app; [exact e_acute_valid|now apply valid_ascii]. Qed.
Example C109_case :
  (valid accented_srt /\ exists raws, subrip_reader_string accented_srt = Ok raws /\ texts raws = lit "caf" ++ e_acute) /\
  (valid (accented_ssa "\N") /\ ascii_after bslash (accented_ssa "\N") /\ exists raws, ssa_reader_string (accented_ssa "\N") = Ok raws /\ texts raws = lit "a" ++ e_acute) /\
  (valid (accented_stl "^I") /\ ascii_after "^"%char (accented_stl "^I") /\ exists raws, stl_text_read true (accented_stl "^I") = Ok raws /\ texts raws = lit "a" ++ e_acute).
Proof.
  split; [|split].
  - split; [|eexists; split; [vm_compute; reflexivity|vm_compute; reflexivity]]. apply (accented_valid (join [lf] [lit "1"; lit "00:00:01,000 --> 00:00:02,500"; lit "caf"]) []); reflexivity.
  - split; [|split; [apply ascii_after_checked; reflexivity|eexists; split; [vm_compute; reflexivity|vm_compute; reflexivity]]].
    apply (accented_valid (join [lf] [lit "[Events]"; lit "Format: Start, End, Text"; lit "Dialogue: 0:00:01.00,0:00:02.50,a\N"]) []); reflexivity.
  - split; [|split; [apply ascii_after_checked; reflexivity|eexists; split; [vm_compute; reflexivity|vm_compute; reflexivity]]].
    apply (accented_valid (lit "00:00:01:00 ,00:00:02:12,a^I") [lf]); reflexivity.
Qed.
(** Half of a character is taken away. *)
Theorem C109_ssa_refuted : exists s raws, valid s /\ ssa_reader_string s = Ok raws /\ ~ Forall valid_text raws.
Proof.
  exists (join [lf] [lit "[Events]"; lit "Format: Start, End, Text"; lit "Dialogue: 0:00:01.00,0:00:02.50," ++ lit "\" ++ e_acute]). eexists.
  split; [apply (accented_valid (join [lf] [lit "[Events]"; lit "Format: Start, End, Text"; lit "Dialogue: 0:00:01.00,0:00:02.50,\"]) []); reflexivity|]. split; [vm_compute; reflexivity|].
  intros F. inversion F as [|? ? V _]. apply stray_invalid in V; [exact V|]. split; vm_compute; discriminate.
Qed.
Print Assumptions C109_ssa_refuted.
Theorem C109_text_stl_refuted : exists s raws, valid s /\ stl_text_read true s = Ok raws /\ ~ Forall valid_text raws.
Proof.
  exists (lit "00:00:01:00 ,00:00:02:12,^" ++ e_acute ++ [lf]). eexists. split; [apply accented_valid; reflexivity|]. split; [vm_compute; reflexivity|].
  intros F. inversion F as [|? ? V _]. apply stray_invalid in V; [exact V|]. split; vm_compute; discriminate.
Qed.
Print Assumptions C109_text_stl_refuted.
(** A buffer ends in the middle of a character. *)
Theorem C109_subrip_file_refuted : exists s raws, valid s /\ subrip_reader_file s = Ok raws /\ ~ Forall valid_text raws.
Proof.
  exists ((join [lf] [lit "1"; lit "00:00:01,000 --> 00:00:02,500"; repeat "x"%char 254]) ++ e_acute ++ []). eexists. split; [apply accented_valid; vm_compute; reflexivity|]. split; [vm_compute; reflexivity|].
  intros F. inversion F as [|? ? V _]. revert V. apply (half_invalid (repeat "x"%char 254)). reflexivity.
Qed.
Print Assumptions C109_subrip_file_refuted.

(** C110.  The parts of the colours that readers give are from 0 to 1. *)
Theorem C110_webvtt : forall s raws, vtt_reader_string s = Ok raws -> Forall colours_ok raws.
Proof. exact vtt_colours. Qed.
Print Assumptions C110_webvtt.
Theorem C110_webvtt_file : forall s raws, vtt_reader_file s = Ok raws -> Forall colours_ok raws.
Proof. exact vtt_file_colours. Qed.
Print Assumptions C110_webvtt_file.
Theorem C110_text_stl : forall s raws, stl_text_read true s = Ok raws -> Forall colours_ok raws.
Proof. exact stl_text_colours. Qed.
Print Assumptions C110_text_stl.
Theorem C110_binary_stl : forall h input g subs, snd (stl_binary_read input (after h)) = Ok (g, subs) -> Forall colours_ok subs.
Proof. exact binary_colours. Qed.
Print Assumptions C110_binary_stl.
(** For SubRip: unless numbers are given in decimal, which may be larger than 255. *)
Theorem C110_subrip_partial : forall s raws, ~ contains (lit "rgba(") s -> subrip_reader_string s = Ok raws -> Forall colours_ok raws.
Proof. exact subrip_colours. Qed.
Print Assumptions C110_subrip_partial.
(** In any SubRip file, other colours are those with a number outside 0 to 255 in a font tag of the file; that number is
    divided by 255. *)
Theorem C110_subrip_as_is : forall s raws, subrip_reader_string s = Ok raws -> Forall (colours_as_said s) raws.
Proof. exact subrip_said. Qed.
Print Assumptions C110_subrip_as_is.
(** For SSA: if every style is given a colour. *)
Theorem C110_ssa_partial : forall s raws, styles_coloured s -> ssa_reader_string s = Ok raws -> Forall colours_ok raws.
Proof. exact ssa_colours. Qed.
Print Assumptions C110_ssa_partial.
(** In any SSA file, the only other colour is that of styles to which none is given: 255 in all parts. *)
Theorem C110_ssa_as_is : forall s raws, ssa_reader_string s = Ok raws -> Forall colours_almost_ok raws.
Proof. exact ssa_almost. Qed.
Print Assumptions C110_ssa_as_is.
Theorem C110_ssa_file_as_is : forall s raws, ssa_reader_file s = Ok raws -> Forall colours_almost_ok raws.
Proof. exact ssa_file_almost. Qed.
Print Assumptions C110_ssa_file_as_is.
Definition red_srt : str := join [lf] [lit "1"; lit "00:00:01,000 --> 00:00:02,500"; lit "<font color=#ff0000>a</font>"].
Definition styled_ssa (keys values : string) : str :=
  join [lf] [lit "[V4+ Styles]"; lit "Format: " ++ lit keys; lit "Style: " ++ lit values; lit "[Events]"; lit "Format: Start, End, Style, Text"; lit "Dialogue: 0:00:01.00,0:00:02.50,S,a"].
Example C110_case : (~ contains (lit "rgba(") red_srt /\ exists r, subrip_reader_string red_srt = Ok [r] /\ float_value (c_r (r_colour r)) 1 /\ float_value (c_g (r_colour r)) 0) /\
  styles_coloured (styled_ssa "Name, PrimaryColour" "S, &H0000ff") /\
  exists r, ssa_reader_string (styled_ssa "Name, PrimaryColour" "S, &H0000ff") = Ok [r] /\ float_value (c_r (r_colour r)) 1 /\ float_value (c_g (r_colour r)) 0.
Proof.
  assert (ONE : float_value (f_of_int 1) 1) by exact value_1. assert (ZERO : float_value (f_of_int 0) 0) by exact value_0.
  split; [|split].
  - split; [|eexists; split; [vm_compute; reflexivity|split; [exact ONE|exact ZERO]]].
    intros (a & b & E). pose proof (f_equal (fun s => existsb (fun c => Ascii.eqb c "("%char) s) E) as F. cbv beta in F. rewrite !existsb_app in F. change (existsb (fun c => Ascii.eqb c "("%char) (lit "rgba(")) with true in F.
    rewrite Bool.orb_true_r in F. vm_compute in F. discriminate.
  - apply coloured_check_ok. vm_compute. reflexivity.
  - eexists. split; [vm_compute; reflexivity|]. split; [exact ONE|exact ZERO].
Qed.
Theorem C110_ssa_refuted : exists s r, ssa_reader_string s = Ok [r] /\ ~ in_range (r_colour r).
Proof.
  exists (styled_ssa "Name, Fontsize" "S, 30"). eexists. split; [vm_compute; reflexivity|]. intros (P & _). exact (big_part P).
Qed.
Print Assumptions C110_ssa_refuted.
Theorem C110_subrip_refuted : exists s r, subrip_reader_string s = Ok [r] /\ ~ in_range (r_colour r).
Proof.
  exists (join [lf] [lit "1"; lit "00:00:01,000 --> 00:00:02,500"; lit "<font color=" ++ ascii_of_nat 34 :: lit "rgba(65025, 0, 0, 1)" ++ ascii_of_nat 34 :: lit ">a</font>"]). eexists. split; [vm_compute; reflexivity|].
  intros (P & _). exact (big_part P).
Qed.
Print Assumptions C110_subrip_refuted.
