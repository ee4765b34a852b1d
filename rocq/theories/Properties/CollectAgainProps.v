(** C127, and more of C12: collecting again.  Statements only; proofs are in theories/Proofs. *)
From Coq Require Import ZArith Ascii String List Bool.
From Coq.Floats Require Import SpecFloat.
From Verif.Model Require Import Base Strings Float TimeModel Types Collect Ssa Subrip WebVtt StlText StlBinReader.
From Verif.Spec Require Import Outcome TextSpec LinesSpec TimeSpec Iso6937Spec SortSpec CollectSpec SubripUseSpec SsaUseSpec StlSamples CollectReadSpec CollectAgainSpec.
From Verif.Proofs Require Import SortProofs CollectProofs SubripUseProofs WebVttUseProofs SsaSafeProofs CollectReadProofs CollectAgainProofs ReadAgainProofs.
Import ListNotations.
Local Open Scope Z_scope.

(** C12.  There is only one grouping of a list. *)
Theorem C12_one_grouping : forall l subs groups subs' groups', grouping l subs groups -> grouping l subs' groups' -> subs = subs' /\ groups = groups'.
Proof. exact grouping_unique. Qed.
Print Assumptions C12_one_grouping.
Example C12_one_grouping_case : exists subs groups, grouping [piece 4 6 (Some 1) (lit "b"); piece 4 6 (Some 1) (lit "c"); piece 5 6 (Some 2) (lit "d")] subs groups.
Proof. eexists. apply collect_groups. vm_compute. reflexivity. Qed.

(** C127.  Collected subtitles stay as they are when they are taken apart and collected again, if no piece on a numbered
    line has NaN as its proportion. *)
Theorem C127_again_partial : forall sort sort' l subs, conforming sort -> conforming sort' -> all_comparable l -> (forall r, In r l -> position_ok (r_vpos r)) ->
  collect sort l = Ok subs -> collect sort' (pieces_of subs) = Ok subs.
Proof. exact collect_again. Qed.
Print Assumptions C127_again_partial.
Definition scattered : list raw :=
  [piece 4 6 (Some 1) (lit "b"); piece 1 2 None (lit "a"); piece 4 6 (Some 1) (lit "c"); piece 4 6 (Some 2) (lit "d"); piece 4 7 (Some 2) (lit "e"); piece 4 6 (Some 2) (lit "f")].
Example C127_case : conforming insertion_sort /\ all_comparable scattered /\ (forall r, In r scattered -> position_ok (r_vpos r)) /\
  exists subs, collect insertion_sort scattered = Ok subs /\ List.length subs = 4%nat /\ pieces_of subs <> scattered.
Proof.
  split; [exact insertion_sort_conforming|]. split; [apply comparable_check; vm_compute; reflexivity|]. split.
  - intros r I. cbn in I. right. repeat (destruct I as [<-|I]; [discriminate|]). destruct I.
  - eexists. split; [vm_compute; reflexivity|]. split; [reflexivity|]. vm_compute. discriminate.
Qed.
(** A line that also has NaN as its proportion is not equal to itself. *)
Theorem C127_nan_refuted : exists l subs subs', all_comparable l /\ collect insertion_sort l = Ok subs /\ collect insertion_sort (pieces_of subs) = Ok subs' /\ subs' <> subs.
Proof.
  exists [set_vpos (mkV (Some S754_nan) (Some 1) (Some 23) (Some TOP_OF_SCREEN)) (piece 4 6 None (lit "a")); set_vpos (mkV None (Some 1) (Some 23) (Some TOP_OF_SCREEN)) (piece 4 6 None (lit "b"))].
  do 2 eexists. split; [apply comparable_check; vm_compute; reflexivity|]. split; [vm_compute; reflexivity|]. split; [vm_compute; reflexivity|]. vm_compute. discriminate.
Qed.
Print Assumptions C127_nan_refuted.

(** What is read from WebVTT, SSA and STL files has no such pieces. *)
Theorem C127_binary_stl : forall h input g subs, snd (stl_binary_read input (after h)) = Ok (g, subs) -> stays_collected subs.
Proof. exact binary_stays. Qed.
Print Assumptions C127_binary_stl.
Theorem C127_text_stl : forall s raws, stl_text_read true s = Ok raws -> stays_collected raws.
Proof. exact text_stl_stays. Qed.
Print Assumptions C127_text_stl.
(** As in C103, numbers have to be short or their times cannot be compared. *)
Theorem C127_webvtt_partial : forall s raws, short_numbers s -> vtt_reader_string s = Ok raws -> stays_collected raws.
Proof. exact vtt_stays. Qed.
Print Assumptions C127_webvtt_partial.
Theorem C127_ssa_partial : forall s raws, moderate_numbers s -> formats_timed s -> ssa_reader_string s = Ok raws -> stays_collected raws.
Proof. exact ssa_stays. Qed.
Print Assumptions C127_ssa_partial.
Theorem C127_subrip_partial : forall s raws, short_numbers s -> subrip_reader_string s = Ok raws ->
  (forall r, In r raws -> v_prop (r_vpos r) <> Some S754_nan) -> stays_collected raws.
Proof. exact subrip_stays. Qed.
Print Assumptions C127_subrip_partial.
Definition srt_together : str :=
  join [lf] [lit "1"; lit "00:00:03,000 --> 00:00:04,000"; lit "a <i>b</i>"; lit "c"; []; lit "2"; lit "00:00:01,000 --> 00:00:02,000"; lit "d"; []; lit "3"; lit "00:00:03,000 --> 00:00:04,000"; lit "e"].
Definition vtt_together : str :=
  join [lf] [lit "WEBVTT"; []; lit "00:00:03.000 --> 00:00:04.000"; lit "a"; lit "b"; []; lit "00:00:01.000 --> 00:00:02.000"; lit "c"; []; lit "00:00:03.000 --> 00:00:04.000"; lit "d"].
Definition ssa_together : str :=
  join [lf] [lit "[Events]"; lit "Format: Start, End, Text"; lit "Dialogue: 0:00:01.00,0:00:02.50,a{\i1}b\Nc"; lit "Dialogue: 0:00:00.50,0:00:00.90,d"; lit "Dialogue: 0:00:01.00,0:00:02.50,e"].
Definition stl_together : str := join [lf] [lit "00:00:03:00 , 00:00:04:00 , a|^Ib"; lit "00:00:01:00 , 00:00:02:00 , c"; lit "00:00:03:00 , 00:00:04:00 , d"; []].
Definition sizes (r : res (list raw)) : option (nat * nat) :=
  match r with Ok raws => match collect insertion_sort raws with Ok subs => Some (List.length raws, List.length subs) | _ => None end | _ => None end.
Example C127_files_case :
  short_numbers srt_together /\ sizes (subrip_reader_string srt_together) = Some (5, 2)%nat /\
  (forall raws, subrip_reader_string srt_together = Ok raws -> forall r, In r raws -> v_prop (r_vpos r) <> Some S754_nan) /\
  short_numbers vtt_together /\ sizes (vtt_reader_string vtt_together) = Some (4, 2)%nat /\
  moderate_numbers ssa_together /\ sizes (ssa_reader_string ssa_together) = Some (5, 2)%nat /\
  sizes (stl_text_read true stl_together) = Some (4, 2)%nat.
Proof.
  split; [apply short_check_ok; vm_compute; reflexivity|]. split; [vm_compute; reflexivity|].
  split; [vm_compute; intros raws E; injection E as <-; intros r I; repeat (destruct I as [<-|I]; [discriminate|]); destruct I|].
  split; [apply short_check_ok; vm_compute; reflexivity|]. split; [vm_compute; reflexivity|].
  split; [apply moderate_check_ok; vm_compute; reflexivity|]. split; vm_compute; reflexivity.
Qed.
(** A SubRip file with pieces that come apart. *)
Definition srt_nan : str :=
  join [lf] [lit "1"; lit "00:00:01,000 --> 00:00:02,000"; lit "{\pos(1,nan)}a"; []; lit "2"; lit "00:00:01,000 --> 00:00:02,000"; lit "{\an8}b"].
Theorem C127_subrip_refuted : exists s raws, short_numbers s /\ subrip_reader_string s = Ok raws /\ ~ stays_collected raws.
Proof.
  exists srt_nan. eexists. split; [apply short_check_ok; vm_compute; reflexivity|]. split; [vm_compute; reflexivity|].
  intros S. specialize (S insertion_sort insertion_sort _ insertion_sort_conforming insertion_sort_conforming eq_refl).
  apply (f_equal (fun r => match r with Ok (s :: _) => List.length (s_lines s) | _ => 0%nat end)) in S. vm_compute in S. discriminate.
Qed.
Print Assumptions C127_subrip_refuted.
