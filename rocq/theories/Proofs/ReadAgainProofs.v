(** Collecting again what was collected from a file. *)
From Coq Require Import ZArith Lia List Bool Ascii String.
From Coq.Floats Require Import SpecFloat.
From Verif.Model Require Import Base Strings Float TimeModel Types Collect Ssa Subrip WebVtt StlText StlBinReader.
From Verif.Spec Require Import Outcome TextSpec LinesSpec SortSpec CollectSpec Iso6937Spec RawSpec StopSpec SubripUseSpec SsaUseSpec SsaTagSpec SsaSpec CollectReadSpec ConvertSpec CollectAgainSpec.
From Verif.Proofs Require Import SortProofs CollectProofs CollectReadProofs ConvertProofs CollectAgainProofs.
Import ListNotations.
Local Open Scope Z_scope.

Lemma stays_by raws : all_comparable raws -> Forall (fun r => position_ok (r_vpos r)) raws -> stays_collected raws.
Proof. intros C P sort sort' subs S S' E. apply (collect_again sort sort' raws subs); try assumption. now apply Forall_forall. Qed.
Lemma unplaced_ok r : unplaced r -> position_ok (r_vpos r).
Proof. intros U. right. unfold unplaced in U. rewrite U. discriminate. Qed.

Theorem binary_stays h input g subs : snd (stl_binary_read input (after h)) = Ok (g, subs) -> stays_collected subs.
Proof.
  intros E. apply stays_by; [now apply (binary_comparable h input g)|]. destruct (all_from_file h input g subs E) as (A & _). revert A. apply Forall_impl.
  intros r (_ & (row & V) & _). right. rewrite V. discriminate.
Qed.
Theorem vtt_stays s raws : short_numbers s -> vtt_reader_string s = Ok raws -> stays_collected raws.
Proof.
  intros S E. pose proof (vtt_loose s raws E) as L. apply stays_by; [|revert L; apply Forall_impl; intros r (_ & U); now apply unplaced_ok]. apply WebVttProofs.vtt_string_iff in E.
  apply (comparable_by (at_rate 1000 99999)); [apply at_rate_ok|apply at_rate_compares; lia|]. apply (vtt_meets _ _ _ E). intros f t. now apply cue_time_short.
Qed.
Theorem subrip_stays s raws : short_numbers s -> subrip_reader_string s = Ok raws -> (forall r, In r raws -> v_prop (r_vpos r) <> Some S754_nan) -> stays_collected raws.
Proof.
  intros S E N. apply stays_by; [|apply Forall_forall; intros r I; right; now apply N]. apply SubripProofs.subrip_string_iff in E.
  apply (comparable_by (at_rate 1000 99999)); [apply at_rate_ok|apply at_rate_compares; lia|]. apply (subrip_meets _ _ _ E). intros f t. now apply cue_time_short.
Qed.
Theorem text_stl_stays s raws : stl_text_read true s = Ok raws -> stays_collected raws.
Proof.
  intros E. apply stays_by.
  - apply (comparable_by no_rate); [|intros x y A B|now apply (stl_text_unrated s)].
    + intros x A r X. unfold no_rate in A. congruence.
    + unfold time_lt, time_eq, no_rate in *. rewrite A, B. destruct (negb _); split; eexists; reflexivity.
  - apply StlTextProofs.text_stl_iff in E. destruct E as (ls & r & _ & L). apply text_lines_loose in L; [|split; [split; [discriminate|reflexivity]|reflexivity]].
    revert L. apply Forall_impl. intros x (_ & U). now apply unplaced_ok.
Qed.

(** The pieces of SSA files are not on numbered lines. *)
Definition unlined (r : raw) : Prop := v_line (r_vpos r) = None.
Lemma override_unlined c r t r' : override c r t r' -> unlined r -> unlined r'.
Proof.
  intros O U. destruct O as [s f I| | | | | |]; try exact U. cbn [In style_tags] in I. repeat destruct I as [I|I]; [injection I as <- <-; exact U..|contradiction].
Qed.
Lemma with_piece_unlined text r : unlined r -> Forall unlined (with_piece text r).
Proof. intros U. unfold with_piece. destruct text; [constructor|]. constructor; [exact U|constructor]. Qed.
Lemma cut_unlined c z r tx its ps : cut_up c z r tx its ps -> unlined r -> Forall unlined ps.
Proof.
  induction 1 as [r text|r text x its ps C IH|r text t r1 its ps O C IH|r text r1 its ps B C IH]; intros U.
  - now apply with_piece_unlined.
  - now apply IH.
  - apply Forall_app. split; [now apply with_piece_unlined|]. apply IH. now apply (override_unlined _ _ _ _ O).
  - apply Forall_app. split; [now apply with_piece_unlined|]. apply IH. destruct B as (ref & p & _ & _ & ->). exact U.
Qed.
Lemma text_unlined c base s raws : text_subtitles c base s raws -> unlined base -> Forall unlined raws.
Proof.
  intros (its & r & n & ps & _ & (x & _ & ->) & _ & C & F) U. apply cut_unlined in C; [|exact U]. refine (forall2_r _ _ _ _ _ _ C F).
  intros a b A (ref & p & _ & _ & ->). exact A.
Qed.
Lemma event_unlined f ev key v ev' : event_entry f ev key v ev' -> unlined (ev_sub ev) -> Forall unlined (ev_out ev) -> unlined (ev_sub ev') /\ Forall unlined (ev_out ev').
Proof.
  intros E U F. destruct E as [| | | | | | | | | |r st l rt out x raws T|]; try (split; [exact U|exact F]).
  split; [exact U|]. apply Forall_app. split; [exact F|]. exact (text_unlined _ _ _ _ T U).
Qed.
Lemma events_unlined f kvs ev ev' : in_turn (event_step f) ev kvs ev' -> unlined (ev_sub ev) -> Forall unlined (ev_out ev) -> Forall unlined (ev_out ev').
Proof.
  induction 1 as [|ev kv ev1 kvs ev2 (v & _ & E) H IH]; intros U F; [exact F|]. destruct (event_unlined _ _ _ _ _ E U F) as [U' F']. now apply IH.
Qed.
Lemma ssa_lines_unlined ls f f' : in_turn ssa_line_read f ls f' -> Forall unlined (sr_subs f) -> Forall unlined (sr_subs f').
Proof.
  induction 1 as [|f line f1 ls f2 R H IH]; intros F; [exact F|]. apply IH.
  destruct R as [f0 line0 _|f0 line0 s _|f0 line0 h p _ _|f0 line0 s _ _|f0 line0 l key body f1 B _ K E]; try exact F.
  destruct E as [x y ss sf ef subs body v _|x y ss sf ef subs body v _|x y ss sf ef subs body|x y ss sf ef subs body st _ _|x y ss sf ef subs body parts keys _ _|x y ss sf ef subs body raws D|f body key _]; try exact F.
  cbn [sr_subs] in *. apply Forall_app. split; [exact F|]. destruct D as (_ & vs & ev & _ & T & ->). apply (events_unlined _ _ _ _ T); [reflexivity|constructor].
Qed.
Theorem ssa_stays s raws : moderate_numbers s -> formats_timed s -> ssa_reader_string s = Ok raws -> stays_collected raws.
Proof.
  intros MN FT E. apply stays_by.
  - apply (comparable_by (at_rate 1000 999990)); [apply at_rate_ok|apply at_rate_compares; lia|]. now apply (ssa_short s).
  - apply SsaProofs.ssa_string_iff in E. destruct E as (ls & f & _ & T & ->). apply ssa_lines_unlined in T; [|constructor]. revert T. apply Forall_impl. intros r U. now left.
Qed.
