(** The lines of collected subtitles by where they are on the screen. *)
From Coq Require Import List Permutation.
From Verif.Model Require Import Base TimeModel Types Collect.
From Verif.Spec Require Import Outcome TimeSpec SortSpec PositionSpec CollectSpec CollectPlaceSpec.
From Verif.Proofs Require Import PositionProofs SortProofs CollectProofs.
Import ListNotations.

Lemma neighbours_place (ls : list (list raw)) : (forall r, In r (concat ls) -> finite_proportion (r_vpos r)) ->
  neighbours_differ (fun p q => vpos_eqb (r_vpos p) (r_vpos q) = true) ls -> neighbours_differ (fun p q => same_vertical (r_vpos p) (r_vpos q)) ls.
Proof.
  induction ls as [|a ls IH]; intros P N; [exact I|]. destruct a as [|p a]; [exact I|]. destruct ls as [|[|q b] ls]; [exact I|exact I|].
  destruct N as [D N]. split.
  - intros S. apply D. apply vertical_equal_spec; [apply P; now left|apply P; cbn; right; apply in_or_app; right; now left|exact S].
  - apply IH; [|exact N]. intros r J. apply P. cbn [concat]. apply in_or_app. now right.
Qed.
Lemma lines_place (ss : list line) ls : (forall r, In r (concat ls) -> finite_proportion (r_vpos r)) -> Forall2 line_holds ss ls -> Forall one_place ls.
Proof.
  intros P F. induction F as [|k ps ss ls H F IH]; [constructor|]. constructor; [|apply IH; intros r J; apply P; cbn [concat]; apply in_or_app; now right].
  destruct ps as [|p rest]; [contradiction|]. destruct H as (_ & _ & _ & H). cbn [one_place]. apply Forall_forall. intros q Q. rewrite Forall_forall in H.
  apply vertical_equal_spec; [apply P; now left|apply P; cbn [concat]; apply in_or_app; left; now right|now apply H].
Qed.
Lemma collect_places sort l : conforming sort -> all_comparable l -> (forall r, In r l -> finite_proportion (r_vpos r)) ->
  exists sorted subs groups, stably_sorted l sorted /\ collect sort l = Ok subs /\ grouping sorted subs groups /\ Forall lines_by_place groups.
Proof.
  intros S C P. destruct (collect_spec sort l S C) as (sorted & subs & groups & SS & E & G). exists sorted, subs, groups.
  split; [exact SS|]. split; [exact E|]. split; [exact G|]. destruct G as (EC & F & _).
  assert (Q : forall r, In r (concat (map (@concat raw) groups)) -> finite_proportion (r_vpos r)).
  { rewrite EC. intros r J. apply P. eapply Permutation_in; [|exact J]. apply Permutation_sym. apply SS. }
  clear -F Q. induction F as [|s ls subs groups H F IH]; [constructor|]. cbn [map concat] in Q. constructor; [|apply IH; intros r J; apply Q; apply in_or_app; now right].
  assert (Q' : forall r, In r (concat ls) -> finite_proportion (r_vpos r)) by (intros r J; apply Q; apply in_or_app; now left).
  unfold subtitle_holds in H. destruct (concat ls) as [|p rest] eqn:EL; [contradiction|]. rewrite <- EL in Q'. destruct H as (_ & _ & _ & _ & HL & _ & N).
  split; [now apply (lines_place (s_lines s))|now apply neighbours_place].
Qed.
