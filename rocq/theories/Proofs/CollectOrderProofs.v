(** collect() and the order of the pieces. *)
From Coq Require Import ZArith List Bool Permutation Sorted Lia.
From Verif.Model Require Import Base TimeModel Types Collect.
From Verif.Spec Require Import Outcome TimeSpec SortSpec CollectSpec CollectOrderSpec.
From Verif.Proofs Require Import TimeProofs SortProofs CollectProofs.
Import ListNotations.

(** * Another order *)

Lemma all_comparable_perm l l' : Permutation l l' -> all_comparable l -> all_comparable l'.
Proof.
  intros P [C R]. assert (I : forall x, In x l' -> In x l) by (intros x; apply Permutation_in; now apply Permutation_sym).
  split; [intros x y Hx Hy; apply C; now apply I | intros x Hx; apply R; now apply I].
Qed.
Lemma reordered_perm l l' : reordered l l' -> Permutation l l'.
Proof.
  induction 1 as [l|before p q after l' A R IH]; [reflexivity|]. etransitivity; [|exact IH].
  apply Permutation_app_head. apply perm_swap.
Qed.
Lemma both_equivalent l x p q : all_comparable l -> In x l -> In p l -> In q l -> start_apart p q ->
  equivalent x p = true -> equivalent x q = true -> False.
Proof.
  intros C Hx Hp Hq A E1 E2. pose proof (strict_weak_all l C) as (_ & _ & W3). pose proof (comparable_all l C) as CC.
  unfold equivalent in *.
  destruct (raw_lt x p) as [[|]| |] eqn:A1; try discriminate E1. destruct (raw_lt p x) as [[|]| |] eqn:A2; try discriminate E1.
  destruct (raw_lt x q) as [[|]| |] eqn:A3; try discriminate E2. destruct (raw_lt q x) as [[|]| |] eqn:A4; try discriminate E2.
  destruct (CC p q Hp Hq) as [b1 B1]. destruct (CC q p Hq Hp) as [b2 B2].
  pose proof (W3 p x q b1 Hp Hx Hq A2 A3 B1) as ->. pose proof (W3 q x p b2 Hq Hx Hp A4 A1 B2) as ->.
  unfold start_apart in A. pose proof (not_lt_eq _ _ _ _ _ B1 B2 A eq_refl eq_refl). discriminate.
Qed.
Lemma reordered_filter l l' : reordered l l' -> all_comparable l -> forall x, In x l -> filter (equivalent x) l' = filter (equivalent x) l.
Proof.
  induction 1 as [l|before p q after l' A R IH]; intros C x Hx; [reflexivity|].
  assert (P : Permutation (before ++ p :: q :: after) (before ++ q :: p :: after)) by (apply Permutation_app_head; apply perm_swap).
  rewrite (IH (all_comparable_perm _ _ P C) x (Permutation_in _ P Hx)). rewrite !filter_app. cbn [filter]. f_equal.
  destruct (equivalent x p) eqn:E1, (equivalent x q) eqn:E2; try reflexivity.
  exfalso. apply (both_equivalent _ x p q C Hx); auto; rewrite in_app_iff; right; cbn; auto.
Qed.
Lemma collect_reordered sort l l' : conforming sort -> all_comparable l -> reordered l l' -> collect sort l' = collect sort l.
Proof.
  intros S C R. pose proof (reordered_perm _ _ R) as P. pose proof (all_comparable_perm _ _ P C) as C'.
  destruct (sorts _ S l (comparable_all l C) (strict_weak_all l C)) as (a & E1 & P1).
  destruct (sorts _ S l' (comparable_all l' C') (strict_weak_all l' C')) as (b & E2 & P2).
  unfold collect. rewrite E1, E2.
  rewrite (stably_sorted_unique l a b (comparable_all l C) (strict_weak_all l C) P1); [reflexivity|].
  destruct P2 as (Q1 & Q2 & Q3). split; [etransitivity; eassumption|]. split; [exact Q2|].
  intros x Hx. rewrite (Q3 x (Permutation_in _ P Hx)). now apply reordered_filter.
Qed.

Lemma start_apart_sym p q : start_apart p q -> start_apart q p.
Proof.
  unfold start_apart, time_eq. destruct (t_rate (r_from p)) as [a|], (t_rate (r_from q)) as [b|]; try discriminate.
  - rewrite (Z.eqb_sym (t_seconds (r_from q))). destruct (negb _); [reflexivity|].
    destruct (imul3 (t_frames (r_from p)) (num a) (den b)) as [x|e|u]; cbn [bind]; try discriminate.
    destruct (imul3 (t_frames (r_from q)) (num b) (den a)) as [y|e|u]; cbn [bind]; try discriminate. now rewrite Z.eqb_sym.
  - now rewrite (Z.eqb_sym (t_seconds (r_from q))), (Z.eqb_sym (t_frames (r_from q))).
Qed.
Lemma reordered_trans l1 l2 l3 : reordered l1 l2 -> reordered l2 l3 -> reordered l1 l3.
Proof. induction 1 as [|before p q after l' A R IH]; intros H; [exact H|]. constructor; auto. Qed.
Lemma reordered_cons a l l' : reordered l l' -> reordered (a :: l) (a :: l').
Proof. induction 1 as [l|before p q after l' A R IH]; [constructor|]. exact (reordered_swap (a :: before) p q after _ A IH). Qed.
Lemma all_apart_perm l l' : Permutation l l' -> all_apart l -> all_apart l'.
Proof.
  unfold all_apart. induction 1 as [|x l l' P IH|x y l|l l' l'' P1 IH1 P2 IH2]; intros A; auto.
  - inversion A as [|? ? F T]; subst. constructor; [|auto]. now rewrite <- P.
  - inversion A as [|? ? F T]; subst. inversion F; subst. inversion T; subst. repeat constructor; auto using start_apart_sym.
Qed.
Lemma apart_reordered l l' : Permutation l l' -> all_apart l -> reordered l l'.
Proof.
  induction 1 as [|x l l' P IH|x y l|l l' l'' P1 IH1 P2 IH2]; intros A.
  - constructor.
  - apply reordered_cons. apply IH. now inversion A.
  - inversion A as [|? ? F T]; subst. inversion F; subst. apply (reordered_swap [] y x l); [assumption|constructor].
  - apply (reordered_trans _ l'); [auto|]. apply IH2. now apply (all_apart_perm l).
Qed.
Lemma collect_any_order sort l l' : conforming sort -> all_comparable l -> all_apart l -> Permutation l l' -> collect sort l' = collect sort l.
Proof. intros S C A P. apply collect_reordered; auto. now apply apart_reordered. Qed.

(** * Two parts *)

Lemma loop_out l : forall cur out more, collect_loop l cur (more ++ out) = bind (collect_loop l cur out) (fun r => Ok (more ++ r)).
Proof.
  induction l as [|i t IH]; intros cur out more; cbn [collect_loop]; [cbn [bind]; now rewrite app_assoc|].
  destruct cur as [c|]; [|apply IH].
  destruct (subtitle_same c i) as [b|e|u]; cbn [bind]; try reflexivity.
  destruct b; [apply IH|]. rewrite <- app_assoc. apply IH.
Qed.
Lemma before_not_eq p q b : starts_before p q -> time_eq (r_from p) (r_from q) = Ok b -> b = false.
Proof. unfold starts_before. intros L E. destruct b; [|reflexivity]. exact (eq_from_not_lt _ _ _ E L). Qed.
Lemma before_not_same all c p i : all_comparable all -> In p all -> In i all -> meta_of c p -> starts_before p i -> subtitle_same c i = Ok false.
Proof.
  intros [C _] Hp Hi (E1 & _) B. unfold subtitle_same, and_then. rewrite E1.
  destruct (C p i Hp Hi) as (_ & [b E] & _). rewrite E. rewrite (before_not_eq p i b B E). reflexivity.
Qed.
Lemma loop_app all a : forall b c p out, all_comparable all -> In p all -> incl a all -> incl b all -> meta_of c p ->
  (forall q, In q b -> starts_before p q) -> (forall x y, In x a -> In y b -> starts_before x y) ->
  collect_loop (a ++ b) (Some c) out = bind (collect_loop a (Some c) out) (fun s => bind (collect_loop b None []) (fun t => Ok (s ++ t))).
Proof.
  induction a as [|i t IH]; intros b c p out C Hp Ha Hb M B1 B2.
  - cbn [app collect_loop bind opt_list]. destruct b as [|j t]; [cbn; now rewrite app_nil_r|].
    cbn [collect_loop]. rewrite (before_not_same all c p j C Hp (Hb j (or_introl eq_refl)) M (B1 j (or_introl eq_refl))). cbn [bind].
    rewrite <- (app_nil_r (out ++ [c])) at 1. apply loop_out.
  - cbn [app collect_loop]. destruct (subtitle_same c i) as [s|e|u]; cbn [bind]; try reflexivity.
    assert (Ht : incl t all) by (intros x Hx; apply Ha; now right). destruct s.
    + apply (IH b _ p); auto; [now apply add_piece_meta|]. intros x y Hx Hy. apply B2; auto. now right.
    + apply (IH b _ i); auto; [apply Ha; now left|now repeat split|intros q Hq; apply B2; auto; now left|].
      intros x y Hx Hy. apply B2; auto. now right.
Qed.
Lemma loop_parts all a b : all_comparable all -> incl a all -> incl b all -> (forall x y, In x a -> In y b -> starts_before x y) ->
  collect_loop (a ++ b) None [] = bind (collect_loop a None []) (fun s => bind (collect_loop b None []) (fun t => Ok (s ++ t))).
Proof.
  intros C Ha Hb B. destruct a as [|i t].
  - cbn. destruct (collect_loop b None []); reflexivity.
  - cbn [app collect_loop]. apply (loop_app all t b _ i); auto; [apply Ha; now left|intros x Hx; apply Ha; now right|now repeat split| |].
    + intros q Hq. apply B; auto. now left.
    + intros x y Hx Hy. apply B; auto. now right.
Qed.
Lemma sorted_join {A} (R : A -> A -> Prop) a b : StronglySorted R a -> StronglySorted R b -> (forall x y, In x a -> In y b -> R x y) -> StronglySorted R (a ++ b).
Proof.
  induction a as [|h a IH]; intros S1 S2 H; [exact S2|]. apply StronglySorted_inv in S1 as [S1 F]. cbn [app]. constructor.
  - apply IH; auto. intros x y Hx Hy. apply H; auto. now right.
  - apply Forall_app. split; [exact F|]. apply Forall_forall. intros y Hy. apply H; auto. now left.
Qed.
Lemma filter_none {A} (f : A -> bool) l : (forall x, In x l -> f x = false) -> filter f l = [].
Proof. induction l as [|a l IH]; intros H; [reflexivity|]. cbn [filter]. rewrite (H a (or_introl eq_refl)). apply IH. intros x Hx. apply H. now right. Qed.
Lemma stably_sorted_join l1 l2 a b : all_comparable (l1 ++ l2) -> (forall x y, In x l1 -> In y l2 -> starts_before x y) ->
  stably_sorted l1 a -> stably_sorted l2 b -> stably_sorted (l1 ++ l2) (a ++ b).
Proof.
  intros C B (P1 & S1 & F1) (P2 & S2 & F2).
  assert (I1 : forall x, In x a -> In x l1) by (intros x; apply Permutation_in; now apply Permutation_sym).
  assert (I2 : forall x, In x b -> In x l2) by (intros x; apply Permutation_in; now apply Permutation_sym).
  split; [now apply Permutation_app|]. split.
  - apply sorted_join; auto. intros x y Hx Hy. apply I1 in Hx. apply I2 in Hy. pose proof (B x y Hx Hy) as L.
    destruct (comparable_all _ C y x) as [r Hr]; [apply in_or_app; now right|apply in_or_app; now left|]. rewrite Hr. destruct r; [exfalso|reflexivity].
    destruct (strict_weak_all _ C) as (W1 & W2 & _). destruct (comparable_all _ C x x) as [s Hs]; [apply in_or_app; now left..|].
    pose proof (W2 x y x s) as T. rewrite (T ltac:(apply in_or_app; now left) ltac:(apply in_or_app; now right) ltac:(apply in_or_app; now left) L Hr Hs) in Hs.
    specialize (W1 x true ltac:(apply in_or_app; now left) Hs). discriminate W1.
  - intros x Hx. rewrite !filter_app. apply in_app_iff in Hx as [Hx|Hx].
    + rewrite (F1 x Hx). f_equal. rewrite !filter_none; [reflexivity| |]; intros y Hy; try apply I2 in Hy; pose proof (B x y Hx Hy) as L;
        unfold starts_before in L; unfold equivalent, raw_lt in *; rewrite L; reflexivity.
    + rewrite (F2 x Hx). f_equal. rewrite !filter_none; [reflexivity| |]; intros y Hy; try apply I1 in Hy; pose proof (B y x Hy Hx) as L;
        unfold starts_before in L; unfold equivalent, raw_lt in *; rewrite L; destruct (time_lt (r_from x) (r_from y)) as [[|]| |]; reflexivity.
Qed.
Lemma all_comparable_part l l' : incl l' l -> all_comparable l -> all_comparable l'.
Proof. intros I [C R]. split; [intros x y Hx Hy; apply C; now apply I | intros x Hx; apply R; now apply I]. Qed.
Lemma collect_parts sort l1 l2 : conforming sort -> all_comparable (l1 ++ l2) -> (forall x y, In x l1 -> In y l2 -> starts_before x y) ->
  exists s1 s2, collect sort l1 = Ok s1 /\ collect sort l2 = Ok s2 /\ collect sort (l1 ++ l2) = Ok (s1 ++ s2).
Proof.
  intros S C B. assert (C1 : all_comparable l1) by (apply (all_comparable_part (l1 ++ l2)); [apply incl_appl, incl_refl|exact C]).
  assert (C2 : all_comparable l2) by (apply (all_comparable_part (l1 ++ l2)); [apply incl_appr, incl_refl|exact C]).
  destruct (collect_spec sort l1 S C1) as (_ & s1 & _ & _ & E1 & _). destruct (collect_spec sort l2 S C2) as (_ & s2 & _ & _ & E2 & _).
  exists s1, s2. split; [exact E1|]. split; [exact E2|].
  destruct (sorts _ S l1 (comparable_all _ C1) (strict_weak_all _ C1)) as (a & A1 & P1).
  destruct (sorts _ S l2 (comparable_all _ C2) (strict_weak_all _ C2)) as (b & A2 & P2).
  destruct (sorts _ S (l1 ++ l2) (comparable_all _ C) (strict_weak_all _ C)) as (c & A3 & P3).
  pose proof (stably_sorted_unique _ _ _ (comparable_all _ C) (strict_weak_all _ C) P3 (stably_sorted_join _ _ _ _ C B P1 P2)) as ->.
  unfold collect in *. rewrite A1 in E1. rewrite A2 in E2. rewrite A3. cbn [bind] in *.
  assert (I1 : forall x, In x a -> In x l1) by (intros x; apply Permutation_in; apply Permutation_sym; apply P1).
  assert (I2 : forall x, In x b -> In x l2) by (intros x; apply Permutation_in; apply Permutation_sym; apply P2).
  rewrite (loop_parts (l1 ++ l2) a b C); [rewrite E1; cbn [bind]; rewrite E2; reflexivity| | |].
  - intros x Hx. apply in_or_app. left. auto.
  - intros x Hx. apply in_or_app. right. auto.
  - intros x y Hx Hy. apply B; auto.
Qed.
