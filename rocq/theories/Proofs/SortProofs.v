(** Insertion sort meets the contract; the stable sorting of a list is unique. *)
From Coq Require Import List Bool Permutation Sorted ZArith Lia.
From Verif.Model Require Import Base TimeModel Types Collect.
From Verif.Spec Require Import Outcome TimeSpec SortSpec.
From Verif.Proofs Require Import TimeProofs.
Import ListNotations.

Lemma comparable_incl l m : incl m l -> comparable l -> comparable m.
Proof. intros I C x y Hx Hy. apply C; auto. Qed.
Lemma strict_weak_incl l m : incl m l -> strict_weak l -> strict_weak m.
Proof.
  intros I (A & B & C). split; [|split].
  - intros x b Hx. apply A. auto.
  - intros x y z b Hx Hy Hz. apply B; auto.
  - intros x y z b Hx Hy Hz. apply C; auto.
Qed.

Lemma time_strict_weak l : (forall x, In x l -> rate_ok (r_from x)) -> strict_weak l.
Proof.
  intros R. split; [|split].
  - intros x b _. apply lt_irrefl.
  - intros x y z b Hx Hy Hz. apply lt_trans; apply R; assumption.
  - intros x y z b Hx Hy Hz. apply lt_negtrans; apply R; assumption.
Qed.

(** ** Insertion *)
Lemma insert_perm x l l' : insert_raw x l = Ok l' -> Permutation (x :: l) l'.
Proof.
  revert l'. induction l as [|y t IH]; intros l' H; cbn in H.
  - injection H as <-. reflexivity.
  - destruct (raw_lt y x) as [[|]| |]; cbn in H; try discriminate.
    + destruct (insert_raw x t) as [t'| |]; cbn in H; try discriminate. injection H as <-.
      rewrite perm_swap. constructor. now apply IH.
    + injection H as <-. reflexivity.
Qed.
Lemma sort_perm l l' : insertion_sort l = Ok l' -> Permutation l l'.
Proof.
  revert l'. induction l as [|x t IH]; intros l' H; cbn in H.
  - injection H as <-. constructor.
  - destruct (insertion_sort t) as [t'| |]; cbn in H; try discriminate.
    rewrite (IH t' eq_refl). now apply insert_perm.
Qed.

Lemma insert_fail x l :
  (forall e, insert_raw x l = Throw e -> exists y, In y l /\ raw_lt y x = Throw e) /\
  (forall u, insert_raw x l = Undef u -> exists y, In y l /\ raw_lt y x = Undef u).
Proof.
  induction l as [|y t [IH1 IH2]]; cbn; split; try discriminate.
  - intros e. destruct (raw_lt y x) as [[|]| |] eqn:E; cbn; try discriminate.
    + destruct (insert_raw x t) as [t'| e'|]; cbn; try discriminate. intros [= <-].
      destruct (IH1 _ eq_refl) as (z & Hz & E'). eauto.
    + intros [= <-]. eauto.
  - intros u. destruct (raw_lt y x) as [[|]| |] eqn:E; cbn; try discriminate.
    + destruct (insert_raw x t) as [t'| |u']; cbn; try discriminate. intros [= <-].
      destruct (IH2 _ eq_refl) as (z & Hz & E'). eauto.
    + intros [= <-]. eauto.
Qed.
Lemma sort_fail l :
  (forall e, insertion_sort l = Throw e -> exists x y, In x l /\ In y l /\ raw_lt x y = Throw e) /\
  (forall u, insertion_sort l = Undef u -> exists x y, In x l /\ In y l /\ raw_lt x y = Undef u).
Proof.
  induction l as [|x t [IH1 IH2]]; cbn; split; try discriminate.
  - intros e. destruct (insertion_sort t) as [t'| e'|] eqn:E; cbn; try discriminate.
    + intros H. destruct (proj1 (insert_fail x t') _ H) as (y & Hy & L).
      apply (Permutation_in y (Permutation_sym (sort_perm _ _ E))) in Hy. exists y, x. cbn. auto.
    + intros [= <-]. destruct (IH1 _ eq_refl) as (a & b & Ha & Hb & L). exists a, b. auto.
  - intros u. destruct (insertion_sort t) as [t'| |u'] eqn:E; cbn; try discriminate.
    + intros H. destruct (proj2 (insert_fail x t') _ H) as (y & Hy & L).
      apply (Permutation_in y (Permutation_sym (sort_perm _ _ E))) in Hy. exists y, x. cbn. auto.
    + intros [= <-]. destruct (IH2 _ eq_refl) as (a & b & Ha & Hb & L). exists a, b. auto.
Qed.

Lemma equivalent_true x y : equivalent x y = true <-> raw_lt x y = Ok false /\ raw_lt y x = Ok false.
Proof.
  unfold equivalent. destruct (raw_lt x y) as [[|]| |], (raw_lt y x) as [[|]| |]; split; intros H; try discriminate; auto;
    destruct H; discriminate.
Qed.

Lemma insert_sorted x l : comparable (x :: l) -> strict_weak (x :: l) ->
  StronglySorted (fun x y => raw_lt y x = Ok false) l ->
  exists l', insert_raw x l = Ok l' /\ StronglySorted (fun x y => raw_lt y x = Ok false) l' /\
    (forall z, In z (x :: l) -> filter (equivalent z) l' = filter (equivalent z) (x :: l)).
Proof.
  intros C W S. induction l as [|y t IH].
  - exists [x]. split; [reflexivity|]. split; [repeat constructor | reflexivity].
  - apply StronglySorted_inv in S as [S F].
    destruct (C y x) as [b E]; [right; now left | now left|].
    cbn. rewrite E. cbn. destruct b.
    + destruct IH as (t' & E' & S' & F'); [..|exact S|].
      { eapply comparable_incl; [|exact C]. intros z [->|Hz]; cbn; auto. }
      { eapply strict_weak_incl; [|exact W]. intros z [->|Hz]; cbn; auto. }
      rewrite E'. cbn. exists (y :: t'). split; [reflexivity|]. split.
      * constructor; [exact S'|]. apply Forall_forall. intros z Hz.
        apply (Permutation_in z (Permutation_sym (insert_perm _ _ _ E'))) in Hz as [<-|Hz].
        -- (* y < x, so not x < y *)
           destruct (C x y) as [b E2]; [now left | right; now left|].
           destruct b; [|exact E2]. exfalso. destruct W as (W1 & W2 & _).
           destruct (C x x) as [b E3]; [now left..|].
           specialize (W2 x y x b (or_introl eq_refl) (or_intror (or_introl eq_refl)) (or_introl eq_refl) E2 E E3).
           specialize (W1 x b (or_introl eq_refl) E3). congruence.
        -- rewrite Forall_forall in F. now apply F.
      * intros z Hz. cbn [filter].
        assert (NE : equivalent z x = true -> equivalent z y = false).
        { intros Ezx. apply equivalent_true in Ezx as [Z1 Z2].
          destruct (equivalent z y) eqn:Ezy; [|reflexivity]. apply equivalent_true in Ezy as [Z3 Z4].
          destruct W as (_ & _ & W3).
          assert (true = false); [|discriminate].
          eapply (W3 y z x true); [..|exact Z4|exact Z1|exact E]; cbn; tauto. }
        destruct Hz as [<-|[<-|Hz]].
        -- rewrite (F' x) by now left. cbn [filter].
           destruct (equivalent x x) eqn:Exx; [rewrite (NE eq_refl); reflexivity|].
           destruct (equivalent x y); reflexivity.
        -- assert (Hyx : equivalent y x = false).
           { destruct (equivalent y x) eqn:Q; [|reflexivity]. apply equivalent_true in Q as [Q1 Q2]. congruence. }
           (* y is not in F' range unless in t; argue through the insertion position *)
           rewrite Hyx.
           assert (G : filter (equivalent y) t' = filter (equivalent y) t).
           { clear - E' Hyx. revert t' E'. induction t as [|a t IHt]; intros t' E'; cbn in E'.
             - injection E' as <-. cbn. now rewrite Hyx.
             - destruct (raw_lt a x) as [[|]| |]; cbn in E'; try discriminate.
               + destruct (insert_raw x t) as [t2| |]; cbn in E'; try discriminate. injection E' as <-.
                 cbn. now rewrite (IHt t2 eq_refl).
               + injection E' as <-. cbn. now rewrite Hyx. }
           now rewrite G.
        -- rewrite (F' z) by now right. cbn [filter].
           destruct (equivalent z x) eqn:Ezx; [rewrite (NE eq_refl); reflexivity|].
           destruct (equivalent z y); reflexivity.
    + exists (x :: y :: t). split; [reflexivity|]. split; [|reflexivity].
      constructor; [constructor; assumption|]. constructor; [exact E|].
      rewrite Forall_forall in *. intros z Hz. specialize (F z Hz).
      destruct (C z x) as [b E2]; [right; now right | now left|].
      destruct W as (_ & _ & W3).
      replace b with false in E2; [exact E2|]. symmetry.
      eapply (W3 z y x b); [..|exact F|exact E|exact E2]; cbn; tauto.
Qed.

Lemma filter_extra (p : raw -> bool) (x : raw) l l' : Permutation l l' -> (forall y, In y l -> p y = false) -> filter p l' = filter p l.
Proof.
  intros P H.
  assert (N : forall m, (forall y, In y m -> p y = false) -> filter p m = []).
  { induction m as [|a m IH]; intros Hm; cbn; [reflexivity|]. rewrite Hm by now left. apply IH. intros; apply Hm; now right. }
  rewrite (N l H). apply N. intros y Hy. apply H. eapply Permutation_in; [symmetry; exact P | exact Hy].
Qed.

(** Equivalence classes of elements outside the list also agree. *)
Lemma sort_stable l : comparable l -> strict_weak l ->
  exists l', insertion_sort l = Ok l' /\ StronglySorted (fun x y => raw_lt y x = Ok false) l' /\
    (forall z, In z l -> filter (equivalent z) l' = filter (equivalent z) l).
Proof.
  induction l as [|x t IH]; intros C W.
  - exists []. cbn. repeat constructor. 
  - destruct IH as (t' & E & S & F).
    { eapply comparable_incl; [|exact C]. now right. }
    { eapply strict_weak_incl; [|exact W]. now right. }
    pose proof (sort_perm _ _ E) as P.
    assert (I : incl (x :: t') (x :: t)).
    { intros z [->|Hz]; [now left | right]. eapply Permutation_in; [symmetry; exact P | exact Hz]. }
    destruct (insert_sorted x t') as (l' & E' & S' & F').
    { eapply comparable_incl; [exact I | exact C]. }
    { eapply strict_weak_incl; [exact I | exact W]. }
    { exact S. }
    exists l'. split; [cbn; rewrite E; exact E'|]. split; [exact S'|].
    intros z Hz.
    assert (Hz' : In z (x :: t')).
    { destruct Hz as [->|Hz]; [now left | right]. eapply Permutation_in; [exact P | exact Hz]. }
    rewrite (F' z Hz'). cbn [filter].
    assert (G : filter (equivalent z) t' = filter (equivalent z) t).
    { destruct Hz as [<-|Hz]; [|now apply F].
      (* the class of x in t: either empty or the class of some element of t *)
      destruct (existsb (equivalent x) t) eqn:Ex.
      - apply existsb_exists in Ex as (y & Hy & Eq).
        assert (Same : forall w, In w t -> equivalent x w = equivalent y w).
        { intros w Hw. apply equivalent_true in Eq as [Q1 Q2]. destruct W as (W1 & W2 & W3).
          destruct (C x w) as [b1 B1]; [now left | now right|]. destruct (C w x) as [b2 B2]; [now right | now left|].
          destruct (C y w) as [b3 B3]; [now right | now right|]. destruct (C w y) as [b4 B4]; [now right | now right|].
          unfold equivalent. rewrite B1, B2, B3, B4.
          assert (K1 : b3 = false -> b1 = false) by (intros ->; eapply (W3 x y w b1); [..|exact Q1|exact B3|exact B1]; cbn; auto).
          assert (K2 : b1 = false -> b3 = false) by (intros ->; eapply (W3 y x w b3); [..|exact Q2|exact B1|exact B3]; cbn; auto).
          assert (K3 : b4 = false -> b2 = false) by (intros ->; eapply (W3 w y x b2); [..|exact B4|exact Q2|exact B2]; cbn; auto).
          assert (K4 : b2 = false -> b4 = false) by (intros ->; eapply (W3 w x y b4); [..|exact B2|exact Q1|exact B4]; cbn; auto).
          destruct b1, b2, b3, b4; cbn in *; try reflexivity; exfalso;
            repeat match goal with H : _ = _ -> _ |- _ => try (specialize (H eq_refl); discriminate); clear H end. }
        assert (FE : forall m, incl m t -> filter (equivalent x) m = filter (equivalent y) m).
        { induction m as [|a m IHm]; intros Hm; cbn; [reflexivity|].
          rewrite (Same a) by (apply Hm; now left). rewrite IHm by (intros w Hw; apply Hm; now right). reflexivity. }
        rewrite (FE t) by apply incl_refl. rewrite (FE t').
        + now apply F.
        + intros w Hw. eapply Permutation_in; [symmetry; exact P | exact Hw].
      - apply (filter_extra _ x t t' P). intros w Hw.
        destruct (equivalent x w) eqn:Q; [|reflexivity]. exfalso.
        assert (existsb (equivalent x) t = true) by (apply existsb_exists; eauto). congruence. }
    now rewrite G.
Qed.

Lemma insertion_sort_conforming : conforming insertion_sort.
Proof.
  split.
  - intros l C W. destruct (sort_stable l C W) as (l' & E & S & F).
    exists l'. split; [exact E|]. split; [now apply sort_perm | now split].
  - intros l e H. apply (proj1 (sort_fail l)) in H. exact H.
  - intros l u H. right. apply (proj2 (sort_fail l)) in H as (x & y & Hx & Hy & L). exists x, y, u. auto.
  - intros l l' H _ _. now apply sort_perm.
Qed.

(** ** Uniqueness *)
Lemma stably_sorted_unique l a b : comparable l -> strict_weak l -> stably_sorted l a -> stably_sorted l b -> a = b.
Proof.
  intros C W (Pa & Sa & Fa) (Pb & Sb & Fb).
  assert (F : forall x, In x a -> filter (equivalent x) a = filter (equivalent x) b).
  { intros x Hx. apply (Permutation_in x (Permutation_sym Pa)) in Hx. now rewrite Fa, Fb. }
  assert (P : Permutation a b) by (rewrite <- Pa; exact Pb).
  assert (Ia : incl a l) by (intros x Hx; eapply Permutation_in; [symmetry; exact Pa | exact Hx]).
  clear Pa Pb Fa Fb. revert b P Sb F. induction a as [|x a IH]; intros b P Sb F.
  - apply Permutation_nil in P. now subst.
  - destruct b as [|y b]; [apply Permutation_sym, Permutation_nil_cons in P; contradiction|].
    apply StronglySorted_inv in Sa as [Sa Xa]. apply StronglySorted_inv in Sb as [Sb Xb].
    rewrite Forall_forall in Xa, Xb.
    assert (Il : In x l) by (apply Ia; now left).
    assert (Iy : In y (x :: a)) by (eapply Permutation_in; [symmetry; exact P | now left]).
    assert (Refl : forall z, In z l -> raw_lt z z = Ok false).
    { intros z Hz. destruct (C z z Hz Hz) as [c E]. destruct W as (W1 & _). now rewrite (W1 z c Hz E) in E. }
    assert (E1 : raw_lt y x = Ok false).
    { destruct Iy as [->|Iy]; [now apply Refl | now apply Xa]. }
    assert (E2 : raw_lt x y = Ok false).
    { assert (Ix : In x (y :: b)) by (eapply Permutation_in; [exact P | now left]).
      destruct Ix as [<-|Ix]; [now apply Refl | now apply Xb]. }
    assert (x = y).
    { specialize (F x (or_introl eq_refl)). cbn in F.
      assert (Q1 : equivalent x x = true) by (apply equivalent_true; split; now apply Refl).
      assert (Q2 : equivalent x y = true) by (apply equivalent_true; now split).
      rewrite Q1, Q2 in F. congruence. }
    subst y. f_equal. apply Permutation_cons_inv in P. apply IH; [exact Sa | intros z Hz; apply Ia; now right | exact P | exact Sb |].
    intros z Hz. specialize (F z (or_intror Hz)). cbn in F. destruct (equivalent z x); congruence.
Qed.
