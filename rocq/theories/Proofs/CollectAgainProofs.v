(** There is one grouping only, and what has been collected stays as it is. *)
From Coq Require Import List Bool ZArith Permutation Sorted Lia.
From Coq.Floats Require Import SpecFloat.
From Verif.Model Require Import Base Float TimeModel Types Collect.
From Verif.Spec Require Import Outcome TimeSpec SortSpec CollectSpec CollectAgainSpec.
From Verif.Proofs Require Import TimeProofs SortProofs CollectProofs.
Import ListNotations.

(** * One grouping only *)

Definition headed (R : raw -> raw -> Prop) (g : list raw) : Prop := match g with [] => False | p :: rest => Forall (R p) rest end.
Lemma greedy (R : raw -> raw -> Prop) : forall g1 g2, Forall (headed R) g1 -> Forall (headed R) g2 -> neighbours_differ R g1 -> neighbours_differ R g2 ->
  concat g1 = concat g2 -> g1 = g2.
Proof.
  assert (X : forall p r1 t1 r2 t2, Forall (R p) r2 -> Forall (headed R) t1 -> neighbours_differ R ((p :: r1) :: t1) ->
    r1 ++ concat t1 = r2 ++ concat t2 -> (length r2 <= length r1)%nat).
  { intros p r1 t1 r2 t2. revert r2. induction r1 as [|a r1 IH]; intros r2 F H N E.
    - destruct r2 as [|q r2]; [cbn; lia|]. exfalso. cbn [app] in E. destruct t1 as [|g t1]; [discriminate E|]. inversion H as [|? ? H1 H2]; subst.
      destruct g as [|q' g]; [destruct H1|]. cbn in E. injection E as <- _. cbn in N. destruct N as [N _]. apply N. now inversion F.
    - destruct r2 as [|b r2]; [cbn; lia|]. cbn [app] in E. injection E as <- E. inversion F as [|? ? F1 F2]; subst. cbn. apply le_n_S. apply IH; auto. }
  assert (T : forall p (r : list raw) t, Forall (headed R) t -> neighbours_differ R ((p :: r) :: t) -> neighbours_differ R t).
  { intros p r [|[|q g] t] F N; [exact I|inversion F as [|? ? H]; destruct H|exact (proj2 N)]. }
  induction g1 as [|g g1 IH]; intros g2 F1 F2 N1 N2 E.
  - destruct g2 as [|g' g2]; [reflexivity|]. inversion F2 as [|? ? H]; subst. destruct g'; [destruct H|discriminate E].
  - inversion F1 as [|? ? H1 F1']; subst. destruct g as [|p r1]; [destruct H1|]. destruct g2 as [|g' g2]; [discriminate E|]. inversion F2 as [|? ? H2 F2']; subst.
    destruct g' as [|p' r2]; [destruct H2|]. cbn in E. injection E as <- E. cbn in H1, H2.
    assert (L : length r1 = length r2).
    { apply Nat.le_antisymm; [apply (X p r2 g2 r1 g1); auto|apply (X p r1 g1 r2 g2); auto]. }
    assert (r1 = r2 /\ concat g1 = concat g2) as [-> E']; [|f_equal; apply IH; eauto].
    clear - L E. revert r2 L E. induction r1 as [|a r1 IH]; intros [|b r2] L E; try discriminate L; [now split|]. injection E as <- E. injection L as L. destruct (IH _ L E) as [-> ->]. now split.
Qed.
Lemma block_same b b' p : block_holds b p -> block_holds b' p -> b = b'.
Proof. destruct b, b'. unfold block_holds. cbn. intuition congruence. Qed.
Lemma blocks_same ps : forall bs bs', Forall2 block_holds bs ps -> Forall2 block_holds bs' ps -> bs = bs'.
Proof.
  induction ps as [|p ps IH]; intros bs bs' A B; inversion A; subst; inversion B; subst; [reflexivity|]. f_equal; [eapply block_same; eassumption|now apply IH].
Qed.
Lemma line_same_pieces l l' ps : line_holds l ps -> line_holds l' ps -> l = l'.
Proof.
  destruct ps as [|p ps]; [intros []|]. destruct l as [h v bs], l' as [h' v' bs']. unfold line_holds. cbn [l_hpos l_vpos l_blocks].
  intros (-> & -> & A & _) (-> & -> & B & _). f_equal. eapply blocks_same; eassumption.
Qed.
Lemma lines_same g : forall ls ls', Forall2 line_holds ls g -> Forall2 line_holds ls' g -> ls = ls'.
Proof. induction g as [|p g IH]; intros ls ls' A B; inversion A; subst; inversion B; subst; [reflexivity|]. f_equal; [eapply line_same_pieces; eassumption|now apply IH]. Qed.
Lemma line_headed l ps : line_holds l ps -> headed (fun p q => vpos_eqb (r_vpos p) (r_vpos q) = true) ps.
Proof. destruct ps; [intros []|]. now intros (_ & _ & _ & F). Qed.
Lemma subtitle_headed s g : subtitle_holds s g -> headed same_times (concat g).
Proof. unfold subtitle_holds. destruct (concat g); [intros []|]. now intros (_ & _ & _ & _ & _ & F & _). Qed.
Lemma lines_headed ls g : Forall2 line_holds ls g -> Forall (headed (fun p q => vpos_eqb (r_vpos p) (r_vpos q) = true)) g.
Proof. induction 1; constructor; [eapply line_headed; eassumption|assumption]. Qed.
Lemma subtitle_same_pieces s s' g g' : subtitle_holds s g -> subtitle_holds s' g' -> concat g = concat g' -> s = s' /\ g = g'.
Proof.
  unfold subtitle_holds. intros H H' E. rewrite <- E in H'. destruct (concat g) as [|p rest] eqn:G; [destruct H|].
  destruct H as (A1 & A2 & A3 & A4 & L & _ & N), H' as (B1 & B2 & B3 & B4 & L' & _ & N').
  assert (g = g').
  { apply (greedy _ _ _ (lines_headed _ _ L) (lines_headed _ _ L') N N'). congruence. }
  subst g'. split; [|reflexivity]. destruct s, s'. cbn in *. f_equal; try congruence. eapply lines_same; eassumption.
Qed.
Lemma grouping_unique l subs groups subs' groups' : grouping l subs groups -> grouping l subs' groups' -> subs = subs' /\ groups = groups'.
Proof.
  intros (E & F & N) (E' & F' & N').
  assert (H : forall subs groups, Forall2 subtitle_holds subs groups -> Forall (headed same_times) (map (@concat raw) groups)).
  { clear. induction 1; constructor; [eapply subtitle_headed; eassumption|assumption]. }
  assert (M : map (@concat raw) groups = map (@concat raw) groups').
  { apply (greedy same_times); eauto. congruence. }
  clear E E' N N' H. revert subs' groups' F' M. induction F as [|s g subs groups H F IH]; intros subs' groups' F' M.
  - destruct groups'; [|discriminate M]. inversion F'. now split.
  - destruct groups' as [|g' groups']; [discriminate M|]. cbn in M. injection M as M1 M2. inversion F' as [|s' ? ? ? H' F2]; subst.
    destruct (subtitle_same_pieces _ _ _ _ H H' M1) as [-> ->]. destruct (IH _ _ F2 M2) as [-> ->]. now split.
Qed.

(** * Pieces of subtitles *)

Lemma feq_self p : p <> S754_nan -> flt_eq p p = true.
Proof.
  intros N. unfold flt_eq, SFeqb, SFcompare. destruct p as [[]|[]| |[] m e]; auto; try congruence; rewrite Z.compare_refl; change (Pcompare m m Eq) with (Pos.compare m m); now rewrite Pos.compare_refl.
Qed.
Lemma vpos_self a b : position_ok a -> vpos_eqb a b = true -> vpos_eqb a a = true.
Proof.
  destruct a as [p l n r], b as [p' l' n' r']. unfold position_ok, vpos_eqb. cbn [v_prop v_line v_lines v_ref].
  assert (ZZ : forall z, Z.eqb z z = true) by apply Z.eqb_refl. assert (VV : forall z, vref_eqb z z = true) by (now intros []).
  intros P. destruct r as [r|]; [|destruct p, l, n, p'; discriminate].
  destruct p as [p|]; cbn [is_some andb opt_eqb].
  - destruct (flt_eq p p) eqn:E; [now rewrite VV|]. destruct P as [->|P].
    + cbn [is_some andb]. destruct p' as [p'|], r' as [r'|]; cbn [is_some andb]; try discriminate. intros H. apply andb_true_iff in H. destruct H as [H _].
      rewrite feq_self in E; [discriminate|]. intros ->. discriminate H.
    + rewrite feq_self in E; [discriminate|]. intros ->. now apply P.
  - destruct l as [l|]; cbn [is_some andb opt_eqb]; [|discriminate]. destruct n; cbn [is_some andb opt_eqb]; now rewrite ?ZZ, ?VV.
Qed.
Lemma time_eq_self a : returns (time_eq a a) -> time_eq a a = Ok true.
Proof.
  unfold time_eq. intros (x & H). destruct (t_rate a) as [r|]; [|now rewrite !Z.eqb_refl]. rewrite Z.eqb_refl in *. cbn [negb] in *.
  destruct (imul3 (t_frames a) (num r) (den r)); try discriminate H. cbn [bind]. now rewrite Z.eqb_refl.
Qed.
Lemma optional_self a : optional_returns a a -> same_optional_time a a.
Proof. destruct a; [|auto]. exact (time_eq_self _). Qed.
Lemma nd_heads (R E : raw -> raw -> Prop) : (forall p p' q q', E p p' -> E q q' -> R p' q' -> R p q) ->
  forall gs gs', Forall2 (fun g g' => exists p r p' r', g = p :: r /\ g' = p' :: r' /\ E p p') gs gs' -> neighbours_differ R gs -> neighbours_differ R gs'.
Proof.
  intros C gs gs' F. induction F as [|g g' gs gs' (p & r & p' & r' & -> & -> & H) F IH]; intros N; [exact I|].
  destruct F as [|g2 g2' gs gs' (q & s & q' & s' & -> & -> & H2) F]; [exact I|]. destruct N as [N1 N2]. split; [intros X; apply N1; now apply (C _ p' _ q')|now apply IH].
Qed.
Definition pieces_in (s : subtitle) : list (list raw) := map (fun l => map (piece_of s l) (l_blocks l)) (s_lines s).
Lemma pieces_concat subs : pieces_of subs = concat (map (@concat raw) (map pieces_in subs)).
Proof. unfold pieces_of. now rewrite map_map. Qed.
Lemma own_blocks s l bs : Forall2 block_holds bs (map (piece_of s l) bs).
Proof. induction bs; constructor; [repeat split|assumption]. Qed.
Lemma own_line s l ps : Forall (fun p => position_ok (r_vpos p)) ps -> line_holds l ps ->
  line_holds l (map (piece_of s l) (l_blocks l)) /\ exists p r p' r', ps = p :: r /\ map (piece_of s l) (l_blocks l) = p' :: r' /\ r_vpos p = r_vpos p'.
Proof.
  destruct ps as [|p ps]; [intros _ []|]. intros K (H1 & H2 & B & V). inversion B as [|b ? bs ? B1 B2 EB]; subst. rewrite <- EB in *. split.
  - cbn [map line_holds]. split; [reflexivity|]. split; [reflexivity|]. split; [rewrite <- EB; apply (own_blocks s l (b :: bs))|].
    apply Forall_forall. intros q I. apply in_map_iff in I. destruct I as (c & <- & I). cbn [piece_of r_vpos]. rewrite H2.
    inversion B2 as [|c' q' ? ? ? B4]; subst; [destruct I|]. inversion V as [|? ? V1 V2]; subst. inversion K; subst. eapply vpos_self; eassumption.
  - exists p, ps. do 2 eexists. split; [reflexivity|]. split; [reflexivity|]. cbn [piece_of r_vpos]. congruence.
Qed.
Lemma own_lines s ls g : Forall (fun p => position_ok (r_vpos p)) (concat g) -> Forall2 line_holds ls g ->
  Forall2 line_holds ls (map (fun l => map (piece_of s l) (l_blocks l)) ls) /\
  Forall2 (fun g g' => exists p r p' r', g = p :: r /\ g' = p' :: r' /\ r_vpos p = r_vpos p') g (map (fun l => map (piece_of s l) (l_blocks l)) ls).
Proof.
  intros K F. induction F as [|l ps ls g H F IH]; cbn [map concat] in *; [split; constructor|]. apply Forall_app in K. destruct K as [K1 K2]. destruct (IH K2) as [A B].
  destruct (own_line s l ps K1 H) as [C D]. split; constructor; assumption.
Qed.
Lemma own_times s ls p : In p (concat (map (fun l => map (piece_of s l) (l_blocks l)) ls)) -> r_from p = s_from s /\ r_to p = s_to s /\ r_fade_up p = s_fade_up s /\ r_fade_down p = s_fade_down s.
Proof. intros I. apply in_concat in I. destruct I as (x & I & J). apply in_map_iff in I. destruct I as (l & <- & _). apply in_map_iff in J. destruct J as (b & <- & _). repeat split. Qed.
Definition comparable_with (p q : raw) : Prop :=
  returns (time_lt (r_from p) (r_from q)) /\ returns (time_eq (r_from p) (r_from q)) /\ returns (time_eq (r_to p) (r_to q)) /\
  optional_returns (r_fade_up p) (r_fade_up q) /\ optional_returns (r_fade_down p) (r_fade_down q).
Definition times_as (p q : raw) : Prop := r_from p = r_from q /\ r_to p = r_to q /\ r_fade_up p = r_fade_up q /\ r_fade_down p = r_fade_down q.
Lemma own_subtitle s g : Forall (fun p => position_ok (r_vpos p) /\ comparable_with p p) (concat g) -> subtitle_holds s g ->
  subtitle_holds s (pieces_in s) /\ exists p r p' r', concat g = p :: r /\ concat (pieces_in s) = p' :: r' /\ times_as p p'.
Proof.
  intros K H. unfold subtitle_holds in H. destruct (concat g) as [|p rest] eqn:E; [destruct H|]. destruct H as (T1 & T2 & T3 & T4 & L & TS & N).
  assert (K' : Forall (fun p => position_ok (r_vpos p)) (concat g)) by (rewrite E; eapply Forall_impl; [|exact K]; now intros x [? _]).
  destruct (own_lines s _ _ K' L) as [A B]. fold (pieces_in s) in A, B.
  assert (NE : exists p' r', concat (pieces_in s) = p' :: r').
  { destruct B as [|x y ? ? (? & ? & p' & r' & _ & -> & _) B]; [discriminate E|]. cbn. eauto. }
  destruct NE as (p' & r' & E').
  assert (OT : forall q, In q (concat (pieces_in s)) -> r_from q = s_from s /\ r_to q = s_to s /\ r_fade_up q = s_fade_up s /\ r_fade_down q = s_fade_down s) by (intros q; apply own_times).
  rewrite E' in OT. destruct (OT p' (or_introl eq_refl)) as (O1 & O2 & O3 & O4).
  split; [|exists p, rest, p', r'; split; [reflexivity|]; split; [exact E'|]; unfold times_as; repeat split; congruence].
  unfold subtitle_holds. rewrite E'. split; [congruence|]. split; [congruence|]. split; [congruence|]. split; [congruence|]. split; [exact A|]. split.
  - apply Forall_forall. intros q I. destruct (OT q (or_intror I)) as (Q1 & Q2 & Q3 & Q4). unfold same_times. rewrite O1, O2, O3, O4, Q1, Q2, Q3, Q4, T1, T2, T3, T4.
    inversion K as [|? ? (_ & _ & K1 & K2 & K3 & K4) _]; subst. split; [now apply time_eq_self|]. split; [now apply time_eq_self|]. split; now apply optional_self.
  - apply (nd_heads _ (fun p q => r_vpos p = r_vpos q)) with (2 := B); [|exact N]. intros a a' b b' -> ->. auto.
Qed.
Lemma own_groups subs groups : Forall (fun p => position_ok (r_vpos p) /\ comparable_with p p) (concat (map (@concat raw) groups)) -> Forall2 subtitle_holds subs groups ->
  Forall2 subtitle_holds subs (map pieces_in subs) /\
  Forall2 (fun g g' => exists p r p' r', g = p :: r /\ g' = p' :: r' /\ times_as p p') (map (@concat raw) groups) (map (@concat raw) (map pieces_in subs)).
Proof.
  intros K F. induction F as [|s g subs groups H F IH]; cbn [map concat] in *; [split; constructor|]. apply Forall_app in K. destruct K as [K1 K2]. destruct (IH K2) as [A B].
  destruct (own_subtitle s g K1 H) as [C D]. split; constructor; assumption.
Qed.
Lemma grouping_again l subs groups : Forall (fun p => position_ok (r_vpos p) /\ comparable_with p p) l -> grouping l subs groups -> grouping (pieces_of subs) subs (map pieces_in subs).
Proof.
  intros K (E & F & N). rewrite <- E in K. destruct (own_groups _ _ K F) as [A B]. split; [symmetry; apply pieces_concat|]. split; [exact A|].
  apply (nd_heads _ times_as) with (2 := B); [|exact N]. unfold same_times. intros a a' b b' (-> & -> & -> & ->) (-> & -> & -> & ->). auto.
Qed.
Lemma times_from l subs groups q : grouping l subs groups -> In q (pieces_of subs) -> exists s p, In s subs /\ In p l /\ s_from s = r_from q /\ times_as q p.
Proof.
  intros (<- & F & _) I. unfold pieces_of in I. induction F as [|s g subs groups H F IH]; [destruct I|]. cbn [map concat] in *. apply in_app_or in I. destruct I as [I|I].
  - apply own_times in I. destruct (holds_first _ _ H) as (p & rest & E & A & B & C & D). exists s, p. split; [now left|]. split; [rewrite E; now left|]. unfold times_as. intuition congruence.
  - destruct (IH I) as (s' & p & S & P & Q). exists s', p. split; [now right|]. split; [apply in_or_app; now right|exact Q].
Qed.
Lemma all_comparable_again l subs groups : all_comparable l -> grouping l subs groups -> all_comparable (pieces_of subs).
Proof.
  intros [C R] G. split.
  - intros x y X Y. destruct (times_from _ _ _ _ G X) as (_ & p & _ & P & _ & -> & -> & -> & ->). destruct (times_from _ _ _ _ G Y) as (_ & q & _ & Q & _ & -> & -> & -> & ->). now apply C.
  - intros x X. destruct (times_from _ _ _ _ G X) as (_ & p & _ & P & _ & -> & _). now apply R.
Qed.
Lemma sorted_again subs : (forall s, In s subs -> time_lt (s_from s) (s_from s) = Ok false) -> StronglySorted (fun s t => time_lt (s_from t) (s_from s) = Ok false) subs ->
  StronglySorted (fun x y => raw_lt y x = Ok false) (pieces_of subs).
Proof.
  assert (APP : forall (a b : list raw), StronglySorted (fun x y => raw_lt y x = Ok false) a -> StronglySorted (fun x y => raw_lt y x = Ok false) b ->
    (forall x y, In x a -> In y b -> raw_lt y x = Ok false) -> StronglySorted (fun x y => raw_lt y x = Ok false) (a ++ b)).
  { induction a as [|x a IH]; intros b A B X; [exact B|]. inversion A as [|? ? A1 A2]; subst. cbn. constructor; [apply IH; auto; intros; apply X; auto; now right|].
    apply Forall_app. split; [exact A2|]. apply Forall_forall. intros y Y. apply X; auto. now left. }
  intros L S. unfold pieces_of. induction S as [|s subs S IH F]; [constructor|]. cbn [map concat]. apply APP.
  - assert (E : forall x, In x (concat (map (fun l => map (piece_of s l) (l_blocks l)) (s_lines s))) -> r_from x = s_from s) by (intros x I; now apply own_times in I).
    revert E. generalize (concat (map (fun l => map (piece_of s l) (l_blocks l)) (s_lines s))) as ps. clear - L. induction ps as [|x ps IH]; intros E; constructor; [apply IH; intros y Y; apply E; now right|].
    apply Forall_forall. intros y Y. unfold raw_lt. rewrite (E x (or_introl eq_refl)), (E y (or_intror Y)). apply L. now left.
  - apply IH. intros t T. apply L. now right.
  - intros x y X Y. apply own_times in X. destruct X as [X _]. apply in_concat in Y. destruct Y as (z & Z & Y). apply in_map_iff in Z. destruct Z as (t & <- & T). apply own_times in Y. destruct Y as [Y _].
    unfold raw_lt. rewrite X, Y. rewrite Forall_forall in F. now apply F.
Qed.
Lemma sorted_stays l : StronglySorted (fun x y => raw_lt y x = Ok false) l -> stably_sorted l l.
Proof. intros S. split; [reflexivity|]. split; [exact S|reflexivity]. Qed.

Lemma collect_again sort sort' l subs : conforming sort -> conforming sort' -> all_comparable l -> (forall r, In r l -> position_ok (r_vpos r)) ->
  collect sort l = Ok subs -> collect sort' (pieces_of subs) = Ok subs.
Proof.
  intros S S' C K E. destruct (collect_spec sort l S C) as (sorted & subs1 & groups & SS & E' & G). rewrite E in E'. injection E' as <-.
  assert (I : forall x, In x sorted -> In x l) by (destruct SS as [P _]; intros x X; eapply Permutation_in; [symmetry; exact P|exact X]).
  assert (C' : all_comparable sorted) by (destruct C as [C1 C2]; split; [intros x y X Y; apply C1; auto|intros x X; apply C2; auto]).
  assert (G' : grouping (pieces_of subs) subs (map pieces_in subs)).
  { apply (grouping_again sorted) with (2 := G). apply Forall_forall. intros p P. split; [apply K, I, P|]. apply C'; assumption. }
  pose proof (all_comparable_again _ _ _ C' G) as CP.
  destruct (collect_spec sort' (pieces_of subs) S' CP) as (sorted2 & subs2 & groups2 & SS2 & E2 & G2).
  assert (SO : StronglySorted (fun x y => raw_lt y x = Ok false) (pieces_of subs)).
  { apply sorted_again; [|exact (collect_ordered sort l subs S C E)]. intros s IS.
    assert (X : exists p, In p l /\ s_from s = r_from p).
    { destruct G as (EG & F & _). rewrite <- EG in I. clear - F IS I. induction F as [|t g subs groups H F IH]; [destruct IS|]. cbn [map concat] in I. destruct IS as [->|IS].
      - destruct (holds_first _ _ H) as (p & rest & E & A & _). exists p. split; [apply I, in_or_app; left; rewrite E; now left|exact A].
      - apply IH; [|exact IS]. intros x X. apply I, in_or_app. now right. }
    destruct X as (p & P & ->). destruct C as [C _]. destruct (C p p P P) as ((x & L) & _). rewrite L. f_equal. now apply lt_irrefl in L. }
  rewrite (stably_sorted_unique _ _ _ (comparable_all _ CP) (strict_weak_all _ CP) SS2 (sorted_stays _ SO)) in G2.
  destruct (grouping_unique _ _ _ _ _ G2 G') as [<- _]. exact E2.
Qed.
