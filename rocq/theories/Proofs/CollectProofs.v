(** collect(): grouping of the sorted pieces. *)
From Coq Require Import List Bool Permutation Sorted ZArith Lia.
From Verif.Model Require Import Base TimeModel Types Collect.
From Verif.Spec Require Import Outcome TimeSpec SortSpec CollectSpec.
From Verif.Proofs Require Import TimeProofs SortProofs.
Import ListNotations.

(** ** Lists *)
Lemma update_last_app {A} (f : A -> A) l a : update_last f (l ++ [a]) = l ++ [f a].
Proof.
  induction l as [|b l IH]; [reflexivity|]. cbn [app update_last]. rewrite IH.
  destruct l; reflexivity.
Qed.
Lemma last_opt_app {A} (l : list A) a : last_opt (l ++ [a]) = Some a.
Proof. unfold last_opt. now rewrite rev_app_distr. Qed.

Lemma nd_extend R ls a la b lb : neighbours_differ R (ls ++ [a :: la]) -> ~ R a b ->
  neighbours_differ R (ls ++ [a :: la; b :: lb]).
Proof.
  induction ls as [|p ls IH]; intros H N; [now split|].
  destruct p as [|p ps]; [exact I|]. destruct ls as [|q ls].
  - cbn in *. tauto.
  - destruct q as [|q qs]; [exact I|]. cbn [app neighbours_differ] in *. destruct H as [H1 H2]. split; [exact H1|]. now apply IH.
Qed.
Lemma nd_tail R ls a la la' : neighbours_differ R (ls ++ [a :: la]) -> neighbours_differ R (ls ++ [a :: la']).
Proof.
  induction ls as [|p ls IH]; intros H; [exact I|].
  destruct p as [|p ps]; [exact I|]. destruct ls as [|q ls].
  - cbn in *. tauto.
  - destruct q as [|q qs]; [exact I|]. cbn [app neighbours_differ] in *. destruct H as [H1 H2]. split; [exact H1|]. now apply IH.
Qed.

(** ** same_metadata *)
Lemma opt_time_eq_true a b : opt_time_eq a b = Ok true <-> same_optional_time a b.
Proof. destruct a, b; cbn; intuition congruence. Qed.

Lemma subtitle_same_spec c i x p : s_from c = r_from p -> s_to c = r_to p -> s_fade_up c = r_fade_up p -> s_fade_down c = r_fade_down p ->
  subtitle_same c i = Ok x -> (x = true <-> same_times p i).
Proof.
  unfold subtitle_same, and_then, same_times. intros -> -> -> ->.
  rewrite <- !opt_time_eq_true.
  destruct (time_eq (r_from p) (r_from i)) as [[|]| |]; cbn [bind]; try discriminate; [|intros [= <-]; intuition congruence].
  destruct (time_eq (r_to p) (r_to i)) as [[|]| |]; cbn [bind]; try discriminate; [|intros [= <-]; intuition congruence].
  destruct (opt_time_eq (r_fade_up p) (r_fade_up i)) as [[|]| |]; cbn [bind]; try discriminate; [|intros [= <-]; intuition congruence].
  destruct (opt_time_eq (r_fade_down p) (r_fade_down i)) as [[|]| |]; try discriminate; intros [= <-]; intuition congruence.
Qed.

Lemma block_of_holds i : block_holds (block_of i) i.
Proof. repeat split. Qed.

Lemma subtitle_of_holds i : subtitle_holds (subtitle_of i) [[i]].
Proof.
  unfold subtitle_holds. cbn. repeat split; auto.
  repeat constructor.
Qed.

Lemma Forall2_last {A B} (R : A -> B -> Prop) l m b : Forall2 R l (m ++ [b]) ->
  exists l' a, l = l' ++ [a] /\ Forall2 R l' m /\ R a b.
Proof.
  intros H. apply Forall2_app_inv_r in H as (l1 & l2 & H1 & H2 & ->).
  inversion H2 as [|a x l3 y Ha Hn]; subst. inversion Hn; subst. eauto.
Qed.

Lemma add_piece_holds c g p rest i : concat g = p :: rest -> subtitle_holds c g -> same_times p i ->
  exists g', concat g' = concat g ++ [i] /\ subtitle_holds (add_piece c i) g'.
Proof.
  intros E H S. unfold subtitle_holds in H. rewrite E in H. destruct H as (H1 & H2 & H3 & H4 & HL & HF & HN).
  destruct g as [|g0 gt] using rev_ind; [discriminate E|]. clear IHgt.
  apply Forall2_last in HL as (ls & l & EL & HLs & Hl).
  destruct g0 as [|q qs]; [destruct Hl|].
  assert (HFi : Forall (same_times p) (rest ++ [i])) by (apply Forall_app; auto).
  unfold add_piece. rewrite EL, last_opt_app. destruct (line_same l i) eqn:LS.
  - exists (gt ++ [(q :: qs) ++ [i]]).
    assert (EC : concat (gt ++ [(q :: qs) ++ [i]]) = (p :: rest) ++ [i]).
    { rewrite <- E, !concat_app. cbn [concat]. now rewrite !app_nil_r, app_assoc. }
    split; [now rewrite EC, E|]. unfold subtitle_holds. rewrite EC. cbn [app s_from s_to s_fade_up s_fade_down s_lines].
    repeat (split; [assumption|]). split; [|split; [exact HFi | now apply (nd_tail _ _ _ qs)]].
    rewrite update_last_app. apply Forall2_app; [exact HLs|]. constructor; [|constructor].
    destruct Hl as (L1 & L2 & L3 & L4). unfold line_holds. cbn [app l_hpos l_vpos l_blocks]. repeat (split; [assumption|]).
    split.
    + change (q :: qs ++ [i]) with ((q :: qs) ++ [i]). apply Forall2_app; [exact L3|]. constructor; [apply block_of_holds|constructor].
    + apply Forall_app. split; [exact L4|]. constructor; [|constructor]. unfold line_same in LS. now rewrite <- L2.
  - exists (gt ++ [q :: qs; [i]]).
    assert (EC : concat (gt ++ [q :: qs; [i]]) = (p :: rest) ++ [i]).
    { rewrite <- E, !concat_app. cbn [concat]. now rewrite !app_nil_r, app_assoc. }
    split; [now rewrite EC, E|]. unfold subtitle_holds. rewrite EC. cbn [app s_from s_to s_fade_up s_fade_down s_lines].
    repeat (split; [assumption|]). split; [|split; [exact HFi|]].
    + rewrite <- app_assoc. apply Forall2_app; [exact HLs|]. constructor; [exact Hl|]. constructor; [|constructor].
      repeat split; cbn; auto. constructor; [apply block_of_holds|constructor].
    + apply nd_extend; [exact HN|]. destruct Hl as (_ & L2 & _). unfold line_same in LS. rewrite L2 in LS. congruence.
Qed.

Lemma holds_first c g : subtitle_holds c g -> exists p rest, concat g = p :: rest /\
  s_from c = r_from p /\ s_to c = r_to p /\ s_fade_up c = r_fade_up p /\ s_fade_down c = r_fade_down p.
Proof.
  unfold subtitle_holds. destruct (concat g) as [|p rest]; [intros []|]. intros (? & ? & ? & ? & _). eauto 10.
Qed.

Lemma loop_groups l : forall c g out gs subs,
  Forall2 subtitle_holds (out ++ [c]) (gs ++ [g]) ->
  neighbours_differ same_times (map (@concat raw) (gs ++ [g])) ->
  collect_loop l (Some c) out = Ok subs ->
  exists groups, Forall2 subtitle_holds subs groups /\ neighbours_differ same_times (map (@concat raw) groups) /\
    concat (map (@concat raw) groups) = concat (map (@concat raw) (gs ++ [g])) ++ l.
Proof.
  induction l as [|i t IH]; intros c g out gs subs HF HN HL.
  - cbn in HL. injection HL as <-. exists (gs ++ [g]). now rewrite app_nil_r.
  - cbn [collect_loop] in HL. destruct (subtitle_same c i) as [same| |] eqn:ES; try discriminate. cbn [bind] in HL.
    pose proof HF as HF'. apply Forall2_last in HF' as (ls & c' & EL & HLs & Hc).
    apply app_inj_tail in EL as [<- <-].
    destruct (holds_first _ _ Hc) as (p & rest & EC & F1 & F2 & F3 & F4).
    pose proof (subtitle_same_spec _ _ _ _ F1 F2 F3 F4 ES) as SS.
    rewrite map_app in HN. cbn [map] in HN. rewrite EC in HN.
    destruct same.
    + destruct (add_piece_holds c g p rest i EC Hc (proj1 SS eq_refl)) as (g' & EG & Hg').
      destruct (IH (add_piece c i) g' out gs subs) as (groups & G1 & G2 & G3); [| |exact HL|].
      * apply Forall2_app; [exact HLs|]. now constructor.
      * rewrite map_app. cbn [map]. rewrite EG, EC. cbn [app]. now apply (nd_tail _ _ _ rest).
      * exists groups. split; [exact G1|]. split; [exact G2|]. rewrite G3, !map_app, !concat_app. cbn [map concat].
        rewrite EG, !app_nil_r, <- !app_assoc. reflexivity.
    + destruct (IH (subtitle_of i) [[i]] (out ++ [c]) (gs ++ [g]) subs) as (groups & G1 & G2 & G3); [| |exact HL|].
      * apply Forall2_app; [exact HF|]. constructor; [apply subtitle_of_holds|constructor].
      * rewrite !map_app, <- app_assoc. cbn [map app]. rewrite EC. cbn [concat app]. apply nd_extend; [exact HN|].
        intros S. apply SS in S. discriminate.
      * exists groups. split; [exact G1|]. split; [exact G2|]. rewrite G3, !map_app, !concat_app. cbn [map concat].
        rewrite !app_nil_r, <- !app_assoc. reflexivity.
Qed.

Lemma collect_groups l subs : collect_loop l None [] = Ok subs -> exists groups, grouping l subs groups.
Proof.
  destruct l as [|i t]; intros H.
  - cbn in H. injection H as <-. exists []. repeat split; auto.
  - cbn [collect_loop] in H. destruct (loop_groups t (subtitle_of i) [[i]] [] [] subs) as (groups & G1 & G2 & G3); [..|exact H|].
    + constructor; [apply subtitle_of_holds|constructor].
    + exact I.
    + exists groups. split; [|split]; assumption.
Qed.

(** ** Termination with a value *)
Definition meta_of (c : subtitle) (p : raw) : Prop :=
  s_from c = r_from p /\ s_to c = r_to p /\ s_fade_up c = r_fade_up p /\ s_fade_down c = r_fade_down p.

Lemma add_piece_meta c i p : meta_of c p -> meta_of (add_piece c i) p.
Proof. unfold meta_of, add_piece. destruct (last_opt (s_lines c)) as [l|]; [destruct (line_same l i)|]; cbn; auto. Qed.

Lemma subtitle_same_returns l c p i : all_comparable l -> In p l -> In i l -> meta_of c p -> exists b, subtitle_same c i = Ok b.
Proof.
  intros [C _] Hp Hi (E1 & E2 & E3 & E4). unfold subtitle_same, and_then. rewrite E1, E2, E3, E4.
  destruct (C p i Hp Hi) as (_ & [b1 B1] & [b2 B2] & B3 & B4). rewrite B1. cbn [bind].
  destruct b1; [|eauto]. rewrite B2. cbn [bind]. destruct b2; [|eauto].
  assert (Q3 : exists b, opt_time_eq (r_fade_up p) (r_fade_up i) = Ok b).
  { destruct (r_fade_up p), (r_fade_up i); cbn in *; eauto. }
  assert (Q4 : exists b, opt_time_eq (r_fade_down p) (r_fade_down i) = Ok b).
  { destruct (r_fade_down p), (r_fade_down i); cbn in *; eauto. }
  destruct Q3 as [[|] ->]; cbn [bind]; eauto.
Qed.

Lemma loop_returns all l : forall c p out, all_comparable all -> In p all -> incl l all -> meta_of c p ->
  exists subs, collect_loop l (Some c) out = Ok subs.
Proof.
  induction l as [|i t IH]; intros c p out C Hp Hl M; [cbn; eauto|].
  cbn [collect_loop]. destruct (subtitle_same_returns all c p i C Hp) as [b ->]; [apply Hl; now left | exact M|].
  cbn [bind]. assert (Ht : incl t all) by (intros x Hx; apply Hl; now right). destruct b.
  - apply (IH _ p); auto. now apply add_piece_meta.
  - apply (IH _ i); auto. { apply Hl; now left. } repeat split.
Qed.

Lemma comparable_all l : all_comparable l -> comparable l.
Proof. intros [C _] x y Hx Hy. now destruct (C x y Hx Hy). Qed.
Lemma strict_weak_all l : all_comparable l -> strict_weak l.
Proof. intros [_ R]. now apply time_strict_weak. Qed.

Lemma collect_spec sort l : conforming sort -> all_comparable l ->
  exists sorted subs groups, stably_sorted l sorted /\ collect sort l = Ok subs /\ grouping sorted subs groups.
Proof.
  intros S C. destruct (sorts sort S l (comparable_all l C) (strict_weak_all l C)) as (l' & E & SS).
  unfold collect. rewrite E. cbn [bind].
  assert (R : exists subs, collect_loop l' None [] = Ok subs).
  { destruct l' as [|i t]; [cbn; eauto|]. cbn [collect_loop].
    assert (I : incl (i :: t) l) by (intros x Hx; destruct SS as [P _]; eapply Permutation_in; [symmetry; exact P | exact Hx]).
    apply (loop_returns l t _ i); auto; [apply I; now left | intros x Hx; apply I; now right | repeat split]. }
  destruct R as [subs R]. destruct (collect_groups _ _ R) as [groups G]. eauto 10.
Qed.

(** Independence of the sort: two conforming sorts give the same subtitles. *)
Lemma collect_unique sort1 sort2 l : conforming sort1 -> conforming sort2 -> all_comparable l -> collect sort1 l = collect sort2 l.
Proof.
  intros S1 S2 C. destruct (sorts _ S1 l (comparable_all l C) (strict_weak_all l C)) as (l1 & E1 & P1).
  destruct (sorts _ S2 l (comparable_all l C) (strict_weak_all l C)) as (l2 & E2 & P2).
  unfold collect. rewrite E1, E2.
  now rewrite (stably_sorted_unique l l1 l2 (comparable_all l C) (strict_weak_all l C) P1 P2).
Qed.

(** ** Mixtures of known and unknown rates *)
Lemma opt_eq_outcome a b e : opt_time_eq a b = Throw e -> e = EUnknownFrameRate.
Proof. destruct a, b; cbn; try discriminate. apply eq_outcome. Qed.
Lemma opt_eq_defined a b : optional_defined a b -> forall u, opt_time_eq a b <> Undef u.
Proof. destruct a, b; cbn; try discriminate. auto. Qed.

Lemma subtitle_same_cases l c p i : all_defined l -> In p l -> In i l -> meta_of c p ->
  (exists b, subtitle_same c i = Ok b /\ ~ mixed_rates (r_from p) (r_from i)) \/ subtitle_same c i = Throw EUnknownFrameRate.
Proof.
  intros [D _] Hp Hi (E1 & E2 & E3 & E4). unfold subtitle_same, and_then. rewrite E1, E2, E3, E4.
  destruct (D p i Hp Hi) as (_ & D1 & D2 & D3 & D4).
  destruct (eq_outcome (r_from p) (r_from i)) as [M1 M2].
  destruct (time_eq (r_from p) (r_from i)) as [b1|e|u]; cbn [bind];
    [|right; f_equal; now apply M2 | exfalso; now apply (D1 u)].
  assert (NM : ~ mixed_rates (r_from p) (r_from i)) by (intros M; apply M1 in M; discriminate).
  destruct b1; [|left; eauto].
  destruct (eq_outcome (r_to p) (r_to i)) as [_ M3].
  destruct (time_eq (r_to p) (r_to i)) as [b2|e|u]; cbn [bind];
    [|right; f_equal; now apply M3 | exfalso; now apply (D2 u)].
  destruct b2; [|left; eauto].
  pose proof (opt_eq_outcome (r_fade_up p) (r_fade_up i)) as O1. pose proof (opt_eq_defined _ _ D3) as O2.
  destruct (opt_time_eq (r_fade_up p) (r_fade_up i)) as [b3|e|u]; cbn [bind];
    [|right; f_equal; now apply O1 | exfalso; now apply (O2 u)].
  destruct b3; [|left; eauto].
  pose proof (opt_eq_outcome (r_fade_down p) (r_fade_down i)) as O3. pose proof (opt_eq_defined _ _ D4) as O4.
  destruct (opt_time_eq (r_fade_down p) (r_fade_down i)) as [b4|e|u];
    [left; eauto | right; f_equal; now apply O3 | exfalso; now apply (O4 u)].
Qed.

Lemma rate_dec t : has_rate t \/ ~ has_rate t.
Proof. unfold has_rate. destruct (t_rate t); [left|right]; congruence. Qed.
Lemma mixed_trans a b c : ~ mixed_rates a b -> mixed_rates a c -> mixed_rates b c.
Proof. unfold mixed_rates. destruct (rate_dec a), (rate_dec b), (rate_dec c); tauto. Qed.
Lemma not_mixed a b : ~ mixed_rates a b \/ mixed_rates a b.
Proof. unfold mixed_rates. destruct (rate_dec a), (rate_dec b); tauto. Qed.

Lemma loop_mixed all l : forall c p out, all_defined all -> In p all -> incl l all -> meta_of c p ->
  (exists q, In q l /\ mixed_rates (r_from p) (r_from q)) ->
  collect_loop l (Some c) out = Throw EUnknownFrameRate.
Proof.
  induction l as [|i t IH]; intros c p out C Hp Hl M (q & Hq & MX); [destruct Hq|].
  assert (Hi : In i all) by (apply Hl; now left).
  assert (Ht : incl t all) by (intros x Hx; apply Hl; now right).
  cbn [collect_loop]. destruct (subtitle_same_cases all c p i C Hp Hi M) as [(b & -> & NM)| ->]; [|reflexivity].
  cbn [bind]. destruct Hq as [<-|Hq]; [contradiction|]. destruct b.
  - apply (IH _ p); auto; [now apply add_piece_meta | eauto].
  - apply (IH _ i); auto; [repeat split | exists q; split; [exact Hq|]; now apply (mixed_trans (r_from p))].
Qed.

Lemma collect_mixed sort l x y : conforming sort -> all_defined l -> In x l -> In y l -> mixed_rates (r_from x) (r_from y) ->
  collect sort l = Throw EUnknownFrameRate.
Proof.
  intros S D Hx Hy MX. pose proof D as [D1 R]. pose proof (time_strict_weak l R) as W.
  unfold collect. destruct (sort l) as [l'|e|u] eqn:E; cbn [bind].
  - assert (P : Permutation l l').
    { apply (permutes _ S _ _ E W). intros a b Ha Hb. now destruct (D1 a b Ha Hb). }
    assert (I : incl l' l) by (intros z Hz; eapply Permutation_in; [symmetry; exact P | exact Hz]).
    apply (Permutation_in x P) in Hx. apply (Permutation_in y P) in Hy.
    destruct l' as [|i t]; [destruct Hx|]. cbn [collect_loop].
    apply (loop_mixed l t _ i); auto; [apply I; now left | intros z Hz; apply I; now right | repeat split|].
    destruct (not_mixed (r_from i) (r_from x)) as [N|N].
    + pose proof (mixed_trans (r_from x) (r_from i) (r_from y)) as T.
      assert (MI : mixed_rates (r_from i) (r_from y)).
      { apply T; [|exact MX]. intros Q. apply N. revert Q. unfold mixed_rates. tauto. }
      destruct Hy as [<-|Hy]; [|eauto]. exfalso. revert MI. unfold mixed_rates. tauto.
    + destruct Hx as [<-|Hx]; [|eauto]. exfalso. revert N. unfold mixed_rates. tauto.
  - destruct (throws_only _ S _ _ E) as (a & b & _ & _ & L). f_equal. now apply (lt_outcome (r_from a) (r_from b)).
  - destruct (undefined_only _ S _ _ E) as [N|(a & b & u' & Ha & Hb & L)]; [contradiction|].
    destruct (D1 a b Ha Hb) as (N & _). exfalso. now apply (N u').
Qed.

(** ** Merging *)
Lemma eq_from_not_lt a b x : time_eq a b = Ok true -> time_lt a b = Ok x -> x = false.
Proof.
  intros E L. destruct x; [exfalso|reflexivity]. apply eq_key in E as [E _]. apply lt_key in L as [L _].
  specialize (E eq_refl). specialize (L eq_refl). destruct E as [E1 E2], L as [L|[_ L]]; [lia|].
  destruct (t_rate a), (t_rate b); try contradiction; lia.
Qed.
Lemma not_lt_eq a b x y z : time_lt a b = Ok x -> time_lt b a = Ok y -> time_eq a b = Ok z -> x = false -> y = false -> z = true.
Proof.
  intros L1 L2 E -> ->. pose proof (trichotomy a b false z false L1 E) as T. rewrite gt_is_lt in T. specialize (T L2).
  destruct T as [(? & _ & _)|[(_ & -> & _)|(_ & _ & ?)]]; congruence.
Qed.

Lemma sorted_app {A} (R : A -> A -> Prop) a b : StronglySorted R (a ++ b) -> forall x y, In x a -> In y b -> R x y.
Proof.
  induction a as [|h a IH]; intros S x y Hx Hy; [destruct Hx|].
  apply StronglySorted_inv in S as [S F]. destruct Hx as [<-|Hx]; [|now apply IH].
  rewrite Forall_forall in F. apply F. apply in_or_app. now right.
Qed.
Lemma sorted_head {A} (R : A -> A -> Prop) a b : StronglySorted R (a ++ b) -> StronglySorted R b.
Proof. induction a as [|h a IH]; intros S; [exact S|]. apply IH. now apply StronglySorted_inv in S. Qed.

Lemma nd_app R ls ms : (forall l, In l ls -> l <> []) -> neighbours_differ R (ls ++ ms) -> neighbours_differ R ms.
Proof.
  induction ls as [|l ls IH]; intros N H; [exact H|].
  destruct l as [|p l]; [exfalso; apply (N []); [now left | reflexivity]|].
  assert (N' : forall l, In l ls -> l <> []) by (intros k Hk; apply N; now right).
  apply IH; [exact N'|]. cbn [app] in H. destruct (ls ++ ms) as [|[|q m] r] eqn:E.
  - exact I.
  - exact I.
  - now destruct H.
Qed.

Lemma grouping_merged l subs groups : all_comparable l -> starts_agree l ->
  StronglySorted (fun x y => raw_lt y x = Ok false) l -> grouping l subs groups -> fully_merged groups.
Proof.
  intros C A S (EC & F & N) before g1 between g2 after p q -> Hp Hq ST.
  (* all groups are non-empty *)
  assert (NE : forall g, In g (before ++ g1 :: between ++ g2 :: after) -> concat g <> []).
  { intros g Hg. clear - F Hg. revert Hg. induction F as [|s h ss hs H F IH]; intros Hg; [destruct Hg|].
    destruct Hg as [<-|Hg]; [|now apply IH]. unfold subtitle_holds in H. destruct (concat h); [destruct H | discriminate]. }
  assert (In1 : forall g x, In g (before ++ g1 :: between ++ g2 :: after) -> In x (concat g) -> In x l).
  { intros g x Hg Hx. rewrite <- EC. apply in_concat. exists (concat g). split; [|exact Hx]. now apply in_map. }
  (* the group after g1 *)
  assert (NG : exists g3 rest3, between ++ g2 :: after = g3 :: rest3 /\
                forall z, In z (concat g3) -> raw_lt q z = Ok false \/ In q (concat g3)).
  { destruct between as [|g3 between].
    - exists g2, after. split; [reflexivity|]. auto.
    - exists g3, (between ++ g2 :: after). split; [reflexivity|]. intros z Hz. left.
      rewrite map_app, concat_app in EC. cbn [map concat] in EC. rewrite <- EC in S.
      apply sorted_head in S. apply sorted_head in S. cbn [map app concat] in S. revert S. rewrite map_app. intros S.
      cbn [concat] in S. refine (sorted_app _ _ _ S z q Hz _).
      rewrite concat_app. apply in_or_app. right. cbn [map concat]. apply in_or_app. now left. }
  destruct NG as (g3 & rest3 & E3 & H3).
  assert (I3 : In g3 (before ++ g1 :: between ++ g2 :: after)) by (rewrite E3; apply in_or_app; right; right; now left).
  assert (I1 : In g1 (before ++ g1 :: between ++ g2 :: after)) by (apply in_or_app; right; now left).
  assert (I2 : In g2 (before ++ g1 :: between ++ g2 :: after)) by (apply in_or_app; right; right; apply in_or_app; right; now left).
  destruct (concat g1) as [|a ra] eqn:E1; [destruct Hp|].
  destruct (concat g3) as [|b rb] eqn:Eg3; [now apply (NE g3) in Eg3|].
  assert (Ia : In a l) by (apply (In1 g1); [exact I1 | rewrite E1; now left]).
  assert (Ib : In b l) by (apply (In1 g3); [exact I3 | rewrite Eg3; now left]).
  assert (Ip : In p l) by (apply (In1 g1); [exact I1 | now rewrite E1]).
  assert (Iq : In q l) by (now apply (In1 g2)).
  pose proof C as [C1 C2].
  (* b is not before p, q is not before b *)
  assert (L1 : raw_lt b p = Ok false).
  { rewrite map_app, concat_app in EC. cbn [map concat] in EC. rewrite <- EC in S.
    apply sorted_head in S. refine (sorted_app _ _ _ S p b _ _); [now rewrite E1|].
    rewrite E3. cbn [map concat]. apply in_or_app. left. rewrite Eg3. now left. }
  assert (L2 : raw_lt q b = Ok false).
  { destruct (H3 b (or_introl eq_refl)) as [H|H]; [exact H|].
    (* q is in the same group as b *)
    assert (Same : same_times b b \/ True) by now right.
    assert (HG : exists s, In s subs /\ subtitle_holds s g3).
    { clear - F I3. induction F as [|s h ss hs H F IH]; [destruct I3|]. destruct I3 as [->|I3].
      - exists s. split; [now left | exact H].
      - destruct (IH I3) as (s' & Hs & Hh). exists s'. split; [now right | exact Hh]. }
    destruct HG as (s & _ & HG). unfold subtitle_holds in HG. rewrite Eg3 in HG.
    destruct HG as (_ & _ & _ & _ & _ & FS & _).
    destruct H as [<-|H].
    - destruct (C1 b b Ib Ib) as ([x X] & _). unfold raw_lt. rewrite X. now rewrite (lt_irrefl _ _ X).
    - rewrite Forall_forall in FS. destruct (FS q H) as [EF _].
      destruct (C1 q b Iq Ib) as ([x X] & _). unfold raw_lt. rewrite X. f_equal.
      destruct x; [exfalso|reflexivity]. apply eq_key in EF as [EF _]. apply lt_key in X as [X _].
      specialize (EF eq_refl). specialize (X eq_refl). destruct EF as [K1 K2], X as [X|[_ X]]; [lia|].
      destruct (t_rate (r_from b)), (t_rate (r_from q)); try contradiction; lia. }
  (* hence a and b start together *)
  assert (Eab : time_eq (r_from a) (r_from b) = Ok true).
  { assert (G1 : exists s, In s subs /\ subtitle_holds s g1).
    { clear - F I1. induction F as [|s h ss hs H F IH]; [destruct I1|]. destruct I1 as [->|I1].
      - exists s. split; [now left | exact H].
      - destruct (IH I1) as (s' & Hs & Hh). exists s'. split; [now right | exact Hh]. }
    destruct G1 as (s & _ & HG). unfold subtitle_holds in HG. rewrite E1 in HG.
    destruct HG as (_ & _ & _ & _ & _ & FS & _).
    assert (Lpa : time_lt (r_from p) (r_from a) = Ok false /\ time_lt (r_from a) (r_from p) = Ok false).
    { destruct (C1 p a Ip Ia) as ([x X] & _). destruct (C1 a p Ia Ip) as ([y Y] & _). rewrite X, Y.
      destruct Hp as [<-|Hp].
      - now rewrite (lt_irrefl _ _ X), (lt_irrefl _ _ Y).
      - rewrite Forall_forall in FS. destruct (FS p Hp) as [EF _]. split; f_equal.
        + destruct x; [exfalso|reflexivity]. apply eq_key in EF as [EF _]. apply lt_key in X as [X _].
          specialize (EF eq_refl). specialize (X eq_refl). destruct EF as [K1 K2], X as [X|[_ X]]; [lia|].
          destruct (t_rate (r_from a)), (t_rate (r_from p)); try contradiction; lia.
        + now apply (eq_from_not_lt _ _ _ EF Y). }
    destruct Lpa as [Lpa Lap].
    assert (Lpq : time_lt (r_from p) (r_from q) = Ok false).
    { destruct ST as [EF _]. destruct (C1 p q Ip Iq) as ([x X] & _). rewrite X. f_equal. now apply (eq_from_not_lt _ _ _ EF X). }
    destruct (C1 a b Ia Ib) as ([x X] & [z Z] & _). destruct (C1 b a Ib Ia) as ([y Y] & _).
    rewrite Z. f_equal. apply (not_lt_eq _ _ x y z X Y Z).
    - (* a <= p = q, not q < b -> not a < b : use negative transitivity a p, p q, q b *)
      destruct (C1 a q Ia Iq) as ([w Wq] & _).
      assert (w = false) as -> by (eapply (lt_negtrans (r_from a) (r_from p) (r_from q)); eauto).
      eapply (lt_negtrans (r_from a) (r_from q) (r_from b)); eauto.
    - eapply (lt_negtrans (r_from b) (r_from p) (r_from a)); eauto. }
  assert (Sab : same_times a b) by now apply A.
  revert N. rewrite E3, !map_app. cbn [map]. rewrite E1, Eg3. intros N. apply nd_app in N.
  - cbn in N. destruct N as [N _]. now apply N.
  - intros k Hk. apply in_map_iff in Hk as (g & <- & Hg). apply NE. apply in_or_app. now left.
Qed.

(** ** Final forms *)
Lemma line_blocks ls g : Forall2 line_holds ls g -> Forall2 block_holds (concat (map l_blocks ls)) (concat g).
Proof.
  induction 1 as [|l ps ls g H F IH]; [constructor|]. cbn [map concat]. apply Forall2_app; [|exact IH].
  destruct ps; [destruct H | now destruct H as (_ & _ & H & _)].
Qed.
Lemma subtitle_lines s g : subtitle_holds s g -> Forall2 line_holds (s_lines s) g.
Proof. unfold subtitle_holds. destruct (concat g); [intros []|]. now intros (_ & _ & _ & _ & H & _). Qed.
Lemma sub_blocks subs groups : Forall2 subtitle_holds subs groups ->
  Forall2 block_holds (concat (map l_blocks (concat (map s_lines subs)))) (concat (map (@concat raw) groups)).
Proof.
  induction 1 as [|s g subs groups H F IH]; [constructor|]. cbn [map concat].
  rewrite map_app, concat_app. apply Forall2_app; [|exact IH]. apply line_blocks. now apply subtitle_lines.
Qed.

Lemma collect_conserves sort l : conforming sort -> all_comparable l ->
  exists sorted subs, stably_sorted l sorted /\ collect sort l = Ok subs /\
    Forall2 block_holds (concat (map l_blocks (concat (map s_lines subs)))) sorted.
Proof.
  intros S C. destruct (collect_spec sort l S C) as (sorted & subs & groups & SS & E & (EG & F & _)).
  exists sorted, subs. split; [exact SS|]. split; [exact E|]. rewrite <- EG. now apply sub_blocks.
Qed.

Lemma collect_nonempty sort l subs : conforming sort -> all_comparable l -> collect sort l = Ok subs ->
  Forall (fun s => s_lines s <> [] /\ Forall (fun k => l_blocks k <> []) (s_lines s)) subs.
Proof.
  intros S C E. destruct (collect_spec sort l S C) as (sorted & subs' & groups & SS & E' & (EG & F & _)).
  rewrite E in E'. injection E' as <-. clear - F. induction F as [|s g subs groups H F IH]; constructor; [|exact IH].
  pose proof (subtitle_lines _ _ H) as L. split.
  - intros Z. rewrite Z in L. inversion L; subst. exact H.
  - clear - L. induction L as [|k ps ks g Hk L IH]; constructor; [|exact IH].
    destruct ps; [destruct Hk|]. destruct Hk as (_ & _ & B & _). intros Z. rewrite Z in B. inversion B.
Qed.

Lemma groups_sorted subs groups : Forall2 subtitle_holds subs groups ->
  StronglySorted (fun x y => raw_lt y x = Ok false) (concat (map (@concat raw) groups)) ->
  StronglySorted (fun s t => time_lt (s_from t) (s_from s) = Ok false) subs.
Proof.
  induction 1 as [|s g subs groups H F IH]; intros S; [constructor|].
  cbn [map concat] in S. constructor; [apply IH; now apply sorted_head in S|].
  destruct (holds_first _ _ H) as (p & rest & E & -> & _). rewrite E in S.
  apply Forall_forall. intros t Ht.
  assert (X : exists g', In g' groups /\ subtitle_holds t g').
  { clear - F Ht. induction F as [|s g subs groups H F IH]; [destruct Ht|]. destruct Ht as [->|Ht].
    - exists g. split; [now left | exact H].
    - destruct (IH Ht) as (g' & I & H'). exists g'. split; [now right | exact H']. }
  destruct X as (g' & I & H'). destruct (holds_first _ _ H') as (q & rest' & E' & -> & _).
  refine (sorted_app _ _ _ S p q (or_introl eq_refl) _).
  apply in_concat. exists (concat g'). split; [now apply in_map|]. rewrite E'. now left.
Qed.
Lemma collect_ordered sort l subs : conforming sort -> all_comparable l -> collect sort l = Ok subs ->
  StronglySorted (fun s t => time_lt (s_from t) (s_from s) = Ok false) subs.
Proof.
  intros S C E. destruct (collect_spec sort l S C) as (sorted & subs' & groups & (_ & SS & _) & E' & (EG & F & _)).
  rewrite E in E'. injection E' as <-. apply (groups_sorted _ groups F). now rewrite EG.
Qed.

Lemma collect_merges sort l : conforming sort -> all_comparable l -> starts_agree l ->
  exists sorted subs groups, stably_sorted l sorted /\ collect sort l = Ok subs /\ grouping sorted subs groups /\
    fully_merged groups.
Proof.
  intros S C A. destruct (collect_spec sort l S C) as (sorted & subs & groups & SS & E & G).
  exists sorted, subs, groups. repeat (split; [assumption|]). pose proof SS as (P & SO & _).
  assert (I : forall x, In x sorted -> In x l) by (intros x Hx; eapply Permutation_in; [symmetry; exact P | exact Hx]).
  apply (grouping_merged sorted subs); auto.
  - destruct C as [C1 C2]. split; [intros x y Hx Hy; apply C1; auto | intros x Hx; apply C2; auto].
  - intros p q Hp Hq. apply A; auto.
Qed.

(** Pieces for the examples. *)
Definition piece (from to : Z) (v : option Z) (t : str) : raw :=
  set_line v (set_lines (Some 25%Z) (set_vref (Some TOP_OF_SCREEN)
    (set_text t (set_from (mkT from 0 (Some (mkR 1000 1))) (set_to (mkT to 0 (Some (mkR 1000 1))) raw_default))))).

Fixpoint pairs_ok (l : list raw) (m : list raw) : bool :=
  match m with
  | [] => true
  | x :: m' => forallb (fun y => match time_lt (r_from x) (r_from y), time_eq (r_from x) (r_from y), time_eq (r_to x) (r_to y),
                                       opt_time_eq (r_fade_up x) (r_fade_up y), opt_time_eq (r_fade_down x) (r_fade_down y)
                                 with Ok _, Ok _, Ok _, Ok _, Ok _ => true | _, _, _, _, _ => false end) l && pairs_ok l m'
  end.
Definition rates_ok (l : list raw) : bool :=
  forallb (fun x => match t_rate (r_from x) with Some r => Z.ltb 0 (den r) | None => true end) l.
Lemma comparable_check l : pairs_ok l l && rates_ok l = true -> all_comparable l.
Proof.
  intros H. apply andb_true_iff in H as [H R]. split.
  - assert (G : forall m, pairs_ok l m = true -> forall x y, In x m -> In y l ->
      returns (time_lt (r_from x) (r_from y)) /\ returns (time_eq (r_from x) (r_from y)) /\
      returns (time_eq (r_to x) (r_to y)) /\
      optional_returns (r_fade_up x) (r_fade_up y) /\ optional_returns (r_fade_down x) (r_fade_down y)).
    { induction m as [|z m IH]; intros P x y Hx Hy; [destruct Hx|]. cbn in P. apply andb_true_iff in P as [P Q].
      destruct Hx as [->|Hx]; [|now apply IH]. rewrite forallb_forall in P. specialize (P y Hy).
      destruct (time_lt (r_from x) (r_from y)); try discriminate.
      destruct (time_eq (r_from x) (r_from y)); try discriminate.
      destruct (time_eq (r_to x) (r_to y)); try discriminate.
      unfold returns, optional_returns, opt_time_eq in *.
      destruct (r_fade_up x), (r_fade_up y), (r_fade_down x), (r_fade_down y); cbn iota in *;
       repeat match type of P with context [time_eq ?a ?b] => destruct (time_eq a b); try discriminate end;
       (split; [eauto|split; [eauto|split; [eauto|split; unfold returns; eauto]]]). }
    intros x y. now apply G.
  - intros x Hx. unfold rates_ok in R. rewrite forallb_forall in R. specialize (R x Hx).
    intros r E. rewrite E in R. now apply Z.ltb_lt.
Qed.

Lemma interleaved : exists l s1 s2 s3, all_comparable l /\
  (forall sort, conforming sort -> collect sort l = Ok [s1; s2; s3]) /\
  time_eq (s_from s1) (s_from s3) = Ok true /\ time_eq (s_to s1) (s_to s3) = Ok true /\
  s_fade_up s1 = None /\ s_fade_up s3 = None /\ s_fade_down s1 = None /\ s_fade_down s3 = None.
Proof.
  set (l := [piece 0 1 (Some 1%Z) []; piece 0 2 (Some 1%Z) []; piece 0 1 (Some 1%Z) []]).
  assert (C : all_comparable l) by (apply comparable_check; vm_compute; reflexivity).
  do 4 eexists. split; [exact C|]. split.
  - intros sort S. rewrite (collect_unique sort insertion_sort l S insertion_sort_conforming C).
    vm_compute. reflexivity.
  - repeat split.
Qed.
