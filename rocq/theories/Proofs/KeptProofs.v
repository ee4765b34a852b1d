(** What is converted to a binary STL file is kept. *)
From Coq Require Import ZArith QArith Reals Lia List Bool Ascii String Permutation.
From Verif.Model Require Import Base Strings Float TimeModel Types Collect StlUtil StlBinReader StlBinWriter Ssa.
From Verif.Spec Require Import Outcome TextSpec TimeSpec Utf8Spec Iso6937Spec SortSpec CollectSpec StlFileSpec StlWriteSpec StlRoundTripSpec SsaUseSpec CollectReadSpec ConvertSpec.
From Verif.Proofs Require Import SortProofs CollectProofs UtfProofs Iso6937Proofs StlFileProofs StlWriterProofs StlUseProofs StlRoundTripProofs LongTextProofs CollectReadProofs ConvertProofs LoadSaveProofs.
Import ListNotations.
Local Open Scope Z_scope.
Local Notation length := List.length.

(** * Characters and times together *)

Lemma moved_text rs rs' d parts : Forall2 (moved_up d) rs rs' -> Forall2 (fun r t => utf8 (r_text r) t) rs parts -> Forall2 (fun r t => utf8 (r_text r) t) rs' parts.
Proof. intros M. revert parts. induction M as [|r r' rs rs' (row & k & _ & ->) _ IH]; intros parts U; inversion U; subst; constructor; [assumption|now apply IH]. Qed.

Lemma both_back h h' k a ss file : In k [24; 25; 30] -> w_fps a = f_of_int k -> acceptable (k * 1000) a ss -> Forall no_lone_marks ss ->
  Forall (fun s => time_small (s_from s) /\ time_small (s_to s)) ss -> snd (write_stl_binary ss a (after h)) = Ok file ->
  Z.of_nat (length file) < 1024 + 128 * 100000 -> none_cut file ->
  exists g groups, snd (stl_binary_read file (after h')) = Ok (g, List.concat groups) /\
    Forall2 (fun s rs => same_characters s rs /\ StlRoundTripSpec.same_times k s rs) ss groups.
Proof.
  intros K FP A NM TS W SZ NC. destruct (any_back h h' _ a ss file A W SZ) as (dfc & head & rowss & blockss & g & d & groups & groups' & DF & IR & (EF & LH & HR & SB) & LF & HB & RD & FB & MV & PO).
  exists g, groups'. split; [exact RD|]. rewrite FP in DF. pose proof (whole_format k dfc _ K DF IR) as FR. assert (WR : Forall writable ss) by apply A.
  assert (KB : 0 < k < 256) by (destruct K as [<-|[<-|[<-|[]]]]; lia).
  assert (BL : Forall (fun b : str => length b = 128%nat) (List.concat blockss)).
  { clear - SB. induction SB as [|sr bs srs bss B _ IH]; cbn [List.concat]; [constructor|]. apply Forall_app. split; [exact (blocks_128 _ _ _ _ B)|exact IH]. }
  assert (N : forall b v, In b (List.concat blockss) -> byte_at b 127 v -> ~ is_accent_byte v).
  { intros b v I. destruct (block_in head (List.concat blockss) b LH BL I) as (j & J). rewrite <- EF in J. exact (NC j b v J). }
  clear - NM HR SB FB MV N PO TS WR KB FR. revert blockss groups groups' SB FB MV N PO. induction HR as [|s rows ss rowss HR1 HR IH]; intros blockss groups groups' SB FB MV N PO.
  - inversion SB; subst. inversion FB; subst. inversion MV; subst. constructor.
  - cbn [combine] in SB. inversion SB as [|? bs ? bss B1 B2]; subst. inversion FB as [|? rs ? gs F1 F2]; subst. inversion MV as [|? rs' ? gs' M1 M2]; subst. inversion NM as [|? ? N1 N2]; subst.
    inversion PO as [|? ? ? ? P1 P2]; subst. inversion TS as [|? ? [TS1 TS2] TS']; inversion WR as [|? ? (_ & W1 & W2 & _) WR']; subst.
    cbn [fst snd List.concat] in *. constructor; [split|].
    + destruct (subtitle_back (frame_rate g * 1000) g s rows bs rs B1) as (w & TW & parts & U & EW); try assumption.
      * destruct HR1 as [HR1 _]. exact (Forall2_len _ _ _ HR1).
      * intros b v I. apply N. apply in_or_app. now left.
      * exists w. split; [exact TW|]. exists parts. split; [exact (moved_text _ _ _ _ M1 U)|exact EW].
    + destruct P1 as (h1 & m1 & s1 & f1 & h2 & m2 & s2 & f2 & first & T1 & T2 & _ & CM).
      destruct (time_back _ _ _ _ _ _ KB W1 TS1 T1) as [C1 E1]. destruct (time_back _ _ _ _ _ _ KB W2 TS2 T2) as [C2 E2].
      clear - M1 CM C1 E1 C2 E2. induction M1 as [|r r' rs rs' X _ IH]; constructor; inversion CM as [|? ? (RF & RT & _) CM']; subst; [|now apply IH].
      destruct (moved_times _ _ _ X) as [-> ->]. rewrite RF, RT. auto.
    + apply (IH N2 TS' WR' bss gs gs'); try assumption. intros b v I. apply N. apply in_or_app. now right.
Qed.

(** * What is shown *)

Lemma shown_texts rs parts : Forall2 (fun r t => utf8 (r_text r) t) rs parts -> exists xs, all_shown rs xs /\ map snd xs = List.concat parts /\
  forall Q : time -> time -> Prop, Forall (fun r => Q (r_from r) (r_to r)) rs -> Forall (fun x => Q (fst (fst x)) (snd (fst x))) xs.
Proof.
  intros F. induction F as [|r w rs parts U F IH].
  - exists []. split; [exists []; now split|]. split; [reflexivity|]. constructor.
  - destruct IH as (xs & (ps & S & ->) & M & H). exists (map (fun c => (r_from r, r_to r, c)) w ++ List.concat ps). split; [|split].
    + exists (map (fun c => (r_from r, r_to r, c)) w :: ps). split; [|reflexivity]. constructor; [|exact S]. now exists w.
    + rewrite map_app, M, map_map. cbn [snd List.concat]. now rewrite map_id.
    + intros Q A. inversion A; subst. apply Forall_app. split; [|now apply H]. rewrite Forall_map. apply Forall_forall. intros x _. assumption.
Qed.
Lemma all_shown_app a b x y : all_shown a x -> all_shown b y -> all_shown (a ++ b) (x ++ y).
Proof. intros (p & F & ->) (q & G & ->). exists (p ++ q). split; [now apply Forall2_app|now rewrite concat_app]. Qed.
(** Cutting a list where its image is cut. *)
Lemma cut_like {A B : Type} (f : A -> B) parts : forall l, map f l = List.concat parts -> exists ls, List.concat ls = l /\ map (map f) ls = parts.
Proof.
  induction parts as [|p parts IH]; intros l E.
  - cbn in E. apply map_eq_nil in E. subst. exists []. split; reflexivity.
  - cbn [List.concat] in E. apply map_eq_app in E. destruct E as (l1 & l2 & -> & E1 & E2). destruct (IH l2 E2) as (ls & <- & <-). exists (l1 :: ls). split; [reflexivity|]. cbn. now rewrite E1.
Qed.
Lemma pairs_kept k f t xs : forall yss, Forall2 survives (map snd xs) (map (map snd) yss) -> Forall (fun x => fst (fst x) = f /\ snd (fst x) = t) xs ->
  Forall (fun y => at_frames k f (fst (fst y)) /\ at_frames k t (snd (fst y))) (List.concat yss) -> Forall2 (kept k) xs yss.
Proof.
  induction xs as [|x xs IH]; intros [|ys yss] S A B; cbn [map] in S; inversion S as [|? ? ? ? S1 S2]; subst; [constructor|].
  inversion A as [|? ? (A1 & A2) A3]; subst. cbn [List.concat] in B. apply Forall_app in B. destruct B as [B1 B2]. constructor; [|now apply IH]. split; [exact S1|exact B1].
Qed.

(** * One subtitle *)

Lemma same_rate_eq tr a b : 0 < num tr -> 0 < den tr -> t_rate a = Some tr -> t_rate b = Some tr -> time_eq a b = Ok true -> a = b.
Proof.
  intros N D RA RB E. unfold time_eq in E. rewrite RA, RB in E. destruct a as [sa fa ra], b as [sb fb rb]. cbn [t_seconds t_frames t_rate] in *.
  destruct (negb (sa =? sb)) eqn:S; [discriminate|]. apply negb_false_iff, Z.eqb_eq in S.
  unfold imul3, imul, chk in E. destruct (in_int (fa * num tr)); [|discriminate]. cbn [bind] in E. destruct (in_int (fa * num tr * den tr)); [|discriminate]. cbn [bind] in E.
  destruct (in_int (fb * num tr)); [|discriminate]. cbn [bind] in E. destruct (in_int (fb * num tr * den tr)); [|discriminate]. cbn [bind] in E.
  apply Ok_inj, Z.eqb_eq in E. apply Z.mul_reg_r in E; [|lia]. apply Z.mul_reg_r in E; [|lia]. congruence.
Qed.
Lemma group_times tr s grp : 0 < num tr -> 0 < den tr -> subtitle_holds s grp -> Forall (times_at tr) (List.concat grp) ->
  Forall2 line_holds (s_lines s) grp /\ Forall (fun r => r_from r = s_from s /\ r_to r = s_to s) (List.concat grp) /\ time_small (s_from s) /\ time_small (s_to s).
Proof.
  intros N D H G. unfold subtitle_holds in H. destruct (List.concat grp) as [|p rest] eqn:E; [destruct H|]. destruct H as (F & T & _ & _ & L & ST & _).
  split; [exact L|]. pose proof (Forall_inv G) as (GF & GT & SF & SO). split; [|now rewrite F, T].
  constructor; [now rewrite F, T|]. rewrite Forall_forall in *. intros q I. destruct (ST q I) as (S1 & S2 & _). destruct (G q (or_intror I)) as (QF & QT & _).
  rewrite F, T. split; symmetry; apply (same_rate_eq tr); assumption.
Qed.
Lemma blocks_texts ls grp texts : Forall2 line_holds ls grp -> Forall2 (fun b t => utf8 (b_text b) t) (List.concat (map l_blocks ls)) texts ->
  Forall2 (fun r t => utf8 (r_text r) t) (List.concat grp) texts.
Proof.
  intros H. revert texts. induction H as [|l ps ls grp H _ IH]; intros texts F; cbn [map List.concat] in *; [inversion F; constructor|].
  apply Forall2_app_inv_l in F. destruct F as (t1 & t2 & F1 & F2 & ->). apply Forall2_app; [|now apply IH].
  unfold line_holds in H. destruct ps as [|p ps]; [destruct H|]. destruct H as (_ & _ & B & _). clear - B F1. revert t1 F1. induction B as [|b q bs qs (T & _) _ IH]; intros t1 F1; inversion F1; subst; constructor; [now rewrite <- T|now apply IH].
Qed.
Lemma group_marks s grp : Forall2 line_holds (s_lines s) grp -> Forall without_marks (List.concat grp) -> no_lone_marks s.
Proof.
  intros H G l b w c IL IB U IC. destruct (Forall2_left _ _ _ l H IL) as (ps & IP & LH).
  unfold line_holds in LH. destruct ps as [|p ps]; [destruct LH|]. destruct LH as (_ & _ & BH & _). destruct (Forall2_left _ _ _ b BH IB) as (q & IQ & (T & _)).
  rewrite Forall_forall in G. assert (I : In q (List.concat grp)) by (apply in_concat; eauto). rewrite T in U. exact (G q I w c U IC).
Qed.
Lemma group_kept k tr s grp rs : 0 < num tr -> 0 < den tr -> subtitle_holds s grp -> Forall (times_at tr) (List.concat grp) ->
  same_characters s rs -> StlRoundTripSpec.same_times k s rs ->
  exists xs parts, all_shown (List.concat grp) xs /\ Forall2 (kept k) xs parts /\ all_shown rs (List.concat parts).
Proof.
  intros N D H G (w & (texts & parts & U & S & ->) & (ts & UR & EW)) ST. destruct (group_times tr s grp N D H G) as (L & TM & _ & _).
  pose proof (blocks_texts _ _ _ L U) as UG. destruct (shown_texts _ _ UG) as (xs & SX & MX & HX), (shown_texts _ _ UR) as (ys & SY & MY & HY).
  rewrite <- EW in MY. destruct (cut_like snd parts ys MY) as (yss & <- & EP). exists xs, yss. split; [exact SX|]. split; [|exact SY].
  apply (pairs_kept k (s_from s) (s_to s)).
  - now rewrite MX, EP.
  - apply (HX (fun f t => f = s_from s /\ t = s_to s)). exact TM.
  - apply (HY (fun f t => at_frames k (s_from s) f /\ at_frames k (s_to s) t)). revert ST. apply Forall_impl. unfold at_frames. tauto.
Qed.

(** * All *)

Lemma groups_kept k tr : 0 < num tr -> 0 < den tr -> forall subs grps rss, Forall2 subtitle_holds subs grps -> Forall (times_at tr) (List.concat (map (@List.concat raw) grps)) ->
  Forall2 (fun s rs => same_characters s rs /\ StlRoundTripSpec.same_times k s rs) subs rss ->
  exists xs parts, all_shown (List.concat (map (@List.concat raw) grps)) xs /\ Forall2 (kept k) xs parts /\ all_shown (List.concat rss) (List.concat parts).
Proof.
  intros N D. induction subs as [|s subs IH]; intros grps rss H G B; inversion H as [|? grp ? grps' H1 H2]; inversion B as [|? rs ? rss' [B1 B1'] B2]; subst.
  - exists [], []. split; [exists []; split; [constructor|reflexivity]|]. split; [constructor|exists []; split; [constructor|reflexivity]].
  - cbn [map List.concat] in *. apply Forall_app in G. destruct G as [G1 G2]. destruct (IH _ _ H2 G2 B2) as (xs & ps & SX & A & SY).
    destruct (group_kept k tr s grp rs N D H1 G1 B1 B1') as (xs1 & ps1 & SX1 & A1 & SY1).
    exists (xs1 ++ xs), (ps1 ++ ps). split; [now apply all_shown_app|]. split; [now apply Forall2_app|]. rewrite concat_app. now apply all_shown_app.
Qed.
Lemma groups_fit tr : 0 < num tr -> 0 < den tr -> forall subs grps, Forall2 subtitle_holds subs grps -> Forall (fun r => times_at tr r /\ without_marks r) (List.concat (map (@List.concat raw) grps)) ->
  Forall no_lone_marks subs /\ Forall (fun s => time_small (s_from s) /\ time_small (s_to s)) subs.
Proof.
  intros N D subs grps H. induction H as [|s grp subs grps H1 H IH]; intros G; [split; constructor|].
  cbn [map List.concat] in G. apply Forall_app in G. destruct G as [G1 G2]. destruct (IH G2) as (NM & TS).
  assert (GT : Forall (times_at tr) (List.concat grp)) by (revert G1; apply Forall_impl; tauto). assert (GM : Forall without_marks (List.concat grp)) by (revert G1; apply Forall_impl; tauto).
  destruct (group_times tr s grp N D H1 GT) as (L & _ & T1 & T2). split; constructor; try assumption; [now apply (group_marks s grp)|now split].
Qed.

Theorem pieces_kept k tr a raws : In k [24; 25; 30] -> w_fps a = f_of_int k -> all_comparable raws -> Forall raw_writable raws ->
  Forall (times_at tr) raws -> Forall without_marks raws -> writer_ready (k * 1000) a raws -> kept_in_file k a raws.
Proof.
  intros K FP C W T M (RT & HO & RV & LN) sort h h' S.
  destruct (collect_spec sort raws S C) as (sorted & subs & groups & SS & ES & (EG & F & _)). destruct (collected_writable sort raws S C W) as (subs' & ES' & WS).
  rewrite ES in ES'. apply Ok_inj in ES'. subst subs'. pose proof (collected_bytes sort raws subs S C ES) as BL.
  assert (A : acceptable (k * 1000) a subs).
  { split; [exact RT|]. split; [exact WS|]. split; [exact HO|]. split; [exact RV|]. eapply Forall_impl; [|exact BL]. intros s. apply Forall_impl.
    intros l L. change (length (List.concat (map r_text raws))) with (text_bytes raws) in LN. lia. }
  destruct (write_ok h subs a (k * 1000) A) as (file & WF & _). exists subs, file. split; [exact ES|]. split; [exact WF|]. intros SZ NC.
  assert (ND : raws = [] \/ (0 < num tr /\ 0 < den tr)).
  { destruct raws as [|r raws]; [now left|right]. destruct (Forall_inv W) as ((_ & tr' & R & P1 & P2 & _) & _), (Forall_inv T) as (R' & _). rewrite R in R'. injection R' as ->. now split. }
  assert (TS : Forall (times_at tr) (List.concat (map (@List.concat raw) groups))) by (rewrite EG; destruct SS as (P & _); now rewrite <- P).
  assert (MS : Forall without_marks (List.concat (map (@List.concat raw) groups))) by (rewrite EG; destruct SS as (P & _); now rewrite <- P).
  destruct ND as [->|[N D]].
  - assert (sorted = []) as -> by (destruct SS as (P & _); now apply Permutation_nil).
    assert (subs = []) as ->.
    { destruct F as [|s grp subs grps H F]; [reflexivity|]. exfalso. cbn [map List.concat] in EG. apply app_eq_nil in EG. destruct EG as [EG _]. unfold subtitle_holds in H. rewrite EG in H. exact H. }
    destruct (both_back h h' k a [] file K FP A ltac:(constructor) ltac:(constructor) WF SZ NC) as (g & rss & RD & B). inversion B; subst.
    exists g, [], [], [], []. split; [exact RD|]. split; [exact SS|]. split; [exists []; split; [constructor|reflexivity]|]. split; [constructor|exists []; split; [constructor|reflexivity]].
  - assert (TM : Forall (fun r => times_at tr r /\ without_marks r) (List.concat (map (@List.concat raw) groups))).
    { rewrite Forall_forall in *. intros r I. split; [now apply TS|now apply MS]. }
    destruct (groups_fit tr N D subs groups F TM) as (NM & SM).
    destruct (both_back h h' k a subs file K FP A NM SM WF SZ NC) as (g & rss & RD & B).
    destruct (groups_kept k tr N D subs groups rss F TS B) as (xs & ps & SX & KP & SY). rewrite EG in SX.
    exists g, (List.concat rss), sorted, xs, ps. auto.
Qed.

(** * SSA files and binary STL files *)

Theorem ssa_kept s raws k a : moderate_numbers s -> formats_timed s -> ssa_reader_string s = Ok raws ->
  In k [24; 25; 30] -> w_fps a = f_of_int k -> Forall times_from_zero raws -> Forall (proper_times 1000) raws ->
  Forall (fun r => StlWriteSpec.placed (r_vpos r)) raws -> Forall real_text raws -> Forall without_marks raws -> writer_ready (k * 1000) a raws -> kept_in_file k a raws.
Proof.
  intros MN FT E K FP TZ PT PL RT M W. pose proof (ssa_short s raws MN FT E) as SH. apply (pieces_kept k (mkR 1000 1)); try assumption.
  - apply (comparable_by (at_rate 1000 999990)); [apply at_rate_ok|apply at_rate_compares; lia|exact SH].
  - rewrite Forall_forall in *. intros r I. destruct (SH r I) as ((R1 & B1) & (R2 & B2) & _), (TZ r I) as (S1 & F1 & S2 & F2).
    assert (KT : forall t, t_rate t = Some (mkR 1000 1) -> 0 <= t_seconds t -> 0 <= t_frames t -> Z.abs (t_frames t) <= 999990 -> time_ok t).
    { intros t RR S F B. split; [exact S|]. exists (mkR 1000 1). cbn [num den]. unfold is_int. repeat split; try exact RR; try lia. }
    split; [now apply KT|]. split; [now apply KT|]. split; [now apply PL|exact (RT r I)].
  - rewrite Forall_forall in *. intros r I. destruct (SH r I) as ((R1 & B1) & (R2 & B2) & _), (TZ r I) as (S1 & F1 & S2 & F2), (PT r I) as ((P1 & Q1) & (P2 & Q2)).
    split; [exact R1|]. split; [exact R2|]. split; (split; [|assumption]; split; [assumption|]; intros tr X).
    + rewrite R1 in X. injection X as <-. cbn. lia.
    + rewrite R2 in X. injection X as <-. cbn. lia.
Qed.

Theorem binary_kept h input g raws k a : snd (stl_binary_read input (after h)) = Ok (g, raws) -> 0 < maximum_rows g -> Forall not_above raws -> Forall no_nul raws ->
  In k [24; 25; 30] -> w_fps a = f_of_int k -> Forall (proper_times (frame_rate g)) raws -> writer_ready (k * 1000) a raws -> kept_in_file k a raws.
Proof.
  intros E MR NA NN K FP PT W. pose proof (binary_comparable h input g raws E) as C. pose proof (all_from_file h input g raws E) as (A & MX & FR).
  apply binary_meets in E as ME. destruct ME as [FB M]. destruct (StlReadProofs.read_rows h input g raws E) as (_ & _ & _ & _ & _ & _ & _ & R).
  apply (pieces_kept k (mkR (frame_rate g) 1)); try assumption.
  - rewrite Forall_forall in *. intros r I. destruct (A r I) as ((w & U & _) & (row & V) & T). destruct (M r I) as ((R1 & _) & (R2 & _) & _).
    destruct (R r I) as (row' & O & B). unfold on_row in O. rewrite V in O. injection O as <-. assert (P : 0 <= row) by (apply (NA r I); unfold on_row; now rewrite V).
    assert (KT : forall t, t_rate t = Some (mkR (frame_rate g) 1) -> 0 <= t_seconds t -> 0 <= t_frames t <= 255 -> time_ok t).
    { intros t RT S F. split; [exact S|]. exists (mkR (frame_rate g) 1). cbn [num den]. unfold is_int. repeat split; try exact RT; try lia. }
    split; [apply KT; tauto|]. split; [apply KT; tauto|]. split.
    + rewrite V. apply (placed_line _ row (maximum_rows g)); cbn [v_prop v_line v_lines]; try reflexivity; try lia. cbn [reference v_ref PositionSpec.from_top].
      assert (0 < IZR (maximum_rows g))%R by (apply IZR_lt; lia). assert (0 <= IZR row <= IZR (maximum_rows g))%R by (split; apply IZR_le; lia).
      split; [apply Rmult_le_pos; [Lra.lra|left; now apply Rinv_0_lt_compat]|]. apply Rmult_le_reg_r with (IZR (maximum_rows g)); [assumption|]. unfold Rdiv. rewrite Rmult_assoc, Rinv_l by Lra.lra. Lra.lra.
    + exists w. split; [exact U|]. intros Z0. apply (NN r I). now apply (utf8_nul _ w).
  - rewrite Forall_forall in *. intros r I. destruct (A r I) as (_ & _ & S1 & F1 & S2 & F2), (M r I) as ((R1 & _) & (R2 & _) & _), (PT r I) as ((P1 & Q1) & (P2 & Q2)).
    split; [exact R1|]. split; [exact R2|]. split; (split; [|assumption]; split; [lia|]; intros tr X).
    + rewrite R1 in X. injection X as <-. cbn. lia.
    + rewrite R2 in X. injection X as <-. cbn. lia.
  - rewrite Forall_forall in *. intros r I w c U IC. destruct (A r I) as ((w' & U' & RW) & _). assert (w' = w) as -> by (apply utf8_to_wide_ok in U, U'; congruence).
    rewrite Forall_forall in RW. destruct (RW c IC) as [->|X]; [|now apply representable_not_mark]. exfalso. apply (NN r I). now apply (utf8_nul _ w).
Qed.

(** * Samples *)

Lemma plain_without r : plain_b (r_text r) = true -> without_marks r.
Proof.
  intros P w c U I M. pose proof (plain_chars _ _ _ P U I) as C. apply in_map_iff in M. destruct M as (e & E & M). pose proof marks_above as A. rewrite forallb_forall in A. specialize (A e M). lia.
Qed.
