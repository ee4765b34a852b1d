(** Loading and saving binary STL files. *)
From Coq Require Import ZArith QArith Reals Lia List Bool Ascii String Permutation.
From Verif.Model Require Import Base Strings Float TimeModel Types Collect StlUtil StlBinReader StlBinWriter.
From Verif.Spec Require Import Outcome TextSpec TimeSpec Utf8Spec Iso6937Spec SortSpec CollectSpec StlFileSpec StlWriteSpec StlRoundTripSpec ConvertSpec.
From Verif.Proofs Require Import SortProofs CollectProofs UtfProofs Iso6937Proofs StlFileProofs StlWriterProofs StlUseProofs StlRoundTripProofs CollectReadProofs ConvertProofs.
Import ListNotations.
Local Open Scope Z_scope.
Local Notation length := List.length.

(** * Text and times together *)

Lemma own_times_back h h' k a ss rowss file : In k [24; 25; 30] -> w_fps a = f_of_int k -> acceptable (k * 1000) a ss -> Forall no_lone_marks ss ->
  Forall (fun s => time_small (s_from s) /\ time_small (s_to s)) ss -> Forall2 has_own_rows ss rowss -> Forall downwards rowss ->
  snd (write_stl_binary ss a (after h)) = Ok file -> length file = (1024 + 128 * length ss)%nat -> Z.of_nat (length ss) < 100000 ->
  exists g groups, snd (stl_binary_read file (after h')) = Ok (g, List.concat groups) /\
      Forall2 (fun sr rs => same_text (fst sr) (snd sr) rs /\ StlRoundTripSpec.same_times k (fst sr) rs) (combine ss rowss) groups.
Proof.
  intros K FP A NM TS O D W LF LS. destruct (short_back h h' (k * 1000) a ss file A NM W LF LS) as (rowss' & EX & R & F). rewrite (rows_own ss rowss' rowss EX O) in F, R.
  destruct (F D) as (dfc & g & groups & DF & IR & RD & FG). rewrite FP in DF. pose proof (whole_format k dfc _ K DF IR) as FR. rewrite <- FR in K.
  exists g, groups. split; [exact RD|]. assert (WR : Forall writable ss) by apply A.
  assert (KB : 0 < k < 256) by (rewrite <- FR; destruct K as [<-|[<-|[<-|[]]]]; lia).
  clear - FG FR TS WR R KB. revert groups FG. induction R as [|s rows ss rowss _ _ IH]; intros groups FG; inversion FG as [|? rs ? gs B FG']; subst; [constructor|].
  inversion TS as [|? ? [TS1 TS2] TS']; inversion WR as [|? ? WR1 WR']; subst. cbn [combine]. constructor; [|now apply IH]. cbn [fst snd] in *.
  destruct B as (ST & h1 & m1 & s1 & f1 & h2 & m2 & s2 & f2 & first & T1 & T2 & _ & CM). split; [exact ST|]. cbn [fst] in *.
  destruct WR1 as (_ & W1 & W2 & _). destruct (time_back _ _ _ _ _ _ KB W1 TS1 T1) as [C1 E1]. destruct (time_back _ _ _ _ _ _ KB W2 TS2 T2) as [C2 E2].
  eapply Forall_impl; [|exact CM]. intros r (RF & RT & _). rewrite RF, RT. auto.
Qed.

(** * Pieces of a file *)

Definition good_time (k : Z) (t : time) : Prop := t_rate t = Some (mkR k 1) /\ 0 <= t_seconds t < 256 * 3600 /\ 0 <= t_frames t < k.
Definition good (k : Z) (r : raw) : Prop :=
  (exists w, utf8 (r_text r) w /\ Forall representable w) /\
  (exists row, r_vpos r = row_position row /\ 0 <= row <= 23 /\ row <> 7 /\ row <> 14) /\ good_time k (r_from r) /\ good_time k (r_to r).

Lemma good_eq k a b : 0 < k -> good_time k a -> good_time k b -> time_eq a b = Ok true -> a = b.
Proof.
  intros K (RA & _ & _) (RB & _ & _) E. unfold time_eq in E. rewrite RA, RB in E. destruct a as [sa fa ra], b as [sb fb rb]. cbn [t_seconds t_frames t_rate] in *.
  destruct (negb (sa =? sb)) eqn:S; [discriminate|]. apply negb_false_iff, Z.eqb_eq in S. cbn [num den] in E.
  unfold imul3, imul, chk in E. destruct (in_int (fa * k)); [|discriminate]. cbn [bind] in E. destruct (in_int (fa * k * 1)); [|discriminate]. cbn [bind] in E.
  destruct (in_int (fb * k)); [|discriminate]. cbn [bind] in E. destruct (in_int (fb * k * 1)); [|discriminate]. cbn [bind] in E.
  apply Ok_inj, Z.eqb_eq in E. assert (fa = fb) by nia. congruence.
Qed.
Lemma survives_only c part : representable c -> survives c part -> part = [c].
Proof.
  intros R S. destruct S as [c R'|c d Sd|c N Sd]; [reflexivity| |contradiction]. exfalso. destruct R as [bs G]. apply glyph_in in G. pose proof not_substituted_checked as C.
  rewrite forallb_forall in C. specialize (C _ G). cbn in C. unfold substitute in *. rewrite Sd in C. discriminate.
Qed.
Lemma survives_all w parts : Forall representable w -> Forall2 survives w parts -> List.concat parts = w.
Proof. intros R F. induction F as [|c p w ps S F IH]; [reflexivity|]. inversion R; subst. cbn. rewrite IH by assumption. now rewrite (survives_only c p). Qed.

Lemma block_cells_raw k b p row cells : block_holds b p -> good k p -> on_row p row -> block_cells row b cells -> raw_cells p cells.
Proof.
  intros (T & _ & _ & _ & _ & _ & _ & I & U) ((w & UW & RW) & _) O (w' & parts & UW' & F & ->). rewrite T in UW'.
  assert (w' = w) as -> by (apply utf8_to_wide_ok in UW, UW'; congruence). exists row, w. split; [exact O|]. split; [exact UW|]. now rewrite I, U, (survives_all w parts).
Qed.
Lemma row_eqb k p q row : good k p -> good k q -> on_row p row -> vpos_eqb (r_vpos p) (r_vpos q) = true -> on_row q row.
Proof.
  intros (_ & (a & A & _) & _) (_ & (b & B & _) & _) O E. unfold on_row in *. rewrite A in O, E. rewrite B in E |- *. cbn in O, E. injection O as ->.
  rewrite !andb_true_r in E. apply Z.eqb_eq in E. now subst.
Qed.
Lemma line_cells_raw k l ps row cells : line_holds l ps -> Forall (good k) ps -> v_line (l_vpos l) = Some row -> line_cells l row cells -> raws_cells ps cells.
Proof.
  unfold line_holds. destruct ps as [|p rest]; [intros []|]. intros (_ & V & BH & SV) G R (parts & F & ->). exists parts. split; [|reflexivity].
  assert (RO : Forall (fun q => good k q /\ on_row q row) (p :: rest)).
  { inversion G as [|? ? G1 G2]; subst. assert (O : on_row p row) by (unfold on_row; now rewrite <- V). constructor; [now split|].
    rewrite Forall_forall in *. intros q I. split; [now apply G2|]. apply (row_eqb k p q row); auto. }
  clear - BH F RO. revert parts F. induction BH as [|b p0 bs ps H BH IH]; intros parts F; inversion F as [|? c ? cs C F']; subst; [constructor|].
  inversion RO as [|? ? (G & O) RO']; subst. constructor; [now apply (block_cells_raw k b p0 row)|now apply IH].
Qed.
Lemma raws_cells_app a b x y : raws_cells a x -> raws_cells b y -> raws_cells (a ++ b) (x ++ y).
Proof. intros (p & F & ->) (q & G & ->). exists (p ++ q). split; [now apply Forall2_app|now rewrite concat_app]. Qed.
Lemma lines_cells_raws k ls : forall pss rows cells, Forall2 line_holds ls pss -> Forall (Forall (good k)) pss ->
  Forall2 (fun l row => v_line (l_vpos l) = Some row) ls rows -> lines_cells ls rows cells -> raws_cells (List.concat pss) cells.
Proof.
  induction ls as [|l ls IH]; intros pss rows cells H G R C; inversion H as [|? ps ? pss' H1 H2]; inversion C as [|? ? row rows' here rest C1 C2]; subst.
  - exists []. split; [constructor|reflexivity].
  - inversion G; inversion R; subst. cbn [List.concat]. apply raws_cells_app; [now apply (line_cells_raw k l ps row)|now apply (IH pss' rows')].
Qed.

(** * What is seen *)

Lemma seen_cells rs cells : raws_cells rs cells -> exists xs, all_seen rs xs /\ map snd xs = cells /\
  forall Q : time -> time -> Prop, Forall (fun r => Q (r_from r) (r_to r)) rs -> Forall (fun x => Q (fst (fst x)) (snd (fst x))) xs.
Proof.
  intros (parts & F & ->). induction F as [|r c rs parts C F IH].
  - exists []. split; [exists []; now split|]. split; [reflexivity|]. constructor.
  - destruct IH as (xs & (ps & S & ->) & M & H). exists (map (fun c => (r_from r, r_to r, c)) c ++ List.concat ps). split; [|split].
    + exists (map (fun c => (r_from r, r_to r, c)) c :: ps). split; [|reflexivity]. constructor; [|exact S]. now exists c.
    + rewrite map_app, M, map_map. cbn [snd List.concat]. now rewrite map_id.
    + intros Q A. inversion A; subst. apply Forall_app. split; [|now apply H]. rewrite Forall_map. apply Forall_forall. intros x _. assumption.
Qed.
Lemma pairs_alike k f t xs ys : map snd xs = map snd ys -> Forall (fun x => fst (fst x) = f /\ snd (fst x) = t) xs ->
  Forall (fun y => same_instant k f (fst (fst y)) /\ same_instant k t (snd (fst y))) ys -> Forall2 (seen_alike k) xs ys.
Proof.
  revert ys. induction xs as [|x xs IH]; intros [|y ys] M A B; try discriminate M; [constructor|]. cbn [map] in M. injection M as M1 M2.
  inversion A as [|? ? (A1 & A2) A3]; inversion B as [|? ? (B1 & B2) B3]; subst. constructor; [exact (conj B1 (conj B2 M1))|]. now apply IH.
Qed.
Lemma all_seen_app a b x y : all_seen a x -> all_seen b y -> all_seen (a ++ b) (x ++ y).
Proof. intros (p & F & ->) (q & G & ->). exists (p ++ q). split; [now apply Forall2_app|now rewrite concat_app]. Qed.

(** * One subtitle *)

Lemma group_parts k s grp : 0 < k -> subtitle_holds s grp -> Forall (good k) (List.concat grp) ->
  Forall2 line_holds (s_lines s) grp /\ Forall (Forall (good k)) grp /\ Forall (fun r => r_from r = s_from s /\ r_to r = s_to s) (List.concat grp) /\
  good_time k (s_from s) /\ good_time k (s_to s) /\
  exists rows, has_own_rows s rows /\ Forall2 (fun l row => v_line (l_vpos l) = Some row) (s_lines s) rows.
Proof.
  intros K H G. unfold subtitle_holds in H. destruct (List.concat grp) as [|p rest] eqn:E; [destruct H|]. destruct H as (F & T & _ & _ & L & ST & _).
  assert (GG : Forall (Forall (good k)) grp).
  { rewrite <- E in G. clear - G. induction grp as [|ps grp IH]; constructor; cbn [List.concat] in G; apply Forall_app in G; [apply G|now apply IH]. }
  split; [exact L|]. split; [exact GG|]. pose proof (Forall_inv G) as (_ & _ & GF & GT). split; [|split; [now rewrite F|split; [now rewrite T|]]].
  - constructor; [now rewrite F, T|]. rewrite Forall_forall in *. intros q I. destruct (ST q I) as (S1 & S2 & _). destruct (G q (or_intror I)) as (_ & _ & QF & QT).
    rewrite F, T. split; symmetry; apply (good_eq k); assumption.
  - unfold has_own_rows. clear - L GG. induction L as [|l ps ls pss H L IH]; [exists []; split; [constructor|constructor]|]. inversion GG as [|? ? G1 G2]; subst. destruct (IH G2) as (rows & O & R).
    unfold line_holds in H. destruct ps as [|p ps]; [destruct H|]. destruct H as (_ & V & _). pose proof (Forall_inv G1) as (_ & (row & VP & B) & _).
    exists (row :: rows). split; constructor; try assumption; rewrite V, VP; [now split|reflexivity].
Qed.
Lemma group_no_marks k ls grp : Forall2 line_holds ls grp -> Forall (Forall (good k)) grp ->
  forall l b w c, In l ls -> In b (l_blocks l) -> utf8 (b_text b) w -> In c w -> ~ lone_mark c.
Proof.
  intros H G l b w c IL IB U IC. destruct (Forall2_left _ _ _ l H IL) as (ps & IP & LH). rewrite Forall_forall in G. specialize (G ps IP).
  unfold line_holds in LH. destruct ps as [|p ps]; [destruct LH|]. destruct LH as (_ & _ & BH & _). destruct (Forall2_left _ _ _ b BH IB) as (q & IQ & (T & _)).
  rewrite Forall_forall in G. destruct (G q IQ) as ((w' & U' & R) & _). rewrite T in U. assert (w' = w) as -> by (apply utf8_to_wide_ok in U, U'; congruence).
  rewrite Forall_forall in R. apply representable_not_mark. now apply R.
Qed.
Lemma good_small k t : 0 < k -> good_time k t -> time_small t.
Proof. intros K (R & S & F). split; [|lia]. split; [lia|]. intros tr E. rewrite R in E. injection E as <-. cbn. lia. Qed.
Lemma good_on_frame k t : good_time k t -> on_a_frame k t.
Proof. intros (R & _). exists (mkR k 1), (t_frames t). split; [exact R|]. cbn. lia. Qed.
Lemma group_seen k s grp rows rs : 0 < k -> subtitle_holds s grp -> Forall (good k) (List.concat grp) -> has_own_rows s rows ->
  same_text s rows rs -> StlRoundTripSpec.same_times k s rs ->
  exists xs ys, all_seen (List.concat grp) xs /\ all_seen rs ys /\ Forall2 (seen_alike k) xs ys.
Proof.
  intros K H G O (cells & LC & RC) ST. destruct (group_parts k s grp K H G) as (LH & GG & TM & GF & GT & _).
  assert (R : Forall2 (fun l row => v_line (l_vpos l) = Some row) (s_lines s) rows).
  { clear - O. induction O as [|l r ls rs (V & _) O IH]; constructor; [now rewrite V|exact IH]. }
  pose proof (lines_cells_raws k _ _ _ _ LH GG R LC) as GC. destruct (seen_cells _ _ GC) as (xs & SX & MX & HX), (seen_cells _ _ RC) as (ys & SY & MY & HY).
  exists xs, ys. split; [exact SX|]. split; [exact SY|]. apply (pairs_alike k (s_from s) (s_to s)).
  - congruence.
  - apply (HX (fun f t => f = s_from s /\ t = s_to s)). exact TM.
  - apply (HY (fun f t => same_instant k (s_from s) f /\ same_instant k (s_to s) t)). revert ST. apply Forall_impl. intros r (_ & _ & A & B).
    split; [apply A|apply B]; now apply good_on_frame.
Qed.

(** * All *)

Lemma groups_seen k : 0 < k -> forall subs grps rowss rss, Forall2 subtitle_holds subs grps -> Forall (good k) (List.concat (map (@List.concat raw) grps)) ->
  Forall2 has_own_rows subs rowss -> Forall2 (fun sr rs => same_text (fst sr) (snd sr) rs /\ StlRoundTripSpec.same_times k (fst sr) rs) (combine subs rowss) rss ->
  exists xs ys, all_seen (List.concat (map (@List.concat raw) grps)) xs /\ all_seen (List.concat rss) ys /\ Forall2 (seen_alike k) xs ys.
Proof.
  intros K. induction subs as [|s subs IH]; intros grps rowss rss H G O B; inversion H as [|? grp ? grps' H1 H2]; inversion O as [|? rows ? rowss' O1 O2]; subst; cbn [combine] in B; inversion B as [|? rs ? rss' B1 B2]; subst.
  - exists [], []. split; [exists []; split; [constructor|reflexivity]|]. split; [exists []; split; [constructor|reflexivity]|constructor].
  - cbn [map List.concat] in *. apply Forall_app in G. destruct G as [G1 G2]. destruct (IH _ _ _ H2 G2 O2 B2) as (xs & ys & SX & SY & A).
    destruct B1 as [B1 B1']. destruct (group_seen k s grp rows rs K H1 G1 O1 B1 B1') as (xs1 & ys1 & SX1 & SY1 & A1).
    exists (xs1 ++ xs), (ys1 ++ ys). split; [now apply all_seen_app|]. split; [now apply all_seen_app|now apply Forall2_app].
Qed.
Lemma groups_ready k : 0 < k -> forall subs grps, Forall2 subtitle_holds subs grps -> Forall (good k) (List.concat (map (@List.concat raw) grps)) -> Forall lines_downwards subs ->
  Forall no_lone_marks subs /\ Forall (fun s => time_small (s_from s) /\ time_small (s_to s)) subs /\ exists rowss, Forall2 has_own_rows subs rowss /\ Forall downwards rowss.
Proof.
  intros K subs grps H. induction H as [|s grp subs grps H1 H IH]; intros G D; [split; [constructor|split; [constructor|exists []; split; constructor]]|].
  cbn [map List.concat] in G. apply Forall_app in G. destruct G as [G1 G2]. inversion D as [|? ? D1 D2]; subst. destruct (IH G2 D2) as (NM & TS & rowss & O & DW).
  destruct (group_parts k s grp K H1 G1) as (LH & GG & _ & GF & GT & rows & O1 & R1). split; [|split].
  - constructor; [|exact NM]. intros l b w c. apply (group_no_marks k _ _ LH GG).
  - constructor; [|exact TS]. split; apply (good_small k); assumption.
  - exists (rows :: rowss). split; constructor; try assumption. now apply D1.
Qed.

Lemma file_good h input g raws : snd (stl_binary_read input (after h)) = Ok (g, raws) -> maximum_rows g = 23 ->
  Forall kept_row raws -> Forall no_nul raws -> Forall (proper_times (frame_rate g)) raws -> Forall (good (frame_rate g)) raws.
Proof.
  intros E M KR NN PT. destruct (all_from_file h input g raws E) as (A & _ & _). apply binary_meets in E. destruct E as (_ & TM). rewrite Forall_forall in *.
  intros r I. destruct (A r I) as ((w & U & RW) & (row & V) & S1 & F1 & S2 & F2), (TM r I) as ((R1 & _) & (R2 & _) & _), (PT r I) as ((P1 & Q1) & (P2 & Q2)).
  split; [|split; [|split; split; try assumption; lia]].
  - exists w. split; [exact U|]. rewrite Forall_forall in *. intros c IC. destruct (RW c IC) as [->|X]; [|exact X]. exfalso. apply (NN r I). now apply (utf8_nul _ w).
  - rewrite M in V. destruct (KR r I) as (row' & O & B). unfold on_row in O. rewrite V in O. injection O as ->. exists row'. split; [exact V|exact B].
Qed.

Lemma file_rate h input g raws : snd (stl_binary_read input (after h)) = Ok (g, raws) -> frame_rate g <> 23 -> In (frame_rate g) [24; 25; 30].
Proof.
  intros E N23. apply StlReadProofs.read_iff in E. destruct E as (raws0 & top & (head & blocks & rest & rawss & lasts & _ & H & _) & _). destruct H as (_ & _ & (dfc & _ & I) & _).
  cbn [In reader_rates] in I |- *. destruct I as [I|[I|[I|[I|[]]]]]; injection I as _ I; lia.
Qed.
Lemma good_writable k raws : 0 < k <= 30 -> Forall (good k) raws -> Forall raw_writable raws.
Proof.
  intros KP. apply Forall_impl. intros r ((w & U & R) & (row & V & B & _) & (R1 & S1 & F1) & (R2 & S2 & F2)). split; [|split; [|split]].
  - split; [lia|]. exists (mkR k 1). cbn [num den]. unfold is_int. repeat split; try assumption; lia.
  - split; [lia|]. exists (mkR k 1). cbn [num den]. unfold is_int. repeat split; try assumption; lia.
  - rewrite V. apply (placed_line _ row 23); cbn [v_prop v_line v_lines row_position]; try reflexivity; try lia. cbn [reference v_ref row_position PositionSpec.from_top].
    assert (0 <= IZR row <= 23)%R by (split; apply IZR_le; lia). split; Lra.lra.
  - exists w. split; [exact U|]. intros Z0. rewrite Forall_forall in R. destruct (R 0 Z0) as (bs & GL). now apply (glyph_nonzero bs 0).
Qed.
Lemma collected_acceptable k sort raws subs a : 0 < k <= 30 -> Forall (good k) raws -> conforming sort -> all_comparable raws -> writer_ready (k * 1000) a raws -> collect sort raws = Ok subs ->
  acceptable (k * 1000) a subs.
Proof.
  intros KP G S C (RT & HO & RV & LN) ES. destruct (collected_writable sort raws S C (good_writable k raws KP G)) as (subs' & ES' & WS).
  rewrite ES in ES'. apply Ok_inj in ES'. subst subs'. pose proof (collected_bytes sort raws subs S C ES) as BL.
  split; [exact RT|]. split; [exact WS|]. split; [exact HO|]. split; [exact RV|]. eapply Forall_impl; [|exact BL]. intros s. apply Forall_impl.
  intros l L. change (length (List.concat (map r_text raws))) with (text_bytes raws) in LN. lia.
Qed.

Theorem saved_again h h' h'' sort input g raws a : snd (stl_binary_read input (after h)) = Ok (g, raws) -> frame_rate g <> 23 -> w_fps a = f_of_int (frame_rate g) ->
  maximum_rows g = 23 -> Forall kept_row raws -> Forall no_nul raws -> Forall (proper_times (frame_rate g)) raws -> writer_ready (frame_rate g * 1000) a raws -> conforming sort ->
  exists subs file, collect sort raws = Ok subs /\ snd (write_stl_binary subs a (after h')) = Ok file /\
    (length file = (1024 + 128 * length subs)%nat -> Z.of_nat (length subs) < 100000 -> Forall lines_downwards subs ->
     exists g' raws' sorted xs ys, snd (stl_binary_read file (after h'')) = Ok (g', raws') /\ stably_sorted raws sorted /\
       all_seen sorted xs /\ all_seen raws' ys /\ Forall2 (seen_alike (frame_rate g)) xs ys).
Proof.
  intros E N23 FP M KR NN PT WR S. pose proof (file_good h input g raws E M KR NN PT) as G. pose proof (binary_comparable h input g raws E) as C.
  pose proof (file_rate h input g raws E N23) as K. assert (KP : 0 < frame_rate g <= 30) by (destruct K as [<-|[<-|[<-|[]]]]; lia).
  destruct (collect_spec sort raws S C) as (sorted & subs & groups & SS & ES & (EG & F & _)).
  pose proof (collected_acceptable (frame_rate g) sort raws subs a KP G S C WR ES) as A.
  destruct (write_ok h' subs a (frame_rate g * 1000) A) as (file & WF & _). exists subs, file. split; [exact ES|]. split; [exact WF|]. intros LF LS D.
  assert (GS : Forall (good (frame_rate g)) (List.concat (map (@List.concat raw) groups))) by (rewrite EG; destruct SS as (P & _); now rewrite <- P).
  destruct (groups_ready (frame_rate g) ltac:(lia) subs groups F GS D) as (NM & TS & rowss & O & DW).
  destruct (own_times_back h' h'' (frame_rate g) a subs rowss file K FP A NM TS O DW WF LF LS) as (g' & rss & RD & B).
  destruct (groups_seen (frame_rate g) ltac:(lia) subs groups rowss rss F GS O B) as (xs & ys & SX & SY & AL). rewrite EG in SX.
  exists g', (List.concat rss), sorted, xs, ys. auto.
Qed.
