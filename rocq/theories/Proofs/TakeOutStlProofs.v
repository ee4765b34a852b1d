(** Blocks of binary STL files can be taken out, put in and moved. *)
From Coq Require Import ZArith List Bool Ascii String Lia Permutation.
From Verif.Model Require Import Base Strings Types StlTables StlUtil StlBinReader.
From Verif.Spec Require Import Outcome TextSpec Iso6937Spec StlFileSpec TakeOutSpec.
From Verif.Proofs Require Import Iso6937Proofs StlReadProofs.
Import ListNotations.
Local Open Scope Z_scope.
Local Notation length := List.length.

Lemma blocks_read_of g bs l : Forall tti_size bs -> mapM (block_res g) bs = Ok l -> blocks_read g bs (List.concat (map fst l)).
Proof.
  intros T M. apply mapM_iff in M. exists (map fst l). split; [|reflexivity]. induction M as [|b [x o] bs l E M IH]; cbn [map fst]; constructor.
  - exists o. inversion T; subst. now apply block_iff.
  - inversion T; subst. auto.
Qed.
Definition placed (r : raw) : Prop := exists row m, r_vpos r = mkV None (Some row) (Some m) (Some TOP_OF_SCREEN).
Lemma blocks_placed g bs l : Forall tti_size bs -> mapM (block_res g) bs = Ok l -> Forall placed (List.concat (map fst l)).
Proof.
  intros T M. apply (raws_rows g bs). apply mapM_iff in M. induction M as [|b [x o] bs l E M IH]; constructor.
  - inversion T; subst. now apply block_iff.
  - inversion T; subst. auto.
Qed.
Lemma rest_placed g n rest l : blocks_res n g rest = Ok l -> Forall placed (List.concat (map fst l)).
Proof. intros B. apply blocks_iff in B. destruct B as (blocks & r & _ & _ & F). exact (raws_rows _ _ _ F). Qed.

Lemma top_row_ge l : forall h, h <= top_row h l.
Proof.
  unfold top_row. induction l as [|[r|] l IH]; intros h; cbn [fold_left]; [lia| |apply IH]. etransitivity; [|apply IH]. lia.
Qed.
Lemma top_row_max l : forall h, 0 <= h -> top_row h l = Z.max h (top_row 0 l).
Proof.
  unfold top_row. induction l as [|[r|] l IH]; intros h H; cbn [fold_left]; [lia| |now apply IH].
  rewrite IH by lia. rewrite (IH (Z.max 0 r)) by lia. lia.
Qed.
Lemma top_row_app a b : top_row 0 (a ++ b) = Z.max (top_row 0 a) (top_row 0 b).
Proof. unfold top_row at 1. rewrite fold_left_app. apply top_row_max. apply (top_row_ge a 0). Qed.
Lemma fix_lines_app h n a b : fix_lines h n (a ++ b) = fix_lines h n a ++ fix_lines h n b.
Proof. unfold fix_lines. destruct (n <? h); [apply map_app|reflexivity]. Qed.

Lemma concat_split (a b : list str) rest : List.concat a ++ List.concat b ++ rest = List.concat (a ++ b) ++ rest.
Proof. now rewrite concat_app, app_assoc. Qed.

Lemma stl_moved h h' head g before c d rest subs :
  header_read head g -> Forall tti_size before -> Forall tti_size c -> Forall tti_size d ->
  Z.of_nat (length before + length c + length d) <= tti_blocks g ->
  snd (stl_binary_read (head ++ List.concat before ++ List.concat c ++ List.concat d ++ rest) (after h)) = Ok (g, subs) ->
  exists ra rc rd rb pc pd k, subs = ra ++ rc ++ rd ++ rb /\
    blocks_read g c pc /\ Forall2 (moved_up k) pc rc /\ blocks_read g d pd /\ Forall2 (moved_up k) pd rd /\
    snd (stl_binary_read (head ++ List.concat before ++ List.concat d ++ List.concat c ++ rest) (after h')) = Ok (g, ra ++ rd ++ rc ++ rb).
Proof.
  intros G B C D N. rewrite (proj1 (read_ok _ (after h') (after_reached h'))), (proj1 (read_ok _ (after h) (after_reached h))).
  rewrite !(file_res_header _ _ _ G). rewrite !concat_split.
  set (n := (Z.to_nat (tti_blocks g) - (length before + length c + length d))%nat).
  replace (Z.to_nat (tti_blocks g)) with (length ((before ++ c) ++ d) + n)%nat at 1 by (rewrite !app_length; lia).
  replace (Z.to_nat (tti_blocks g)) with (length ((before ++ d) ++ c) + n)%nat by (rewrite !app_length; lia).
  rewrite !blocks_res_app by (rewrite !Forall_app; auto). rewrite !mapM_app.
  destruct (mapM (block_res g) before) as [lb| |] eqn:MB; cbn [bind]; try discriminate.
  destruct (mapM (block_res g) c) as [lc| |] eqn:MC; cbn [bind]; try discriminate.
  destruct (mapM (block_res g) d) as [ld| |] eqn:MD; cbn [bind]; try discriminate.
  destruct (blocks_res n g rest) as [lr| |] eqn:MR; cbn [bind]; try discriminate. intros [= <-].
  rewrite !map_app, !concat_app. rewrite !top_row_app.
  replace (Z.max (Z.max (Z.max (top_row 0 (map snd lb)) (top_row 0 (map snd ld))) (top_row 0 (map snd lc))) (top_row 0 (map snd lr)))
    with (Z.max (Z.max (Z.max (top_row 0 (map snd lb)) (top_row 0 (map snd lc))) (top_row 0 (map snd ld))) (top_row 0 (map snd lr))) by lia.
  set (top := Z.max (Z.max (Z.max _ _) _) _). rewrite !fix_lines_app, <- !app_assoc.
  do 4 eexists. exists (List.concat (map fst lc)), (List.concat (map fst ld)), (Z.max 0 (top - maximum_rows g)).
  split; [reflexivity|]. split; [now apply blocks_read_of|]. split; [apply fix_lines_iff; [exact (blocks_placed _ _ _ C MC)|reflexivity]|].
  split; [now apply blocks_read_of|]. split; [apply fix_lines_iff; [exact (blocks_placed _ _ _ D MD)|reflexivity]|]. reflexivity.
Qed.

Lemma stl_taken_out h h' head head' g g' before mid rest subs :
  header_read head g -> header_read head' g' -> same_reading g g' -> Forall tti_size before -> Forall tti_size mid ->
  Z.of_nat (length before) <= tti_blocks g' -> tti_blocks g = tti_blocks g' + Z.of_nat (length mid) ->
  snd (stl_binary_read (head ++ List.concat before ++ List.concat mid ++ rest) (after h)) = Ok (g, subs) ->
  exists pa pc pb d d' subs',
    blocks_read g before pa /\ blocks_read g mid pc /\ 0 <= d' <= d /\ Forall2 (moved_up d) (pa ++ pc ++ pb) subs /\
    snd (stl_binary_read (head' ++ List.concat before ++ rest) (after h')) = Ok (g', subs') /\ Forall2 (moved_up d') (pa ++ pb) subs'.
Proof.
  intros G G' [E F] B M N N'. rewrite (proj1 (read_ok _ (after h') (after_reached h'))), (proj1 (read_ok _ (after h) (after_reached h))).
  rewrite (file_res_header _ _ _ G), (file_res_header _ _ _ G'). rewrite concat_split.
  set (n := (Z.to_nat (tti_blocks g') - length before)%nat).
  replace (Z.to_nat (tti_blocks g)) with (length (before ++ mid) + n)%nat by (rewrite !app_length; lia).
  replace (Z.to_nat (tti_blocks g')) with (length before + n)%nat by lia. rewrite <- (blocks_res_same g g' _ E F), <- F.
  rewrite !blocks_res_app by (rewrite ?Forall_app; auto). rewrite !mapM_app.
  destruct (mapM (block_res g) before) as [lb| |] eqn:MB; cbn [bind]; try discriminate.
  destruct (mapM (block_res g) mid) as [lc| |] eqn:MC; cbn [bind]; try discriminate.
  destruct (blocks_res n g rest) as [lr| |] eqn:MR; cbn [bind]; try discriminate. intros [= <-].
  rewrite !map_app, !concat_app, !top_row_app.
  set (t := Z.max (Z.max _ _) _). set (t' := Z.max _ _). assert (T : t' <= t) by (unfold t, t'; lia).
  pose proof (blocks_placed _ _ _ B MB) as PB. pose proof (blocks_placed _ _ _ M MC) as PC. pose proof (rest_placed _ _ _ _ MR) as PR.
  exists (List.concat (map fst lb)), (List.concat (map fst lc)), (List.concat (map fst lr)), (Z.max 0 (t - maximum_rows g)), (Z.max 0 (t' - maximum_rows g)).
  eexists. split; [now apply blocks_read_of|]. split; [now apply blocks_read_of|]. split; [lia|].
  split; [apply fix_lines_iff; [rewrite !Forall_app; auto|now rewrite app_assoc]|].
  split; [reflexivity|]. apply fix_lines_iff; [rewrite Forall_app; auto|reflexivity].
Qed.

(** Where all rows fit, the others stay as they are. *)
Lemma stl_taken_out_fits h h' head head' g g' before mid rest subs raws top :
  header_read head g -> header_read head' g' -> same_reading g g' -> Forall tti_size before -> Forall tti_size mid ->
  Z.of_nat (length before) <= tti_blocks g' -> tti_blocks g = tti_blocks g' + Z.of_nat (length mid) ->
  stl_contents (head ++ List.concat before ++ List.concat mid ++ rest) g raws top -> top <= maximum_rows g ->
  snd (stl_binary_read (head ++ List.concat before ++ List.concat mid ++ rest) (after h)) = Ok (g, subs) ->
  exists ra rc rb, subs = ra ++ rc ++ rb /\ blocks_read g before ra /\ blocks_read g mid rc /\
    snd (stl_binary_read (head' ++ List.concat before ++ rest) (after h')) = Ok (g', ra ++ rb).
Proof.
  intros G G' [E F] B M N N' SC TR R. pose proof R as R1. apply read_iff in R1. destruct R1 as (raws' & top' & SC' & _).
  revert R. rewrite (proj1 (read_ok _ (after h') (after_reached h'))), (proj1 (read_ok _ (after h) (after_reached h))).
  rewrite (file_res_header _ _ _ G), (file_res_header _ _ _ G'). rewrite concat_split in *.
  set (n := (Z.to_nat (tti_blocks g') - length before)%nat).
  assert (TT : forall l, blocks_res (Z.to_nat (tti_blocks g)) g (List.concat (before ++ mid) ++ rest) = Ok l -> top_row 0 (map snd l) = top).
  { intros l L. destruct SC as (hd & bl & re & rawss & lasts & EQ & GH & NB & FB & LL & _ & HR).
    assert (L1 : length head = 1024%nat) by apply G. assert (L2 : length hd = 1024%nat) by apply GH.
    assert (head = hd) by (rewrite <- (firstn_app_exact head (List.concat (before ++ mid) ++ rest) 1024 L1), EQ, firstn_app_exact by exact L2; reflexivity). subst hd.
    apply app_inv_head in EQ. rewrite EQ in L.
    rewrite (proj2 (blocks_iff g (Z.to_nat (tti_blocks g)) (List.concat bl ++ re) (combine rawss lasts))) in L
      by (exists bl, re; split; [reflexivity|]; split; [lia|exact FB]).
    injection L as <-. apply highest_row_iff in HR. rewrite HR. f_equal.
    clear -LL. revert lasts LL. induction rawss as [|x r IH]; intros [|y s] E; try discriminate; cbn; [reflexivity|]. rewrite IH; [reflexivity|]. cbn in E. congruence. }
  replace (Z.to_nat (tti_blocks g)) with (length (before ++ mid) + n)%nat in * by (rewrite !app_length; lia).
  replace (Z.to_nat (tti_blocks g')) with (length before + n)%nat by lia. rewrite <- (blocks_res_same g g' _ E F), <- F.
  revert TT. rewrite !blocks_res_app by (rewrite ?Forall_app; auto). rewrite !mapM_app.
  destruct (mapM (block_res g) before) as [lb| |] eqn:MB; cbn [bind]; try discriminate.
  destruct (mapM (block_res g) mid) as [lc| |] eqn:MC; cbn [bind]; try discriminate.
  destruct (blocks_res n g rest) as [lr| |] eqn:MR; cbn [bind]; try discriminate. intros TT [= <-]. specialize (TT _ eq_refl).
  rewrite TT. rewrite !map_app, !top_row_app in TT. rewrite !map_app, !concat_app, !top_row_app.
  unfold fix_lines. replace (maximum_rows g <? top) with false by lia.
  replace (maximum_rows g <? Z.max (top_row 0 (map snd lb)) (top_row 0 (map snd lr))) with false by lia.
  exists (List.concat (map fst lb)), (List.concat (map fst lc)), (List.concat (map fst lr)). rewrite app_assoc.
  split; [reflexivity|]. split; [now apply blocks_read_of|]. split; [now apply blocks_read_of|]. reflexivity.
Qed.
