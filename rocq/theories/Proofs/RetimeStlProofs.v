(** One subtitle of an STL file with other times. *)
From Coq Require Import ZArith List Bool Ascii String Lia.
From Verif.Model Require Import Base Strings Float TimeModel Types Lines StlText StlTables StlUtil StlBinReader.
From Verif.Spec Require Import Outcome TextSpec LinesSpec StlFileSpec RawSpec SsaSpec StlTextSpec TextFileSpec Iso6937Spec CommentSpec TakeOutSpec RetimeSpec.
From Verif.Proofs Require Import SsaTextProofs StringProofs Iso6937Proofs StlReadProofs StlTextProofs StlTextUseProofs SsaUseProofs TextFileProofs CommentProofs TakeOutStlProofs.
Import ListNotations.
Local Open Scope Z_scope.
Local Notation length := List.length.

(** * Text STL *)

Lemma stl_pieces_times f t r s r' ps : pieces r s r' ps -> pieces (with_times f t r) s (with_times f t r') (map (with_times f t) ps).
Proof.
  induction 1 as [r|r n c s r' ps B V P IH|r x c r1 s r' ps X T P IH|r c C|r x s r' ps NE F E P IH].
  - constructor.
  - now apply (pieces_bar (with_times f t r) n).
  - apply (pieces_toggle (with_times f t r) x c (with_times f t r1)); auto.
    destruct T as [[-> ->]|[[-> ->]|[[-> ->]|(A & B & C & ->)]]]; unfold toggled; auto 10.
  - now constructor.
  - cbn [map]. now apply (pieces_text (with_times f t r)).
Qed.
Lemma stl_pieces_lasts f t r s r' ps : pieces r s r' ps -> lasts f t r -> Forall (lasts f t) ps.
Proof.
  induction 1 as [r|r n c s r' ps B V P IH|r x c r1 s r' ps X T P IH|r c C|r x s r' ps NE F E P IH]; intros L; try constructor; auto.
  apply IH. destruct T as [[-> ->]|[[-> ->]|[[-> ->]|(A & B & C & ->)]]]; exact L.
Qed.
(** Every subtitle sets its times. *)
Lemma line_other_times f t r l r1 rs : line_means r l r1 rs -> exists f' t', line_means (with_times f t r) l (with_times f' t' r1) rs.
Proof.
  intros M. inversion M as [? v S|? v b S B|? v b S B|? v b S B|? v k S I|? name v S N|? start finish from to text ? ? S F1 F2 P|? start finish text S O|? N1 N2]; subst.
  - exists f, t. apply (means_font (with_times f t r)). exact S.
  - exists f, t. apply (means_bold (with_times f t r) l v); auto.
  - exists f, t. apply (means_italic (with_times f t r) l v); auto.
  - exists f, t. apply (means_underline (with_times f t r) l v); auto.
  - exists f, t. apply (means_size (with_times f t r) l v); auto.
  - exists f, t. eapply means_unknown; eassumption.
  - exists (r_from r1), (r_to r1). replace (with_times (r_from r1) (r_to r1) r1) with r1 by now destruct r1. eapply means_subtitle; try eassumption.
  - exists f, t. eapply means_no_times; eassumption.
  - exists f, t. now apply means_nothing.
Qed.
Lemma lines_other_times ls : forall f t r r1 rs, lines_mean r ls r1 rs -> exists r2, lines_mean (with_times f t r) ls r2 rs.
Proof.
  induction ls as [|l ls IH]; intros f t r r1 rs M; inversion M as [|? ? l' r3 rs1 ? ? rss T L M2]; subst; [eexists; constructor|].
  destruct (line_other_times f t _ _ _ _ L) as (f' & t' & L'). destruct (IH f' t' _ _ _ M2) as (r2 & M3). exists r2. econstructor; eassumption.
Qed.
Lemma lines_mean_app a : forall b r r2 rs, lines_mean r (a ++ b) r2 rs <-> exists r1 ra rb, lines_mean r a r1 ra /\ lines_mean r1 b r2 rb /\ rs = ra ++ rb.
Proof.
  induction a as [|l a IH]; intros b r r2 rs; cbn [app].
  - split; [intros M; exists r, [], rs; split; [constructor|]; now split|]. intros (r1 & ra & rb & A & B & ->). inversion A; subst. exact B.
  - split.
    + intros M. inversion M as [|? ? l' r3 rs1 ? ? rss T L M2]; subst. apply IH in M2. destruct M2 as (r1 & ra & rb & A & B & ->).
      exists r1, (rs1 ++ ra), rb. split; [econstructor; eassumption|]. split; [exact B|apply app_assoc].
    + intros (r1 & ra & rb & A & B & ->). inversion A as [|? ? l' r3 rs1 ? ? rss T L M2]; subst. rewrite <- app_assoc. econstructor; [exact T|exact L|].
      apply IH. exists r1, rss, rb. auto.
Qed.
Lemma subtitle_means r l text f t r1 rs l' start finish : trimmed l l' -> subtitle_line l' start finish text -> frame_time start f -> frame_time finish t ->
  line_means r l' r1 rs -> pieces (with_times f t r) text r1 rs.
Proof.
  intros T S F1 F2 M.
  assert (NS : forall name v, ~ setting_line l' name v) by (intros name v (H & _); destruct S as (_ & N & _); now apply N).
  assert (HT : forall s u, frame_time s u -> ~ StlTextSpec.no_time s) by (intros s u (a & b & c & d & h & m & sec & x & Q & _) N; now apply N in Q).
  inversion M as [? v S1|? v b S1 B|? v b S1 B|? v b S1 B|? v k S1 I|? name v S1 N|? start1 finish1 from to text1 ? ? S1 G1 G2 P|? start1 finish1 text1 S1 O|? N1 N2]; subst;
    try (exfalso; exact (NS _ _ S1)).
  - destruct (subtitle_unique _ _ _ _ _ _ _ S S1) as (-> & -> & ->). now rewrite (frame_time_unique _ _ _ F1 G1), (frame_time_unique _ _ _ F2 G2).
  - exfalso. destruct (subtitle_unique _ _ _ _ _ _ _ S S1) as (<- & <- & _). destruct O as [[N _]|[N _]]; [exact (HT _ _ F1 N)|exact (HT _ _ F2 N)].
  - exfalso. exact (N2 _ _ _ S).
Qed.
Lemma stl_retimes good a l l' text b f t f' t' : whole_lines a -> stl_subtitle l text f t -> stl_subtitle l' text f' t' ->
  retimes (stl_text_read good) a (l ++ [lf]) (l' ++ [lf]) b f t f' t'.
Proof.
  intros W (NL & k & start & finish & T & S & F1 & F2) (NL' & k' & start' & finish' & T' & S' & F1' & F2') r. destruct good.
  2:{ intros [= <-]. exists [], [], []. now repeat split. }
  assert (CL : complete_lines (l ++ [lf]) [l]) by (constructor; [exact NL|]; constructor; auto).
  assert (CL' : complete_lines (l' ++ [lf]) [l']) by (constructor; [exact NL'|]; constructor; auto).
  assert (WL : whole_lines (l ++ [lf])) by (right; now exists l). assert (WL' : whole_lines (l' ++ [lf])) by (right; now exists l').
  set (la := getlines (length a) a). assert (CA : complete_lines a la) by (apply (getlines_iff (length a)); [lia|reflexivity]).
  set (lb := getlines (length b) b). assert (CB : complete_lines b lb) by (apply (getlines_iff (length b)); [lia|reflexivity]).
  rewrite text_stl_iff. setoid_rewrite text_stl_iff. intros (ls & r0 & C & M).
  rewrite (complete_unique _ _ _ C (complete_join _ _ CA W _ _ (complete_join _ _ CL WL _ _ CB))) in M.
  apply lines_mean_app in M. destruct M as (r1 & ra & rest & MA & M & ->). apply lines_mean_app in M. destruct M as (r2 & rc & rb & MC & MB & ->).
  exists ra, rc, rb. split; [reflexivity|]. split; [now exists la, r1|].
  split; [exists (la ++ [l]), r2; split; [now apply complete_join|]; apply lines_mean_app; exists r1, ra, rc; auto|].
  inversion MC as [|? ? k2 r3 rs1 ? ? rss T2 L M2]; subst. inversion M2; subst. rewrite app_nil_r in *. rewrite (trimmed_unique _ _ _ T2 T) in L.
  pose proof (subtitle_means _ _ _ _ _ _ _ _ _ _ T S F1 F2 L) as P.
  split; [apply (stl_pieces_lasts _ _ _ _ _ _ P); now split|].
  pose proof (stl_pieces_times f' t' _ _ _ _ P) as P'. change (with_times f' t' (with_times f t r1)) with (with_times f' t' r1) in P'.
  destruct (lines_other_times _ f' t' _ _ _ MB) as (r4 & MB'). exists (la ++ [l'] ++ lb), r4.
  split; [apply complete_join; auto; now apply complete_join|]. apply lines_mean_app. exists r1, ra, (map (with_times f' t') rs1 ++ rb). split; [exact MA|].
  split; [|reflexivity]. cbn [app]. econstructor; [exact T'| |exact MB']. eapply means_subtitle; eassumption.
Qed.

(** * Binary STL *)

Lemma piece_times g f t f' t' just p r : decode_piece g f t just p = Ok r -> decode_piece g f' t' just p = Ok (with_times f' t' r) /\ lasts f t r.
Proof. unfold decode_piece. destruct (pure_decode _ _); cbn [bind]; try discriminate. intros [= <-]. split; [reflexivity|now split]. Qed.
Lemma pieces_times g f t f' t' just ps rs : mapM (decode_piece g f t just) ps = Ok rs ->
  mapM (decode_piece g f' t' just) ps = Ok (map (with_times f' t') rs) /\ Forall (lasts f t) rs.
Proof.
  rewrite !mapM_iff. induction 1 as [|p r ps rs P F [IH1 IH2]]; [split; constructor|]. destruct (piece_times _ _ _ f' t' _ _ _ P) as [A B]. cbn [map]. now split; constructor.
Qed.
Lemma same_int b b' i : other_timecodes b b' -> (13 <= i)%nat -> get_int b' i = get_int b i.
Proof.
  intros (p & t & t' & q & -> & -> & P & T & T') I. unfold get_int. rewrite !app_assoc, !(app_nth2 (_ ++ _)) by (rewrite app_length; lia).
  rewrite !app_length, P, T, T'. reflexivity.
Qed.
Lemma same_string b b' i n : other_timecodes b b' -> (13 <= i)%nat -> get_string b' i n = get_string b i n.
Proof.
  intros (p & t & t' & q & -> & -> & P & T & T') I. unfold get_string. rewrite !app_assoc, !(skipn_app i (_ ++ _)).
  rewrite !(skipn_all2 (n := i) (_ ++ _)) by (rewrite app_length; lia). rewrite !app_length, P, T, T'. reflexivity.
Qed.
Lemma block_times g b b' f t f' t' rs o : tti_size b -> other_timecodes b b' ->
  timecode_at b 5 (frame_rate g) f -> timecode_at b 9 (frame_rate g) t -> timecode_at b' 5 (frame_rate g) f' -> timecode_at b' 9 (frame_rate g) t' ->
  block_res g b = Ok (rs, o) -> block_res g b' = Ok (map (with_times f' t') rs, o) /\ Forall (lasts f t) rs.
Proof.
  intros L O F T F' T'. assert (L' : length b' = 128%nat).
  { destruct O as (p & x & x' & q & -> & -> & P & X & X'). unfold tti_size in L. rewrite !app_length in *. lia. }
  unfold tti_size in L. apply tc_iff in F, T, F', T'; try lia. unfold block_res.
  rewrite !(same_int b b') by (exact O || lia). rewrite !(same_string b b') by (exact O || lia).
  destruct (comment_file_to_enum (get_int b 15)) as [c| |]; cbn [bind]; try discriminate. destruct c; [|intros [= <- <-]; split; [reflexivity|constructor]].
  cbv zeta. rewrite <- F, <- T, <- F', <- T'.
  intros H. apply bind_ok in H. destruct H as (rs' & M & [= <- <-]). destruct (pieces_times _ _ _ f' t' _ _ _ M) as [A B]. rewrite A. cbn [bind]. now split.
Qed.
Lemma fix_lines_times f t h n l : fix_lines h n (map (with_times f t) l) = map (with_times f t) (fix_lines h n l).
Proof. unfold fix_lines. destruct (n <? h); [|reflexivity]. rewrite !map_map. apply map_ext. intros r. now destruct r as [? ? ? ? ? ? ? ? ? ? [? [?|] ? ?] ? ? ? ?]. Qed.
Lemma fix_lines_lasts f t h n l : Forall (lasts f t) l -> Forall (lasts f t) (fix_lines h n l).
Proof. unfold fix_lines. destruct (n <? h); [|auto]. intros F. apply Forall_map. eapply Forall_impl; [|exact F]. intros r. now destruct r as [? ? ? ? ? ? ? ? ? ? [? [?|] ? ?] ? ? ? ?]. Qed.
Lemma stl_block_retimed h h' head g before b b' rest f t f' t' subs :
  header_read head g -> Forall tti_size before -> tti_size b -> other_timecodes b b' -> Z.of_nat (length before) < tti_blocks g ->
  timecode_at b 5 (frame_rate g) f -> timecode_at b 9 (frame_rate g) t -> timecode_at b' 5 (frame_rate g) f' -> timecode_at b' 9 (frame_rate g) t' ->
  snd (stl_binary_read (head ++ List.concat before ++ b ++ rest) (after h)) = Ok (g, subs) ->
  exists ra rc rb pc last k, subs = ra ++ rc ++ rb /\ block_read g b pc last /\ Forall2 (moved_up k) pc rc /\ Forall (lasts f t) rc /\
    snd (stl_binary_read (head ++ List.concat before ++ b' ++ rest) (after h')) = Ok (g, ra ++ map (with_times f' t') rc ++ rb).
Proof.
  intros G B S O N F T F' T'. assert (S' : tti_size b').
  { destruct O as (p & x & x' & q & -> & -> & P & X & X'). unfold tti_size in *. rewrite !app_length in *. lia. }
  rewrite (proj1 (read_ok _ (after h') (after_reached h'))), (proj1 (read_ok _ (after h) (after_reached h))).
  rewrite !(file_res_header _ _ _ G). replace (b ++ rest) with (List.concat [b] ++ rest) by (cbn; now rewrite app_nil_r). replace (b' ++ rest) with (List.concat [b'] ++ rest) by (cbn; now rewrite app_nil_r). rewrite !concat_split.
  set (n := (Z.to_nat (tti_blocks g) - (length before + 1))%nat).
  replace (Z.to_nat (tti_blocks g)) with (length (before ++ [b]) + n)%nat at 1 by (rewrite !app_length; cbn; lia).
  replace (Z.to_nat (tti_blocks g)) with (length (before ++ [b']) + n)%nat by (rewrite !app_length; cbn; lia).
  rewrite !blocks_res_app by (rewrite !Forall_app; auto). rewrite !mapM_app.
  destruct (mapM (block_res g) before) as [lb| |] eqn:MB; cbn [bind]; try discriminate. cbn [mapM].
  destruct (block_res g b) as [[rs o]| |] eqn:RB; cbn [bind]; try discriminate.
  destruct (block_times g b b' f t f' t' rs o S O F T F' T' RB) as [RB' LS]. rewrite RB'. cbn [bind].
  destruct (blocks_res n g rest) as [lr| |] eqn:MR; cbn [bind]; try discriminate. intros [= <-].
  rewrite !map_app, !concat_app, !top_row_app. cbn [map fst snd List.concat]. rewrite !app_nil_r.
  set (top := Z.max (Z.max _ _) _). rewrite !fix_lines_app, <- !app_assoc. rewrite fix_lines_times.
  do 3 eexists. exists rs, o, (Z.max 0 (top - maximum_rows g)).
  split; [reflexivity|]. split; [now apply block_iff|]. split; [|split; [now apply fix_lines_lasts|reflexivity]].
  apply fix_lines_iff; [|reflexivity]. pose proof (blocks_placed g [b] [(rs, o)] ltac:(now constructor)) as PL. cbn [mapM] in PL. rewrite RB in PL. specialize (PL eq_refl).
  cbn in PL. now rewrite app_nil_r in PL.
Qed.

(** * For the examples *)

Lemma stl_subtitle_of l from x to text f t : ~ In lf l -> trim l = from ++ [x] ++ comma :: to ++ comma :: text -> ~ is_comment (trim l) -> ~ is_setting (trim l) -> text <> [] ->
  ~ In comma (from ++ [x]) -> ~ In comma to -> from <> [] -> stlt_time (trim from) = Ok (Some f) -> stlt_time (trim to) = Ok (Some t) -> stl_subtitle l text f t.
Proof.
  intros N E C S X A B F T1 T2. split; [exact N|]. exists (trim l), (trim from), (trim to). split; [now apply trim_iff|].
  split; [|split].
  - split; [exact C|]. split; [exact S|]. split; [exact X|]. exists from, x, to. split; [split; [now rewrite <- app_assoc|now split]|]. split; [exact F|]. split; now apply trim_iff.
  - generalize (time_total (trim from)). now rewrite T1.
  - generalize (time_total (trim to)). now rewrite T2.
Qed.
