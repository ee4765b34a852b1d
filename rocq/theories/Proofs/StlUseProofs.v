(** Consequences of the writer's correctness: header strings, frame bytes, rows, collected subtitles. *)
From Coq Require Import ZArith Reals List Bool Ascii String Lia Lra Permutation.
From Flocq Require Import Core.
From Verif.Model Require Import Base Strings Float TimeModel Types Collect RawConvert Iso6937Tables Utf Iso6937 StlTables StlUtil
  StlBinReader StlBinWriter.
From Verif.Spec Require Import Outcome TextSpec TimeSpec Utf8Spec Iso6937Spec PositionSpec SortSpec CollectSpec StlTableSpec StlFileSpec
  StlWriteSpec StlSamples.
From Verif.Proofs Require Import TimeProofs FloatProofs PositionProofs StringProofs Iso6937Proofs UtfProofs CollectProofs StlReadProofs StlWriteProofs StlRowProofs
  StlWriterProofs StlFileProofs.
Import ListNotations.
Local Open Scope Z_scope.
Local Notation length := List.length.

Lemma field_full n s : length s = n -> field n s = s.
Proof. intros <-. unfold field. rewrite Nat.sub_diag. cbn [repeat]. apply app_nil_r. Qed.

Lemma strings_at n a ss file : header_ok a -> stl_written n a ss file ->
  Forall (fun x => let '(at_, len, s) := x in bytes_at file at_ len (field len s)) (header_strings a).
Proof.
  intros H W. destruct (written_structure n a ss file H W) as (rowss & blockss & dfc & lang & d & longest & rn & nt & ns & nl & _ & _ & _ & _ & _ & _ & _ & _ & _ & _ & _ & HA & _).
  destruct H as (_ & _ & _ & _ & _ & _ & D1 & D2 & _ & CO & _).
  destruct HA. unfold header_strings. repeat constructor; try assumption; rewrite field_full by assumption; assumption.
Qed.

(** * Frame bytes *)

Lemma time_ok_rate t : time_ok t -> exists tr, t_rate t = Some tr /\ 0 < num tr /\ 0 < den tr.
Proof. intros (_ & tr & R & N & D & _). eauto. Qed.

Lemma clear_frame k t h m s f : 0 < k < 256 -> time_ok t -> clear_of_second k t -> timecode (k * 1000) t h m s f -> 0 <= f < k.
Proof.
  intros K T [F C] TC. apply (timecode_frame k t h m s f K TC). intros tr R. destruct (time_ok_rate t T) as (tr' & R' & N & D).
  assert (tr' = tr) by congruence. subst. auto.
Qed.
Lemma within_frame k t h m s f : 0 < k < 256 -> time_ok t -> within_second t -> timecode (k * 1000) t h m s f -> 0 <= f <= k.
Proof.
  intros K T [F C] TC. apply (timecode_frame_most k t h m s f K TC). intros tr R. destruct (time_ok_rate t T) as (tr' & R' & N & D).
  assert (tr' = tr) by congruence. subst. auto.
Qed.

Lemma written_frames k a ss file i b : 0 < k < 256 -> header_ok a -> Forall writable ss -> stl_written (k * 1000) a ss file -> block_at file i b ->
  exists s f1 f2, In s ss /\ byte_at b 8 f1 /\ byte_at b 12 f2 /\
    (clear_of_second k (s_from s) -> f1 < k) /\ (clear_of_second k (s_to s) -> f2 < k) /\
    (within_second (s_from s) -> f1 <= k) /\ (within_second (s_to s) -> f2 <= k).
Proof.
  intros K H WR W B. destruct (written_block _ _ _ _ i b H W B) as (s & rows & blocks & I & _ & SB & IB).
  destruct (block_times _ _ _ _ _ SB IB) as (h1 & m1 & s1 & f1 & h2 & m2 & s2 & f2 & T1 & T2 & _ & _ & _ & B1 & _ & _ & _ & B2).
  rewrite Forall_forall in WR. destruct (WR s I) as (_ & O1 & O2 & _).
  exists s, (f1 mod 256), (f2 mod 256). split; [exact I|]. split; [exact B1|]. split; [exact B2|].
  repeat split; intros C.
  - pose proof (clear_frame _ _ _ _ _ _ K O1 C T1). rewrite Z.mod_small; lia.
  - pose proof (clear_frame _ _ _ _ _ _ K O2 C T2). rewrite Z.mod_small; lia.
  - pose proof (within_frame _ _ _ _ _ _ K O1 C T1). rewrite Z.mod_small; lia.
  - pose proof (within_frame _ _ _ _ _ _ K O2 C T2). rewrite Z.mod_small; lia.
Qed.

(** * Collected subtitles *)

Lemma blocks_parts bs ps : Forall2 block_holds bs ps -> Forall raw_writable ps -> Forall text_ok bs.
Proof.
  induction 1 as [|b p bs ps (T & _) _ IH]; intros W; constructor; [|apply IH; now apply Forall_inv_tail in W].
  apply Forall_inv in W. destruct W as (_ & _ & _ & X). unfold text_ok. now rewrite T.
Qed.
Lemma line_parts l ps : line_holds l ps -> Forall raw_writable ps -> placed (l_vpos l) /\ Forall text_ok (l_blocks l).
Proof.
  destruct ps as [|p ps]; [intros []|]. intros (_ & -> & F & _) W. split; [apply Forall_inv in W; now destruct W as (_ & _ & P & _)|].
  now apply (blocks_parts _ (p :: ps)).
Qed.
Lemma subtitle_parts s ls : subtitle_holds s ls -> Forall raw_writable (List.concat ls) -> writable s.
Proof.
  unfold subtitle_holds. destruct (List.concat ls) as [|p rest] eqn:E; [intros []|]. intros (F & T & _ & _ & L & _) W.
  pose proof (Forall_inv W) as (T1 & T2 & _). split; [intros X; rewrite X in L; inversion L; subst; discriminate|].
  rewrite F, T. split; [exact T1|]. split; [exact T2|]. rewrite <- E in W. clear - L W.
  induction L as [|l ps ll lls H _ IH]; constructor.
  - apply (line_parts l ps H). cbn [List.concat] in W. now apply Forall_app in W.
  - apply IH. cbn [List.concat] in W. now apply Forall_app in W.
Qed.
Lemma collected_writable sort l : conforming sort -> all_comparable l -> Forall raw_writable l ->
  exists subs, collect sort l = Ok subs /\ Forall writable subs.
Proof.
  intros S C W. destruct (collect_spec sort l S C) as (sorted & subs & groups & (P & _) & E & (EG & F & _)).
  exists subs. split; [exact E|]. assert (W' : Forall raw_writable sorted) by now rewrite <- P. rewrite <- EG in W'. clear - F W'.
  induction F as [|s g subs groups H _ IH]; constructor.
  - cbn [map List.concat] in W'. apply Forall_app in W' as [A _]. now apply (subtitle_parts s g).
  - apply IH. cbn [map List.concat] in W'. now apply Forall_app in W'.
Qed.

(** The bytes of a line are among those of the pieces. *)
Definition text_bytes (l : list raw) : nat := length (List.concat (map r_text l)).
Lemma blocks_bytes bs ps : Forall2 block_holds bs ps -> length (List.concat (map b_text bs)) = text_bytes ps.
Proof. unfold text_bytes. induction 1 as [|b p bs ps (T & _) _ IH]; cbn [map List.concat]; [reflexivity|]. rewrite !app_length, IH, T. reflexivity. Qed.
Lemma text_bytes_app a b : text_bytes (a ++ b) = (text_bytes a + text_bytes b)%nat.
Proof. unfold text_bytes. now rewrite map_app, concat_app, app_length. Qed.
Lemma text_bytes_permutation a b : Permutation a b -> text_bytes a = text_bytes b.
Proof.
  induction 1; unfold text_bytes in *; cbn [map List.concat]; rewrite ?app_length in *; lia.
Qed.
Lemma concat_bytes (g : list (list raw)) ps : In ps g -> (text_bytes ps <= text_bytes (List.concat g))%nat.
Proof. intros I. apply in_split in I as (x & y & ->). rewrite concat_app. cbn [List.concat]. rewrite !text_bytes_app. lia. Qed.
Lemma Forall2_left {A B : Type} (P : A -> B -> Prop) l m x : Forall2 P l m -> In x l -> exists y, In y m /\ P x y.
Proof. induction 1 as [|a b l m H _ IH]; [intros []|]. intros [<-|I]; [exists b; split; [now left|exact H]|]. destruct (IH I) as (y & J & Q). exists y. split; [now right|exact Q]. Qed.

Lemma collected_bytes sort l subs : conforming sort -> all_comparable l -> collect sort l = Ok subs ->
  Forall (fun s => Forall (fun k => bytes_of_line k <= Z.of_nat (text_bytes l)) (s_lines s)) subs.
Proof.
  intros S C E. destruct (collect_spec sort l S C) as (sorted & subs' & groups & (P & _) & E' & (EG & F & _)).
  rewrite E in E'. apply Ok_inj in E'. subst subs'. rewrite Forall_forall. intros s I. rewrite Forall_forall. intros k K.
  destruct (Forall2_left _ _ _ s F I) as (g & IG & H). unfold subtitle_holds in H. destruct (List.concat g) as [|p rest] eqn:EC; [destruct H|].
  destruct H as (_ & _ & _ & _ & L & _). destruct (Forall2_left _ _ _ k L K) as (ps & IP & H). unfold line_holds in H. destruct ps as [|q ps]; [destruct H|].
  destruct H as (_ & _ & B & _). unfold bytes_of_line. rewrite (blocks_bytes _ _ B), (text_bytes_permutation _ _ P), <- EG.
  apply inj_le. etransitivity; [apply (concat_bytes g _ IP)|]. apply concat_bytes. apply in_map_iff. now exists g.
Qed.

Lemma collected_written h n a sort l : conforming sort -> all_comparable l -> Forall raw_writable l ->
  Z.of_nat (length (List.concat (map r_text l))) < 2 ^ 31 -> stl_rate (w_fps a) n -> header_ok a -> 0 <= w_revision_number a ->
  exists subs file, collect sort l = Ok subs /\ snd (write_stl_binary subs a (after h)) = Ok file /\ (small file -> stl_written n a subs file).
Proof.
  intros S C W B R H RN. destruct (collected_writable sort l S C W) as (subs & E & WS). pose proof (collected_bytes sort l subs S C E) as BL.
  destruct (write_ok h subs a n) as (file & WF & Q).
  { split; [exact R|]. split; [exact WS|]. split; [exact H|]. split; [exact RN|]. eapply Forall_impl; [|exact BL]. intros s. apply Forall_impl.
    intros k K. change (length (List.concat (map r_text l))) with (text_bytes l) in B. lia. }
  eauto.
Qed.

(** * Rows *)

Lemma own_rows l k : l_vpos l = row_position k -> 0 <= k <= 23 -> stl_vertical_position l = Ok (if (k =? 7) || (k =? 14) then k - 1 else k).
Proof.
  intros V K. unfold stl_vertical_position. rewrite V. clear V.
  assert (A : forallb (fun k => match
     (let v := row_position k in
      let ref := match v_ref v with Some r => r | None => TOP_OF_SCREEN end in
      match v_prop v with Some p => Ok 0 | None =>
      match v_line v with Some n => let* lines := opt_get (v_lines v) in to_int (trunc_Z (fmul (fdiv (f_of_int n) (f_of_int lines)) (f_of_int ROWS))) | None => Ok 0 end end)
     with Ok r => r =? (if (k =? 7) || (k =? 14) then k - 1 else k) | _ => false end) (map Z.of_nat (seq 0 24)) = true) by (vm_compute; reflexivity).
  rewrite forallb_forall in A. specialize (A k). cbn [row_position v_ref v_prop v_line v_lines opt_get bind] in A |- *.
  assert (I : In k (map Z.of_nat (seq 0 24))). { apply in_map_iff. exists (Z.to_nat k). split; [lia|]. apply in_seq. lia. }
  specialize (A I). destruct (to_int _) as [r|e|u]; [|discriminate A..]. apply Z.eqb_eq in A. now rewrite A.
Qed.

Lemma own_row_list ls rows : Forall (fun l => exists k, l_vpos l = row_position k /\ 0 <= k <= 23) ls -> mapM stl_vertical_position ls = Ok rows ->
  Forall2 (fun l r => exists k, l_vpos l = row_position k /\ 0 <= k <= 23 /\ r = (if (k =? 7) || (k =? 14) then k - 1 else k)) ls rows.
Proof.
  intros F. revert rows. induction F as [|l ls (k & V & K) _ IH]; intros rows E; cbn [mapM] in E.
  - apply Ok_inj in E. subst. constructor.
  - rewrite (own_rows l k V K) in E. cbn [bind] in E. destruct (mapM _ ls) as [rs|e|u]; [|discriminate E..]. cbn [bind] in E. apply Ok_inj in E. subst.
    constructor; [|now apply IH]. now exists k.
Qed.

Lemma block_top n s rows blocks b : subtitle_blocks n s rows blocks -> In b blocks -> exists top, least rows top /\ byte_at b 13 (top mod 256).
Proof.
  intros SB I. pose proof (subtitle_block_lengths _ _ _ _ SB) as BL. rewrite Forall_forall in BL. specialize (BL b I).
  destruct SB as (h1 & m1 & s1 & f1 & h2 & m2 & s2 & f2 & top & first & its & text & chunks & _ & _ & L & _ & _ & _ & _ & F).
  exists top. split; [exact L|]. apply byte_at_iff; [lia|].
  assert (X : exists c, map char_code b = [1; 0; 0; fst c; 0; h1 mod 256; m1; s1; f1 mod 256; h2 mod 256; m2; s2; f2 mod 256; top mod 256; justification_of first; 0] ++ snd c).
  { clear - F I. induction F as [|c b' cs bs X _ IH]; [destruct I|]. destruct I as [->|I]; [now exists c|now apply IH]. }
  destruct X as (c & X). unfold get_int. rewrite code_char, <- (map_nth char_code), X. reflexivity.
Qed.

Lemma block_of_subtitle h n a ss file i b : acceptable n a ss ->
  snd (write_stl_binary ss a (after h)) = Ok file -> small file -> block_at file i b ->
  exists s rows top, In s ss /\ mapM stl_vertical_position (s_lines s) = Ok rows /\ least rows top /\ byte_at b 13 (top mod 256).
Proof.
  intros A W SM B. destruct (write_parts h ss a n A) as (rowss & blockss & g & E & EX & SB & BL & F). rewrite W in E. apply Ok_inj in E.
  rewrite E in SM. destruct (F SM) as (lang & d & longest & _ & DF & LI & _ & GL). 
  assert (LG : length g = 1024%nat). { destruct A as (_ & _ & HO & _). eapply gsi_length; [exact HO|exact DF|exists d; exact LI|exact GL]. }
  assert (I : In b (List.concat blockss)).
  { destruct B as (p & q & EF & LP & LB). apply (nth_block (List.concat blockss) [] i); [exact BL| |].
    - unfold str in *. assert (LL : length file = (1024 + 128 * length (List.concat blockss))%nat) by (rewrite E, app_length, LG, (blocks_length _ BL); reflexivity).
      rewrite EF, !app_length, LP, LB in LL. unfold str in *. lia.
    - rewrite app_nil_r. exists (skipn 1024 p), q. split; [|split; [rewrite skipn_length; lia|exact LB]].
      assert (X : skipn 1024 file = skipn 1024 (p ++ b ++ q)) by now rewrite EF.
      rewrite E in X. rewrite skipn_app, LG, Nat.sub_diag, (skipn_all2 g) in X by lia. rewrite skipn_O, app_nil_l in X.
      rewrite X, skipn_app. replace (1024 - length p)%nat with 0%nat by lia. reflexivity. }
  pose proof (combine_facts _ _ _ _ _ EX SB) as CF. apply in_concat in I as (bs & IB & I).
  assert (Y : exists s rows, In s ss /\ mapM stl_vertical_position (s_lines s) = Ok rows /\ subtitle_blocks n s rows bs).
  { clear - CF IB. induction CF as [|s bs' ss bss (rows & R & S) _ IH]; [destruct IB|]. destruct IB as [->|IB].
    - exists s, rows. split; [now left|]. now split.
    - destruct (IH IB) as (s' & rows' & J & Q). exists s', rows'. split; [now right|exact Q]. }
  destruct Y as (s & rows & IS & MR & SBB). destruct (block_top _ _ _ _ _ SBB I) as (top & L & BT).
  now exists s, rows, top.
Qed.

Lemma row_written_as_is h n a ss file i b : acceptable n a ss ->
  (forall s l, In s ss -> In l (s_lines s) -> exists k, l_vpos l = row_position k /\ 0 <= k <= 23) ->
  snd (write_stl_binary ss a (after h)) = Ok file -> small file -> block_at file i b ->
  exists s l top, In s ss /\ In l (s_lines s) /\ l_vpos l = row_position top /\
    (forall l' k, In l' (s_lines s) -> l_vpos l' = row_position k -> top <= k) /\
    (top <> 7 -> top <> 14 -> byte_at b 13 top) /\ (top = 7 \/ top = 14 -> byte_at b 13 (top - 1)).
Proof.
  intros A K W SM B. destruct (block_of_subtitle h n a ss file i b A W SM B) as (s & rows & r & IS & MR & (IR & LE) & BT).
  pose proof (own_row_list (s_lines s) rows) as KR. specialize (KR ltac:(rewrite Forall_forall; intros l L; now apply (K s)) MR).
  assert (X : exists l k, In l (s_lines s) /\ l_vpos l = row_position k /\ 0 <= k <= 23 /\ (forall l' k', In l' (s_lines s) -> l_vpos l' = row_position k' -> k <= k') /\
    In (if (k =? 7) || (k =? 14) then k - 1 else k) rows).
  { assert (NE : rows <> []) by (intros ->; destruct IR). clear - KR NE.
    induction KR as [|l r' ls rs (k & V & B & ->) F IH]; [now destruct NE|]. destruct F as [|l2 r2 ls rs F2 F].
    - exists l, k. split; [now left|]. split; [exact V|]. split; [exact B|]. split; [|now left].
      intros l' k' [<-|[]] V'. rewrite V in V'. unfold row_position in V'. injection V' as ->. lia.
    - specialize (IH ltac:(discriminate)).
      destruct IH as (l' & k' & I' & V' & B' & L' & R'). destruct (Z_le_gt_dec k k') as [LE|GT].
      + exists l, k. split; [now left|]. split; [exact V|]. split; [exact B|]. split; [|now left].
        intros l3 k3 [<-|I3] V3; [rewrite V in V3; unfold row_position in V3; injection V3 as ->; lia|]. specialize (L' l3 k3 I3 V3). lia.
      + exists l', k'. split; [now right|]. split; [exact V'|]. split; [exact B'|]. split; [|now right].
        intros l3 k3 [<-|I3] V3; [rewrite V in V3; unfold row_position in V3; injection V3 as <-; lia|]. exact (L' l3 k3 I3 V3). }
  destruct X as (l & k & IL & V & KB & LL & IK). rewrite Forall_forall in LE. pose proof (LE _ IK) as LK.
  assert (Y : exists l' k', In l' (s_lines s) /\ l_vpos l' = row_position k' /\ r = (if (k' =? 7) || (k' =? 14) then k' - 1 else k')).
  { clear - KR IR. induction KR as [|l r' ls rs (k & V & B & ->) F IH]; [destruct IR|]. destruct IR as [<-|IR].
    - exists l, k. split; [now left|]. now split.
    - destruct (IH IR) as (l' & k' & I' & Q). exists l', k'. split; [now right|exact Q]. }
  destruct Y as (l' & k' & IL' & V' & RE). specialize (LL l' k' IL' V') as LKK.
  exists s, l, k. split; [exact IS|]. split; [exact IL|]. split; [exact V|]. split; [exact LL|].
  assert (RK : r = (if (k =? 7) || (k =? 14) then k - 1 else k)).
  { destruct (Z.eqb_spec k 7), (Z.eqb_spec k 14), (Z.eqb_spec k' 7), (Z.eqb_spec k' 14); cbn [orb] in *; lia. }
  rewrite Z.mod_small in BT by (rewrite RK; destruct (Z.eqb_spec k 7), (Z.eqb_spec k 14); cbn [orb]; lia). split.
  - intros N7 N14. destruct (Z.eqb_spec k 7), (Z.eqb_spec k 14); cbn [orb] in RK; try contradiction. now rewrite RK in BT.
  - intros [-> | ->]; cbn [Z.eqb orb] in RK; [change (7 =? 7) with true in RK|change ((14 =? 7) || (14 =? 14)) with true in RK]; cbn [orb] in RK; now rewrite RK in BT.
Qed.

Lemma rows_kept h n a ss file i b : acceptable n a ss ->
  (forall s l, In s ss -> In l (s_lines s) -> exists k, l_vpos l = row_position k /\ 0 <= k <= 23 /\ k <> 7 /\ k <> 14) ->
  snd (write_stl_binary ss a (after h)) = Ok file -> small file -> block_at file i b ->
  exists s top l, In s ss /\ byte_at b 13 top /\ In l (s_lines s) /\ l_vpos l = row_position top /\
    forall l' k, In l' (s_lines s) -> l_vpos l' = row_position k -> top <= k.
Proof.
  intros A K W SM B. destruct (row_written_as_is h n a ss file i b A) as (s & l & top & IS & IL & V & LE & N & _); try assumption.
  { intros s l IS IL. destruct (K s l IS IL) as (k & V & KB & _). now exists k. }
  exists s, top, l. split; [exact IS|]. destruct (K s l IS IL) as (k & V' & _ & N7 & N14). rewrite V in V'. unfold row_position in V'. injection V' as ->.
  split; [now apply N|]. split; [exact IL|]. now split.
Qed.

(** * Samples *)

Lemma whole_rate k : 1 <= k <= 255 -> stl_rate (f_of_int k) (k * 1000).
Proof.
  intros K. exists (IZR k). split; [apply f_of_int_ok; lia|]. split; [split; [apply IZR_lt; lia|apply IZR_le; lia]|]. split; [|lia].
  rewrite <- mult_IZR. change (nearest_float (IZR (k * 1000))) with (rnd32 (IZR (k * 1000))). rewrite (rnd32_int (k * 1000)) by lia. now rewrite Ztrunc_IZR.
Qed.
Lemma sample_times s ms : 0 <= s -> 0 <= ms < 1000 -> time_ok (sample_time s ms).
Proof. intros S M. split; [exact S|]. exists (mkR 1000 1). unfold is_int, int_min, int_max. cbn. repeat split; lia. Qed.
Lemma sample_lines row i w text : 0 <= row <= 23 -> utf8 text w -> ~ In 0 w ->
  placed (l_vpos (sample_line row i text)) /\ Forall text_ok (l_blocks (sample_line row i text)).
Proof.
  intros R U N. split.
  - apply (placed_line _ row 23); try reflexivity; try lia. cbn. assert (0 <= IZR row <= 23)%R by (split; apply IZR_le; lia). lra.
  - constructor; [|constructor]. exists w. now split.
Qed.
Lemma plain_utf8 (s : str) : forallb (fun c => (1 <=? char_code c) && (char_code c <? 128)) s = true -> utf8 s (map char_code s) /\ ~ In 0 (map char_code s).
Proof.
  intros H. rewrite forallb_forall in H. split.
  - exists (map (fun c => [char_code c]) s). split.
    + induction s as [|c s IH]; constructor; [|apply IH; intros x X; apply H; now right].
      apply utf8_one. specialize (H c (or_introl eq_refl)). apply andb_true_iff in H as [A B]. apply Z.leb_le in A. apply Z.ltb_lt in B. lia.
    + clear H. induction s as [|c s IH]; cbn; [reflexivity|now f_equal].
  - intros I. apply in_map_iff in I as (c & E & I). specialize (H c I). rewrite E in H. discriminate.
Qed.
Lemma sample_line_ok row i text : 0 <= row <= 23 -> forallb (fun c => (1 <=? char_code c) && (char_code c <? 128)) text = true ->
  placed (l_vpos (sample_line row i text)) /\ Forall text_ok (l_blocks (sample_line row i text)).
Proof. intros R T. destruct (plain_utf8 text T) as [U N]. eapply sample_lines; eassumption. Qed.

Lemma sample_header_ok : header_ok sample_args.
Proof. unfold header_ok. cbn. lia. Qed.
Lemma sample_acceptable : acceptable 25000 sample_args [sample_subtitle].
Proof.
  split; [exact (whole_rate 25 ltac:(lia))|]. split.
  - constructor; [|constructor]. split; [discriminate|]. split; [apply sample_times; lia|]. split; [apply sample_times; lia|].
    constructor; [|constructor; [|constructor]]; apply sample_line_ok; try reflexivity; lia.
  - split; [exact sample_header_ok|]. split; [cbn; lia|]. repeat constructor.
Qed.
Lemma long_acceptable text : forallb (fun c => (1 <=? char_code c) && (char_code c <? 128)) text = true -> Z.of_nat (length text) < 2 ^ 31 ->
  acceptable 25000 sample_args [long_subtitle text].
Proof.
  intros T L. split; [exact (whole_rate 25 ltac:(lia))|]. split.
  - constructor; [|constructor]. split; [discriminate|]. split; [apply sample_times; lia|]. split; [apply sample_times; lia|].
    constructor; [|constructor]; apply sample_line_ok; try assumption; lia.
  - split; [exact sample_header_ok|]. split; [cbn; lia|]. constructor; [|constructor]. constructor; [|constructor].
    unfold bytes_of_line. cbn [l_blocks sample_line map b_text List.concat]. rewrite app_nil_r. exact L.
Qed.

(** * Extension numbers *)

Lemma byte_at_unique b at_ v w : byte_at b at_ v -> byte_at b at_ w -> v = w.
Proof.
  intros (p & c & q & E & L & ->) (p' & c' & q' & E' & L' & ->). rewrite E in E'.
  apply (f_equal (fun x => nth at_ x c)) in E'. rewrite <- L in E' at 1. rewrite nth_middle, <- L', nth_middle in E'. now rewrite E'.
Qed.
Lemma marks_last s blocks : text_in_blocks s blocks -> (length blocks <= 256)%nat ->
  forall i b, nth_error blocks i = Some b -> (byte_at b 3 255 <-> S i = length blocks).
Proof.
  intros (rows & its & text & fill & _ & _ & _ & _ & _ & H) L i b N. pose proof (H i b N) as B.
  assert (I : (i < length blocks)%nat) by (apply nth_error_Some; congruence). destruct (Nat.eqb_spec (S i) (length blocks)) as [E|E]; [tauto|].
  split; [|contradiction]. intros B'. pose proof (byte_at_unique _ _ _ _ B B') as X. rewrite Z.mod_small in X by lia. lia.
Qed.
Lemma text_written h n a ss : acceptable n a ss ->
  exists file, snd (write_stl_binary ss a (after h)) = Ok file /\ (small file ->
    exists head blockss, file = head ++ List.concat (List.concat blockss) /\ length head = 1024%nat /\
      Forall (fun b => length b = 128%nat) (List.concat blockss) /\
      Forall2 (fun s blocks => text_in_blocks s blocks /\
          ((length blocks <= 256)%nat -> forall i b, nth_error blocks i = Some b -> (byte_at b 3 255 <-> S i = length blocks)))
        ss blockss).
Proof.
  intros A. destruct (write_ok h ss a n A) as (file & E & W). exists file. split; [exact E|]. intros S.
  destruct A as (_ & _ & HO & _). destruct (written_text n a ss file HO (W S)) as (head & blockss & EF & L & B & F).
  exists head, blockss. repeat (split; [assumption|]). eapply Forall2_impl; [|exact F]. cbv beta. intros s blocks T. split; [exact T|]. exact (marks_last s blocks T).
Qed.

(** * Statements about the function *)

Lemma header_written h n a ss : acceptable n a ss ->
  exists file, snd (write_stl_binary ss a (after h)) = Ok file /\ (small file ->
    Forall (fun x => let '(at_, len, s) := x in bytes_at file at_ len (field len s)) (header_strings a)).
Proof.
  intros A. destruct (write_ok h ss a n A) as (file & E & W). exists file. split; [exact E|]. intros S.
  destruct A as (_ & _ & HO & _). apply (strings_at n a ss file HO (W S)).
Qed.
Lemma file_written h n a ss : acceptable n a ss ->
  exists file, snd (write_stl_binary ss a (after h)) = Ok file /\ (small file -> stl_written n a ss file /\
    exists k, length file = (1024 + 128 * k)%nat /\ (length ss <= k)%nat).
Proof.
  intros A. destruct (write_ok h ss a n A) as (file & E & W). exists file. split; [exact E|]. intros S. split; [now apply W|].
  destruct A as (_ & _ & HO & _). apply (written_size n a ss); [exact HO|now apply W].
Qed.
Lemma counters_written h n a ss : acceptable n a ss ->
  exists file, snd (write_stl_binary ss a (after h)) = Ok file /\ (small file ->
  exists rn nt ns nl longest, bytes_at file 236 2 rn /\ bytes_at file 238 5 nt /\ bytes_at file 243 5 ns /\ bytes_at file 251 2 nl /\
    longest_is ss longest /\ number 2 (w_revision_number a) rn /\
    (forall k, length file = (1024 + 128 * k)%nat -> Z.of_nat k < 100000 -> number 5 (Z.of_nat k) nt) /\
    (Z.of_nat (length ss) < 100000 -> number 5 (Z.of_nat (length ss)) ns) /\
    (longest < 100 -> number 2 longest nl)).
Proof.
  intros A. destruct (write_ok h ss a n A) as (file & E & W). exists file. split; [exact E|]. intros S.
  destruct A as (_ & _ & HO & _). exact (written_counters n a ss file HO (W S)).
Qed.
Lemma pad_minus v : v < 0 -> minus_counter 2 v (firstn 2 (print_int_pad 2 v)).
Proof.
  intros V. exists (digits (- v)). split; [apply digits_is_numeral; lia|].
  destruct (digits_head (- v)) as (c & t & D & H); [lia|]. split; [rewrite D; cbn; congruence|].
  unfold print_int_pad. destruct (v <? 0) eqn:E; [|lia]. rewrite D. cbn [length]. replace (2 - 1 - S (length t))%nat with 0%nat by lia. reflexivity.
Qed.
(** What the number fields are for all arguments, also with a negative revision number. *)
Lemma counters_exact h n a ss : stl_rate (w_fps a) n -> Forall writable ss -> header_ok a -> - 2 ^ 31 <= w_revision_number a ->
  Forall (fun s => Forall (fun l => bytes_of_line l < 2 ^ 31) (s_lines s)) ss ->
  exists file, snd (write_stl_binary ss a (after h)) = Ok file /\ (small file ->
  exists rn nt ns nl k longest, length file = (1024 + 128 * k)%nat /\ longest_is ss longest /\
    bytes_at file 236 2 rn /\ bytes_at file 238 5 nt /\ bytes_at file 243 5 ns /\ bytes_at file 251 2 nl /\
    (0 <= w_revision_number a -> number 2 (w_revision_number a) rn) /\
    (w_revision_number a < 0 -> minus_counter 2 (w_revision_number a) rn) /\
    counter 5 (Z.of_nat k) nt /\ counter 5 (Z.of_nat (length ss)) ns /\ counter 2 longest nl).
Proof.
  intros S W HO RN LS. destruct (write_parts_any h ss a n S W HO LS) as (rowss & blockss & g & E & _ & _ & _ & BL & EG & LO & L1 & LM).
  eexists. split; [exact E|]. unfold small. intros LF.
  pose proof (blocks_length _ BL) as BLE. unfold str in *. rewrite app_length, BLE in LF.
  destruct (gsi_any a (Z.of_nat (length (List.concat blockss))) (Z.of_nat (length ss)) (longest_line ss)) as (lang & d & LI & EG'); try assumption; try lia.
  rewrite EG' in EG. apply Ok_inj in EG. subst g.
  assert (CN : forall m v, (0 < m)%nat -> 0 <= v -> length (firstn m (print_int_pad m v)) = m).
  { intros m v M V. destruct (pad_counter m v M V) as (x & _ & L & _ & ->). rewrite firstn_length. lia. }
  assert (LL : length lang = 2%nat).
  { pose proof LI as I. assert (A : forallb (fun r => Nat.eqb (length (fst (fst r))) 2) ebu_languages = true) by (vm_compute; reflexivity).
    rewrite forallb_forall in A. specialize (A _ I). now apply Nat.eqb_eq in A. }
  assert (LR : length (firstn 2 (print_int_pad 2 (w_revision_number a))) = 2%nat).
  { destruct (Z.lt_ge_cases (w_revision_number a) 0) as [M|M]; [|apply CN; lia].
    pose proof (minus_length (w_revision_number a) ltac:(lia)). rewrite firstn_length. lia. }
  destruct (fields_at a (stl_frame_rate_to_dfc (w_fps a)) lang _ (firstn 5 (print_int_pad 5 (Z.of_nat (length (List.concat blockss)))))
    (firstn 5 (print_int_pad 5 (Z.of_nat (length ss)))) (firstn 2 (print_int_pad 2 (longest_line ss)))
    (List.concat (List.concat blockss)) HO (dfc_length _) LL LR) as (HA & LH); try (apply CN; lia).
  do 4 eexists. exists (length (List.concat blockss)), (longest_line ss). split; [rewrite app_length, LH, BLE; reflexivity|]. split; [exact LO|].
  destruct HA. split; [eassumption|]. split; [eassumption|]. split; [eassumption|]. split; [eassumption|].
  split. { intros V. apply counter_number; [apply pad_counter; lia|]. change (10 ^ Z.of_nat 2) with 100. destruct HO as (_ & _ & _ & _ & _ & _ & _ & _ & R & _). lia. }
  split; [apply pad_minus|]. split; [apply pad_counter; lia|]. split; [apply pad_counter; lia|]. apply pad_counter; lia.
Qed.

Lemma frames_written h k a ss : 0 < k < 256 -> acceptable (k * 1000) a ss ->
  exists file, snd (write_stl_binary ss a (after h)) = Ok file /\ (small file ->
  forall i b, block_at file i b ->
    exists s f1 f2, In s ss /\ byte_at b 8 f1 /\ byte_at b 12 f2 /\
    (clear_of_second k (s_from s) -> f1 < k) /\ (clear_of_second k (s_to s) -> f2 < k) /\
    (within_second (s_from s) -> f1 <= k) /\ (within_second (s_to s) -> f2 <= k)).
Proof.
  intros K A. destruct (write_ok h ss a _ A) as (file & E & W). exists file. split; [exact E|]. intros S i b.
  destruct A as (_ & WR & HO & _). apply (written_frames k a ss file i b K HO WR (W S)).
Qed.

(** * Refutations *)

Lemma at_bytes (file : str) at_ n s : (Z.of_nat at_ + Z.of_nat n <=? Z.of_nat (length file)) = true -> get_string file at_ n = s -> bytes_at file at_ n s.
Proof. intros L E. apply Z.leb_le in L. apply bytes_at_iff; [lia|exact E]. Qed.
Lemma at_byte (file : str) at_ v : (Z.of_nat at_ <? Z.of_nat (length file)) = true -> get_int file at_ = v -> byte_at file at_ v.
Proof. intros L E. apply Z.ltb_lt in L. apply byte_at_iff; [lia|exact E]. Qed.
Lemma number_ten : number 2 10 (lit "10").
Proof.
  split; [reflexivity|]. change (lit "10") with (["1"%char] ++ ["0"%char]). apply (numeral_more _ 1 _ 0); [apply numeral_one|]; split; (reflexivity || lia).
Qed.
Lemma long_longest text : 0 <= Z.of_nat (length text) -> longest_is [long_subtitle text] (Z.of_nat (length text)).
Proof.
  intros _. unfold longest_is, long_subtitle, sample_line. cbn [map s_lines List.concat app l_blocks]. unfold bytes_of_line. cbn [l_blocks map b_text List.concat].
  rewrite app_nil_r. split; [constructor; [lia|constructor]|left; now left].
Qed.

(** A large file is only looked at. *)
Lemma checked {A : Type} (x : res A) (P : A -> bool) : match x with Ok f => P f | _ => false end = true -> exists f, x = Ok f /\ P f = true.
Proof. destruct x as [f|e|u]; [eauto|discriminate..]. Qed.
Lemma many_blocks : exists file b, snd (write_stl_binary [long_subtitle (repeat "a"%char (112 * 257))] sample_args (after [])) = Ok file /\
  length file = (1024 + 128 * 258)%nat /\ block_at file 255 b /\ byte_at b 3 255.
Proof.
  destruct (checked (snd (write_stl_binary [long_subtitle (repeat "a"%char (112 * 257))] sample_args (after [])))
    (fun file => Nat.eqb (length file) (1024 + 128 * 258) && (get_int (get_string file (1024 + 128 * 255) 128) 3 =? 255))) as (file & E & C);
    [vm_compute; reflexivity|].
  apply andb_true_iff in C as [L B]. apply Nat.eqb_eq in L. apply Z.eqb_eq in B.
  exists file, (get_string file (1024 + 128 * 255) 128). split; [exact E|]. split; [exact L|]. split.
  - apply bytes_at_iff; [lia|reflexivity].
  - apply byte_at_iff; [|exact B]. unfold get_string. rewrite firstn_length, skipn_length. lia.
Qed.
