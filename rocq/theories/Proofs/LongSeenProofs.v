(** What is seen of text that takes any number of blocks. *)
From Coq Require Import ZArith Lia List Bool Ascii String.
From Verif.Model Require Import Base Strings Float TimeModel Types Iso6937 StlBinReader StlBinWriter.
From Verif.Spec Require Import Outcome TextSpec TimeSpec Utf8Spec Iso6937Spec StlFileSpec StlWriteSpec StlSamples StlRoundTripSpec LongTextSpec.
From Verif.Proofs Require Import Iso6937Proofs StlWriterProofs StlFileProofs StlUseProofs StlRoundTripProofs LongTextProofs.
Import ListNotations.
Local Open Scope Z_scope.
Local Notation length := List.length.

Lemma plain_not_code p b : plain_text p -> ~ In nl p -> In b p -> ~ text_code b.
Proof.
  intros P N I C. unfold plain_text in P. rewrite Forall_forall in P. specialize (P b I). destruct C as [C|[-> |C]]; [lia|now apply N|lia].
Qed.

(** Plain text in front of what does not use an accent. *)
Lemma piece_seen d p w : decodes d p w -> plain_text p -> ~ In nl p -> forall row i u rest cells, (forall d', seen row i u d' rest cells) ->
  seen row i u d (p ++ rest) (cells_of row i u w ++ cells).
Proof.
  assert (T : forall b q, plain_text (b :: q) -> plain_text q) by (intros b q P; now inversion P).
  assert (M : forall b q, ~ In nl (b :: q) -> ~ In nl q) by (intros b q P I; apply P; now right).
  induction 1 as [d|d rest|d a rest w A D IH|b c rest w Z0 A G D IH|b rest w Z0 A G D IH|a b c rest w Z0 A G D IH|a b rest w Z0 A K G D IH]; intros P N row i u r cells S; cbn [app cells_of map].
  - apply S.
  - exfalso. inversion P; subst. lia.
  - apply seen_accent; [exact A|]. apply IH; eauto.
  - apply (seen_char row i u None); [exact G|]. apply IH; eauto.
  - apply seen_odd; [exact A|apply (plain_not_code (b :: rest)); try assumption; now left|exact G|]. apply IH; eauto.
  - apply (seen_char row i u (Some a)); [exact G|]. apply IH; eauto.
  - apply seen_odd; [exact A|apply (plain_not_code (b :: rest)); try assumption; now left|exact G|]. apply IH; eauto.
Qed.

Lemma seen_fill row i u d q : Forall (eq 0x8F) q -> seen row i u d q [].
Proof.
  intros F. replace q with (repeat 0x8F (length q)); [apply seen_stop|]. induction F as [|x q <- F IH]; [reflexivity|]. cbn. now rewrite IH.
Qed.
Lemma seen_nothing row i u d cells : seen row i u d [] cells -> cells = [].
Proof. intros S. inversion S; subst. reflexivity. Qed.

Lemma last_seen row s p cs : pieces_cells (map (fun q => (row, fst q, snd q)) (if is_nil p then [] else [(s, p)])) cs -> plain_text p -> ~ In nl p ->
  forall i u rest cells, i = st_italic s -> u = st_underline s -> (forall d, seen row i u d rest cells) -> seen row i u None (p ++ rest) (cs ++ cells).
Proof.
  intros PC P N i u rest cells -> -> S. destruct p as [|b p]; cbn [is_nil map fst snd] in PC.
  - inversion PC; subst. apply S.
  - inversion PC as [|? ? ? w ? cs' D PC']; subst. inversion PC'; subst. rewrite app_nil_r. now apply piece_seen.
Qed.

Lemma pieces_app_inv ps qs c : pieces_cells (ps ++ qs) c -> exists c1 c2, pieces_cells ps c1 /\ pieces_cells qs c2 /\ c = c1 ++ c2.
Proof.
  revert c. induction ps as [|p ps IH]; intros c PC; cbn [app] in PC.
  - exists [], c. split; [constructor|]. now split.
  - inversion PC as [|row s bs w ? cs D PC']; subst. destruct (IH cs PC') as (c1 & c2 & P1 & P2 & ->). eexists (_ ++ c1), c2. split; [constructor; [exact D|exact P1]|]. split; [exact P2|now rewrite app_assoc].
Qed.

Lemma row_seen s bs ps s' : row_pieces s bs ps s' -> forall row cs rest cells, pieces_cells (map (fun q => (row, fst q, snd q)) ps) cs ->
  ~ In nl bs -> Forall (fun b => 8 <= b) bs -> ended (bs ++ rest) -> (rest = [] \/ exists r, rest = nl :: r) ->
  (forall d, seen row (st_italic s') (st_underline s') d rest cells) -> seen row (st_italic s) (st_underline s) None (bs ++ rest) (cs ++ cells).
Proof.
  assert (M : forall (p q : list Z), ~ In nl (p ++ q) -> ~ In nl p /\ ~ In nl q) by (intros p q I; split; intros J; apply I; apply in_or_app; auto).
  induction 1 as [s p PT|s p rest0 PT|s s' s'' p c rest0 ps PT C R IH]; intros row cs rest cells PC N B E RE S.
  - eapply last_seen; eauto.
  - apply M in N. destruct N as [N _]. rewrite <- app_assoc in *. cbn [app] in *. pose proof (E p (rest0 ++ rest) eq_refl) as F.
    assert (rest = []). { destruct RE as [RE|(r & ->)]; [exact RE|]. apply Forall_app in F. destruct F as [_ F]. inversion F. discriminate. } subst rest.
    rewrite (seen_nothing _ _ _ _ _ (S None)). eapply last_seen; eauto. intros d. apply seen_fill. constructor; [reflexivity|exact F].
  - apply M in N. destruct N as [N N']. cbn [map] in PC. inversion PC as [|? ? ? w ? cs' D PC']; subst. rewrite <- !app_assoc in *. cbn [app] in *. apply Forall_app in B. destruct B as [_ B]. inversion B as [|? ? B1 B2]; subst.
    assert (X : seen row (st_italic s') (st_underline s') None (rest0 ++ rest) (cs' ++ cells)).
    { apply IH; try assumption; [intros I; apply N'; now right|]. apply (ended_right (p ++ [c])). now rewrite <- app_assoc. }
    cbn [fst snd]. apply piece_seen; try assumption. intros d. inversion C as [? rgb old i u I|k i u|k i u|k i u|k i u]; subst; cbn [st_italic st_underline] in *.
    + exfalso. cbn in I. repeat (destruct I as [I|I]; [injection I as I _; lia|]). destruct I.
    + now apply seen_italic_on.
    + now apply seen_italic_off.
    + now apply seen_underline_on.
    + now apply seen_underline_off.
Qed.

Lemma rows_seen row i u rows ps : rows_pieces row i u rows ps -> rows <> [] -> forall cs, pieces_cells ps cs -> Forall (fun r => ~ In nl r) rows -> ended (zjoin rows) ->
  Forall (fun b => 8 <= b) (zjoin rows) -> seen row i u None (zjoin rows) cs.
Proof.
  induction 1 as [row i u|row i u bs rest ps s ps' R RS IH]; intros NE cs PC N E L; [now contradiction NE|].
  inversion N as [|? ? N1 N2]; subst. apply pieces_app_inv in PC. destruct PC as (c1 & c2 & P1 & P2 & ->). destruct rest as [|r rest].
  - inversion RS; subst. inversion P2; subst. cbn [zjoin] in *. rewrite <- (app_nil_r bs) in E. rewrite <- (app_nil_r bs) at 1.
    refine (row_seen _ _ _ _ R row c1 [] [] P1 N1 L E (or_introl eq_refl) _). intros d. apply (seen_stop _ _ _ _ 0).
  - change (zjoin (bs :: r :: rest)) with (bs ++ nl :: zjoin (r :: rest)) in *. apply Forall_app in L. destruct L as [L1 L2]. inversion L2; subst.
    refine (row_seen _ _ _ _ R row c1 _ c2 P1 N1 L1 E _ _); [right; eauto|]. intros d. apply seen_row. apply IH; try assumption; [discriminate|].
    apply (ended_right (bs ++ [nl])). now rewrite <- app_assoc.
Qed.

Lemma pieces_back g from to just ps rs : Forall2 (piece_raw g from to just) ps rs -> exists cells, pieces_cells ps cells /\ raws_cells rs cells.
Proof.
  induction 1 as [|[[row s] bs] r ps rs (w & text & D & U & ->) _ (cells & P & parts & F & ->)].
  - exists []. split; [constructor|]. exists []. split; [constructor|reflexivity].
  - eexists. split; [constructor; [exact D|exact P]|]. exists (cells_of row (st_italic s) (st_underline s) w :: parts). split; [|reflexivity]. constructor; [|exact F].
    exists row, w. split; [reflexivity|]. split; [exact U|reflexivity].
Qed.

Lemma count_rows rows : Forall (fun r => ~ In nl r) rows -> rows <> [] -> Z.of_nat (count_occ Z.eq_dec (zjoin rows) 0x8A) = Z.of_nat (length rows) - 1.
Proof.
  induction 1 as [|r rows N F IH]; intros NE; [now contradiction NE|]. apply (count_occ_not_In Z.eq_dec) in N. unfold nl in N. destruct rows as [|r' rows]; [cbn [zjoin length]; lia|].
  change (zjoin (r :: r' :: rows)) with (r ++ 0x8A :: zjoin (r' :: rows)). rewrite count_occ_app, N, count_occ_cons_eq by reflexivity. specialize (IH ltac:(discriminate)). cbn [length] in *. lia.
Qed.

Lemma block_seen g b e h1 m1 s1 f1 h2 m2 s2 f2 top just chunk rs last :
  map char_code b = [1; 0; 0; e; 0; h1; m1; s1; f1; h2; m2; s2; f2; top; just; 0] ++ chunk -> length chunk = 112%nat -> block_read g b rs last -> chunk_ok chunk ->
  exists cells, seen top false false None chunk cells /\ raws_cells rs cells /\ last = Some (top + Z.of_nat (count_occ Z.eq_dec chunk 0x8A)).
Proof.
  intros E LC B (EN & L8). inversion B as [LB BY|from to top' just' text rows pieces raws LB BY T1 T2 BT BJ TX NE J NN RP PR]; subst.
  - exfalso. destruct BY as (p & c & q & -> & LN & CC). rewrite map_app in E. cbn [map] in E. apply (app_inv_length (map char_code p) _ [1; 0; 0; e; 0; h1; m1; s1; f1; h2; m2; s2; f2; top; just]) in E; [|rewrite map_length; exact LN]. destruct E as [_ E]. injection E as E _. lia.
  - assert (ET : top' = top).
    { destruct BT as (p & c & q & EB & LN & CC). subst b. rewrite map_app in E. cbn [map] in E. apply (app_inv_length (map char_code p) _ [1; 0; 0; e; 0; h1; m1; s1; f1; h2; m2; s2; f2]) in E; [|rewrite map_length; exact LN]. destruct E as [_ E]. injection E as E _. lia. }
    subst top'. destruct TX as (p & q & EB & LN & LT). subst b. rewrite !app_length in LB. assert (q = []) by (destruct q; [reflexivity|exfalso; cbn [length] in LB; unfold str in *; lia]). subst q. rewrite app_nil_r in *.
    rewrite map_app in E. apply app_inv_length in E; [|rewrite map_length; exact LN]. destruct E as [_ E]. change (bytes (join [ascii_of_nat 138] rows) = chunk) in E. rewrite join_bytes in E. subst chunk.
    destruct (pieces_back _ _ _ _ _ _ PR) as (cells & PC & RC). exists cells.
    assert (NN' : Forall (fun r => ~ In nl r) (map bytes rows)).
    { apply Forall_forall. intros r I. apply in_map_iff in I. destruct I as (x & <- & I). rewrite Forall_forall in NN. specialize (NN x I). intros Y. apply NN. unfold bytes in Y. apply in_map_iff in Y.
      destruct Y as (c & Y & Z0). unfold nl in Y. assert (c = ascii_of_nat 138) by (apply char_code_eq; rewrite Y; reflexivity). now subst. }
    assert (NE' : map bytes rows <> []) by (intros X; apply map_eq_nil in X; contradiction).
    split; [eapply rows_seen; eauto|]. split; [exact RC|]. rewrite (count_rows _ NN' NE'), map_length. f_equal. lia.
Qed.

Lemma chunks_ok k t cs : chunked k t cs -> forall front, t = front ++ [0x8F] -> Forall coded_byte front -> Forall (fun c => chunk_ok (snd c)) cs.
Proof.
  induction 1 as [k t N L|k t rest cs L N C IH]; intros front E F.
  - constructor; [|constructor]. cbn [snd]. rewrite E. split.
    + rewrite <- app_assoc. exact (front_ended front (S _) F).
    + rewrite <- app_assoc. apply Forall_app. split; [eapply Forall_impl; [|exact F]; intros b [B _]; exact B|]. constructor; [lia|]. apply Forall_forall. intros x I. apply repeat_spec in I. subst. lia.
  - assert (X : exists front', rest = front' ++ [0x8F] /\ front = t ++ front').
    { destruct (exists_last N) as (front' & x & ->). rewrite app_assoc in E. apply app_inj_tail in E. destruct E as [<- ->]. now exists front'. }
    destruct X as (front' & -> & ->). apply Forall_app in F. destruct F as [F1 F2]. constructor; [|exact (IH front' eq_refl F2)]. cbn [snd]. split.
    + pose proof (front_ended t 0 F1) as X. cbn [repeat] in X. now rewrite app_nil_r in X.
    + eapply Forall_impl; [|exact F1]. intros b [B _]. exact B.
Qed.

Lemma coded_front i u its bs : coded i u its bs -> exists front, bs = front ++ [0x8F] /\ Forall coded_byte front.
Proof.
  assert (C : coded_byte 0x80 /\ coded_byte 0x81 /\ coded_byte 0x82 /\ coded_byte 0x83 /\ coded_byte 0x8A) by (unfold coded_byte; lia). destruct C as (C0 & C1 & C2 & C3 & CA).
  induction 1 as [i u|i u its bs C (front & -> & F)|i u i' u' its bs C (front & -> & F)|i u c cs its bs W C (front & -> & F)].
  - exists (change u false 0x82 0x83 ++ change i false 0x80 0x81). split; [apply app_assoc|]. apply Forall_app. split; now apply change_bytes.
  - exists (0x8A :: front). split; [reflexivity|]. now constructor.
  - exists (change u u' 0x82 0x83 ++ change i i' 0x80 0x81 ++ front). split; [now rewrite <- !app_assoc|]. apply Forall_app. split; [now apply change_bytes|]. apply Forall_app. split; [now apply change_bytes|exact F].
  - exists (cs ++ front). split; [apply app_assoc|]. apply Forall_app. split; [|exact F].
    destruct (written_bytes c cs W) as [P _]. eapply Forall_impl; [|exact P]. intros b B. unfold plain_byte in B. unfold coded_byte. lia.
Qed.

Lemma raised_app k a b : raised k (a ++ b) = raised k a ++ raised k b.
Proof. apply map_app. Qed.
Lemma moved_cells k rs rs' cells : Forall2 (moved_up k) rs rs' -> raws_cells rs cells -> raws_cells rs' (raised k cells).
Proof.
  intros M (parts & F & ->). revert rs' M. induction F as [|r part rs parts (row & w & OR & U & ->) F IH]; intros rs' M; inversion M as [|? r' ? rs'' (row' & rows & V & ->) M']; subst.
  - exists []. split; [constructor|reflexivity].
  - destruct (IH _ M') as (parts' & F' & E). exists (raised k (cells_of row (r_italic r) (r_underline r) w) :: parts'). split.
    + constructor; [|exact F']. exists (row' - k), w. split; [reflexivity|]. split; [exact U|]. unfold on_row in OR. rewrite V in OR. injection OR as ->. unfold raised, cells_of. rewrite map_map. reflexivity.
    + cbn [List.concat]. now rewrite raised_app, E.
Qed.

Lemma subtitle_seen n g s rows bs rs lasts k rs' : subtitle_blocks n s rows bs -> Forall (fun r => 0 <= r <= 23) rows -> blocks_rows g bs rs lasts ->
  Forall2 (moved_up k) rs rs' -> exists last, lasts = map Some last /\ seen_in_blocks s rows k last rs'.
Proof.
  intros (h1 & m1 & s1 & f1 & h2 & m2 & s2 & f2 & top & first & its & text & chunks & T1 & T2 & LE & HD & LI & CO & CH & F) RG (rawss & LR & BR & ->) MV.
  destruct (coded_front _ _ _ _ CO) as (front & ET & FR). pose proof (chunk_lengths _ _ _ CH) as CL. pose proof (chunks_ok _ _ _ CH front ET FR) as CK.
  assert (TOP : 0 <= top <= 23) by (destruct LE as [I _]; rewrite Forall_forall in RG; now apply RG).
  assert (X : exists cellss, Forall2 (fun c cells => seen top false false None (snd c) cells) chunks cellss /\ raws_cells (List.concat rawss) (List.concat cellss) /\
    lasts = map Some (map (fun c => top + Z.of_nat (count_occ Z.eq_dec (snd c) 0x8A)) chunks)).
  { clear CH CO LI MV. revert rawss lasts LR BR. induction F as [|c b cs bs E F IH]; intros rawss lasts LR BR.
    - destruct rawss as [|x rawss], lasts as [|y lasts]; try discriminate LR; [|inversion BR]. exists []. split; [constructor|]. split; [|reflexivity]. exists []. split; [constructor|reflexivity].
    - destruct rawss as [|x rawss]; [inversion BR|]. destruct lasts as [|y lasts]; [discriminate LR|]. cbn [combine] in BR. inversion BR as [|? ? ? ? B1 B2]; subst. cbn [fst snd] in B1.
      inversion CL as [|? ? C1 C2]; subst. inversion CK as [|? ? K1 K2]; subst. destruct (IH C2 K2 rawss lasts ltac:(now injection LR) B2) as (cellss & G & RC & EL).
      rewrite (Z.mod_small top 256) in E by lia.
      destruct (block_seen _ _ _ _ _ _ _ _ _ _ _ _ _ _ _ _ E C1 B1 K1) as (cells & S & R & ->). exists (cells :: cellss). split; [now constructor|].
      split; [cbn [List.concat]; now apply raws_cells_app|]. cbn [map]. now rewrite EL. }
  destruct X as (cellss & G & RC & EL). eexists. split; [exact EL|]. exists top, its, text, chunks, cellss. repeat (split; [first [assumption|reflexivity]|]). exact (moved_cells k _ _ _ MV RC).
Qed.

Theorem blocks_are_seen h h' n a ss file : acceptable n a ss -> snd (write_stl_binary ss a (after h)) = Ok file ->
  Z.of_nat (length file) < 1024 + 128 * 100000 ->
  exists rowss k lasts g groups, Forall2 has_rows ss rowss /\ length lasts = length groups /\ needed k (List.concat lasts) /\
    snd (stl_binary_read file (after h')) = Ok (g, List.concat groups) /\
    Forall2 (fun sr lr => seen_in_blocks (fst sr) (snd sr) k (fst lr) (snd lr)) (combine ss rowss) (combine lasts groups).
Proof.
  intros A W SZ. destruct (any_parts h h' n a ss file A W SZ) as (dfc & head & rowss & blockss & g & top & groups & groups' & lastss & D & IR & (EF & LH & HR & SB) & LF & HB & RD & LG & FB & HI & MV & PO).
  assert (MR : maximum_rows g = 23) by apply HB. rewrite MR in MV. set (k := Z.max 0 (top - 23)) in *.
  assert (X : exists lasts, lastss = map (map Some) lasts /\ length lasts = length groups' /\
    Forall2 (fun sr lr => seen_in_blocks (fst sr) (snd sr) k (fst lr) (snd lr)) (combine ss rowss) (combine lasts groups')).
  { clear - HR SB FB MV LG. revert blockss groups groups' lastss SB FB MV LG. induction HR as [|s rows ss rowss HR1 HR IH]; intros blockss groups groups' lastss SB FB MV LG.
    - inversion SB; subst. destruct groups as [|? groups], lastss as [|? lastss]; try discriminate LG; [|inversion FB]. inversion MV; subst. exists []. split; [reflexivity|]. split; [reflexivity|constructor].
    - cbn [combine] in SB. inversion SB as [|? bs ? bss B1 B2]; subst. destruct groups as [|rs groups], lastss as [|l lastss]; try discriminate LG; [inversion FB|]. cbn [combine] in FB. inversion FB as [|? ? ? ? F1 F2]; subst.
      inversion MV as [|? rs' ? gs' M1 M2]; subst. cbn [fst snd] in *. destruct (IH bss groups gs' lastss B2 F2 M2 ltac:(now injection LG)) as (lasts & -> & LL & SS).
      destruct (subtitle_seen n g s rows bs rs l k rs' B1 (proj2 HR1) F1 M1) as (last & -> & S1). exists (last :: lasts). split; [reflexivity|]. split; [cbn; now rewrite LL|]. cbn [combine]. constructor; [exact S1|exact SS]. }
  destruct X as (lasts & -> & LL & SS). exists rowss, k, lasts, g, groups'. split; [exact HR|]. split; [exact LL|]. split; [|now split].
  rewrite <- concat_map in HI. destruct HI as (TI & T0 & TM). split.
  - apply Forall_forall. intros r I. specialize (TM r ltac:(now apply in_map)). lia.
  - unfold k. destruct (Z.max_spec 0 (top - 23)) as [[L ->]|[L ->]]; [|now left]. right. split; [exact L|]. destruct TI as [-> |I]; [lia|]. apply in_map_iff in I. destruct I as (r & [= ->] & I). now replace (23 + (top - 23)) with top by lia.
Qed.

(** What is seen is determined by the bytes. *)
Lemma glyph_ends : forallb (fun e => let b := last (fst e) 0 in negb ((0xC1 <=? b) && (b <=? 0xCF)) && ((b <? 128) || (159 <? b))) glyph_list = true.
Proof. vm_compute. reflexivity. Qed.
Lemma glyph_end d b c : glyph (with_accent d b) c -> ~ is_accent_byte b /\ ~ text_code b.
Proof.
  intros G. apply glyph_in in G. pose proof glyph_ends as E. rewrite forallb_forall in E. specialize (E _ G). cbn [fst] in E.
  replace (last (with_accent d b) 0) with b in E by (destruct d; reflexivity). unfold is_accent_byte, text_code. lia.
Qed.
Lemma seen_once row i u d bs cells : seen row i u d bs cells -> forall cells', seen row i u d bs cells' -> cells = cells'.
Proof.
  assert (F : forall row i u d n cells, seen row i u d (repeat 0x8F n) cells -> cells = []).
  { intros row0 i0 u0 d0 [|n] cells0 S; cbn [repeat] in S; inversion S; subst; try reflexivity.
    - match goal with H : is_accent_byte _ |- _ => unfold is_accent_byte in H; lia end.
    - match goal with H : glyph _ _ |- _ => destruct (glyph_end _ _ _ H) as [_ X]; exfalso; apply X; unfold text_code; lia end.
    - match goal with H : ~ text_code _ |- _ => exfalso; apply H; unfold text_code; lia end. }
  assert (K : forall x, In x [0x80; 0x81; 0x82; 0x83; 0x8A; 0x8F] -> text_code x /\ ~ is_accent_byte x).
  { intros x I. unfold text_code, is_accent_byte. cbn in I. lia. }
  induction 1 as [row i u d n|row i u d bs cells S IH|row i u d bs cells S IH|row i u d bs cells S IH|row i u d bs cells S IH|row i u d bs cells S IH|row i u d a bs cells A S IH|row i u d b c bs cells G S IH|row i u d b bs cells NA NC NG S IH]; intros cells' S'.
  1: symmetry; eapply F; exact S'.
  all: inversion S' as [? ? ? ? n' E|? ? ? ? ? ? X|? ? ? ? ? ? X|? ? ? ? ? ? X|? ? ? ? ? ? X|? ? ? ? ? ? X|? ? ? ? ? ? ? A' X|? ? ? ? ? c' ? ? G' X|? ? ? ? ? ? ? NA' NC' NG' X]; subst.
  all: try (match goal with E0 : repeat _ ?n0 = _ |- _ => destruct n0 as [|n0]; [discriminate E0|]; cbn [repeat] in E0; try discriminate E0; injection E0 as E1 E2; subst end).
  all: try (now apply IH); try (f_equal; now apply IH); try discriminate.
  all: try (exfalso; match goal with H : glyph (with_accent _ _) _ |- _ => destruct (glyph_end _ _ _ H) as [X1 X2] end; solve [contradiction|apply X2; unfold text_code; lia]).
  all: try (exfalso; match goal with H : ~ text_code _ |- _ => apply H; unfold text_code; lia end).
  all: try (exfalso; match goal with H : is_accent_byte _ |- _ => unfold is_accent_byte in H; lia end).
  all: try contradiction.
  - f_equal; [f_equal; eapply glyph_functional; eauto|now apply IH].
  - exfalso. eapply NG'; eauto.
  - exfalso. eapply NG; eauto.
Qed.
