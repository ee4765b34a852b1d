(** Saving again what was saved. *)
From Coq Require Import ZArith List Bool Ascii String Lia Permutation Sorted.
From Verif.Model Require Import Base Strings Float TimeModel Types Collect Iso6937 StlUtil StlBinReader StlBinWriter.
From Verif.Spec Require Import Outcome TextSpec TimeSpec Utf8Spec Iso6937Spec SortSpec CollectSpec StlFileSpec StlWriteSpec StlRoundTripSpec ConvertSpec.
From Verif.Proofs Require Import SortProofs CollectProofs UtfProofs Iso6937Proofs StlFileProofs StlReadProofs StlWriterProofs StlUseProofs StlRoundTripProofs CollectReadProofs ConvertProofs LoadSaveProofs.
Import ListNotations.
Local Open Scope Z_scope.
Local Notation length := List.length.

(** * Spelling *)

Definition spelt (p w : list Z) : Prop := Forall representable w /\ exists parts, Forall2 written w parts /\ p = List.concat parts.
Lemma spelt_nil : spelt [] [].
Proof. split; [constructor|]. exists []. split; [constructor|reflexivity]. Qed.
Lemma spelt_app p q w v : spelt p w -> spelt q v -> spelt (p ++ q) (w ++ v).
Proof.
  intros (A & x & F & ->) (B & y & G & ->). split; [now apply Forall_app|]. exists (x ++ y). split; [now apply Forall2_app|]. symmetry. apply concat_app.
Qed.
Lemma spelt_one c bs : representable c -> written c bs -> spelt bs [c].
Proof. intros R W. split; [now constructor|]. exists [bs]. split; [now constructor|]. cbn. now rewrite app_nil_r. Qed.
Lemma spelt_complete p w : spelt p w -> complete p w.
Proof.
  intros (R & parts & F & ->). revert R. induction F as [|c bs w parts W F IH]; intros R; [exact complete_nil|]. inversion R as [|? ? RC RW]; subst.
  destruct (written_complete c bs W (representable_not_mark c RC)) as (part & S & C). rewrite (survives_only c part RC S) in C.
  exact (complete_app bs (List.concat parts) [c] w C (IH RW)).
Qed.
Lemma spelt_coded p w : spelt p w -> forall i u its bs, coded i u its bs -> coded i u (map Char w ++ its) (p ++ bs).
Proof.
  intros (_ & parts & F & ->) i u its bs C. induction F as [|c cs w parts W F IH]; [exact C|]. cbn [map app List.concat]. rewrite <- app_assoc. now constructor.
Qed.
Lemma written_some c bs : representable c -> written c bs -> bs <> [].
Proof.
  intros R W ->. inversion W as [? ? G|? ? I|? d ? S G|? N]; subst; try contradiction.
  - destruct (glyph_bytes _ _ G) as [_ L]. cbn in L. lia.
  - destruct (glyph_bytes _ _ G) as [_ L]. cbn in L. lia.
Qed.
Lemma spellings_checked : forallb (fun e => blist_eqb (fst e) (bytes (iso_encode_char tables_made (snd e))) || (snd e =? 36)) glyph_list = true.
Proof. vm_compute. reflexivity. Qed.
Lemma written_unique c a b : representable c -> written c a -> written c b -> a = b.
Proof.
  intros R A B. assert (H : forall bs, written c bs -> glyph bs c /\ (c = 36 -> bs = [0xA4])).
  { intros bs W. inversion W as [? ? G D|? ? I|? d ? S G|? N]; subst; [now split|..].
    - exfalso. apply (representable_not_mark c R). unfold lone_mark. now apply (in_map snd) in I.
    - exfalso. destruct R as (x & GX). apply glyph_in in GX. pose proof not_substituted_checked as C. rewrite forallb_forall in C. specialize (C _ GX). cbn [snd] in C.
      rewrite S in C. discriminate.
    - contradiction. }
  destruct (H a A) as [GA DA], (H b B) as [GB DB]. destruct (Z.eq_dec c 36) as [E|E]; [rewrite DA, DB by exact E; reflexivity|].
  pose proof spellings_checked as C. rewrite forallb_forall in C. apply glyph_in in GA, GB. pose proof (C _ GA) as CA. pose proof (C _ GB) as CB. cbn [fst snd] in CA, CB.
  apply orb_true_iff in CA, CB. rewrite Z.eqb_eq in CA, CB. rewrite !blist_eqb_eq in *. destruct CA, CB; congruence.
Qed.
Lemma coded_unique i u its a : coded i u its a -> (forall c, In (Char c) its -> representable c) -> forall b, coded i u its b -> a = b.
Proof.
  induction 1 as [i u|i u its bs _ IH|i u i' u' its bs _ IH|i u c cs its bs W _ IH]; intros R b B; inversion B; subst.
  - reflexivity.
  - f_equal. apply IH; [intros c I; apply R; now right|assumption].
  - do 2 f_equal. apply IH; [intros c I; apply R; now right|assumption].
  - f_equal; [apply (written_unique c); auto; apply R; now left|]. apply IH; [intros c' I; apply R; now right|assumption].
Qed.

(** * The text without its styles *)

Fixpoint skel (its : list item) : list item :=
  match its with [] => [] | Style _ _ :: t => skel t | x :: t => x :: skel t end.
Lemma skel_app a b : skel (a ++ b) = skel a ++ skel b.
Proof. induction a as [|[| |] a IH]; cbn; congruence. Qed.
Lemma skel_chars w : skel (map Char w) = map Char w.
Proof. induction w; cbn; congruence. Qed.

(** * Items of pieces *)

Inductive pieces_items : Z -> list (Z * style * list Z) -> list item -> Prop :=
| pi_nil row : pieces_items row [] []
| pi_cons row r s p w ps its : row <= r -> spelt p w -> pieces_items r ps its ->
    pieces_items row ((r, s, p) :: ps) (repeat Break (Z.to_nat (r - row)) ++ Style (st_italic s) (st_underline s) :: map Char w ++ its).

Inductive state : Type := Fresh | Styled | Charred.
(** Rows that are used have [P]; there is a character at the end of each row that has anything. *)
Inductive fine (P : Z -> Prop) : state -> Z -> list item -> Prop :=
| fine_end row : fine P Charred row []
| fine_break st row its : st <> Styled -> fine P Fresh (row + 1) its -> fine P st row (Break :: its)
| fine_style st row i u its : P row -> fine P Styled row its -> fine P st row (Style i u :: its)
| fine_char st row c its : P row -> representable c -> fine P Charred row its -> fine P st row (Char c :: its).

Definition piece_row (q : Z * style * list Z) : Z := fst (fst q).
(** The bytes after [p], [k] rows below, are rows with pieces; written again they give the same bytes. *)
Definition recodes (P : Z -> Prop) (row : Z) (i u : bool) (p w bs : list Z) (fill n k : nat) (sk : list item) : Prop :=
  exists r0 rows ps s' ps' its, bs ++ repeat 0x8F fill = zjoin (r0 :: rows) /\ Forall (fun r => ~ In nl r) (r0 :: rows) /\ length rows = n /\
    row_pieces (wst i u) (p ++ r0) ps s' /\ rows_pieces (row + 1) (st_italic s') (st_underline s') rows ps' /\
    pieces_items row (map (fun q => (row, fst q, snd q)) ps ++ ps') (repeat Break k ++ Style i u :: its) /\
    coded i u (repeat Break k ++ Style i u :: its) (p ++ bs) /\ skel (repeat Break k ++ Style i u :: its) = map Char w ++ sk /\
    Forall (fun q => P (piece_row q) /\ exists i u, snd (fst q) = wst i u) (map (fun q => (row, fst q, snd q)) ps ++ ps').

Lemma recodes_control (P : Z -> Prop) row i u i' u' p w c bs fill n sk : P row -> spelt p w -> control c (wst i u) (wst i' u') -> c <> nl ->
  c :: bs = change u u' 0x82 0x83 ++ change i i' 0x80 0x81 ++ bs ->
  recodes P row i' u' [] [] bs fill n 0 sk -> recodes P row i u p w (c :: bs) fill n 0 sk.
Proof.
  intros PR SP K N EC (r0 & rows & ps & s' & ps' & its & E & F & L & R & RS & PI & CO & SK & PP). cbn [repeat app map] in *.
  exists (c :: r0), rows. do 4 eexists. split; [cbn [app]; rewrite E; destruct rows; reflexivity|]. split.
  { inversion F as [|? ? F1 F2]; subst. constructor; [|exact F2]. intros [E1|I]; [now apply N|contradiction]. }
  split; [exact L|]. split; [eapply row_control; [apply (spelt_complete _ _ SP)|exact K|exact R]|]. split; [exact RS|].
  cbn [map app fst snd]. split; [|split; [|split]].
  - pose proof (pi_cons row row (wst i u) p w _ _ (Z.le_refl row) SP PI) as X. rewrite Z.sub_diag in X. exact X.
  - cbn [repeat app]. inversion CO; subst.
    replace (p ++ c :: change u' u' 130 131 ++ change i' i' 128 129 ++ bs0) with (change u u 0x82 0x83 ++ change i i 0x80 0x81 ++ (p ++ change u u' 0x82 0x83 ++ change i i' 0x80 0x81 ++ bs0)).
    + constructor. apply spelt_coded; [exact SP|]. now constructor.
    + replace (change u' u' 130 131 ++ change i' i' 128 129 ++ bs0) with bs0 in * by now destruct u', i'.
      rewrite <- EC. now destruct u, i.
  - cbn [repeat app skel] in *. rewrite skel_app, skel_chars. cbn [skel]. now rewrite SK.
  - constructor; [|exact PP]. split; [exact PR|]. now exists i, u.
Qed.

Lemma spelt_shape p w : spelt p w -> (p = [] <-> w = []).
Proof.
  intros (R & parts & F & ->). destruct F as [|c bs w parts W F]; [split; reflexivity|]. inversion R; subst. split; [|discriminate]. intros E. cbn in E.
  apply app_eq_nil in E. destruct E as [-> _]. destruct (written_some c [] ltac:(assumption) W eq_refl).
Qed.
(** The end mark after some characters. *)
Lemma recodes_end (P : Z -> Prop) row i u p w fill : P row -> spelt p w -> p <> [] ->
  recodes P row i u p w (change u false 0x82 0x83 ++ change i false 0x80 0x81 ++ [0x8F]) fill 0 0 [].
Proof.
  intros PR SP NE.
  assert (NF : forall b, b <> nl -> ~ In nl (b :: repeat 0x8F fill)).
  { intros b B [H|H]; [now apply B|]. apply repeat_spec in H. discriminate H. }
  assert (PL : plain_text p) by apply (spelt_complete _ _ SP).
  assert (FILL : row_pieces (wst false false) (0x8F :: repeat 0x8F fill) [] (wst false false)) by exact (row_filler (wst false false) [] (repeat 0x8F fill) (Forall_nil _)).
  assert (B : forall i u, coded i u [] (change u false 0x82 0x83 ++ change i false 0x80 0x81 ++ [0x8F])) by (intros; constructor).
  assert (one : forall s, pieces_items row [(row, s, p)] (repeat Break 0 ++ Style (st_italic s) (st_underline s) :: map Char w)).
  { intros s. pose proof (pi_cons row row s p w [] [] (Z.le_refl row) SP (pi_nil row)) as X. rewrite Z.sub_diag, app_nil_r in X. exact X. }
  assert (code : forall its bs, coded i u its bs -> coded i u (Style i u :: map Char w ++ its) (p ++ bs)).
  { intros its bs C. replace (p ++ bs) with (change u u 0x82 0x83 ++ change i i 0x80 0x81 ++ (p ++ bs)) by now destruct u, i. constructor. now apply spelt_coded. }
  pose proof (code [] _ (B i u)) as C0. rewrite app_nil_r in C0.
  assert (NP : is_nil p = false) by now destruct p.
  destruct (u && i) eqn:UI.
  - apply andb_true_iff in UI. destruct UI as [-> ->]. apply (recodes_control P row true true true false p w 0x83); try assumption; [constructor|discriminate|reflexivity|].
    exists (0x81 :: 0x8F :: repeat 0x8F fill), []. do 4 eexists. split; [reflexivity|]. split; [constructor; [|constructor]; intros [H|H]; [discriminate H|]; exact (NF 0x8F ltac:(discriminate) H)|].
    split; [reflexivity|]. split; [exact (row_control (wst true false) (wst false false) _ [] 0x81 _ _ (Forall_nil _) (control_italic_off _ _ _) FILL)|]. split; [constructor|].
    cbn [map app fst snd]. split; [|split; [|split]].
    + pose proof (pi_cons row row (wst true false) [] [] [] [] (Z.le_refl row) spelt_nil (pi_nil row)) as X. rewrite Z.sub_diag in X. exact X.
    + cbn [repeat app]. exact (coded_style true false true false [] _ (B true false)).
    + reflexivity.
    + constructor; [|constructor]. split; [exact PR|]. now exists true, false.
  - assert (X : exists r0, change u false 0x82 0x83 ++ change i false 0x80 0x81 ++ [0x8F] ++ repeat 0x8F fill = r0 /\ ~ In nl r0 /\ row_pieces (wst i u) (p ++ r0) [(wst i u, p)] (wst false false)).
    { eexists. split; [reflexivity|]. destruct u, i; try discriminate UI; cbn [change app].
      - split; [intros [H|H]; [discriminate H|]; exact (NF 0x8F ltac:(discriminate) H)|]. exact (row_control _ _ _ _ _ _ _ PL (control_underline_off _ _ _) FILL).
      - split; [intros [H|H]; [discriminate H|]; exact (NF 0x8F ltac:(discriminate) H)|]. exact (row_control _ _ _ _ _ _ _ PL (control_italic_off _ _ _) FILL).
      - split; [exact (NF 0x8F ltac:(discriminate))|]. pose proof (row_filler (wst false false) p (repeat 0x8F fill) PL) as Y. rewrite NP in Y. exact Y. }
    destruct X as (r0 & E & NI & RP). exists r0, []. do 4 eexists. split; [rewrite <- !app_assoc; exact E|]. split; [now constructor|]. split; [reflexivity|].
    split; [exact RP|]. split; [constructor|]. rewrite app_nil_r. cbn [map fst snd]. split; [exact (one (wst i u))|]. split; [exact C0|]. split; [cbn [repeat app skel]; now rewrite skel_chars, app_nil_r|].
    constructor; [|constructor]. split; [exact PR|]. now exists i, u.
Qed.

Lemma pieces_lower row row' ps its : row <= row' -> ps <> [] -> pieces_items row' ps its -> pieces_items row ps (repeat Break (Z.to_nat (row' - row)) ++ its).
Proof.
  intros L N H. destruct H as [|row' r s p w ps its LE SP H]; [now destruct N|]. rewrite app_assoc, <- repeat_app.
  replace (Z.to_nat (row' - row) + Z.to_nat (r - row'))%nat with (Z.to_nat (r - row)) by lia. constructor; [lia|exact SP|exact H].
Qed.

Theorem coded_recodes (P : Z -> Prop) i u its bs : coded i u its bs -> forall st row fill p w, fine P st row its -> spelt p w ->
  (st = Fresh -> p = []) -> (st = Charred -> p <> []) -> (st <> Fresh -> P row) ->
  exists k, recodes P row i u p w bs fill (breaks its) k (skel its) /\ (st <> Fresh -> k = 0%nat).
Proof.
  induction 1 as [i u|i u its bs _ IH|i u i' u' its bs _ IH|i u c cs its bs W _ IH]; intros st row fill p w FN SP PF PC PR.
  - inversion FN; subst. exists 0%nat. split; [|reflexivity]. apply recodes_end; auto. apply PR. discriminate.
  - inversion FN as [|? ? ? NS FN'| |]; subst. destruct (IH Fresh (row + 1) fill [] [] FN' spelt_nil (fun _ => eq_refl) ltac:(discriminate) ltac:(congruence)) as (k & R & _).
    destruct R as (r0 & rows & ps & s' & ps' & its' & E & F & L & RP & RS & PI & CO & SK & PP). cbn [app] in RP. cbn [breaks].
    assert (RW : rows_pieces (row + 1) i u (r0 :: rows) (map (fun q => (row + 1, fst q, snd q)) ps ++ ps')) by (econstructor; [exact RP|exact RS]).
    assert (NP : map (fun q => (row + 1, fst q, snd q)) ps ++ ps' <> []).
    { intros X. rewrite X in PI. inversion PI as [A B C D|]. destruct k; discriminate D. }
    pose proof (pieces_lower row (row + 1) _ _ ltac:(lia) NP PI) as PI'. replace (Z.to_nat (row + 1 - row)) with 1%nat in PI' by lia.
    destruct p as [|b p].
    + assert (w = []) as -> by (apply (spelt_shape [] w SP); reflexivity). exists (S k). split; [|intros NF; exfalso; destruct st; [now apply NF|now apply NS|now apply PC]].
      exists [], (r0 :: rows), [], (wst i u). do 2 eexists. split; [cbn [app zjoin]; now rewrite E|]. split; [constructor; [intros []|exact F]|]. split; [cbn; now rewrite L|].
      split; [exact (row_end (wst i u) [] (Forall_nil _))|]. split; [exact RW|]. cbn [map app repeat]. split; [exact PI'|]. split; [constructor; exact CO|]. split; [cbn [skel]; f_equal; exact SK|exact PP].
    + assert (PW : P row) by (apply PR; intros ->; now specialize (PF eq_refl)). exists 0%nat. split; [|reflexivity].
      exists [], (r0 :: rows), [(wst i u, b :: p)], (wst i u). do 2 eexists. split; [cbn [app zjoin]; now rewrite E|]. split; [constructor; [intros []|exact F]|]. split; [cbn; now rewrite L|].
      rewrite app_nil_r. split; [exact (row_end (wst i u) (b :: p) (proj1 (spelt_complete _ _ SP)))|]. split; [exact RW|]. cbn [map app repeat fst snd]. split; [|split; [|split]].
      * pose proof (pi_cons row row (wst i u) (b :: p) w _ _ (Z.le_refl row) SP PI') as X. rewrite Z.sub_diag in X. exact X.
      * replace (b :: p ++ 138 :: bs) with (change u u 0x82 0x83 ++ change i i 0x80 0x81 ++ ((b :: p) ++ 138 :: bs)) by now destruct u, i.
        constructor. apply spelt_coded; [exact SP|]. constructor. exact CO.
      * cbn [skel]. rewrite skel_app, skel_chars. cbn [repeat app skel]. now rewrite SK.
      * constructor; [|exact PP]. split; [exact PW|]. now exists i, u.
  - inversion FN as [| |? ? ? ? ? PW FN'|]; subst. cbn [breaks skel]. exists 0%nat. split; [|reflexivity].
    assert (IH0 : forall p w, spelt p w -> recodes P row i' u' p w bs fill (breaks its) 0 (skel its)).
    { intros q v S. destruct (IH Styled row fill q v FN' S ltac:(discriminate) ltac:(discriminate) (fun _ => PW)) as (k & R & K). rewrite K in R by discriminate. exact R. }
    destruct (Bool.eqb u u') eqn:EU; [apply eqb_prop in EU; subst u'|]; (destruct (Bool.eqb i i') eqn:EI; [apply eqb_prop in EI; subst i'|]).
    + replace (change u u 130 131 ++ change i i 128 129 ++ bs) with bs by now destruct u, i. now apply IH0.
    + destruct i, i'; try discriminate EI; (replace (change u u 130 131) with (@nil Z) by now destruct u); cbn [change app].
      * apply (recodes_control P row true u false u); try assumption; [constructor|discriminate|now destruct u|]. now apply IH0, spelt_nil.
      * apply (recodes_control P row false u true u); try assumption; [constructor|discriminate|now destruct u|]. now apply IH0, spelt_nil.
    + destruct u, u'; try discriminate EU; (replace (change i i 128 129) with (@nil Z) by now destruct i); cbn [change app].
      * apply (recodes_control P row i true i false); try assumption; [constructor|discriminate|now destruct i|]. now apply IH0, spelt_nil.
      * apply (recodes_control P row i false i true); try assumption; [constructor|discriminate|now destruct i|]. now apply IH0, spelt_nil.
    + destruct u, u'; try discriminate EU; destruct i, i'; try discriminate EI; cbn [change app].
      * apply (recodes_control P row true true true false); try assumption; [constructor|discriminate|reflexivity|]. apply (recodes_control P row true false false false); try assumption; [exact spelt_nil|constructor|discriminate|reflexivity|]. now apply IH0, spelt_nil.
      * apply (recodes_control P row false true false false); try assumption; [constructor|discriminate|reflexivity|]. apply (recodes_control P row false false true false); try assumption; [exact spelt_nil|constructor|discriminate|reflexivity|]. now apply IH0, spelt_nil.
      * apply (recodes_control P row true false true true); try assumption; [constructor|discriminate|reflexivity|]. apply (recodes_control P row true true false true); try assumption; [exact spelt_nil|constructor|discriminate|reflexivity|]. now apply IH0, spelt_nil.
      * apply (recodes_control P row false false false true); try assumption; [constructor|discriminate|reflexivity|]. apply (recodes_control P row false true true true); try assumption; [exact spelt_nil|constructor|discriminate|reflexivity|]. now apply IH0, spelt_nil.
  - inversion FN as [| | |? ? ? ? PW RC FN']; subst. cbn [breaks skel].
    assert (NC : cs <> []) by now apply (written_some c).
    destruct (IH Charred row fill (p ++ cs) (w ++ [c]) FN' (spelt_app _ _ _ _ SP (spelt_one c cs RC W)) ltac:(discriminate)) as (k & R & K); [|intros _; exact PW|].
    { intros _ X. apply app_eq_nil in X. now apply NC. }
    exists 0%nat. split; [|reflexivity]. rewrite K in R by discriminate. destruct R as (r0 & rows & ps & s' & ps' & its' & E & F & L & RP & RS & PI & CO & SK & PP).
    exists (cs ++ r0), rows. do 4 eexists. split; [rewrite <- app_assoc, E; destruct rows; cbn [zjoin]; now rewrite <- ?app_assoc|]. split.
    { inversion F as [|? ? F1 F2]; subst. constructor; [|exact F2]. intros I. apply in_app_or in I. destruct I as [I|I]; [|contradiction].
      apply (spelt_complete cs [c] (spelt_one c cs RC W)). exact I. }
    split; [exact L|]. rewrite <- app_assoc in RP. split; [exact RP|]. split; [exact RS|]. split; [exact PI|]. rewrite <- app_assoc in CO. split; [exact CO|].
    split; [|exact PP]. rewrite SK, map_app, <- app_assoc. reflexivity.
Qed.

(** * Lines that end in text *)

Lemma chars_fine (P : Z -> Prop) row w its : P row -> Forall representable w -> fine P Charred row its -> forall st, w <> [] \/ st = Charred -> fine P st row (map Char w ++ its).
Proof.
  intros PR R F. induction R as [|c w RC R IH]; intros st [N| ->]; cbn [map app]; try (now destruct N); try exact F.
  - constructor; [exact PR|exact RC|]. apply IH. now right.
  - constructor; [exact PR|exact RC|]. apply IH. now right.
Qed.
Lemma any_fine (P : Z -> Prop) row w its : P row -> Forall representable w -> (forall st, fine P st row its) -> forall st, fine P st row (map Char w ++ its).
Proof. intros PR R F. induction R as [|c w RC R IH]; intros st; cbn [map app]; [apply F|]. constructor; auto. Qed.

Lemma utf8_empty s : utf8 s [] -> s = [].
Proof. intros U. destruct U as (x & F & E). inversion F; subst. now apply map_eq_nil in E. Qed.
Definition readable (b : block) : Prop := forall w, utf8 (b_text b) w -> Forall representable w.
Lemma blocks_fine (P : Z -> Prop) row bs parts its : P row -> Forall readable bs -> ends_in_text bs -> Forall2 block_items bs parts -> fine P Charred row its ->
  forall st, fine P st row (List.concat parts ++ its).
Proof.
  intros PR RB (b0 & b & -> & NE) F FI. revert parts RB F. induction b0 as [|x b0 IH]; intros parts RB F st; cbn [app] in *.
  - inversion F as [|? part ? rest (w & U & ->) F']; subst. inversion F'; subst. inversion RB as [|? ? R1 _]; subst. cbn [List.concat app]. rewrite app_nil_r.
    constructor; [exact PR|]. apply chars_fine; auto. left. intros ->. apply NE. now apply utf8_empty.
  - inversion F as [|? part ? rest (w & U & ->) F']; subst. inversion RB as [|? ? R1 RB']; subst. cbn [List.concat app]. rewrite <- app_assoc.
    constructor; [exact PR|]. apply any_fine; auto.
Qed.
Lemma breaks_fine (P : Z -> Prop) row n its st : (0 < n)%nat -> st <> Styled -> (forall st, fine P st (row + Z.of_nat n) its) -> fine P st row (repeat Break n ++ its).
Proof.
  revert row st. induction n as [|n IH]; intros row st N NS F; [lia|]. cbn [repeat app]. constructor; [exact NS|]. destruct n as [|n].
  - specialize (F Fresh). now replace (row + Z.of_nat 1) with (row + 1) in F by lia.
  - apply IH; [lia|discriminate|]. intros st'. specialize (F st'). now replace (row + 1 + Z.of_nat (S n)) with (row + Z.of_nat (S (S n))) by lia.
Qed.
Definition line_fine (l : line) : Prop := Forall readable (l_blocks l) /\ ends_in_text (l_blocks l).
Lemma lines_fine (P : Z -> Prop) last lrs its : line_items last lrs its -> Forall line_fine (map fst lrs) -> Forall P (map snd lrs) ->
  downwards (match last with Some r => r :: map snd lrs | None => map snd lrs end) ->
  match last with
  | Some r => fine P Charred r its
  | None => forall top, hd_error (map snd lrs) = Some top -> forall st, fine P st top its
  end.
Proof.
  induction 1 as [last|last l row rest parts its B _ IH]; intros L R D; [destruct last; [constructor|intros top T; discriminate T]|].
  cbn [map fst snd] in *. inversion L as [|? ? (RB & EB) L']; inversion R as [|? ? PR R']; subst.
  assert (D' : downwards (row :: map snd rest)) by (destruct last; [now inversion D|exact D]).
  specialize (IH L' R' D'). pose proof (blocks_fine P row _ _ its PR RB EB B IH) as BF. destruct last as [r|].
  - inversion D; subst. apply breaks_fine; [lia|discriminate|]. intros st. replace (r + Z.of_nat (Z.to_nat (row - r))) with row by lia. apply BF.
  - intros top [= <-]. exact BF.
Qed.

(** * A block read *)

Definition own_row (r : Z) : Prop := 0 <= r <= 23 /\ r <> 7 /\ r <> 14.
Definition clock_of (t : time) (h m s : Z) : Prop := t_seconds t = h * 3600 + m * 60 + s /\ 0 <= h < 256 /\ 0 <= m < 60 /\ 0 <= s < 60.
Definition tti_bytes (from to : time) (top just : Z) (text : list Z) (b : str) : Prop :=
  exists h1 m1 s1 h2 m2 s2, clock_of from h1 m1 s1 /\ clock_of to h2 m2 s2 /\
    map char_code b = [1; 0; 0; 255; 0; h1; m1; s1; t_frames from; h2; m2; s2; t_frames to; top; just; 0] ++ text ++ repeat 0x8F (112 - length text).
Lemma tti_bytes_unique from to top just text a b : tti_bytes from to top just text a -> tti_bytes from to top just text b -> a = b.
Proof.
  intros (h1 & m1 & s1 & h2 & m2 & s2 & C1 & C2 & E) (h1' & m1' & s1' & h2' & m2' & s2' & C1' & C2' & E'). apply map_char_inj. rewrite E, E'.
  unfold clock_of in *. assert (h1 = h1') by lia. assert (m1 = m1') by lia. assert (s1 = s1') by lia. assert (h2 = h2') by lia. assert (m2 = m2') by lia. assert (s2 = s2') by lia. congruence.
Qed.
Lemma good_timecode k t h m s f : 0 < k < 256 -> good_time k t -> timecode (k * 1000) t h m s f ->
  clock_of t h m s /\ f = t_frames t /\ h mod 256 = h /\ f mod 256 = f /\ mkT (h * 3600 + m * 60 + s) f (Some (mkR k 1)) = t.
Proof.
  intros K (R & S & F) (E & H & M & SS & tr & R' & (N & _)). rewrite R in R'. injection R' as <-. cbn [num den] in N.
  assert (f = t_frames t) by nia. split; [split; [exact E|lia]|]. split; [assumption|]. rewrite !Z.mod_small by lia. repeat split. destruct t as [ts tf tr]. cbn in *. congruence.
Qed.
Lemma chunked_one text chunk : chunked 0 text [chunk] -> chunk = (255, text ++ repeat 0x8F (112 - length text)) /\ (length text <= 112)%nat.
Proof. intros C. inversion C as [? ? NE L|? ? ? ? ? ? C']; subst; [now split|]. destruct (chunked_nonempty _ _ C'). Qed.

(** What a block says: times, first row, side and text. *)
Lemma block_says k s rows b : 0 < k < 256 -> good_time k (s_from s) -> good_time k (s_to s) -> subtitle_blocks (k * 1000) s rows [b] ->
  Forall (fun r => 0 <= r <= 23) rows ->
  exists top first its text, least rows top /\ hd_error (s_lines s) = Some first /\ line_items None (combine (s_lines s) rows) its /\ coded false false its text /\
    (length text <= 112)%nat /\ tti_bytes (s_from s) (s_to s) top (justification_of first) text b.
Proof.
  intros K GF GT (h1 & m1 & s1 & f1 & h2 & m2 & s2 & f2 & top & first & its & text & chunks & T1 & T2 & LE & HD & LI & CO & CH & F) RG.
  inversion F as [|chunk ? ? ? E F']; subst. inversion F'; subst. clear F F'. apply chunked_one in CH. destruct CH as [-> L]. cbn [fst snd] in E.
  destruct (good_timecode k _ _ _ _ _ K GF T1) as (C1 & F1 & M1 & N1 & _), (good_timecode k _ _ _ _ _ K GT T2) as (C2 & F2 & M2 & N2 & _).
  exists top, first, its, text. repeat (split; [assumption|]). exists h1, m1, s1, h2, m2, s2. split; [exact C1|]. split; [exact C2|].
  rewrite E, M1, N1, M2, N2, F1, F2. rewrite (Z.mod_small top 256); [reflexivity|]. destruct LE as [I _]. rewrite Forall_forall in RG. specialize (RG top I). cbv beta in RG. lia.
Qed.

Lemma pieces_items_raws g from to just row ps its : pieces_items row ps its -> exists raws, Forall2 (piece_raw g from to just) ps raws.
Proof.
  induction 1 as [|row r s p w ps its _ SP _ (raws & F)]; [exists []; constructor|]. pose proof (complete_decodes _ _ (spelt_complete _ _ SP)) as D.
  eexists (_ :: raws). constructor; [|exact F]. exists w, (Utf.wide_to_utf8 w). split; [exact D|]. split; [exact (wide_to_utf8_ok w (decodes_scalars _ _ _ D))|reflexivity].
Qed.

Definition again (g : gsi) (s : subtitle) (b : str) (raws : list raw) (last : Z) : Prop :=
  exists top first rows its text pieces its', block_read g b raws (Some last) /\ last <= 23 /\ hd_error (s_lines s) = Some first /\
    line_items None (combine (s_lines s) rows) its /\ length (s_lines s) = length rows /\ downwards rows /\ tti_bytes (s_from s) (s_to s) top (justification_of first) text b /\ (length text <= 112)%nat /\
    Forall2 (piece_raw g (s_from s) (s_to s) (justification_of first)) pieces raws /\
    pieces_items top pieces (Style false false :: its') /\ coded false false (Style false false :: its') text /\ skel its' = skel its /\
    Forall (fun q => own_row (piece_row q)) pieces.

Lemma block_again g k s rows b : frame_rate g = k -> 0 < k < 256 -> good_time k (s_from s) -> good_time k (s_to s) -> subtitle_blocks (k * 1000) s rows [b] ->
  Forall line_fine (s_lines s) -> downwards rows -> length (s_lines s) = length rows -> Forall own_row rows -> exists raws last, again g s b raws last.
Proof.
  intros FR K GF GT SB LF DW LR OW. assert (RG : Forall (fun r => 0 <= r <= 23) rows) by (eapply Forall_impl; [|exact OW]; intros r O; apply O).
  destruct (block_says k s rows b K GF GT SB RG) as (top & first & its & text & LE & HD & LI & CO & TL & TB).
  pose proof (least_first rows top DW LE) as HR. pose proof (map_fst_combine _ _ LR) as MF. pose proof (map_snd_combine _ _ LR) as MS.
  assert (PT : own_row top) by (destruct LE as [I _]; rewrite Forall_forall in OW; now apply OW).
  pose proof (lines_fine own_row None _ _ LI) as FI. rewrite MF, MS in FI. specialize (FI LF OW DW top HR Styled).
  destruct (coded_recodes own_row _ _ _ _ CO Styled top (112 - length text) [] [] FI spelt_nil ltac:(discriminate) ltac:(discriminate) (fun _ => PT)) as (n & RC & N0).
  rewrite N0 in RC by discriminate. clear n N0.
  destruct RC as (r0 & rs & ps & s' & ps' & its' & E & F & L & RP & RS & PI & CO' & SK & PP). cbn [repeat app] in *.
  destruct (pieces_items_raws g (s_from s) (s_to s) (justification_of first) _ _ _ PI) as (raws & PR).
  assert (BR : block_read g b raws (Some (top + Z.of_nat (length rs)))).
  { destruct TB as (h1 & m1 & s1 & h2 & m2 & s2 & (E1 & C1) & (E2 & C2) & EB).
    apply (scan_raws g b 255 h1 m1 s1 (t_frames (s_from s)) h2 m2 s2 (t_frames (s_to s)) top (justification_of first) (text ++ repeat 0x8F (112 - length text)) r0 rs ps s' ps' raws EB); try assumption.
    - rewrite app_length, repeat_length. lia.
    - rewrite <- E1, <- E2, FR. destruct GF as (R1 & _), GT as (R2 & _). destruct (s_from s) as [a1 a2 a3], (s_to s) as [b1 b2 b3]. cbn in *. now subst. }
  exists raws, (top + Z.of_nat (length rs)). exists top, first, rows, its, text, (map (fun q => (top, fst q, snd q)) ps ++ ps'), its'.
  split; [exact BR|]. split.
  { rewrite L. apply (lines_breaks _ _ _ LI top 23); [now rewrite MS|destruct (combine (s_lines s) rows) as [|x y]; [exact I|]; cbn in MS; rewrite <- MS in HR; cbn in HR; congruence|unfold own_row in PT; lia|].
    rewrite MS. eapply Forall_impl; [|exact RG]. cbv beta. lia. }
  repeat (split; [assumption|]). eapply Forall_impl; [|exact PP]. cbv beta. tauto.
Qed.

(** * The pieces put together again *)

Lemma piece_text g from to just row s p w r : spelt p w -> piece_raw g from to just (row, s, p) r ->
  utf8 (r_text r) w /\ r_italic r = st_italic s /\ r_underline r = st_underline s /\ r_from r = from /\ r_to r = to /\
  r_vpos r = mkV None (Some row) (Some (maximum_rows g)) (Some TOP_OF_SCREEN) /\ h_ref (r_hpos r) = reference_of just /\ r_fade_up r = None /\ r_fade_down r = None.
Proof.
  intros SP (w' & text & D & U & ->). pose proof (complete_decodes _ _ (spelt_complete _ _ SP)) as D'. assert (w' = w) as -> by exact (decodes_deterministic None _ _ D _ D').
  cbn. repeat split; assumption || reflexivity.
Qed.

Lemma same_row g from to just r ps1 ps2 : forall its bs raws1, pieces_items r (ps1 ++ ps2) its -> Forall (fun q => piece_row q = r) ps1 ->
  Forall2 block_holds bs raws1 -> Forall2 (piece_raw g from to just) ps1 raws1 ->
  exists parts its2, its = List.concat parts ++ its2 /\ Forall2 block_items bs parts /\ pieces_items r ps2 its2.
Proof.
  induction ps1 as [|q ps1 IH]; intros its bs raws1 PI PR BH PC; inversion PC as [|? raw ? raws' P1 PC']; subst; inversion BH as [|b ? bs' ? B1 BH']; subst.
  - exists [], its. split; [reflexivity|]. split; [constructor|exact PI].
  - cbn [app] in PI. inversion PI as [|row r' s p w ps its' LE SP PI']; subst. pose proof (Forall_inv PR) as P0. pose proof (Forall_inv_tail PR) as PR'. cbn in P0. subst r'.
    destruct (IH its' bs' raws' PI' PR' BH' PC') as (parts & its2 & -> & F & PI2).
    exists ((Style (st_italic s) (st_underline s) :: map Char w) :: parts), its2. rewrite Z.sub_diag. cbn [Z.to_nat repeat app List.concat].
    split; [now rewrite <- app_assoc|]. split; [|exact PI2]. constructor; [|exact F].
    destruct (piece_text _ _ _ _ _ _ _ _ _ SP P1) as (U & I & L & _). destruct B1 as (T & _ & _ & _ & _ & _ & _ & BI & BU).
    exists w. split; [now rewrite T|]. now rewrite BI, BU, I, L.
Qed.

Lemma piece_line g from to just q r : piece_raw g from to just q r -> r_vpos r = mkV None (Some (piece_row q)) (Some (maximum_rows g)) (Some TOP_OF_SCREEN).
Proof. destruct q as [[row s] p]. intros (w & text & _ & _ & ->). reflexivity. Qed.
Lemma rows_equal m a b : vpos_eqb (mkV None (Some a) (Some m) (Some TOP_OF_SCREEN)) (mkV None (Some b) (Some m) (Some TOP_OF_SCREEN)) = true -> a = b.
Proof. unfold vpos_eqb. cbn. rewrite !andb_true_iff. intros H. repeat match goal with A : _ /\ _ |- _ => destruct A end. lia. Qed.

(** Lines made of the pieces say what the pieces say. *)
Lemma regroup_items g from to just ls grp : maximum_rows g = 23 -> Forall2 line_holds ls grp -> forall row ps its,
  pieces_items row ps its -> Forall2 (piece_raw g from to just) ps (List.concat grp) ->
  neighbours_differ (fun p q => vpos_eqb (r_vpos p) (r_vpos q) = true) grp -> Forall (fun q => own_row (piece_row q)) ps ->
  exists rows, Forall2 (fun l k => l_vpos l = row_position k /\ 0 <= k <= 23 /\ k <> 7 /\ k <> 14) ls rows /\ line_items (Some row) (combine ls rows) its /\
    Forall (fun r => row <= r) rows /\ downwards rows /\ hd_error rows = hd_error (map piece_row ps).
Proof.
  intros M H. induction H as [|l rs ls grp LH H IH]; intros row ps its PI PC ND OW.
  - inversion PC; subst. inversion PI; subst. exists []. repeat split; constructor.
  - cbn [List.concat] in PC. apply Forall2_app_inv_r in PC. destruct PC as (ps1 & ps2 & PC1 & PC2 & ->).
    unfold line_holds in LH. destruct rs as [|r rs]; [destruct LH|]. destruct LH as (_ & LV & BH & SV).
    inversion PC1 as [|q ? ps1' ? P1 PC1']; subst. destruct q as [[r1 s] p]. cbn [app] in PI. inversion PI as [|? ? ? ? w ? its' LE SP PI']; subst.
    pose proof (piece_line _ _ _ _ _ _ P1) as V1. cbn [piece_row fst] in V1.
    assert (SR : Forall (fun q => piece_row q = r1) ps1').
    { clear - PC1' SV V1. revert SV. induction PC1' as [|q x ps1' rs P PC IH]; intros SV; constructor; inversion SV as [|? ? S1 S2]; subst; [|now apply IH].
      rewrite V1, (piece_line _ _ _ _ _ _ P) in S1. symmetry. now apply (rows_equal (maximum_rows g)). }
    pose proof (pi_cons r1 r1 s p w _ _ (Z.le_refl r1) SP PI') as PI0. rewrite Z.sub_diag in PI0. cbn [Z.to_nat repeat app] in PI0.
    destruct (same_row g from to just r1 ((r1, s, p) :: ps1') ps2 _ _ _ PI0 (Forall_cons (P := fun q => piece_row q = r1) (r1, s, p) eq_refl SR) BH PC1) as (parts & its2 & E & F & PI2).
    apply Forall_app in OW. destruct OW as [OW1 OW2].
    assert (ND' : neighbours_differ (fun p q => vpos_eqb (r_vpos p) (r_vpos q) = true) grp) by (destruct grp as [|[|x y] z]; try exact I; exact (proj2 ND)).
    destruct (IH r1 ps2 its2 PI2 PC2 ND' OW2) as (rows & F2 & LI & LR & DW & HD). exists (r1 :: rows).
    split; [constructor; [|exact F2]; split; [rewrite LV, V1, M; reflexivity|exact (Forall_inv OW1)]|].
    split; [cbn [combine]; rewrite E; exact (line_items_cons (Some row) l r1 _ _ _ F LI)|].
    split; [constructor; [exact LE|]; eapply Forall_impl; [|exact LR]; cbv beta; lia|]. split; [|reflexivity].
    destruct rows as [|r2 rows]; [constructor|]. constructor; [|exact DW].
    destruct ps2 as [|q2 ps2]; [discriminate HD|]. cbn [map hd_error] in HD. injection HD as E2.
    pose proof (Forall_inv LR) as G. cbv beta in G. cut (r1 <> r2); [lia|]. intros X.
    destruct grp as [|[|x y] z]; [inversion PC2| |].
    + inversion H as [|? ? ? ? LH2 _]; subst. destruct LH2.
    + cbn [List.concat app] in PC2. assert (P2 : piece_raw g from to just q2 x) by now inversion PC2. apply (proj1 ND). rewrite V1, (piece_line _ _ _ _ _ _ P2), <- E2, <- X. unfold vpos_eqb. cbn. now rewrite !Z.eqb_refl.
Qed.

Lemma line_items_unique last lrs its : line_items last lrs its -> forall its', line_items last lrs its' -> its = its'.
Proof.
  induction 1 as [last|last l row rest parts its B _ IH]; intros its' H; inversion H as [|? ? ? ? parts' its2 B' H']; subst; [reflexivity|].
  rewrite (IH _ H'). do 2 f_equal. clear - B B'. revert parts' B'. induction B as [|b part bs parts (w & U & ->) _ IH]; intros parts' B'; inversion B' as [|? ? ? ? (w' & U' & ->) B2]; subst; [reflexivity|].
  assert (w' = w) as -> by (apply utf8_to_wide_ok in U, U'; congruence). cbn. now rewrite (IH _ B2).
Qed.
Lemma pieces_representable row ps its : pieces_items row ps its -> forall c, In (Char c) its -> representable c.
Proof.
  induction 1 as [|row r s p w ps its _ (R & _) _ IH]; intros c I; [destruct I|]. apply in_app_or in I. destruct I as [I|[I|I]]; [apply repeat_spec in I; discriminate|discriminate|].
  apply in_app_or in I. destruct I as [I|I]; [|now apply IH]. apply in_map_iff in I. destruct I as (x & [= <-] & I). rewrite Forall_forall in R. now apply R.
Qed.

(** * The longest line *)

Definition size (c : Z) : Z := Z.of_nat (length (Utf.wide_to_utf8 [c])).
Fixpoint tops (cur best : Z) (its : list item) : Z :=
  match its with
  | [] => Z.max cur best
  | Break :: t => tops 0 (Z.max cur best) t
  | Style _ _ :: t => tops cur best t
  | Char c :: t => tops (cur + size c) best t
  end.
Lemma tops_skel its : forall cur best, tops cur best (skel its) = tops cur best its.
Proof. induction its as [|[| |] its IH]; intros cur best; cbn; auto. Qed.
Lemma utf8_size s w : utf8 s w -> Z.of_nat (length s) = fold_right (fun c n => size c + n) 0 w.
Proof.
  intros (parts & F & E). rewrite <- (map_length char_code), E. clear s E. induction F as [|c p w parts U F IH]; [reflexivity|]. cbn [List.concat fold_right]. rewrite app_length, Nat2Z.inj_add, IH. f_equal.
  unfold size. assert (X : utf8 (Utf.wide_to_utf8 [c]) [c]) by (apply wide_to_utf8_ok; constructor; [now apply (utf8_char_scalar c p)|constructor]).
  destruct X as (ps & F' & E'). inversion F' as [|? p' ? ? U' N]; subst. inversion N; subst. cbn [List.concat] in E'. rewrite app_nil_r in E'. rewrite <- (map_length char_code (Utf.wide_to_utf8 [c])), E'. now rewrite (utf8_char_unique c p' p).
Qed.
Lemma tops_chars w its : forall cur best, tops cur best (map Char w ++ its) = tops (cur + fold_right (fun c n => size c + n) 0 w) best its.
Proof. induction w as [|c w IH]; intros cur best; cbn [map app fold_right tops]; [now rewrite Z.add_0_r|]. rewrite IH. f_equal. lia. Qed.
Lemma tops_breaks n its : forall cur best, 0 <= cur -> 0 <= best -> (0 < n)%nat -> tops cur best (repeat Break n ++ its) = tops 0 (Z.max cur best) its.
Proof.
  induction n as [|n IH]; intros cur best C B N; [lia|]. cbn [repeat app tops]. destruct n as [|n]; [reflexivity|]. rewrite IH by lia. f_equal. lia.
Qed.
Lemma tops_blocks bs parts its : Forall2 block_items bs parts -> forall cur best, tops cur best (List.concat parts ++ its) = tops (cur + Z.of_nat (length (List.concat (map b_text bs)))) best its.
Proof.
  induction 1 as [|b part bs parts (w & U & ->) _ IH]; intros cur best; cbn [map List.concat app]; [now rewrite Z.add_0_r|].
  cbn [tops app]. rewrite <- app_assoc, tops_chars, IH, app_length, Nat2Z.inj_add, (utf8_size _ _ U). f_equal. lia.
Qed.
Lemma tops_lines last lrs its : line_items last lrs its -> downwards (match last with Some r => r :: map snd lrs | None => map snd lrs end) -> forall cur best, 0 <= cur -> 0 <= best ->
  (last = None -> cur = 0) -> tops cur best its = fold_left (fun m l => Z.max m (line_bytes l)) (map fst lrs) (Z.max cur best).
Proof.
  induction 1 as [last|last l row rest parts its B _ IH]; intros D cur best C0 B0 CN; [reflexivity|]. cbn [map fst snd fold_left] in *.
  assert (D' : downwards (row :: map snd rest)) by (destruct last; [now inversion D|exact D]).
  assert (G : forall cur' best', cur' = 0 -> 0 <= best' -> tops cur' best' (List.concat parts ++ its) = fold_left (fun m l => Z.max m (line_bytes l)) (map fst rest) (Z.max best' (line_bytes l))).
  { intros cur' best' -> B'. rewrite (tops_blocks _ _ _ B), Z.add_0_l, line_bytes_eq. unfold bytes_of_line. rewrite IH; [f_equal; lia|exact D'|lia|exact B'|discriminate]. }
  destruct last as [r|].
  - inversion D; subst. rewrite tops_breaks by lia. rewrite G by lia. reflexivity.
  - cbn [app]. rewrite G by auto. f_equal. rewrite (CN eq_refl). f_equal. lia.
Qed.

(** * One subtitle saved twice *)

Lemma chunked_short k text chunks : chunked k text chunks -> (length text <= 112)%nat -> chunks = [(255, text ++ repeat 0x8F (112 - length text))].
Proof. intros C L. inversion C as [? ? NE L'|? t rest ? ? LT ? C']; subst; [reflexivity|]. exfalso. rewrite app_length in L. destruct rest as [|x rest]; [contradiction|]. cbn [length] in L. lia. Qed.

Definition saves_as (k : Z) (s s' : subtitle) (b : str) : Prop :=
  exists rows', has_own_rows s' rows' /\ (forall bs, subtitle_blocks (k * 1000) s' rows' bs -> bs = [b]) /\
  forall m, 0 <= m -> fold_left (fun m l => Z.max m (line_bytes l)) (s_lines s') m = fold_left (fun m l => Z.max m (line_bytes l)) (s_lines s) m.

Lemma hd_line ls grp raws r : Forall2 line_holds ls grp -> List.concat grp = r :: raws -> exists l, hd_error ls = Some l /\ l_hpos l = r_hpos r.
Proof.
  intros H E. destruct H as [|l ps ls grp LH H]; [discriminate E|]. exists l. split; [reflexivity|]. unfold line_holds in LH. destruct ps as [|p ps]; [destruct LH|].
  cbn in E. injection E as -> _. apply LH.
Qed.
Lemma just_back l : forall l', h_ref (l_hpos l') = reference_of (justification_of l) -> justification_of l' = justification_of l.
Proof. intros l'. unfold justification_of, reference_of. intros ->. now destruct (h_ref (l_hpos l)). Qed.

Lemma again_saves g k s b raws last s' grp : maximum_rows g = 23 -> 0 < k < 256 -> good_time k (s_from s) -> good_time k (s_to s) -> again g s b raws last ->
  subtitle_holds s' grp -> List.concat grp = raws -> saves_as k s s' b.
Proof.
  intros M K GF GT (top & first & rows & its & text & pieces & its' & _ & _ & HD & LI & LR & DW & TB & TL & PC & PI & CO & SK & OW) SH EG.
  unfold subtitle_holds in SH. rewrite EG in SH. destruct raws as [|r raws]; [destruct SH|]. destruct SH as (SF & ST & _ & _ & LH & _ & ND).
  rewrite <- EG in PC. destruct (regroup_items g _ _ _ _ _ M LH top pieces _ PI PC ND OW) as (rows' & OR & LI' & LE & DW' & HR).
  rewrite EG in PC. inversion PC as [|q ? ps ? P1 PC']; subst. destruct q as [[r1 st] p]. inversion PI as [|? ? ? ? w ? its2 LE1 SP PI' E1 E2]; subst.
  assert (r1 = top). { destruct (Z.to_nat (r1 - top)) eqn:X; [lia|discriminate]. } subst r1.
  destruct (piece_text _ _ _ _ _ _ _ _ _ SP P1) as (_ & _ & _ & RF & RT & _ & RH & _). rewrite RF in SF. rewrite RT in ST. cbn [map hd_error piece_row fst] in HR.
  assert (LN : line_items None (combine (s_lines s') rows') (Style false false :: its')).
  { destruct OR as [|l' k' ls ks O1 OR]; [discriminate HR|]. cbn [hd_error] in HR. injection HR as ->. cbn [combine] in *. inversion LI' as [|? ? ? ? parts its3 B LI3 E3 E4]; subst.
    rewrite Z.sub_diag in *. cbn [Z.to_nat repeat app] in *. exact (line_items_cons None l' top _ _ _ B LI3). }
  assert (LL : least rows' top).
  { split; [|exact LE]. destruct rows'; [discriminate HR|]. injection HR as ->. now left. }
  destruct (hd_line _ _ _ _ LH EG) as (first' & HD' & HP). assert (J : justification_of first' = justification_of first) by (apply just_back; now rewrite HP).
  pose proof (Forall2_len _ _ _ OR) as LR'.
  exists rows'. split; [exact OR|]. split.
  - intros bs SB. assert (exists b', bs = [b']) as (b' & ->).
    { destruct SB as (h1 & m1 & s1 & f1 & h2 & m2 & s2 & f2 & t & fr & it & tx & chunks & _ & _ & _ & _ & L2 & C2 & CH & F).
      rewrite (line_items_unique _ _ _ L2 _ LN) in C2. rewrite (coded_unique _ _ _ _ C2 (pieces_representable _ _ _ PI) _ CO) in CH.
      rewrite (chunked_short _ _ _ CH TL) in F. inversion F as [|? b' ? ? _ F']; subst. inversion F'; subst. now exists b'. }
    assert (RG : Forall (fun r => 0 <= r <= 23) rows').
    { clear - OR. induction OR as [|l k ls ks (_ & O) _ IH]; constructor; [lia|exact IH]. }
    rewrite <- SF in GF. rewrite <- ST in GT. destruct (block_says k s' rows' b' K GF GT SB RG) as (t & fr & it & tx & LE2 & HD2 & L2 & C2 & _ & TB2).
    rewrite (line_items_unique _ _ _ L2 _ LN) in C2. rewrite (coded_unique _ _ _ _ C2 (pieces_representable _ _ _ PI) _ CO) in TB2.
    assert (t = top). { destruct LE2 as [I2 A2], LL as [I3 A3]. rewrite Forall_forall in A2, A3. specialize (A2 _ I3). specialize (A3 _ I2). cbv beta in *. lia. } subst t.
    rewrite HD' in HD2. injection HD2 as <-. rewrite SF, ST, J in TB2. f_equal. eapply tti_bytes_unique; eassumption.
  - intros m M0. pose proof (tops_lines _ _ _ LN) as A. pose proof (tops_lines _ _ _ LI) as B. rewrite (map_fst_combine _ _ LR'), (map_snd_combine _ _ LR') in A. rewrite (map_fst_combine _ _ LR), (map_snd_combine _ _ LR) in B.
    specialize (A DW' 0 m (Z.le_refl 0) M0 (fun _ => eq_refl)). specialize (B DW 0 m (Z.le_refl 0) M0 (fun _ => eq_refl)). rewrite (Z.max_r 0 m M0) in A, B. rewrite <- A, <- B.
    rewrite <- (tops_skel its), <- SK. cbn [tops]. now rewrite tops_skel.
Qed.

(** * Runs *)

Definition run (R : raw -> raw -> Prop) (l : list raw) : Prop := match l with [] => False | p :: t => Forall (R p) t end.
Lemma runs_unique R A : forall B, Forall (run R) A -> Forall (run R) B -> neighbours_differ R A -> neighbours_differ R B -> List.concat A = List.concat B -> A = B.
Proof.
  induction A as [|a A IH]; intros [|b B] FA FB NA NB E.
  - reflexivity.
  - exfalso. pose proof (Forall_inv FB) as X. destruct b; [destruct X|discriminate E].
  - exfalso. pose proof (Forall_inv FA) as X. destruct a; [destruct X|discriminate E].
  - pose proof (Forall_inv FA) as RA. pose proof (Forall_inv FB) as RB. apply Forall_inv_tail in FA. apply Forall_inv_tail in FB. destruct a as [|p a]; [destruct RA|]. destruct b as [|q b]; [destruct RB|].
    cbn [List.concat app] in E. injection E as -> E.
    assert (X : forall a b A B, Forall (R q) b -> Forall (run R) A -> neighbours_differ R ((q :: a) :: A) -> a ++ List.concat A = b ++ List.concat B -> (length b <= length a)%nat).
    { clear. intros a b A B FB FA NA E. destruct (Nat.le_gt_cases (length b) (length a)) as [L|L]; [exact L|exfalso].
      assert (b = a ++ skipn (length a) b). { rewrite <- (firstn_skipn (length a) b) at 1. f_equal. apply (f_equal (firstn (length a))) in E.
        rewrite !firstn_app in E. rewrite firstn_all, Nat.sub_diag in E. cbn [firstn] in E. rewrite app_nil_r in E. replace (length a - length b)%nat with 0%nat in E by lia. cbn [firstn] in E. rewrite app_nil_r in E. now symmetry. }
      rewrite H in E, FB. rewrite <- app_assoc in E. apply app_inv_head in E. apply Forall_app in FB. destruct FB as [_ FB].
      destruct (skipn (length a) b) as [|x t] eqn:S; [rewrite app_nil_r in H; subst; lia|].
      destruct A as [|[|y z] A]; [discriminate E|exact (Forall_inv FA)|]. cbn in E. injection E as -> _. exact (proj1 NA (Forall_inv FB)). }
    pose proof (X a b A B RB FA NA E) as L1. pose proof (X b a B A RA FB NB (eq_sym E)) as L2.
    assert (a = b). { apply (f_equal (firstn (length a))) in E. rewrite !firstn_app in E. replace (length a - length b)%nat with 0%nat in E by lia. rewrite Nat.sub_diag in E. cbn [firstn] in E. rewrite !app_nil_r, firstn_all in E.
      rewrite firstn_all2 in E by lia. exact E. }
    subst b. apply app_inv_head in E. f_equal. apply IH; try assumption.
    + destruct A as [|[|x y] A]; try exact I. exact (proj2 NA).
    + destruct B as [|[|x y] B]; try exact I. exact (proj2 NB).
Qed.

(** * All subtitles *)

Lemma good_same k t : 0 < k <= 30 -> good_time k t -> time_eq t t = Ok true /\ time_lt t t = Ok false.
Proof.
  intros K (R & S & F). assert (X : imul3 (t_frames t) k 1 = Ok (t_frames t * k)).
  { assert (BD : 0 <= t_frames t * k <= 900) by (split; [apply Z.mul_nonneg_nonneg; lia|]; apply (Z.mul_le_mono_nonneg (t_frames t) 30 k 30); lia). unfold imul3, imul, chk. assert (I : in_int (t_frames t * k) = true) by (unfold in_int, int_min, int_max; apply andb_true_iff; rewrite !Z.leb_le; lia). rewrite I. cbn [bind]. rewrite Z.mul_1_r. now rewrite I. }
  unfold time_eq, time_lt. rewrite R. cbn [num den]. rewrite !Z.eqb_refl. cbn [negb]. rewrite X. cbn [bind]. rewrite Z.eqb_refl. split; [reflexivity|]. now rewrite Z.ltb_irrefl.
Qed.

Lemma again_raws g k s b raws last : maximum_rows g = 23 -> good_time k (s_from s) -> good_time k (s_to s) -> again g s b raws last -> raws <> [] /\
  Forall (fun r => r_from r = s_from s /\ r_to r = s_to s /\ r_fade_up r = None /\ r_fade_down r = None /\ good k r /\ exists row rows, r_vpos r = mkV None (Some row) (Some rows) (Some TOP_OF_SCREEN)) raws.
Proof.
  intros M GF GT (top & first & rows & its & text & pieces & its' & _ & _ & _ & _ & _ & _ & _ & _ & PC & PI & _ & _ & OW). split.
  - intros ->. inversion PC; subst. inversion PI.
  - clear - M GF GT PC PI OW. revert raws PC OW. induction PI as [|row r s0 p w ps its0 _ SP _ IH]; intros raws PC OW; inversion PC as [|? x ? ? P1 PC']; subst; [constructor|].
    inversion OW as [|? ? O1 OW']; subst. constructor; [|now apply IH]. destruct (piece_text _ _ _ _ _ _ _ _ _ SP P1) as (U & _ & _ & RF & RT & RV & _ & FU & FD).
    split; [exact RF|]. split; [exact RT|]. split; [exact FU|]. split; [exact FD|]. split; [|rewrite RV; eauto]. rewrite M in RV.
    split; [exists w; split; [exact U|apply SP]|]. split; [exists r; split; [exact RV|exact O1]|]. now rewrite RF, RT.
Qed.

Lemma line_fine_group k s grp : 0 < k -> subtitle_holds s grp -> Forall (good k) (List.concat grp) -> lines_end_in_text s -> Forall line_fine (s_lines s).
Proof.
  intros K SH G LE. destruct (group_parts k s grp K SH G) as (LH & GG & _). apply Forall_forall. intros l I. split; [|unfold lines_end_in_text in LE; rewrite Forall_forall in LE; now apply LE].
  apply Forall_forall. intros b IB w U. destruct (Forall2_left _ _ _ l LH I) as (ps & IP & H). rewrite Forall_forall in GG. specialize (GG ps IP).
  unfold line_holds in H. destruct ps as [|p ps]; [destruct H|]. destruct H as (_ & _ & BH & _). destruct (Forall2_left _ _ _ b BH IB) as (q & IQ & (T & _)).
  rewrite Forall_forall in GG. destruct (GG q IQ) as ((w' & U' & R) & _). rewrite T in U. assert (w' = w) as -> by (apply utf8_to_wide_ok in U, U'; congruence). exact R.
Qed.

Definition again_all (g : gsi) : list subtitle -> list (list str) -> list (list raw * Z) -> Prop :=
  fix go ss bss xs := match ss, bss, xs with
  | [], [], [] => True
  | s :: ss, bs :: bss, x :: xs => (exists b, bs = [b] /\ again g s b (fst x) (snd x)) /\ go ss bss xs
  | _, _, _ => False
  end.

Lemma all_again g k subs : frame_rate g = k -> 0 < k < 256 -> forall groups rowss blockss, Forall2 subtitle_holds subs groups -> Forall (good k) (List.concat (map (@List.concat raw) groups)) ->
  Forall lines_end_in_text subs -> Forall2 has_own_rows subs rowss -> Forall downwards rowss ->
  Forall2 (fun sr bs => subtitle_blocks (k * 1000) (fst sr) (snd sr) bs) (combine subs rowss) blockss -> Forall (fun bs => length bs = 1%nat) blockss ->
  Forall (fun s => good_time k (s_from s) /\ good_time k (s_to s)) subs /\ exists xs, again_all g subs blockss xs.
Proof.
  intros FR K. induction subs as [|s subs IH]; intros groups rowss blockss H G LE O D SB L1; inversion H as [|? grp ? groups' H1 H']; inversion O as [|? rows ? rowss' O1 O']; subst; inversion SB as [|? bs ? bss SB1 SB']; subst.
  - split; [constructor|]. exists []. exact I.
  - cbn [map List.concat] in G. apply Forall_app in G. destruct G as [G1 G2]. inversion LE as [|? ? LE1 LE']; inversion D as [|? ? D1 D']; inversion L1 as [|? ? LB L1']; subst. cbn [fst snd] in *.
    destruct (IH groups' rowss' bss H' G2 LE' O' D' SB' L1') as (GT & xs & AX). destruct (group_parts (frame_rate g) s grp (proj1 K) H1 G1) as (_ & _ & _ & GF & GTo & _).
    split; [constructor; [now split|exact GT]|]. destruct bs as [|b [|b' bs]]; try discriminate LB.
    assert (OW : Forall own_row rows). { clear - O1. unfold has_own_rows in O1. induction O1 as [|l k ls ks (_ & O) _ IH]; constructor; [unfold own_row; lia|exact IH]. }
    destruct (block_again g (frame_rate g) s rows b eq_refl K GF GTo SB1 (line_fine_group (frame_rate g) s grp (proj1 K) H1 G1 LE1) D1 (Forall2_len _ _ _ O1) OW) as (raws & last & A).
    exists ((raws, last) :: xs). split; [|exact AX]. exists b. now split.
Qed.

Lemma again_read g ss : forall bss xs, again_all g ss bss xs -> Forall2 (fun b x => block_read g b (fst x) (snd x)) (List.concat bss) (combine (map fst xs) (map (fun x => Some (snd x)) xs)) /\
  Forall (fun o => exists k, o = Some k /\ k <= 23) (map (fun x => Some (snd x)) xs).
Proof.
  induction ss as [|s ss IH]; intros [|bs bss] [|x xs] A; try (now destruct A); [split; constructor|]. cbn [again_all] in A. destruct A as ((b & -> & A) & AX). destruct (IH _ _ AX) as (F & L).
  destruct A as (top & first & rows & its & text & pieces & its' & BR & L23 & _). cbn [List.concat app map combine fst snd]. split; constructor; try assumption. eauto.
Qed.

Lemma again_same k g ss : 0 < k <= 30 -> maximum_rows g = 23 -> Forall (fun s => good_time k (s_from s) /\ good_time k (s_to s)) ss -> forall bss xs, again_all g ss bss xs ->
  Forall (run CollectSpec.same_times) (map fst xs) /\ Forall (good k) (List.concat (map fst xs)) /\
  Forall (fun r => exists row rows, r_vpos r = mkV None (Some row) (Some rows) (Some TOP_OF_SCREEN)) (List.concat (map fst xs)).
Proof.
  intros K M. induction 1 as [|s ss (GF & GT) _ IH]; intros [|bs bss] [|x xs] A; try (now destruct A); [repeat split; constructor|]. cbn [again_all] in A. destruct A as ((b & -> & A) & AX). destruct (IH _ _ AX) as (R & G & V).
  destruct (again_raws g k s b _ _ M GF GT A) as (NE & F). cbn [map List.concat]. split; [constructor; [|exact R]|split; apply Forall_app; split; try assumption].
  - unfold run. destruct (fst x) as [|p t]; [now destruct NE|]. pose proof (Forall_inv F) as (PF & PT & PU & PD & _). apply Forall_inv_tail in F. eapply Forall_impl; [|exact F]. intros q (QF & QT & QU & QD & _).
    unfold CollectSpec.same_times. rewrite PF, PT, PU, PD, QF, QT, QU, QD. split; [apply (good_same k); assumption|]. split; [apply (good_same k); assumption|]. split; exact I.
  - eapply Forall_impl; [|exact F]. cbv beta. tauto.
  - eapply Forall_impl; [|exact F]. cbv beta. tauto.
Qed.

Lemma again_sorted k g ss : 0 < k <= 30 -> maximum_rows g = 23 -> Forall (fun s => good_time k (s_from s) /\ good_time k (s_to s)) ss -> StronglySorted (fun s t => time_lt (s_from t) (s_from s) = Ok false) ss ->
  forall bss xs, again_all g ss bss xs -> StronglySorted (fun x y => raw_lt y x = Ok false) (List.concat (map fst xs)) /\
  (forall t, Forall (fun s => time_lt (s_from s) t = Ok false) ss -> Forall (fun r => time_lt (r_from r) t = Ok false) (List.concat (map fst xs))).
Proof.
  intros K M GS. induction GS as [|s ss (GF & GT) _ IH]; intros SS [|bs bss] [|x xs] A; try (now destruct A); [split; [constructor|intros; constructor]|]. cbn [again_all] in A. destruct A as ((b & -> & A) & AX).
  inversion SS as [|? ? SS' SH]; subst. destruct (IH SS' _ _ AX) as (S & T). destruct (again_raws g k s b _ _ M GF GT A) as (NE & F). cbn [map List.concat]. clear A NE IH. split.
  - induction F as [|r rs (RF & _) F IH]; [exact S|]. cbn [app]. constructor; [exact IH|]. apply Forall_app. split.
    + eapply Forall_impl; [|exact F]. intros q (QF & _). unfold raw_lt. rewrite RF, QF. now apply (good_same k).
    + unfold raw_lt. rewrite RF. apply T. exact SH.
  - intros t FT. inversion FT as [|? ? T1 T2]; subst. apply Forall_app. split; [|now apply T]. eapply Forall_impl; [|exact F]. intros q (QF & _). now rewrite QF.
Qed.

Lemma again_differ k g : 0 < k <= 30 -> maximum_rows g = 23 -> forall ss groups bss xs, Forall (fun s => good_time k (s_from s) /\ good_time k (s_to s)) ss -> Forall2 subtitle_holds ss groups ->
  Forall (fun r => r_fade_up r = None /\ r_fade_down r = None) (List.concat (map (@List.concat raw) groups)) ->
  neighbours_differ CollectSpec.same_times (map (@List.concat raw) groups) -> again_all g ss bss xs -> neighbours_differ CollectSpec.same_times (map fst xs).
Proof.
  intros K M. induction ss as [|s ss IH]; intros groups [|bs bss] [|x xs] GS H FN ND A; try (now destruct A). cbn [again_all] in A. destruct A as ((b & -> & A) & AX).
  inversion H as [|? grp ? groups' H1 H']; subst. inversion GS as [|? ? (GF & GT) GS']; subst. cbn [map List.concat] in FN. apply Forall_app in FN. destruct FN as [FN1 FN2].
  assert (IHX : neighbours_differ CollectSpec.same_times (map fst xs)).
  { apply (IH groups' bss xs); try assumption. cbn [map] in ND. destruct (holds_first _ _ H1) as (p & t & E & _). rewrite E in ND.
    destruct groups' as [|grp2 groups']; [exact I|]. cbn [map] in *. destruct (List.concat grp2); [exact I|apply ND]. }
  destruct (again_raws g k s b _ _ M GF GT A) as (NE & F). cbn [map]. destruct (fst x) as [|p t] eqn:EX; [now destruct NE|]. destruct ss as [|s2 ss]; [destruct bss, xs; try (now destruct AX); exact I|].
  destruct bss as [|bs2 bss], xs as [|x2 xs]; try (now destruct AX). cbn [again_all] in AX. destruct AX as ((b2 & -> & A2) & AX). inversion GS' as [|? ? (GF2 & GT2) _]; subst.
  destruct (again_raws g k s2 b2 _ _ M GF2 GT2 A2) as (NE2 & F2). cbn [map] in *. destruct (fst x2) as [|p2 t2]; [now destruct NE2|]. cbn [neighbours_differ]. split; [|exact IHX].
  inversion H' as [|? grp2 ? groups2 H2 _]; subst. destruct (holds_first _ _ H1) as (q & tq & EQ & SF & ST & _), (holds_first _ _ H2) as (q2 & tq2 & EQ2 & SF2 & ST2 & _). cbn [map] in ND. rewrite EQ, EQ2 in ND. cbn [neighbours_differ] in ND.
  intros X. apply (proj1 ND). pose proof (Forall_inv F) as (PF & PT & _). pose proof (Forall_inv F2) as (PF2 & PT2 & _). destruct X as (X1 & X2 & _). rewrite PF, PF2, SF, SF2 in X1. rewrite PT, PT2, ST, ST2 in X2.
  rewrite EQ in FN1. pose proof (Forall_inv FN1) as (U1 & D1). cbn [map List.concat] in FN2. rewrite EQ2 in FN2. pose proof (Forall_inv FN2) as (U2 & D2).
  unfold CollectSpec.same_times. rewrite U1, D1, U2, D2. repeat split; assumption.
Qed.

Definition saves_all (k : Z) : list subtitle -> list subtitle -> list (list str) -> Prop :=
  fix go ss ss' bss := match ss, ss', bss with
  | [], [], [] => True
  | s :: ss, s' :: ss', bs :: bss => (exists b, bs = [b] /\ saves_as k s s' b) /\ go ss ss' bss
  | _, _, _ => False
  end.
Lemma again_saves_all g k : maximum_rows g = 23 -> 0 < k < 256 -> forall ss bss xs ss' groups', Forall (fun s => good_time k (s_from s) /\ good_time k (s_to s)) ss -> again_all g ss bss xs ->
  Forall2 subtitle_holds ss' groups' -> map (@List.concat raw) groups' = map fst xs -> saves_all k ss ss' bss.
Proof.
  intros M K. induction ss as [|s ss IH]; intros [|bs bss] [|x xs] ss' groups' GS A H E; try (now destruct A).
  - destruct groups'; [|discriminate E]. inversion H; subst. exact I.
  - cbn [again_all] in A. destruct A as ((b & -> & A) & AX). destruct groups' as [|grp groups']; [discriminate E|]. cbn [map] in E. injection E as E1 E2. inversion H as [|s' ? ss2 ? H1 H']; subst.
    inversion GS as [|? ? (GF & GT) GS']; subst. cbn [saves_all]. split; [|now apply (IH bss xs ss2 groups')]. exists b. split; [reflexivity|]. eapply again_saves; eassumption.
Qed.
Lemma saves_parts k ss : forall ss' bss, saves_all k ss ss' bss -> length ss' = length ss /\ longest_line ss' = longest_line ss /\
  exists rowss', Forall2 has_own_rows ss' rowss' /\
  forall bss', Forall2 (fun sr bs => subtitle_blocks (k * 1000) (fst sr) (snd sr) bs) (combine ss' rowss') bss' -> bss' = bss.
Proof.
  assert (G : forall ss ss' bss, saves_all k ss ss' bss -> forall m, 0 <= m ->
    fold_left (fun m s => fold_left (fun m l => Z.max m (line_bytes l)) (s_lines s) m) ss' m = fold_left (fun m s => fold_left (fun m l => Z.max m (line_bytes l)) (s_lines s) m) ss m).
  { clear ss. induction ss as [|s ss IH]; intros [|s' ss'] [|bs bss] A m M; try (now destruct A). cbn [saves_all] in A. destruct A as ((b & -> & (rows' & _ & _ & T)) & A). cbn [fold_left].
    rewrite (T m M). apply (IH _ _ A). clear - M. revert m M. induction (s_lines s) as [|l ls IH]; intros m M; cbn [fold_left]; [exact M|]. apply IH. lia. }
  induction ss as [|s ss IH]; intros [|s' ss'] [|bs bss] A; try (now destruct A).
  - split; [reflexivity|]. split; [reflexivity|]. exists []. split; [constructor|]. intros bss' F. now inversion F.
  - pose proof (G _ _ _ A 0 (Z.le_refl 0)) as L. cbn [saves_all] in A. destruct A as ((b & -> & (rows' & O & B & T)) & A). destruct (IH _ _ A) as (LN & _ & rowss' & OR & F).
    split; [cbn; now rewrite LN|]. split; [exact L|]. exists (rows' :: rowss'). split; [now constructor|]. intros bss' X. cbn [combine] in X. inversion X as [|? bs' ? bss2 X1 X2]; subst. cbn [fst snd] in X1.
    f_equal; [now apply B|now apply F].
Qed.

Theorem save_twice h h' h'' h3 sort sort' input g raws a subs file : snd (stl_binary_read input (after h)) = Ok (g, raws) -> frame_rate g <> 23 -> w_fps a = f_of_int (frame_rate g) ->
  maximum_rows g = 23 -> Forall kept_row raws -> Forall no_nul raws -> Forall (proper_times (frame_rate g)) raws -> writer_ready (frame_rate g * 1000) a raws -> conforming sort -> conforming sort' ->
  collect sort raws = Ok subs -> snd (write_stl_binary subs a (after h')) = Ok file ->
  length file = (1024 + 128 * length subs)%nat -> Z.of_nat (length subs) < 100000 -> Forall lines_downwards subs -> Forall lines_end_in_text subs ->
  exists g' raws' subs', snd (stl_binary_read file (after h'')) = Ok (g', raws') /\ collect sort' raws' = Ok subs' /\ snd (write_stl_binary subs' a (after h3)) = Ok file.
Proof.
  intros E N23 FP M KR NN PT WR S S' ES W LF LS D LE. pose proof (file_good h input g raws E M KR NN PT) as G. pose proof (binary_comparable h input g raws E) as C.
  pose proof (file_rate h input g raws E N23) as K. set (k := frame_rate g) in *. assert (KP : 0 < k <= 30) by (destruct K as [<-|[<-|[<-|[]]]]; lia). assert (KB : 0 < k < 256) by lia.
  pose proof (collected_acceptable k sort raws subs a KP G S C WR ES) as A.
  destruct (collect_spec sort raws S C) as (sorted & subs0 & groups & SS & ES0 & (EG & F & ND)). rewrite ES in ES0. apply Ok_inj in ES0. subst subs0.
  assert (GS : Forall (good k) (List.concat (map (@List.concat raw) groups))) by (rewrite EG; destruct SS as (P & _); now rewrite <- P).
  assert (FN : Forall (fun r => r_fade_up r = None /\ r_fade_down r = None) (List.concat (map (@List.concat raw) groups))).
  { rewrite EG. destruct SS as (P & _). rewrite <- P. apply binary_meets in E. destruct E as (_ & TM). eapply Forall_impl; [|exact TM]. intros r X. now destruct X as (_ & _ & X). }
  destruct (groups_ready k (proj1 KP) subs groups F GS D) as (_ & _ & rowss2 & O & DW).
  assert (SZ : Z.of_nat (length file) < 1024 + 128 * 100000) by (rewrite LF; lia).
  destruct (file_parts h' (k * 1000) a subs file A W SZ) as (rowss & blockss & head & dfc & g' & EX & _ & B & EF & LF' & MG & DF & IR & HB & RD).
  assert (rowss = rowss2) by (eapply rows_own; eassumption). subst rowss2. rewrite FP in DF. pose proof (whole_format k dfc _ K DF IR) as FR.
  assert (L1 : Forall (fun bs => length bs = 1%nat) blockss).
  { apply (one_block (k * 1000) _ _ B). rewrite combine_length, <- (Forall2_len _ _ _ O). lia. }
  destruct (all_again g' k subs FR KB groups rowss blockss F GS LE O DW B L1) as (GT & xs & AX). assert (MR : maximum_rows g' = 23) by apply HB.
  destruct (again_read g' subs blockss xs AX) as (BR & LA). destruct (again_same k g' subs KP MR GT blockss xs AX) as (RN & GX & VX).
  pose proof (RD h'' (map fst xs) (map (fun x => Some (snd x)) xs) ltac:(now rewrite !map_length) BR LA VX) as RD2.
  set (raws' := List.concat (map fst xs)) in *. pose proof (binary_comparable h'' file g' raws' RD2) as C'.
  destruct (collect_spec sort' raws' S' C') as (sorted' & subs' & groups' & SS' & ES' & (EG' & F' & ND')).
  destruct (again_sorted k g' subs KP MR GT (collect_ordered sort raws subs S C ES) blockss xs AX) as (ST & _).
  assert (sorted' = raws') as ->.
  { apply (stably_sorted_unique raws' _ _ (comparable_all _ C') (strict_weak_all _ C') SS'). split; [apply Permutation_refl|]. split; [exact ST|reflexivity]. }
  assert (EM : map (@List.concat raw) groups' = map fst xs).
  { apply (runs_unique CollectSpec.same_times); [|exact RN|exact ND'|exact (again_differ k g' KP MR subs groups blockss xs GT F FN ND AX)|exact EG'].
    clear - F'. induction F' as [|s grp ss gs H _ IH]; constructor; [|exact IH]. unfold subtitle_holds in H. unfold run. destruct (List.concat grp); [destruct H|apply H]. }
  pose proof (again_saves_all g' k MR KB subs blockss xs subs' groups' GT AX F' EM) as SA. destruct (saves_parts k subs subs' blockss SA) as (LN & LO & rowss' & O' & BU).
  exists g', raws', subs'. split; [exact RD2|]. split; [exact ES'|].
  assert (A' : acceptable (k * 1000) a subs').
  { destruct A as (A1 & A2 & A3 & A4 & A5). split; [exact A1|]. split.
    - destruct (collected_writable sort' raws' S' C' (good_writable k raws' KP GX)) as (s2 & E2 & WS). rewrite ES' in E2. apply Ok_inj in E2. now subst s2.
    - split; [exact A3|]. split; [exact A4|]. destruct (longest_ok subs') as ((LB & _) & _). destruct (longest_ok subs) as ((_ & LT) & _). rewrite LO in LB.
      assert (LL : longest_line subs < 2 ^ 31).
      { destruct LT as [I|[_ ->]]; [|reflexivity]. apply in_map_iff in I. destruct I as (l & <- & I). apply in_concat in I. destruct I as (ls & I1 & I2).
        apply in_map_iff in I1. destruct I1 as (s & <- & I1). rewrite Forall_forall in A5. specialize (A5 s I1). rewrite Forall_forall in A5. now apply A5. }
      apply Forall_forall. intros s IS. apply Forall_forall. intros l IL. rewrite Forall_forall in LB. eapply Z.le_lt_trans; [|exact LL]. apply LB. apply in_map.
      apply in_concat. exists (s_lines s). split; [now apply in_map|exact IL]. }
  destruct (write_parts_gsi h3 subs' a (k * 1000) A') as (rowss3 & blockss3 & head3 & W3 & EX3 & B3 & _ & MG3 & _).
  assert (rowss3 = rowss') by (eapply rows_own; eassumption). subst rowss3. pose proof (BU _ B3) as EB. subst blockss3. rewrite LN, LO in MG3. unfold str in *. rewrite MG in MG3. apply Ok_inj in MG3. subst head3. rewrite W3. now rewrite EF.
Qed.
