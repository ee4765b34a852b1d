(** Consequences for users of the SubRip reader. *)
From Coq Require Import ZArith List Bool Ascii String Lia.
From Verif.Model Require Import Base Strings Float TimeModel Types Lines RawConvert Compose Ssa Subrip.
From Verif.Spec Require Import Outcome TextSpec Utf8Spec LinesSpec StlFileSpec RawSpec SsaTagSpec SubripSpec StopSpec SubripUseSpec.
From Verif.Proofs Require Import StringProofs ComposeProofs Iso6937Proofs StlReadProofs SsaTagProofs LinesProofs SubripTokenProofs SubripFontProofs SubripProofs SubripStopProofs.
Import ListNotations.
Local Open Scope Z_scope.
Local Notation length := List.length.

(** * Plain files *)

Lemma cleaned_unchanged l : unchanged l -> cleaned l l.
Proof. intros (_ & E & B). exists l, []. rewrite app_nil_r. repeat split; [constructor|exact E|]. right. now split. Qed.
Lemma cleaned_cr l : unchanged l -> cleaned (l ++ [cr]) l.
Proof. intros (_ & E & B). exists l, [cr]. repeat split; [|exact E|]; [constructor; [now right|constructor]|]. right. now split. Qed.

Lemma add_line l e rest ls ls' : unchanged l -> line_break e -> text_lines rest ls -> Forall2 cleaned ls ls' ->
  exists x ls2, text_lines (l ++ e ++ rest) (x :: ls2) /\ Forall2 cleaned (x :: ls2) (l :: ls') /\ (x = l \/ x = l ++ [cr]).
Proof.
  intros U [->| ->] T F.
  - exists l, ls. split; [apply lines_more; [apply U|exact T]|]. split; [constructor; [now apply cleaned_unchanged|exact F]|now left].
  - exists (l ++ [cr]), ls. split; [|split; [constructor; [now apply cleaned_cr|exact F]|now right]].
    replace (l ++ [cr; lf] ++ rest) with ((l ++ [cr]) ++ lf :: rest) by now rewrite <- app_assoc. apply lines_more; [|exact T].
    rewrite in_app_iff. intros [I|[I|[]]]; [now apply U in I|discriminate].
Qed.

Definition time_char (c : ascii) : Prop := number_char c \/ c = ":"%char \/ c = ","%char \/ c = "."%char.
Definition time_sep (c : ascii) : Prop := c = ","%char \/ c = "."%char.
Lemma cue_time_chars sep f t : time_sep sep -> cue_time sep f t -> Forall time_char f /\ f <> [].
Proof.
  intros TS (h & m & sec & ms & (a & b & x & y & -> & Ia & Ib & Ix & Iy) & _).
  assert (D : forall s v, integer s v -> Forall time_char s).
  { intros s v I. apply integer_chars in I. eapply Forall_impl; [|exact I]. intros c C. now left. }
  split.
  - apply Forall_app. split; [now apply D in Ia|]. constructor; [right; now left|]. apply Forall_app. split; [now apply D in Ib|].
    constructor; [right; now left|]. apply Forall_app. split; [now apply D in Ix|]. constructor; [right; now right|now apply D in Iy].
  - destruct a; discriminate.
Qed.
Lemma time_char_not c : time_char c -> c <> space /\ c <> lf /\ c <> cr /\ char_code c < 128.
Proof.
  intros [[D|[->| ->]]|[->|[->| ->]]]; try (split; [discriminate|split; [discriminate|split; [discriminate|reflexivity]]]).
  split; [|split; [|split]]; try (intros ->; discriminate D).
  destruct (Z.ltb_spec (char_code c) 128) as [L|L]; [exact L|]. exfalso. clear -D L. destruct c as [[] [] [] [] [] [] [] []]; cbn in D; try discriminate D;
    unfold char_code in L; cbn in L; lia.
Qed.
Lemma time_line sep f t from to : time_sep sep -> cue_time sep f from -> cue_time sep t to ->
  unchanged (f ++ lit " --> " ++ t) /\ timing_line sep (f ++ lit " --> " ++ t) from to.
Proof.
  intros TS F T. pose proof (cue_time_chars _ _ _ TS F) as [CF NF]. pose proof (cue_time_chars _ _ _ TS T) as [CT NT]. rewrite Forall_forall in CF, CT.
  assert (NS : ~ In space f /\ ~ In space t).
  { split; intros I; [apply CF in I|apply CT in I]; apply time_char_not in I; destruct I as [N _]; congruence. }
  split; [split; [|split]|].
  - rewrite !in_app_iff. intros [I|[I|I]]; [apply CF in I|cbn in I; intuition discriminate|apply CT in I]; apply time_char_not in I; destruct I as (_ & N & _); congruence.
  - intros (b & c & E & LE). destruct (exists_last NT) as (t' & z & ->). rewrite !app_assoc in E. apply app_inj_tail in E. destruct E as [_ <-].
    assert (I : In z (t' ++ [z])) by (rewrite in_app_iff; right; now left). apply CT in I. apply time_char_not in I. destruct LE as [->| ->]; destruct I as (_ & N & M & _); congruence.
  - intros (r & E). destruct f as [|c f]; [congruence|]. injection E as E _. assert (I : In c (c :: f)) by now left. apply CF in I. apply time_char_not in I.
    destruct I as (_ & _ & _ & L). rewrite E in L. unfold char_code in L. rewrite nat_ascii_embedding in L; lia.
  - exists f, (lit "-->"), t, []. split; [|split; [now left|now split]]. exists (f ++ lit " --> " ++ t), 0%nat. cbn [repeat]. rewrite app_nil_r. split; [reflexivity|]. split.
    + intros (b & c & E & <-). destruct (exists_last NT) as (t' & z & ->). rewrite !app_assoc in E. apply app_inj_tail in E. destruct E as [_ ->]. apply NS. rewrite in_app_iff. right. now left.
    + change (f ++ lit " --> " ++ t) with (f ++ repeat space 1 ++ lit "-->" ++ repeat space 1 ++ t). apply spaced_more; [apply NS| |].
      * intros (r & E). discriminate.
      * apply spaced_more; [cbn; intuition discriminate| |now apply spaced_one].
        intros (r & E). apply NS. rewrite E. now left.
Qed.

Lemma plain_lexed l : ~ In "<"%char l -> ~ In "{"%char l -> lexed l (map TChar l).
Proof.
  induction l as [|c l IH]; intros N1 N2; [constructor|]. cbn [map]. apply lexed_char; [|apply IH; intros I; [apply N1|apply N2]; now right].
  assert (Q1 : char_code "<"%char = 60) by reflexivity. assert (Q2 : char_code "{"%char = 123) by reflexivity.
  intros tok rest T. inversion T as [p name tk rs I SL E|p s body rs SL U E|]; subst.
  - assert (NE : exists x y, lit name = x :: y /\ (x = "<"%char \/ x = "{"%char)).
    { cbn [In simple_tags] in I. repeat destruct I as [I|I]; try contradiction; injection I as <- <-; cbn; eexists _, _; split; try reflexivity; auto. }
    destruct NE as (x & y & Q & X). rewrite Q in SL. inversion SL as [|a ? p' ? S1 S2]; subst. injection E as -> _.
    destruct S1 as [->|(k & K & [[A B]|[A B]])].
    + destruct X as [->| ->]; [apply N1|apply N2]; now left.
    + destruct X as [->| ->]; rewrite ?Q1, ?Q2 in B; lia.
    + destruct X as [->| ->]; rewrite ?Q1, ?Q2 in B; lia.
  - inversion SL as [|a x p' ? S1 S2]; subst. injection E as -> _. destruct S1 as [->|(k & K & [[A B]|[A B]])].
    + apply N1. now left.
    + rewrite Q1 in B; lia.
    + rewrite Q1 in B; lia.
  - apply N2. now left.
Qed.
Lemma plain_pieces r cs tx l : pieces r cs tx (map TChar l) [] r (tx ++ l).
Proof.
  revert tx. induction l as [|c l IH]; intros tx; cbn [map]; [rewrite app_nil_r; constructor|]. constructor.
  replace (tx ++ c :: l) with ((tx ++ [c]) ++ l) by now rewrite <- app_assoc. apply IH.
Qed.
Lemma parts_one sep l : ~ contains sep l -> parts_of sep l [l].
Proof. intros N. repeat split; [discriminate|]. constructor; [exact N|constructor]. Qed.
Lemma rtl_same l : ~ contains u202b l -> without_rtl l l.
Proof. intros N. exists [l]. split; [now apply parts_one|]. cbn. now rewrite app_nil_r. Qed.

Lemma plain_rows_ok from to lines n m : Forall plain lines -> rows n (with_line m (cue_look from to)) lines (plain_rows from to n lines).
Proof.
  intros F. revert n m. induction F as [|l lines (NE & _ & _ & NR & N1 & N2) F IH]; intros n m; cbn [plain_rows]; [constructor|].
  change (styled_raw from to n plain_look l :: plain_rows from to (n + 1) lines) with ([] ++ [styled_raw from to n plain_look l] ++ plain_rows from to (n + 1) lines).
  replace [styled_raw from to n plain_look l] with (with_piece l (with_line n (cue_look from to))) by (destruct l; [congruence|reflexivity]).
  apply (rows_more n _ l lines (map TChar l) [] (with_line n (cue_look from to)) l l).
  - now apply plain_lexed.
  - apply (plain_pieces (with_line n (cue_look from to)) [all_white] [] l).
  - now apply rtl_same.
  - apply IH.
Qed.
Lemma plain_cue_ok c : Forall plain (cue_text c) -> cue_subtitles c (plain_cue c).
Proof.
  intros F. exists (map (fun l => [l]) (cue_text c)). split.
  - clear -F. induction F as [|l lines (_ & _ & N & _) F IH]; cbn [map]; constructor; [now apply parts_one|exact IH].
  - replace (List.concat (map (fun l => [l]) (cue_text c))) with (cue_text c).
    + apply (plain_rows_ok _ _ _ 0 0 F).
    + induction (cue_text c) as [|l ls IH]; [reflexivity|]. cbn. f_equal. apply IH. now inversion F.
Qed.

Lemma srt_lines cs s : srt cs s -> exists ls ls', text_lines s ls /\ Forall2 cleaned ls ls' /\ cues_in ls' cs /\ Forall (fun c => Forall plain (cue_text c)) cs /\
  (forall l r, ls = l :: r -> ~ begins_with bom l).
Proof.
  assert (NB : forall l x, unchanged l -> x = l \/ x = l ++ [cr] -> ~ begins_with bom x).
  { intros l x (_ & _ & B) [->| ->]; [exact B|]. intros (r & E). apply B. destruct l as [|a [|b [|c l]]]; cbn in E; try (now injection E); try discriminate.
    injection E as -> -> -> E. now exists l. }
  assert (NE : unchanged []) by (repeat split; [intros []|intros (b & c & E & _); now destruct b|intros (r & E); discriminate]).
  induction 1 as [|e cs s LB S (ls & ls' & T & F & C & P & _)|counter e1 from e2 to e3 text e4 cs s f t NC UC L1 CF CT L2 PT L3 L4 S (ls & ls' & T & F & C & P & _)].
  - exists [], []. repeat split; try constructor. discriminate.
  - destruct (add_line [] e s ls ls' NE LB T F) as (x & ls2 & T2 & F2 & X). cbn [app] in T2. exists (x :: ls2), ([] :: ls').
    repeat split; [exact T2|exact F2|now constructor|exact P|]. intros l r E. injection E as <- <-. exact (NB [] x NE X).
  - destruct (add_line [] e4 s ls ls' NE L4 T F) as (x0 & ls0 & T0 & F0 & _). cbn [app] in T0.
    assert (TXT : exists ls1, text_lines (List.concat (map (fun l => l ++ e3) text) ++ e4 ++ s) ls1 /\ Forall2 cleaned ls1 (text ++ [] :: ls')).
    { clear -PT L3 T0 F0. induction PT as [|l text (_ & U & _) PT (ls1 & T1 & F1)]; cbn [map List.concat app]; [now exists (x0 :: ls0)|].
      destruct (add_line l e3 _ ls1 _ U L3 T1 F1) as (x & ls2 & T2 & F2 & _). exists (x :: ls2). split; [|exact F2]. now rewrite <- !app_assoc. }
    destruct TXT as (ls1 & T1 & F1). destruct (time_line ","%char f t from to (or_introl eq_refl) CF CT) as [UT TL].
    destruct (add_line _ e2 _ ls1 _ UT L2 T1 F1) as (x2 & ls2 & T2 & F2 & _).
    destruct (add_line counter e1 _ _ _ UC L1 T2 F2) as (x3 & ls3 & T3 & F3 & X3).
    exists (x3 :: ls3), (counter :: (f ++ lit " --> " ++ t) :: text ++ [] :: ls'). split; [now rewrite <- !app_assoc in T3|]. split; [exact F3|]. split; [|split].
    + apply cues_cue; try assumption; [|right; now exists ls'|now constructor]. eapply Forall_impl; [|exact PT]. now intros l (N & _).
    + constructor; [exact PT|exact P].
    + intros l r E. injection E as <- <-. now apply (NB counter).
Qed.

Theorem plain_file cs s : srt_file cs s -> subrip_reader_string s = Ok (List.concat (map plain_cue cs)).
Proof.
  assert (G : forall ls ls', Forall2 cleaned ls ls' -> cues_in ls' cs -> Forall (fun c => Forall plain (cue_text c)) cs -> subrip_lines ls (List.concat (map plain_cue cs))).
  { intros ls ls' F C P. exists ls', cs, (map plain_cue cs). repeat split; [exact F|exact C|]. clear -P. induction P; cbn [map]; constructor; [now apply plain_cue_ok|assumption]. }
  intros S. apply subrip_string_iff. destruct S as [S|(s' & -> & S)]; apply srt_lines in S; destruct S as (ls & ls' & T & F & C & P & NB).
  - exists ls. split; [exact T|]. now apply (G ls ls').
  - destruct T as [|l NE NL|l rest ls NL T].
    + inversion F; subst. exists [bom]. split; [apply lines_last; [discriminate|cbn; intuition discriminate]|].
      apply (G [bom] [[]]); [|now constructor|exact P]. constructor; [|constructor]. exists bom, []. repeat split; [constructor| |now left].
      intros (b & c & E & LE). change bom with ([ascii_of_nat 239; ascii_of_nat 187] ++ [ascii_of_nat 191]) in E. apply app_inj_tail in E. destruct E as [_ <-].
      destruct LE; discriminate.
    + specialize (NB l [] eq_refl). exists [bom ++ l]. split; [apply lines_last; [discriminate|]|].
      * rewrite in_app_iff. intros [I|I]; [cbn in I; intuition discriminate|contradiction].
      * inversion F as [|? l' ? ? CL F']; subst. inversion F'; subst. apply (G [bom ++ l] [l']); [|exact C|exact P]. constructor; [|constructor].
        destruct CL as (u & ends & -> & FE & NU & [->|(_ & ->)]); [exfalso; apply NB; rewrite <- app_assoc; now eexists|].
        exists (bom ++ u), ends. split; [now rewrite app_assoc|]. split; [exact FE|]. split; [|now left].
        intros (b & c & E & LE). destruct u as [|z u] using rev_ind.
        -- rewrite app_nil_r in E. change bom with ([ascii_of_nat 239; ascii_of_nat 187] ++ [ascii_of_nat 191]) in E. apply app_inj_tail in E. destruct E as [_ <-].
           destruct LE; discriminate.
        -- rewrite app_assoc in E. apply app_inj_tail in E. destruct E as [_ <-]. apply NU. now exists u, z.
    + specialize (NB l ls eq_refl). exists ((bom ++ l) :: ls). split.
      * rewrite app_assoc. apply lines_more; [|exact T]. rewrite in_app_iff. intros [I|I]; [cbn in I; intuition discriminate|contradiction].
      * inversion F as [|? l' ? ls2 CL F']; subst. apply (G _ (l' :: ls2)); [|exact C|exact P]. constructor; [|exact F'].
        destruct CL as (u & ends & -> & FE & NU & [->|(_ & ->)]); [exfalso; apply NB; rewrite <- app_assoc; now eexists|].
        exists (bom ++ u), ends. split; [now rewrite app_assoc|]. split; [exact FE|]. split; [|now left].
        intros (b & c & E & LE). destruct u as [|z u] using rev_ind.
        -- rewrite app_nil_r in E. change bom with ([ascii_of_nat 239; ascii_of_nat 187] ++ [ascii_of_nat 191]) in E. apply app_inj_tail in E. destruct E as [_ <-].
           destruct LE; discriminate.
        -- rewrite app_assoc in E. apply app_inj_tail in E. destruct E as [_ <-]. apply NU. now exists u, z.
Qed.

(** * Tags *)

Lemma cells_app from to a la b lb : cells_of from to a la -> cells_of from to b lb -> cells_of from to (a ++ b) (la ++ lb).
Proof. induction 1 as [|n k t rest l NE C IH]; intros B; [exact B|]. cbn [app]. rewrite <- app_assoc. constructor; [exact NE|now apply IH]. Qed.
Lemma cells_piece from to n k text : cells_of from to (with_piece text (styled_raw from to n k [])) (map (fun c => (n, k, c)) text).
Proof.
  destruct text as [|c text]; [constructor|]. rewrite <- (app_nil_r (map _ (c :: text))). apply (cells_more from to n k (c :: text) [] []); [discriminate|constructor].
Qed.

Lemma pieces_shown from to n k cs tx toks ps r' last : pieces (styled_raw from to n k []) cs tx toks ps r' last -> (forall b, ~ In (TSsa b) toks) ->
  exists k' l, r' = styled_raw from to n k' [] /\ shown n k cs toks l k' /\ cells_of from to (ps ++ with_piece last r') (map (fun c => (n, k, c)) tx ++ l).
Proof.
  intros P. remember (styled_raw from to n k []) as r eqn:R. revert k R. induction P as [r cs text|r cs text c toks ps r' last P IH|r cs text tok r1 cs1 toks ps r' last RS P IH|r cs text body r1 toks ps r' last OV P IH];
    intros k -> NS.
  - exists k, []. repeat split; [constructor|]. rewrite app_nil_r. apply cells_piece.
  - destruct (IH k eq_refl) as (k' & l & E & S & C); [intros b I; apply (NS b); now right|]. exists k', ((n, k, c) :: l). repeat split; [exact E|now constructor|].
    rewrite map_app, <- app_assoc in C. exact C.
  - assert (NS' : forall b, ~ In (TSsa b) toks) by (intros b I; apply (NS b); now right).
    assert (G : forall k1, r1 = styled_raw from to n k1 [] -> exists k' l, r' = styled_raw from to n k' [] /\ shown n k1 cs1 toks l k' /\
      cells_of from to ((with_piece text (styled_raw from to n k []) ++ ps) ++ with_piece last r') (map (fun c => (n, k, c)) text ++ l)).
    { intros k1 E1. destruct (IH k1 E1 NS') as (k' & l & E & S & C). exists k', l. repeat split; [exact E|exact S|]. rewrite <- app_assoc. apply cells_app; [apply cells_piece|exact C]. }
    inversion RS; subst.
    + destruct (G (mkLook on (lk_italic k) (lk_underline k) (lk_colour k)) eq_refl) as (k' & l & E & S & C). exists k', l. repeat split; [exact E|now constructor|exact C].
    + destruct (G (mkLook (lk_bold k) on (lk_underline k) (lk_colour k)) eq_refl) as (k' & l & E & S & C). exists k', l. repeat split; [exact E|now constructor|exact C].
    + destruct (G (mkLook (lk_bold k) (lk_italic k) on (lk_colour k)) eq_refl) as (k' & l & E & S & C). exists k', l. repeat split; [exact E|now constructor|exact C].
    + match goal with H : font_colour_is _ ?c |- _ => destruct (G (mkLook (lk_bold k) (lk_italic k) (lk_underline k) c) eq_refl) as (k2 & l & E & S & C); exists k2, l; repeat split; [exact E|now apply (shown_font n k cs _ c)|exact C] end.
    + match type of P with pieces _ (?c :: _) _ _ _ _ _ => destruct (G (mkLook (lk_bold k) (lk_italic k) (lk_underline k) c) eq_refl) as (k2 & l & E & S & C); exists k2, l; repeat split; [exact E|now constructor|exact C] end.
  - exfalso. apply (NS body). now left.
Qed.
Lemma shown_pieces from to n k cs toks l k' : shown n k cs toks l k' -> forall tx, exists ps last, pieces (styled_raw from to n k []) cs tx toks ps (styled_raw from to n k' []) last.
Proof.
  induction 1 as [k cs|k cs c toks l k' S IH|k cs on toks l k' S IH|k cs on toks l k' S IH|k cs on toks l k' S IH|k cs a col toks l k' F S IH|k c0 c1 cs toks l k' S IH]; intros tx.
  - eexists _, _. constructor.
  - destruct (IH (tx ++ [c])) as (ps & last & P). eexists _, _. constructor. exact P.
  - destruct (IH []) as (ps & last & P). eexists _, _. eapply pieces_tag; [constructor|exact P].
  - destruct (IH []) as (ps & last & P). eexists _, _. eapply pieces_tag; [constructor|exact P].
  - destruct (IH []) as (ps & last & P). eexists _, _. eapply pieces_tag; [constructor|exact P].
  - destruct (IH []) as (ps & last & P). eexists _, _. eapply pieces_tag; [constructor; exact F|exact P].
  - destruct (IH []) as (ps & last & P). eexists _, _. eapply pieces_tag; [constructor|exact P].
Qed.

(** What is left at the end is text since the last tag. *)
Lemma tag_rest s tok rest : tag_at s tok rest -> exists p, s = p ++ rest.
Proof.
  intros [p name tk rs I SL|p s' body rs SL U|s' body rs U]; [now exists p| |]; inversion U; subst.
  - exists (p ++ body ++ [">"%char]). now rewrite <- !app_assoc.
  - exists (p ++ body). now rewrite app_nil_r.
  - exists ("{"%char :: bslash :: body ++ ["}"%char]). cbn. now rewrite <- app_assoc.
  - exists ("{"%char :: bslash :: body). now rewrite app_nil_r.
Qed.
Lemma last_suffix r cs tx toks ps r' last : pieces r cs tx toks ps r' last -> forall s, lexed s toks -> (forall b, ~ In (TSsa b) toks) ->
  last = tx ++ s \/ exists p, s = p ++ last.
Proof.
  induction 1 as [r cs text|r cs text c toks ps r' last P IH|r cs text tok r1 cs1 toks ps r' last RS P IH|r cs text body r1 toks ps r' last OV P IH]; intros s L NS.
  - inversion L; subst. left. now rewrite app_nil_r.
  - inversion L as [|s0 tok rest toks0 TA L'|c0 s0 toks0 NT L']; subst; [now apply tag_no_char with (c := c) in TA|].
    destruct (IH s0 L') as [->|(p & ->)]; [intros b I; apply (NS b); now right|left; now rewrite <- app_assoc|right; now exists (c :: p)].
  - assert (NS' : forall b, ~ In (TSsa b) toks) by (intros b I; apply (NS b); now right). right.
    inversion L as [|s0 tok0 rest toks0 TA L'|c0 s0 toks0 NT L']; subst.
    + apply tag_rest in TA. destruct TA as (q & ->). destruct (IH rest L' NS') as [->|(p & ->)]; [now exists q|exists (q ++ p); now rewrite app_assoc].
    + inversion RS.
  - exfalso. apply (NS body). now left.
Qed.
Lemma contains_part p x s : contains p x -> contains p (s ++ x).
Proof. intros (a & b & ->). exists (s ++ a), b. now rewrite <- app_assoc. Qed.
Lemma rtl_id l l' : without_rtl l l' -> ~ contains u202b l -> l' = l.
Proof. intros W N. apply without_rtl_iff in W. subst l'. apply without_rtl_iff. now apply rtl_same. Qed.

Lemma rows_shown from to lines raws : forall n m k, rows n (styled_raw from to m k []) lines raws -> (forall row, In row lines -> no_ssa_tag row /\ ~ contains u202b row) ->
  exists cells, shown_rows n k lines cells /\ cells_of from to raws cells.
Proof.
  intros n m k R. remember (styled_raw from to m k []) as r eqn:E. revert m k E. induction R as [n r|n r line rest toks ps r' last last' raws L P W R IH]; intros m k -> O.
  - exists []. split; constructor.
  - destruct (O line (or_introl eq_refl)) as [NS NC]. specialize (NS toks). assert (NS' : forall b, ~ In (TSsa b) toks) by (intros b; now apply NS).
    change (with_line n (styled_raw from to m k [])) with (styled_raw from to n k []) in P.
    assert (NL : ~ contains u202b last).
    { intros C. apply NC. destruct (last_suffix _ _ _ _ _ _ _ P line L NS') as [->|(p & ->)]; [exact C|now apply contains_part]. }
    apply rtl_id in W; [|exact NL]. subst last'.
    destruct (pieces_shown _ _ _ _ _ _ _ _ _ _ P NS') as (k' & l & E & S & C). cbn [map app] in C.
    destruct (IH n k' E) as (cells & SR & CR); [intros row I; apply O; now right|]. exists (l ++ cells). split; [now apply (shown_more n k line rest toks l k')|].
    rewrite app_assoc. now apply cells_app.
Qed.
Lemma shown_rows_ok from to n k lines cells : shown_rows n k lines cells -> forall m, (forall row, In row lines -> no_ssa_tag row /\ ~ contains u202b row) ->
  exists raws, rows n (styled_raw from to m k []) lines raws.
Proof.
  induction 1 as [n k|n k row rest toks l k' l' L S R IH]; intros m O; [eexists; constructor|].
  destruct (shown_pieces from to _ _ _ _ _ _ S []) as (ps & last & P). destruct (IH n) as (raws & RR); [intros r I; apply O; now right|].
  pose proof (proj1 (without_rtl_iff last _) eq_refl) as W. eexists. eapply rows_more; [exact L|exact P|exact W|exact RR].
Qed.

Lemma cue_subtitles_rows c raws : cue_subtitles c raws <-> exists rs, cue_rows c rs /\ rows 0 (cue_look (cue_from c) (cue_to c)) rs raws.
Proof.
  split; [intros (ll & F & R); exists (List.concat ll); split; [now exists ll|exact R]|intros (rs & (ll & F & ->) & R); now exists ll].
Qed.

Lemma file_lines s ls ls' : text_lines s ls -> text_lines s ls' -> ls = ls'.
Proof. intros A B. apply lines_of_string_iff in A, B. congruence. Qed.


Lemma timing_unique line from to from' to' : timing_line ","%char line from to -> timing_line ","%char line from' to' -> from = from' /\ to = to'.
Proof.
  intros (f0 & f1 & f2 & m & F & _ & A & B) (g0 & g1 & g2 & n & G & _ & C & D). apply fields_iff in F, G. rewrite F in G. injection G as -> -> -> ->.
  assert (CT : forall s t, convert_time s (lit ",") = Ok (CTime t) <-> cue_time ","%char s t) by (intros s t; apply (convert_time_ok ","%char sep_comma); discriminate).
  apply CT in A, B, C, D. split; congruence.
Qed.
Lemma text_unique (a b x y : list str) : a ++ x = b ++ y -> Forall (fun l => l <> []) a -> Forall (fun l => l <> []) b ->
  (x = [] \/ exists more, x = [] :: more) -> (y = [] \/ exists more, y = [] :: more) -> a = b /\ x = y.
Proof.
  revert b. induction a as [|l a IH]; intros [|m b] E FA FB X Y; cbn [app] in E.
  - now split.
  - exfalso. inversion FB; subst. destruct X as [X|(r & X)]; [discriminate|]. injection X as -> _. congruence.
  - exfalso. inversion FA; subst. destruct Y as [Y|(r & Y)]; [discriminate|]. injection Y as -> _. congruence.
  - injection E as -> E. inversion FA; inversion FB; subst. destruct (IH b E) as [-> ->]; auto.
Qed.
Lemma cues_unique ls cs : cues_in ls cs -> forall cs', cues_in ls cs' -> cs = cs'.
Proof.
  induction 1 as [|ls cs C IH|counter NC|counter timing from to text rest cs NC T F R C IH]; intros cs' C'.
  - inversion C'; reflexivity.
  - inversion C'; subst; try congruence. now apply IH.
  - inversion C'; subst; congruence.
  - inversion C' as [| | |counter' timing' from' to' text' rest' cs2 NC' T' F' R' C2 E]; subst; try congruence.
    destruct (timing_unique _ _ _ _ _ T T') as [-> ->].
    match goal with H : _ ++ _ = _ ++ _ |- _ => destruct (text_unique _ _ _ _ H) as [-> ->]; try assumption end. f_equal. now apply IH.
Qed.
Lemma cleaned_unique ls a b : Forall2 cleaned ls a -> Forall2 cleaned ls b -> a = b.
Proof. intros A B. apply cleaned_map in A, B. congruence. Qed.
Lemma file_cues_unique s cs cs' : file_cues s cs -> file_cues s cs' -> cs = cs'.
Proof.
  intros (ls & l2 & T & F & C) (ls' & l2' & T' & F' & C'). rewrite (file_lines _ _ _ T' T) in F'. rewrite (cleaned_unique _ _ _ F' F) in C'. now apply (cues_unique l2).
Qed.
Lemma subrip_file_cues s raws : subrip_file s raws <-> exists cs rawss, file_cues s cs /\ Forall2 cue_subtitles cs rawss /\ raws = List.concat rawss.
Proof.
  split.
  - intros (ls & T & ls' & cs & rawss & F & C & S & E). exists cs, rawss. split; [now exists ls, ls'|now split].
  - intros (cs & rawss & (ls & ls' & T & F & C) & S & E). exists ls. split; [exact T|]. now exists ls', cs, rawss.
Qed.

Theorem tagged_file s cs raws : file_cues s cs -> Forall ordinary cs -> subrip_reader_string s = Ok raws ->
  exists rawss, raws = List.concat rawss /\ Forall2 shows cs rawss.
Proof.
  intros FC O R. apply subrip_string_iff, subrip_file_cues in R. destruct R as (cs' & rawss & FC' & S & ->). rewrite (file_cues_unique _ _ _ FC' FC) in S. clear cs' FC' FC.
  exists rawss. split; [reflexivity|]. induction S as [|c r cs rawss S F IH]; constructor; [|apply IH; now inversion O].
  inversion O as [|? ? OC _]; subst. apply cue_subtitles_rows in S. destruct S as (rs & CR & R).
  change (cue_look (cue_from c) (cue_to c)) with (styled_raw (cue_from c) (cue_to c) 0 plain_look []) in R.
  destruct (rows_shown _ _ _ _ _ _ _ R) as (cells & SR & CO); [intros row I; now apply (OC rs)|]. exists cells. split; [now exists rs|exact CO].
Qed.
Theorem tagged_file_read s cs : file_cues s cs -> Forall ordinary cs -> Forall (fun c => exists cells, cue_cells c cells) cs ->
  exists raws, subrip_reader_string s = Ok raws.
Proof.
  intros FC O S. enough (G : exists rawss, Forall2 cue_subtitles cs rawss).
  { destruct G as (rawss & G). exists (List.concat rawss). apply subrip_string_iff, subrip_file_cues. now exists cs, rawss. }
  clear FC s. induction S as [|c cs (cells & rs & CR & SR) S IH]; [now exists []|]. inversion O as [|? ? OC O']; subst. destruct (IH O') as (rawss & G).
  destruct (shown_rows_ok (cue_from c) (cue_to c) _ _ _ _ SR 0) as (raws & R); [intros row I; now apply (OC rs)|].
  exists (raws :: rawss). constructor; [|exact G]. apply cue_subtitles_rows. now exists rs.
Qed.

(** * Safe files *)

Lemma contains_trans a b c : contains a b -> contains b c -> contains a c.
Proof. intros (x & y & ->) (u & v & ->). exists (u ++ x), (y ++ v). now rewrite <- !app_assoc. Qed.
Lemma contains_refl a : contains a a.
Proof. exists [], []. now rewrite app_nil_r. Qed.

Lemma text_lines_in s ls l : text_lines s ls -> In l ls -> contains l s.
Proof.
  induction 1 as [|l0 NE NL|l0 rest ls NL T IH]; intros I; [destruct I|destruct I as [->|[]]; apply contains_refl|].
  destruct I as [->|I]; [now exists [], (lf :: rest)|]. apply (contains_trans l rest); [now apply IH|]. exists (l0 ++ [lf]), []. now rewrite app_nil_r, <- app_assoc.
Qed.
Lemma cleaned_in l l' : cleaned l l' -> contains l' l.
Proof.
  intros (u & ends & -> & _ & _ & [->|(_ & ->)]); [exists bom, ends; now rewrite <- app_assoc|now exists [], ends].
Qed.
Lemma join_in sep ps p : In p ps -> contains p (join sep ps).
Proof.
  induction ps as [|q ps IH]; intros I; [destruct I|]. destruct ps as [|q' ps].
  - destruct I as [->|[]]. apply contains_refl.
  - cbn [join]. destruct I as [->|I]; [now exists [], (sep ++ join sep (q' :: ps))|]. apply (contains_trans p (join sep (q' :: ps))); [now apply IH|].
    exists (q ++ sep), []. now rewrite app_nil_r, <- app_assoc.
Qed.
Lemma parts_in sep t ps p : parts_of sep t ps -> In p ps -> contains p t.
Proof. intros (_ & -> & _). apply join_in. Qed.
Lemma spaced_in s fs f : spaced s fs -> In f fs -> contains f s.
Proof.
  induction 1 as [g N|g n rest fs N NB S IH]; intros I; [destruct I as [->|[]]; apply contains_refl|].
  destruct I as [->|I]; [now exists [], (repeat space (Datatypes.S n) ++ rest)|]. apply (contains_trans f rest); [now apply IH|]. exists (g ++ repeat space (Datatypes.S n)), [].
  now rewrite app_nil_r, <- app_assoc.
Qed.
Lemma fields_in l fs f : fields l fs -> In f fs -> contains f l.
Proof. intros (body & n & -> & _ & S) I. apply (contains_trans f body); [now apply (spaced_in _ fs)|]. now exists [], (repeat space n). Qed.
Lemma tag_body s tok rest a : tag_at s tok rest -> tok = TFont a -> contains a s.
Proof.
  intros [p name tk rs I SL|p s' body rs SL U|s' body rs U] E; try discriminate.
  - exfalso. subst. cbn [In simple_tags] in I. repeat destruct I as [I|I]; try discriminate. contradiction.
  - injection E as ->. destruct U as [body rst N|body N].
    + exists p, (">"%char :: rst). reflexivity.
    + exists p, []. now rewrite app_nil_r.
Qed.
Lemma font_in s toks a : lexed s toks -> In (TFont a) toks -> contains a s.
Proof.
  induction 1 as [|s tok rest toks TA L IH|c s toks NT L IH]; intros I; [destruct I| |].
  - destruct I as [->|I]; [now apply (tag_body _ _ rest a TA)|]. apply tag_rest in TA. destruct TA as (p & ->). now apply contains_part, IH.
  - destruct I as [I|I]; [discriminate|]. now apply (contains_part _ _ [c]), IH.
Qed.

Lemma digit_chars d v : numeral d v -> Forall is_digit_char d.
Proof. intros N. induction N as [c w D|s w c x N IH D]; [constructor; [now exists w|constructor]|]. apply Forall_app. split; [exact IH|]. constructor; [now exists x|constructor]. Qed.
Lemma short_numeral s d v : short_numbers s -> contains d s -> numeral d v -> 0 <= v <= 99999.
Proof.
  intros S (a & b & ->) N. pose proof (S a d b eq_refl (digit_chars d v N)) as L. pose proof (numeral_bound d v N) as B. destruct (numeral_digits d v N) as (_ & _ & _ & P).
  assert (10 ^ Z.of_nat (length d) <= 10 ^ 5) by (apply Z.pow_le_mono_r; lia). change (10 ^ 5) with 100000 in *. lia.
Qed.
Lemma short_integer s d v : short_numbers s -> contains d s -> integer d v -> -99999 <= v <= 99999.
Proof.
  intros S C IT. revert C. destruct IT as [t w N I|t w N I|t w N I]; intros C.
  - apply (short_numeral s) in N; [lia|exact S|exact C].
  - apply (short_numeral s) in N; [lia|exact S|]. apply (contains_trans t ("+"%char :: t)); [exists ["+"%char], []; cbn; now rewrite app_nil_r|exact C].
  - apply (short_numeral s) in N; [lia|exact S|]. apply (contains_trans t ("-"%char :: t)); [exists ["-"%char], []; cbn; now rewrite app_nil_r|exact C].
Qed.
Lemma short_time s f sep : short_numbers s -> contains f s -> ~ time_overflows sep f.
Proof.
  intros S C (h & m & sec & ms & (a & b & x & y & -> & Ia & Ib & Ix & Iy) & NF). apply NF.
  apply (short_integer s) in Ia; [|exact S|]. 2:{ eapply contains_trans; [|exact C]. exists []. eexists. reflexivity. }
  apply (short_integer s) in Ib; [|exact S|]. 2:{ eapply contains_trans; [|exact C]. exists (a ++ [":"%char]). eexists. rewrite <- app_assoc. reflexivity. }
  apply (short_integer s) in Ix; [|exact S|]. 2:{ eapply contains_trans; [|exact C]. exists (a ++ ":"%char :: b ++ [":"%char]). eexists. rewrite <- app_assoc. cbn [app]. rewrite <- app_assoc. reflexivity. }
  unfold time_fits, is_int. lia.
Qed.
Lemma short_font s a : short_numbers s -> contains a s -> ~ font_overflows a.
Proof.
  intros S C (_ & t & r & g & b & (_ & before & -> & _) & (rs & gs & bs & as_ & al & rest & -> & Pr & Pg & Pb & Pa) & N). apply N.
  assert (IN : forall x, In x [rs; gs; bs; as_] -> contains x s).
  { intros x I. apply (contains_trans x (join (lit ",") [rs; gs; bs; as_])); [now apply join_in|]. eapply contains_trans; [|exact C].
    exists (before ++ lit "color=" ++ dquote :: lit "rgba("), (")"%char :: dquote :: rest). now rewrite <- !app_assoc. }
  assert (G : forall x v, In x [rs; gs; bs; as_] -> padded x v -> is_int v).
  { intros x v I (u & d & w & -> & _ & ND & _). apply (short_numeral s) in ND; [unfold is_int; lia|exact S|]. eapply contains_trans; [|apply IN, I]. exists u, w. reflexivity. }
  split; [apply (G rs); [now left|exact Pr]|split; [apply (G gs); [right; now left|exact Pg]|apply (G bs); [right; right; now left|exact Pb]]].
Qed.

Lemma well_formed_count d toks d' : well_formed d toks d' -> (d + count opens toks = d' + count closes toks)%nat.
Proof. unfold count. induction 1; cbn [filter opens closes length] in *; lia. Qed.

Theorem safe_file s : short_numbers s -> (forall row toks, row_of s row -> lexed row toks -> fonts_nest toks) -> defined (subrip_reader_string s).
Proof.
  intros SN FN u E. unfold subrip_reader_string in E. apply subrip_read_undefined in E.
  pose proof (proj1 (lines_of_string_iff s _) eq_refl) as TL. set (ls := lines_of_string s) in *. clearbody ls.
  destruct E as (before & l & after & before' & l' & raws & p & ctx & next & -> & _ & CL & _ & _ & _ & _ & LS).
  assert (IL : In l (before ++ l :: after)) by (rewrite in_app_iff; right; now left).
  assert (CS : contains l' s) by (apply (contains_trans l' l); [now apply cleaned_in|now apply (text_lines_in s (before ++ l :: after))]).
  inversion LS as [|l0 f0 f1 f2 more why F LM R|l0 f0 f1 f2 more F LM R|l0 f0 f1 f2 more from why F LM CU R|l0 f0 f1 f2 more from F LM CU R|l0 bf row af o NE P RF RS]; subst.
  - apply (short_time s f0 ","%char); [exact SN| |exact R]. eapply contains_trans; [apply (fields_in l' _ f0 F); now left|exact CS].
  - apply (short_time s f2 ","%char); [exact SN| |exact R]. eapply contains_trans; [apply (fields_in l' _ f2 F); right; right; now left|exact CS].
  - assert (IR : In row (bf ++ row :: af)) by (rewrite in_app_iff; right; now left).
    destruct RS as (bt & tok & at_ & d & L & W & TS). inversion TS as [|a FO|D0|]; subst.
    + apply (short_font s a); [exact SN| |exact FO]. apply (contains_trans a row); [apply (font_in row _ a L); rewrite in_app_iff; right; now left|].
      apply (contains_trans row l'); [now apply (parts_in _ _ _ _ P)|exact CS].
    + assert (RO : row_of s row) by (exists (before ++ l :: after), l, l', (bf ++ row :: af); auto).
      specialize (FN row _ RO L (bt ++ [TFontEnd]) at_). rewrite <- app_assoc in FN. specialize (FN eq_refl). apply well_formed_count in W.
      unfold count in *. rewrite !filter_app, !app_length in FN. cbn in FN. lia.
Qed.

(** * Errors *)

Theorem error_place s n saw why ctx : subrip_reader_string s = Throw (ESubrip n saw why ctx) -> error_points s n saw ctx.
Proof.
  intros E. unfold subrip_reader_string in E. apply subrip_read_throws in E.
  pose proof (proj1 (lines_of_string_iff s _) eq_refl) as TL. set (ls := lines_of_string s) in *. clearbody ls.
  destruct E as (before & l & after & before' & l' & raws & p & c & next & -> & CB & CL & _ & _ & RE & UP & LS).
  exists before, l, after, before', l', c. split; [exact TL|]. split; [exact CB|]. split; [exact CL|]. split; [exact RE|].
  inversion LS as [l0 body k fs F L3 L7 EL NE|l0 f0 f1 f2 more why0 F LM R|l0 f0 f1 f2 more F LM R|l0 f0 f1 f2 more from why0 F LM CU R|l0 f0 f1 f2 more from F LM CU R|l0 bf row af o NE P RF RS]; subst.
  - split; [reflexivity|]. split; [now exists [], (repeat space k)|]. right. exists next. now split.
  - split; [reflexivity|]. split; [apply (fields_in l' _ saw F); now left|]. now left.
  - split; [reflexivity|]. split; [apply (fields_in l' _ saw F); right; right; now left|]. now left.
  - destruct RS as (bt & tok & at_ & d & L & W & TS). inversion TS as [a NF| | |body e BO]; subst.
    + split; [reflexivity|]. split; [|now left]. apply (contains_trans saw row); [apply (font_in row _ saw L); rewrite in_app_iff; right; now left|].
      apply (parts_in _ _ _ _ P). rewrite in_app_iff. right. now left.
    + exfalso. inversion BO.
Qed.

(** * Right-to-left marks *)

Definition lead3 (bs : list Z) : Prop := forall a b, bs = a ++ 226 :: b -> exists c1 c2 b', b = c1 :: c2 :: b' /\ 128 <= c1 < 192 /\ 128 <= c2 < 192.
Lemma cons_inj {A} (x y : A) l m : x :: l = y :: m -> x = y /\ l = m.
Proof. intros E. now injection E. Qed.
Lemma utf8_lead w parts : Forall2 utf8_char w parts -> lead3 (List.concat parts).
Proof.
  induction 1 as [|v part w parts U F IH]; intros a b E; [now destruct a|]. cbn [List.concat] in E.
  assert (R : forall a', a = part ++ a' -> exists c1 c2 b', b = c1 :: c2 :: b' /\ 128 <= c1 < 192 /\ 128 <= c2 < 192).
  { intros a' ->. rewrite <- app_assoc in E. apply app_inv_head in E. now apply (IH a' b). }
  destruct U as [v V|x y Y V|x y z Y Z0 V SC|x y z t Y Z0 T V]; unfold six in *; cbn [app] in *.
  - destruct a as [|a0 a]; cbn [app] in E; apply cons_inj in E; destruct E as [E1 E]; [lia|]. subst. now apply (R a).
  - remember (192 + x) as b1. remember (128 + y) as b2. destruct a as [|a0 [|a1 a]]; [injection E as E1 E; lia|injection E as E1 E2 E; lia|]. injection E as E1 E2 E. subst a0 a1. now apply (R a).
  - remember (224 + x) as b1. remember (128 + y) as b2. remember (128 + z) as b3.
    destruct a as [|a0 [|a1 [|a2 a]]]; [injection E as E1 E|injection E as E1 E2 E; lia|injection E as E1 E2 E3 E; lia|injection E as E1 E2 E3 E; subst a0 a1 a2; now apply (R a)].
    subst b. exists b2, b3, (List.concat parts). split; [reflexivity|]. lia.
  - remember (240 + x) as b1. remember (128 + y) as b2. remember (128 + z) as b3. remember (128 + t) as b4.
    destruct a as [|a0 [|a1 [|a2 [|a3 a]]]]; [injection E as E1 E; lia|injection E as E1 E2 E; lia|injection E as E1 E2 E3 E; lia|injection E as E1 E2 E3 E4 E; lia|].
    injection E as E1 E2 E3 E4 E. subst a0 a1 a2 a3. now apply (R a).
Qed.
Definition b226 : ascii := ascii_of_nat 226. Definition b128 : ascii := ascii_of_nat 128. Definition b171 : ascii := ascii_of_nat 171.
Lemma utf8_no_double s w : utf8 s w -> ~ contains [b226; b226] s /\ ~ contains [b226; b128; b226] s.
Proof.
  intros (parts & F & E). pose proof (utf8_lead _ _ F) as L. rewrite <- E in L. split; intros (x & y & ->); rewrite map_app in L; cbn [map app] in L.
  - destruct (L (map char_code x) (226 :: map char_code y)) as (c1 & c2 & b' & Q & R1 & R2); [reflexivity|]. injection Q as <- _. lia.
  - destruct (L (map char_code x) (128 :: 226 :: map char_code y)) as (c1 & c2 & b' & Q & R1 & R2); [reflexivity|]. injection Q as <- <- _. lia.
Qed.
Lemma u202b_bytes : u202b = [b226; b128; b171]. Proof. reflexivity. Qed.
Lemma join_cons sep p ps : ps <> [] -> join sep (p :: ps) = p ++ sep ++ join sep ps.
Proof. now destruct ps. Qed.
Lemma split3 (p q a b : str) x y z : p ++ q = a ++ [x; y; z] ++ b ->
  contains [x; y; z] p \/ contains [x; y; z] q \/ (exists p', p = p' ++ [x]) \/ (exists p', p = p' ++ [x; y]).
Proof.
  revert p. induction a as [|c a IH]; intros p E.
  - destruct p as [|p0 [|p1 [|p2 p]]]; cbn in E.
    + right. left. exists [], b. exact E.
    + injection E as -> _. right. right. left. now exists [].
    + injection E as -> -> _. right. right. right. now exists [].
    + injection E as -> -> -> _. left. now exists [], p.
  - destruct p as [|p0 p]; cbn in E.
    + right. left. exists (c :: a), b. exact E.
    + injection E as -> E. destruct (IH p E) as [(u & v & ->)|[C|[(p' & ->)|(p' & ->)]]].
      * left. now exists (c :: u), v.
      * right. now left.
      * right. right. left. now exists (c :: p').
      * right. right. right. now exists (c :: p').
Qed.
Lemma removal_complete row row' : without_rtl row row' -> ~ contains [b226; b226] row -> ~ contains [b226; b128; b226] row -> ~ contains u202b row'.
Proof.
  intros (parts & (NE & -> & F) & ->). induction parts as [|p parts IH]; [congruence|]. intros N1 N2. inversion F as [|? ? NP F']; subst.
  destruct parts as [|p2 parts]; [cbn [List.concat]; now rewrite app_nil_r|]. rewrite join_cons in N1, N2 by discriminate.
  assert (NR : ~ contains u202b (List.concat (p2 :: parts))).
  { apply IH; [discriminate|exact F'| |].
    - intros C. apply N1. rewrite app_assoc. now apply contains_part.
    - intros C. apply N2. rewrite app_assoc. now apply contains_part. }
  change (List.concat (p :: p2 :: parts)) with (p ++ List.concat (p2 :: parts)). intros (a & b & E). rewrite u202b_bytes in E. destruct (split3 _ _ _ _ _ _ _ E) as [C|[C|[(p' & ->)|(p' & ->)]]].
  - now apply NP.
  - now apply NR.
  - apply N1. exists p', (b128 :: b171 :: join u202b (p2 :: parts)). now rewrite <- app_assoc.
  - apply N2. exists p', (b128 :: b171 :: join u202b (p2 :: parts)). now rewrite <- app_assoc.
Qed.

Lemma plain_pieces_inv r cs tx l ps r' last : pieces r cs tx (map TChar l) ps r' last -> ps = [] /\ r' = r /\ last = tx ++ l.
Proof.
  revert tx. induction l as [|c l IH]; intros tx P.
  - apply pieces_nil in P. destruct P as (-> & -> & ->). now rewrite app_nil_r.
  - inversion P as [|? ? ? ? ? ? ? ? P' | ? ? ? ? ? ? ? ? ? ? RS|]; subst; [|inversion RS]. apply IH in P'. destruct P' as (-> & -> & ->). now rewrite <- app_assoc.
Qed.
Lemma cue_line_in ls cs : cues_in ls cs -> forall c l, In c cs -> In l (cue_text c) -> In l ls.
Proof.
  induction 1 as [|ls cs C IH|counter NC|counter timing from to text rest cs NC T F R C IH]; intros c l I J; try contradiction.
  - right. now apply (IH c).
  - right. right. rewrite in_app_iff. destruct I as [<-|I]; [now left|right; now apply (IH c)].
Qed.
Lemma Forall2_in_r {A B} (P : A -> B -> Prop) la lb b : Forall2 P la lb -> In b lb -> exists a, In a la /\ P a b.
Proof. induction 1 as [|x y la lb H F IH]; intros I; [destruct I|]. destruct I as [->|I]; [exists x; split; [now left|exact H]|]. destruct (IH I) as (a & J & Q). exists a. split; [now right|exact Q]. Qed.

Lemma file_rows s cs c rs row : file_cues s cs -> In c cs -> cue_rows c rs -> In row rs -> contains row s.
Proof.
  intros (ls & ls' & T & F & C) I (ll & FP & ->) J. apply in_concat in J. destruct J as (parts & J1 & J2).
  destruct (Forall2_in_r _ _ _ _ FP J1) as (l' & K & P). apply (cue_line_in _ _ C _ _ I) in K. destruct (Forall2_in_r _ _ _ _ F K) as (l & L & CL).
  apply (contains_trans row l'); [now apply (parts_in u2028 l' parts)|]. apply (contains_trans l' l); [now apply cleaned_in|]. now apply (text_lines_in s ls).
Qed.
Lemma rows_no_mark n r lines raws : rows n r lines raws -> (forall row, In row lines -> ~ In "<"%char row /\ ~ In "{"%char row /\ ~ contains [b226; b226] row /\ ~ contains [b226; b128; b226] row) ->
  forall x, In x raws -> ~ contains u202b (r_text x).
Proof.
  induction 1 as [n r|n r line rest toks ps r' last last' raws L P W R IH]; intros O x I; [destruct I|].
  destruct (O line (or_introl eq_refl)) as (N1 & N2 & N3 & N4). rewrite (lexed_unique _ _ _ L (plain_lexed line N1 N2)) in P.
  apply plain_pieces_inv in P. destruct P as (-> & -> & ->). cbn [app] in I, W. apply in_app_iff in I. destruct I as [I|I].
  - apply removal_complete in W; [|assumption..]. destruct last'; [destruct I|]. destruct I as [<-|[]]. exact W.
  - apply IH; [|exact I]. intros row J. apply O. now right.
Qed.
Theorem marks_removed s w raws x : utf8 s w -> ~ In "<"%char s -> ~ In "{"%char s -> subrip_reader_string s = Ok raws -> In x raws -> ~ contains u202b (r_text x).
Proof.
  intros U N1 N2 R I. destruct (utf8_no_double s w U) as [D1 D2]. apply subrip_string_iff, subrip_file_cues in R. destruct R as (cs & rawss & FC & S & ->).
  apply in_concat in I. destruct I as (raws & J1 & J2). destruct (Forall2_in_r _ _ _ _ S J1) as (c & K & CS). apply cue_subtitles_rows in CS. destruct CS as (rs & CR & RW).
  apply (rows_no_mark _ _ _ _ RW); [|exact J2]. intros row IR. pose proof (file_rows _ _ _ _ _ FC K CR IR) as C.
  assert (NC : forall ch, ~ In ch s -> ~ In ch row).
  { intros ch N Q. apply N. destruct C as (a & b & ->). rewrite !in_app_iff. right. now left. }
  split; [now apply NC|]. split; [now apply NC|]. split; intros Q; [apply D1|apply D2]; now apply (contains_trans _ row).
Qed.

(** * Files and strings *)

Lemma fgets_short n l rest : (length l < n)%nat -> ~ In lf l -> fgets n (l ++ lf :: rest) = (l ++ [lf], rest).
Proof.
  revert n. induction l as [|c l IH]; intros [|n] L N; cbn in L; try lia; [reflexivity|]. cbn [app fgets].
  assert (E : Ascii.eqb c newline = false) by (apply Ascii.eqb_neq; intros ->; apply N; now left). rewrite E, IH; [reflexivity|lia|]. intros I. apply N. now right.
Qed.
Lemma fgets_last n l : (length l <= n)%nat -> ~ In lf l -> fgets n l = (l, []).
Proof.
  revert n. induction l as [|c l IH]; intros [|n] L N; cbn in L; try lia; [reflexivity..|]. cbn [fgets].
  assert (E : Ascii.eqb c newline = false) by (apply Ascii.eqb_neq; intros ->; apply N; now left). rewrite E, IH; [reflexivity|lia|]. intros I. apply N. now right.
Qed.
Lemma c_string_id s : ~ In nul s -> c_string s = s.
Proof.
  induction s as [|c s IH]; intros N; [reflexivity|]. unfold c_string in *. cbn [take_while]. destruct (code c =? 0) eqn:E.
  - exfalso. apply N. left. apply Z.eqb_eq in E. rewrite code_char in E. unfold char_code in E. rewrite <- (ascii_nat_embedding c). unfold nul. f_equal. lia.
  - cbn [negb]. f_equal. apply IH. intros I. apply N. now right.
Qed.
Lemma file_string_lines fuel s ls : (length s <= fuel)%nat -> text_lines s ls -> ~ In nul s -> Forall (fun l => (length l <= 254)%nat) ls ->
  Forall2 (fun a b => a = b \/ a = b ++ [lf]) (all_lines get_line_file fuel s) ls.
Proof.
  intros L T. revert fuel L. induction T as [|l NE NL|l rest ls NL T IH]; intros fuel L NN F.
  - destruct fuel; constructor.
  - destruct fuel as [|fuel]; [destruct l; [congruence|cbn in L; lia]|]. cbn [all_lines]. assert (G : get_line_file l = Some (l, [])).
    { unfold get_line_file. inversion F; subst. rewrite fgets_last by (assumption || lia). rewrite c_string_id by exact NN. now destruct l. }
    rewrite G. constructor; [now left|]. destruct fuel; constructor.
  - destruct fuel as [|fuel]; [rewrite app_length in L; cbn in L; lia|]. cbn [all_lines]. inversion F as [|? ? LL F']; subst.
    assert (G : get_line_file (l ++ lf :: rest) = Some (l ++ [lf], rest)).
    { unfold get_line_file. rewrite fgets_short by (assumption || lia). rewrite c_string_id; [now destruct l|]. intros I. apply NN. rewrite in_app_iff in *. cbn in *. intuition. }
    rewrite G. constructor; [now right|]. apply IH; [rewrite app_length in L; cbn in L; lia| |exact F']. intros I. apply NN. rewrite in_app_iff. right. now right.
Qed.
Lemma same_line_refl l : same_line l l.
Proof. exists (clean_line l). split; now apply clean_line_iff. Qed.
Lemma same_clean a b : clean_line a = clean_line b -> same_line a b.
Proof. intros E. exists (clean_line a). split; apply clean_line_iff; congruence. Qed.
Lemma same_refl o : same_outcome o o.
Proof. destruct o; constructor. Qed.
Lemma loop_same ls ls' ln st ctx rs subs : Forall2 (fun a b => clean_line a = clean_line b) ls ls' ->
  same_outcome (subrip_loop ls ln st ctx rs subs) (subrip_loop ls' ln st ctx rs subs).
Proof.
  intros F. revert ln st ctx rs subs. induction F as [|a b ls ls' E F IH]; intros ln st ctx rs subs; [constructor|]. rewrite !loop_round, E.
  set (l := clean_line b). set (c := push_context ctx l). unfold round. destruct st.
  - destruct l; cbn [bind fst snd]; apply IH.
  - cbv zeta. destruct (negb _ && negb _).
    + cbn [bind]. constructor. unfold error_context. apply Forall2_app.
      * clear. induction c; constructor; [apply same_line_refl|assumption].
      * destruct F as [|x y ? ? XY [|x' y' ? ? XY' F]]; cbn [firstn]; repeat constructor; now apply same_clean.
    + destruct (convert_time _ _) as [[from|e]| |]; cbn [bind]; try apply same_refl. destruct (convert_time _ _) as [[to|e]| |]; cbn [bind]; try apply same_refl. apply IH.
  - destruct l as [|ch l]; cbn [bind fst snd]; [apply IH|]. destruct (convert_sub_lines _ _ _ _ _) as [[q qs]| |]; cbn [bind fst snd]; try apply same_refl. apply IH.
Qed.
Lemma clean_lf l : clean_line (l ++ [lf]) = clean_line l.
Proof.
  unfold clean_line, trim_right_if. now rewrite rev_app_distr.
Qed.
Theorem file_same s : short_lines s -> same_outcome (subrip_reader_file s) (subrip_reader_string s).
Proof.
  intros (NN & ls & T & F). unfold subrip_reader_file, subrip_reader_string, subrip_read. apply loop_same.
  pose proof (proj2 (lines_of_string_iff s ls) T) as E. rewrite E. pose proof (file_string_lines (length s) s ls (le_n _) T NN F) as G. unfold lines_of_file.
  clear -G. induction G as [|a b x y H G IH]; constructor; [|exact IH]. destruct H as [->| ->]; [reflexivity|apply clean_lf].
Qed.

(** * SSA tags *)

Lemma overrides_pieces r cs bodies r2 text : overrides r bodies r2 -> forall tx, pieces r cs tx (map TSsa bodies ++ map TChar text) [] r2 (tx ++ text).
Proof.
  induction 1 as [r|r body r1 bodies r2 O OS IH]; intros tx; cbn [map app]; [apply plain_pieces|]. eapply pieces_ssa; [exact O|]. apply IH.
Qed.
Theorem tags_in_front s from to row bodies text r2 : file_cues s [mkCue from to [row]] -> ~ contains u2028 row ->
  lexed row (map TSsa bodies ++ map TChar text) -> text <> [] -> ~ contains u202b text -> overrides (cue_look from to) bodies r2 ->
  subrip_reader_string s = Ok [with_text text r2].
Proof.
  intros FC N1 L NE N2 O. apply subrip_string_iff, subrip_file_cues. exists [mkCue from to [row]], [[with_text text r2]]. split; [exact FC|]. split; [|reflexivity].
  constructor; [|constructor]. apply cue_subtitles_rows. exists [row]. split; [exists [[row]]; split; [|reflexivity]; constructor; [now apply parts_one|constructor]|].
  replace [with_text text r2] with ([] ++ with_piece text r2 ++ []) by (destruct text; [congruence|reflexivity]).
  eapply rows_more; [exact L| |apply rtl_same; exact N2|constructor]. apply (overrides_pieces (cue_look from to) [all_white] bodies r2 text O []).
Qed.
(** Whole outcomes on texts. *)
Theorem string_throws s e : subrip_reader_string s = Throw e <-> exists ls, text_lines s ls /\ subrip_stops ls (Throw e).
Proof.
  unfold subrip_reader_string. rewrite subrip_read_throws. split; [intros S; exists (lines_of_string s); split; [now apply lines_of_string_iff|exact S]|].
  intros (ls & T & S). apply lines_of_string_iff in T. now subst ls.
Qed.
Theorem string_undefined s u : subrip_reader_string s = Undef u <-> exists ls, text_lines s ls /\ subrip_stops ls (Undef u).
Proof.
  unfold subrip_reader_string. rewrite subrip_read_undefined. split; [intros S; exists (lines_of_string s); split; [now apply lines_of_string_iff|exact S]|].
  intros (ls & T & S). apply lines_of_string_iff in T. now subst ls.
Qed.
Theorem string_defined s : defined (subrip_reader_string s) <-> forall u ls, text_lines s ls -> ~ subrip_stops ls (Undef u).
Proof.
  split.
  - intros D u ls L X. apply (D u). apply string_undefined. now exists ls.
  - intros N u E. apply string_undefined in E. destruct E as (ls & L & X). exact (N u ls L X).
Qed.
Lemma subrip_time_ok s t : convert_time s (lit ",") = Ok (CTime t) <-> cue_time ","%char s t.
Proof. apply (convert_time_ok ","%char sep_comma); discriminate. Qed.
Lemma subrip_time_refused s e : convert_time s (lit ",") = Ok (CExpected e) <-> time_refused ","%char s e.
Proof. apply (convert_time_expected ","%char sep_comma); discriminate. Qed.
Lemma subrip_time_stopped s u : convert_time s (lit ",") = Undef u <-> u = UbIntOverflow /\ time_overflows ","%char s.
Proof.
  rewrite <- (stopped_eq (convert_time s (lit ",")) (Undef u)) by discriminate. rewrite (convert_time_stopped ","%char sep_comma) by discriminate.
  split; intros [A B]; (split; [congruence|exact B]).
Qed.
Lemma subrip_time_throws s e : convert_time s (lit ",") <> Throw e.
Proof.
  intros T. assert (S : stopped (convert_time s (lit ",")) (@Throw ctime e)) by (apply stopped_eq; [discriminate|exact T]).
  apply (convert_time_stopped ","%char sep_comma) in S; [destruct S; discriminate|discriminate].
Qed.
(** Tokens of a concrete text. *)
Fixpoint lex (fuel : nat) (s : str) : option (list token) :=
  match s, fuel with
  | [], _ => Some []
  | _, O => None
  | c :: t, S k => match first_tag s with
                   | Some (tok, rest) => option_map (cons tok) (lex k rest)
                   | None => option_map (cons (TChar c)) (lex k t)
                   end
  end.
Lemma lex_ok fuel s toks : lex fuel s = Some toks -> lexed s toks.
Proof.
  revert s toks. induction fuel as [|k IH]; intros [|c s] toks E; cbn [lex] in E; try discriminate; try (injection E as <-; constructor).
  destruct (first_tag (c :: s)) as [[tok rest]|] eqn:F.
  - destruct (lex k rest) as [tk|] eqn:L; [|discriminate]. injection E as <-. apply (lexed_tag _ tok rest); [now apply first_tag_iff|now apply IH].
  - destruct (lex k s) as [tk|] eqn:L; [|discriminate]. injection E as <-. apply lexed_char; [now apply first_tag_none|now apply IH].
Qed.
(** Safety of a concrete text. *)
Definition six_digits (s : str) : bool := Nat.leb 6 (length s) && forallb is_digit (firstn 6 s).
Fixpoint short_check (s : str) : bool := negb (six_digits s) && match s with [] => true | _ :: t => short_check t end.
Lemma short_check_ok s : short_check s = true -> short_numbers s.
Proof.
  intros C before d after E F. destruct (Nat.leb_spec (length d) 5) as [L|L]; [exact L|]. exfalso. subst s. induction before as [|c b IH].
  - cbn [app] in C. destruct d as [|d0 d]; [cbn in L; lia|]. cbn [app short_check] in C. apply andb_true_iff in C. destruct C as [C _].
    apply negb_true_iff in C. apply andb_false_iff in C. change (d0 :: d ++ after) with ((d0 :: d) ++ after) in C. destruct C as [C|C].
    + apply Nat.leb_gt in C. rewrite app_length in C. lia.
    + assert (T : forallb is_digit (firstn 6 ((d0 :: d) ++ after)) = true); [|congruence]. apply forallb_forall. intros x I. rewrite firstn_app in I.
      replace (6 - length (d0 :: d))%nat with 0%nat in I by lia. rewrite firstn_O, app_nil_r in I. assert (J : In x (d0 :: d)) by (rewrite <- (firstn_skipn 6); apply in_app_iff; now left).
      rewrite Forall_forall in F. destruct (F x J) as (v & V & W). unfold is_digit. rewrite code_char. unfold char_code in *. change (code "0") with 48. change (code "9") with 57. apply andb_true_iff. split; apply Z.leb_le; lia.
  - apply IH. cbn [app short_check] in C. now apply andb_true_iff in C.
Qed.
Fixpoint nest (n : nat) (toks : list token) : bool :=
  match toks with
  | [] => true
  | TFont _ :: t => nest (S n) t
  | TFontEnd :: t => match n with O => false | S k => nest k t end
  | _ :: t => nest n t
  end.
Lemma nest_ok n toks : nest n toks = true -> forall a b, toks = a ++ b -> (count closes a <= n + count opens a)%nat.
Proof.
  revert n. induction toks as [|t toks IH]; intros n N a b E.
  - destruct a; [cbn; lia|discriminate].
  - destruct a as [|t' a]; [cbn; lia|]. injection E as <- E. destruct t; cbn [nest] in N; try (specialize (IH _ N a b E); unfold count in *; cbn [filter opens closes length]; lia).
    destruct n as [|n]; [discriminate|]. specialize (IH _ N a b E). unfold count in *. cbn [filter opens closes length]. lia.
Qed.
Definition row_check (row : str) : bool := match lex (length row) row with Some toks => nest 0 toks | None => false end.
Definition safe_check (s : str) : bool :=
  short_check s && forallb (fun l => forallb row_check (split_lit line_separator (clean_line l))) (lines_of_string s).
Lemma safe_check_ok s : safe_check s = true -> short_numbers s /\ (forall row toks, row_of s row -> lexed row toks -> fonts_nest toks).
Proof.
  intros C. apply andb_true_iff in C. destruct C as [C1 C2]. split; [now apply short_check_ok|].
  intros row toks (ls & l & l' & parts & T & I & CL & P & J) L a b E. apply lines_of_string_iff in T. apply clean_line_iff in CL. apply line_separator_iff in P. subst ls l' parts.
  rewrite forallb_forall in C2. specialize (C2 l I). rewrite forallb_forall in C2. specialize (C2 row J). unfold row_check in C2.
  destruct (lex (length row) row) as [tk|] eqn:K; [|discriminate]. apply lex_ok in K. rewrite (lexed_unique _ _ _ K L) in C2. now apply (nest_ok 0 toks C2 a b).
Qed.
