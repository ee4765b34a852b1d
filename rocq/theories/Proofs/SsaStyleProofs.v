(** Which styles of an SSA file matter. *)
From Coq Require Import ZArith List Bool Ascii String Lia.
From Verif.Model Require Import Base Strings Float TimeModel Types Lines RawConvert.
From Verif.Spec Require Import Outcome TextSpec LinesSpec StlFileSpec RawSpec SsaTagSpec SsaSpec TextFileSpec CommentSpec SsaStyleSpec.
From Verif.Proofs Require Import StringProofs LinesProofs SsaTextProofs SsaTagProofs SsaProofs SsaUseProofs TextFileProofs CommentProofs TakeOutProofs.
From Verif.Model Require Import Ssa.
Import ListNotations.
Local Notation length := List.length.

(** * Readers that find the same styles *)

Definition with_styles (ss : list (str * style)) (f : ssa_reader) : ssa_reader :=
  mkSsa (sr_part f) (sr_res_x f) (sr_res_y f) ss (sr_style_format f) (sr_event_format f) (sr_subs f).
Definition agree (D : str -> Prop) (ss ss' : list (str * style)) : Prop := forall n, D n -> style_find n ss' = style_find n ss.
Definition map_res {A B : Type} (g : A -> B) (x : res A) : res B := match x with Ok a => Ok (g a) | Throw e => Throw e | Undef u => Undef u end.

Lemma event_field_same D f ss ev k v : agree D (sr_styles f) ss -> D (lit "Default") -> D (trim_left_if (is_any_of (lit "*")) (trim v)) ->
  event_field (with_styles ss f) ev k v = event_field f ev k v.
Proof. intros A D1 D2. unfold event_field. cbn [with_styles sr_styles sr_res_x sr_res_y]. now rewrite (A _ D1), (A _ D2). Qed.
Lemma event_fields_same D f ss kvs : agree D (sr_styles f) ss -> D (lit "Default") -> Forall (fun kv => D (trim_left_if (is_any_of (lit "*")) (trim (snd kv)))) kvs ->
  forall ev, event_fields (with_styles ss f) ev kvs = event_fields f ev kvs.
Proof.
  intros A D1 F. induction F as [|[k v] kvs D2 F IH]; intros ev; [reflexivity|]. cbn [event_fields]. rewrite (event_field_same D); auto.
  destruct (event_field f ev k v); cbn [bind]; auto.
Qed.
Lemma contains_self (s : str) : contains s s.
Proof. exists [], []. now rewrite app_nil_r. Qed.
Lemma contains_trans a b c : contains a b -> contains b c -> contains a c.
Proof. intros (x & y & ->) (u & v & ->). exists (u ++ x), (y ++ v). now rewrite <- !app_assoc. Qed.
Lemma trim_contains s : contains (trim s) s.
Proof. destruct (proj1 (trim_iff s _) eq_refl) as (a & b & E & _). rewrite E at 2. now exists a, b. Qed.
Lemma trim_left_contains p s : contains (trim_left_if p s) s.
Proof.
  assert (E : exists a, s = a ++ drop_while p s).
  { induction s as [|c s (a & IH)]; [now exists []|]. cbn [drop_while]. destruct (p c); [|now exists []]. exists (c :: a). cbn. now rewrite <- IH. }
  destruct E as (a & E). exists a, []. unfold trim_left_if. rewrite app_nil_r. exact E.
Qed.
Lemma join_contains sep vs : forall v : str, In v vs -> contains v (join sep vs).
Proof.
  induction vs as [|a vs IH]; intros v I; [destruct I|]. destruct vs as [|b vs].
  - destruct I as [<-|[]]. apply contains_self.
  - change (join sep (a :: b :: vs)) with (a ++ sep ++ join sep (b :: vs)). destruct I as [<-|I]; [exists [], (sep ++ join sep (b :: vs)); reflexivity|].
    apply (contains_trans _ _ _ (IH v I)). exists (a ++ sep), []. now rewrite app_nil_r, <- app_assoc.
Qed.
Lemma dialogue_same D f ss body : agree D (sr_styles f) ss -> D (lit "Default") -> (forall n, contains n body -> D n) ->
  dialogue (with_styles ss f) body = dialogue f body.
Proof.
  intros A D1 D2. unfold dialogue. cbn [with_styles sr_event_format]. destruct (sr_event_format f) as [|k ks] eqn:EF; [reflexivity|].
  cbn [is_nil negb sub_assert bind]. destruct (event_values (length (k :: ks)) body) as (vs & R & NE & V); [cbn; lia|]. rewrite R. cbn [bind].
  destruct vs as [|v0 vs0] eqn:EV; [congruence|]. rewrite <- EV in *. cbn [is_nil negb]. destruct V as [[L FV]|[L _]].
  - rewrite L, Nat.eqb_refl, EV. cbn [is_nil negb sub_assert bind]. rewrite <- EV. rewrite (event_fields_same D); auto.
    apply Forall_forall. intros [k' v'] I. cbn [snd]. apply in_combine_r in I. apply D2. destruct FV as (_ & -> & _).
    apply (contains_trans _ _ _ (trim_left_contains _ _)). apply (contains_trans _ _ _ (trim_contains _)). now apply join_contains.
  - rewrite EV. cbn [is_nil negb sub_assert bind]. rewrite <- EV. destruct (Nat.eqb_spec (length (k :: ks)) (length vs)) as [E|E]; [congruence|reflexivity].
Qed.

(** The result of [with_styles] readers: the same but for the styles, which agree again. *)
Definition same_but (D : str -> Prop) (x y : res ssa_reader) : Prop :=
  match x, y with
  | Ok f, Ok f' => exists ss, f' = with_styles ss f /\ agree D (sr_styles f) ss
  | Throw e, Throw e' => e = e'
  | Undef u, Undef u' => u = u'
  | _, _ => False
  end.
Lemma agree_more D ss ss' n st : agree D ss ss' -> agree D ((n, st) :: ss) ((n, st) :: ss').
Proof. intros A m I. cbn [style_find]. now rewrite (A m I). Qed.
Lemma keyed_same (D : str -> Prop) f ss k body : agree D (sr_styles f) ss -> D (lit "Default") -> (forall n, contains n body -> D n) ->
  same_but D (keyed_step f k body) (keyed_step (with_styles ss f) k body).
Proof.
  intros A D1 D2. pose proof (dialogue_same D f ss body A D1 D2) as DS. destruct f as [p rx ry ss0 sf ef subs]. cbn [sr_styles] in A. change (with_styles ss (mkSsa p rx ry ss0 sf ef subs)) with (mkSsa p rx ry ss sf ef subs) in *.
  assert (R : forall p rx ry sf ef subs, same_but D (Ok (mkSsa p rx ry ss0 sf ef subs)) (Ok (mkSsa p rx ry ss sf ef subs))) by (intros; exists ss; split; [reflexivity|exact A]).
  cbn [keyed_step]. destruct p.
  - destruct (str_eqb k (lit "PlayResX")); [destruct (raw_convert_int body); cbn [bind same_but]; auto; apply R|].
    destruct (str_eqb k (lit "PlayResY")); [destruct (raw_convert_int body); cbn [bind same_but]; auto; apply R|]. apply R.
  - destruct (str_eqb k (lit "Format")); [apply R|]. destruct (str_eqb k (lit "Style")); [|apply R].
    destruct (sub_assert (negb (is_nil sf))); cbn [bind same_but]; auto. destruct (style_parse sf body) as [st| |]; cbn [bind same_but]; auto.
    exists ((st_name st, st) :: ss). split; [reflexivity|]. cbn [sr_styles]. now apply agree_more.
  - destruct (str_eqb k (lit "Format")); [apply R|]. destruct (str_eqb k (lit "Dialogue")); [|apply R].
    rewrite DS. clear DS. destruct (dialogue _ body); cbn [bind same_but]; auto. apply R.
Qed.
Lemma line_same (D : str -> Prop) f ss l : agree D (sr_styles f) ss -> D (lit "Default") -> (forall n, contains n l -> D n) -> same_but D (ssa_line f l) (ssa_line (with_styles ss f) l).
Proof.
  intros A D1 D2. rewrite !ssa_line_eq. cbv zeta. set (b := remove_unicode_bom (trim l)).
  assert (B : contains b l).
  { apply (contains_trans _ (trim l)); [|apply trim_contains]. destruct (proj1 (remove_bom_iff (trim l) b) eq_refl) as [E|[_ E]]; [rewrite E; exists bom, []; now rewrite app_nil_r|rewrite E; apply contains_self]. }
  assert (R : forall p, same_but D (Ok (with_part p f)) (Ok (with_part p (with_styles ss f)))) by (intros p; exists ss; split; [reflexivity|exact A]).
  assert (R0 : same_but D (Ok f) (Ok (with_styles ss f))) by (exists ss; split; [reflexivity|exact A]).
  destruct (starts_with b (lit ";") || is_nil b); [exact R0|]. destruct (starts_with b (lit "[")).
  { destruct (str_eqb b (lit "[Script Info]")); [apply R|]. destruct (str_eqb b (lit "[V4 Styles]") || str_eqb b (lit "[V4+ Styles]")); [apply R|]. destruct (str_eqb b (lit "[Events]")); [apply R|exact R0]. }
  destruct (find_sub b (lit ":")) as [n|]; [|reflexivity]. apply keyed_same; auto. intros m C. apply D2. apply (contains_trans _ _ _ C). apply (contains_trans _ _ _ (trim_contains _)).
  apply (contains_trans _ b); [|exact B]. exists (firstn (n + 1) b), []. rewrite app_nil_r. now rewrite firstn_skipn.
Qed.
Lemma lines_same (D : str -> Prop) ls : D (lit "Default") -> (forall l n, In l ls -> contains n l -> D n) ->
  forall f ss, agree D (sr_styles f) ss -> same_but D (ssa_lines f ls) (ssa_lines (with_styles ss f) ls).
Proof.
  intros D1. induction ls as [|l ls IH]; intros D2 f ss A; cbn [ssa_lines]; [exists ss; now split|].
  pose proof (line_same D f ss l A D1 (fun n C => D2 l n (or_introl eq_refl) C)) as L.
  destruct (ssa_line f l) as [f1| |], (ssa_line (with_styles ss f) l) as [f2| |]; cbn [same_but bind] in *; try contradiction; auto.
  destruct L as (ss1 & -> & A1). apply IH; [|exact A1]. intros l' n I. apply D2. now right.
Qed.
Lemma read_same (D : str -> Prop) f ss ls : D (lit "Default") -> (forall l n, In l ls -> contains n l -> D n) -> agree D (sr_styles f) ss ->
  bind (ssa_lines f ls) (fun r => Ok (sr_subs r)) = bind (ssa_lines (with_styles ss f) ls) (fun r => Ok (sr_subs r)).
Proof.
  intros D1 D2 A. pose proof (lines_same D ls D1 D2 f ss A) as H. destruct (ssa_lines f ls), (ssa_lines (with_styles ss f) ls); cbn [same_but bind] in *; try contradiction; try now subst.
  destruct H as (s1 & -> & _). reflexivity.
Qed.

(** * Lines with styles *)

Lemma style_entry_name st k v st' : style_entry st k v st' -> k <> lit "Name" -> st_name st' = st_name st.
Proof. intros E N. inversion E; subst; try reflexivity. now destruct N. Qed.
Lemma style_entry_named st v st' : style_entry st (lit "Name") v st' -> st_name st' = v.
Proof. intros E. inversion E as [| | | | | | | | | | | | | |? ? ? N]; subst; [reflexivity|]. exfalso. apply N. cbn. auto. Qed.
Lemma styles_no_name ks : forall vs st st', in_turn style_step st (combine ks vs) st' -> Forall (fun k => ~ trimmed k (lit "Name")) ks -> st_name st' = st_name st.
Proof.
  induction ks as [|k ks IH]; intros vs st st' T F; [inversion T; reflexivity|]. destruct vs as [|v vs]; [inversion T; reflexivity|]. cbn [combine] in T. inversion F as [|? ? F1 F2]; subst.
  inversion T as [|? ? a1 ? ? (k' & v' & TK & TV & E) T2]; subst. cbn [fst snd] in *. rewrite (IH _ _ _ T2 F2). apply (style_entry_name _ _ _ _ E). intros ->. now apply F1.
Qed.
Lemma named_style ks vs name : named ks vs name -> forall st st', in_turn style_step st (combine ks vs) st' -> st_name st' = name.
Proof.
  induction 1 as [k v ks vs name TK TV F|k v ks vs name N IH]; intros st st' T; cbn [combine] in T; inversion T as [|? ? a1 ? ? (k' & v' & TK' & TV' & E) T2]; subst; cbn [fst snd] in *.
  - apply trim_iff in TK, TV, TK', TV'. subst. rewrite TK in E. rewrite (styles_no_name _ _ _ _ T2 F). exact (style_entry_named _ _ _ E).
  - exact (IH _ _ T2).
Qed.
Lemma keyed_line l u k body f : line_body l u -> keyed u k body -> ~ begins (fun c => c = ";"%char \/ c = "["%char) u -> ssa_line f l = keyed_step f k body.
Proof.
  intros B K N. rewrite ssa_line_eq. apply line_body_iff in B. cbv zeta. rewrite B. destruct K as (rest & -> & NC & T).
  assert (NB : starts_with (k ++ ":"%char :: rest) (lit ";") || is_nil (k ++ ":"%char :: rest) = false /\ starts_with (k ++ ":"%char :: rest) (lit "[") = false).
  { assert (Q : forall c, (c = ";"%char \/ c = "["%char) -> starts_with (k ++ ":"%char :: rest) [c] = false).
    { intros c C. destruct (starts_with (k ++ ":"%char :: rest) [c]) eqn:E; [|reflexivity]. apply starts_with_iff in E. destruct E as (x & E). exfalso. apply N. rewrite E. exact C. }
    split; [apply orb_false_intro; [apply Q; now left|now destruct k]|apply Q; now right]. }
  destruct NB as [-> ->]. pose proof (find_colon (k ++ ":"%char :: rest)) as F. destruct (find_sub _ (lit ":")) as [n|].
  - destruct F as (r & E & SK & NF). destruct (first_sep _ _ _ _ _ NC NF E) as [EK ER]. rewrite <- EK, SK, <- ER. apply trim_iff in T. now rewrite T.
  - exfalso. apply F. apply in_or_app. right. now left.
Qed.

(** * Files *)

Definition style_line_text (l : str) : Prop := exists u body, line_body l u /\ keyed u (lit "Style") body.
Lemma keyed_no_mark u k body : keyed u k body -> (k = lit "Style" \/ k = lit "Format") -> ~ begins (fun c => c = ";"%char \/ c = "["%char) u.
Proof. intros (r & -> & _) [-> | ->] [H|H]; discriminate H. Qed.
Lemma style_lines_keep ls : Forall style_line_text ls -> forall f f', sr_part f = STYLES -> ssa_lines f ls = Ok f' -> exists ss, f' = with_styles ss f.
Proof.
  induction 1 as [|l ls (u & body & B & K) F IH]; intros f f' P; cbn [ssa_lines]; [intros [= <-]; exists (sr_styles f); now destruct f|].
  rewrite (keyed_line _ _ _ _ f B K (keyed_no_mark _ _ _ K (or_introl eq_refl))). intros H. apply TakeOutProofs.bind_ok in H. destruct H as (f1 & H1 & H).
  destruct f as [p rx ry ss0 sf ef subs]. cbn [sr_part] in P. subst p. cbn [keyed_step] in H1. change (str_eqb (lit "Style") (lit "Format")) with false in H1. change (str_eqb (lit "Style") (lit "Style")) with true in H1. cbv iota in H1.
  apply TakeOutProofs.bind_ok in H1. destruct H1 as (? & _ & H1). apply TakeOutProofs.bind_ok in H1. destruct H1 as (st & _ & [= <-]).
  apply IH in H; [|reflexivity]. destruct H as (ss & ->). exists ss. reflexivity.
Qed.
Lemma styles_state ks a : styles_so_far ks a -> whole_lines a /\ forall f, ssa_lines ssa_init (lines_of_string a) = Ok f -> sr_part f = STYLES /\ parts_of [comma] (sr_style_format f) ks.
Proof.
  intros (x & h & l & u & body & d & -> & W & IH & NL & LB & K & P & (ld & O & DL)).
  assert (NH : ~ In lf (lit h)) by (destruct IH as [<-|[<-|[]]]; intros I; cbn in I; intuition discriminate).
  assert (W1 : whole_lines (x ++ lit h ++ [lf])) by (right; exists (x ++ lit h); now rewrite <- app_assoc).
  assert (W2 : whole_lines ((x ++ lit h ++ [lf]) ++ l ++ [lf])) by (right; exists ((x ++ lit h ++ [lf]) ++ l); now rewrite <- !app_assoc).
  replace (x ++ lit h ++ [lf] ++ l ++ [lf] ++ d) with (((x ++ lit h ++ [lf]) ++ l ++ [lf]) ++ d) by (now rewrite <- !app_assoc).
  split.
  { pose proof (of_lines_whole _ _ O) as [-> |(y & ->)]; [now rewrite app_nil_r|]. right. eexists. now rewrite app_assoc. }
  intros f. rewrite string_lines_app by exact W2. rewrite string_lines_app by exact W1. rewrite string_lines_app by exact W.
  replace (lines_of_string (lit h ++ [lf])) with [lit h] by (symmetry; apply lines_of_string_iff; constructor; [exact NH|constructor]).
  replace (lines_of_string (l ++ [lf])) with [l] by (symmetry; apply lines_of_string_iff; constructor; [exact NL|constructor]).
  apply of_lines_lines, lines_of_string_iff in O. rewrite O. rewrite ssa_lines_app. rewrite <- app_assoc. rewrite ssa_lines_app.
  destruct (ssa_lines ssa_init (lines_of_string x)) as [f0| |]; cbn [bind]; try discriminate.
  intros H. apply TakeOutProofs.bind_ok in H. destruct H as (f1 & H1 & H). cbn [app ssa_lines] in H1.
  apply TakeOutProofs.bind_ok in H1. destruct H1 as (f2 & H2 & H1). apply TakeOutProofs.bind_ok in H1. destruct H1 as (f3 & H3 & H1). injection H1 as <-.
  assert (E2 : f2 = with_part STYLES f0) by (destruct IH as [<-|[<-|[]]]; destruct f0; vm_compute in H2; injection H2 as <-; reflexivity). subst f2.
  rewrite (keyed_line _ _ _ _ _ LB K (keyed_no_mark _ _ _ K (or_intror eq_refl))) in H3. destruct f0 as [p rx ry ss sf ef subs]. cbn [with_part keyed_step sr_res_x sr_res_y sr_styles sr_style_format sr_event_format sr_subs] in H3.
  change (str_eqb (lit "Format") (lit "Format")) with true in H3. cbv iota in H3. injection H3 as <-.
  apply (style_lines_keep ld DL) in H; [|reflexivity]. destruct H as (ss' & ->). split; [reflexivity|exact P].
Qed.
(** A line with a style adds it under its name. *)
Lemma style_added ks name l f : style_with ks name l -> sr_part f = STYLES -> parts_of [comma] (sr_style_format f) ks ->
  match ssa_line f l with Ok f' => exists st, f' = with_styles ((name, st) :: sr_styles f) f /\ forall ss, ssa_line (with_styles ss f) l = Ok (with_styles ((name, st) :: ss) f) | _ => True end.
Proof.
  intros (NL & u & body & vs & B & K & PV & L & N) P PK. rewrite (keyed_line _ _ _ _ f B K (keyed_no_mark _ _ _ K (or_introl eq_refl))).
  assert (E : forall ss, ssa_line (with_styles ss f) l = keyed_step (with_styles ss f) (lit "Style") body) by (intros ss; exact (keyed_line _ _ _ _ _ B K (keyed_no_mark _ _ _ K (or_introl eq_refl)))).
  destruct f as [p rx ry ss0 sf ef subs]. cbn [sr_part sr_style_format] in *. subst p. cbn [keyed_step]. cbn [with_styles keyed_step sr_part sr_res_x sr_res_y sr_styles sr_style_format sr_event_format sr_subs] in *.
  change (str_eqb (lit "Style") (lit "Format")) with false in *. change (str_eqb (lit "Style") (lit "Style")) with true in *. cbv iota in *.
  destruct (sub_assert (negb (is_nil sf))) as [x| |]; cbn [bind] in *; [|exact I..]. destruct (style_parse sf body) as [st| |] eqn:S; cbn [bind] in *; [|exact I..].
  exists st. apply style_parse_iff in S. destruct S as (ks' & vs' & K' & V' & _ & T). rewrite (parts_unique _ _ _ _ K' PK), (parts_unique _ _ _ _ V' PV) in T.
  pose proof (named_style _ _ _ N _ _ T) as NM. rewrite NM in *. split; [reflexivity|]. exact E.
Qed.
Lemma line_in_text s ls : text_lines s ls -> forall l, In l ls -> contains l s.
Proof.
  induction 1 as [|l N L|l rest ls N T IH]; intros x I; [destruct I| |].
  - destruct I as [<-|[]]. apply contains_self.
  - destruct I as [<-|I]; [exists [], (lf :: rest); reflexivity|]. apply (contains_trans _ _ _ (IH x I)). exists (l ++ [lf]), []. now rewrite app_nil_r, <- app_assoc.
Qed.
Lemma one_line l : ~ In lf l -> lines_of_string (l ++ [lf]) = [l].
Proof. intros N. apply lines_of_string_iff. constructor; [exact N|constructor]. Qed.
Lemma whole_line l : whole_lines (l ++ [lf]).
Proof. right. now exists l. Qed.
Lemma style_state ks name a l : styles_so_far ks a -> style_with ks name l -> can_be_read (a ++ l ++ [lf]) ->
  exists f st, ssa_lines ssa_init (lines_of_string a) = Ok f /\ ssa_line f l = Ok (with_styles ((name, st) :: sr_styles f) f) /\
    (forall ss, ssa_line (with_styles ss f) l = Ok (with_styles ((name, st) :: ss) f)) /\ sr_part f = STYLES /\ parts_of [comma] (sr_style_format f) ks.
Proof.
  intros S SW (r & R). destruct (styles_state _ _ S) as [W ST]. unfold ssa_reader_string, ssa_read in R. rewrite (string_lines_app a), (one_line l (proj1 SW)), ssa_lines_app in R by exact W.
  destruct (ssa_lines ssa_init (lines_of_string a)) as [f| |] eqn:F; try discriminate R. cbn [bind ssa_lines] in R. destruct (ST f eq_refl) as [P K]. pose proof (style_added _ _ _ _ SW P K) as A.
  destruct (ssa_line f l) as [f'| |] eqn:L; try discriminate R. destruct A as (st & -> & A). exists f, st. auto.
Qed.
Lemma ssa_style_unused ks name a l b : styles_so_far ks a -> style_with ks name l -> name <> lit "Default" -> ~ contains name b -> can_be_read (a ++ l ++ [lf]) ->
  ssa_reader_string (a ++ (l ++ [lf]) ++ b) = ssa_reader_string (a ++ b).
Proof.
  intros S SW ND NC R. destruct (style_state _ _ _ _ S SW R) as (f & st & F & L & _ & _). destruct (styles_state _ _ S) as [W _].
  unfold ssa_reader_string, ssa_read. rewrite !(string_lines_app a) by exact W. rewrite (string_lines_app (l ++ [lf])) by apply whole_line. rewrite (one_line l (proj1 SW)).
  rewrite !ssa_lines_app, F. cbn [bind app ssa_lines]. rewrite L. cbn [bind]. symmetry. apply (read_same (fun n => n <> name)).
  - auto.
  - intros x n I C ->. apply NC. apply (contains_trans _ _ _ C). apply (line_in_text b (lines_of_string b)); [now apply lines_of_string_iff|exact I].
  - intros n N. cbn [style_find]. now rewrite (str_eqb_neq name n) by auto.
Qed.
Lemma ssa_styles_swap ks n1 n2 a l1 l2 b : styles_so_far ks a -> style_with ks n1 l1 -> style_with ks n2 l2 -> n1 <> n2 -> can_be_read (a ++ l1 ++ [lf]) -> can_be_read (a ++ l2 ++ [lf]) ->
  ssa_reader_string (a ++ (l1 ++ [lf]) ++ (l2 ++ [lf]) ++ b) = ssa_reader_string (a ++ (l2 ++ [lf]) ++ (l1 ++ [lf]) ++ b).
Proof.
  intros S S1 S2 N R1 R2. destruct (style_state _ _ _ _ S S1 R1) as (f & st1 & F & L1 & A1 & _). destruct (style_state _ _ _ _ S S2 R2) as (f' & st2 & F' & L2 & A2 & _).
  assert (f' = f) by congruence. subst f'. destruct (styles_state _ _ S) as [W _].
  unfold ssa_reader_string, ssa_read. rewrite !(string_lines_app a) by exact W. rewrite (string_lines_app (l1 ++ [lf])), (string_lines_app (l2 ++ [lf])) by apply whole_line.
  rewrite (string_lines_app (l2 ++ [lf]) ((l1 ++ [lf]) ++ b)), (string_lines_app (l1 ++ [lf]) b) by apply whole_line. rewrite (one_line l1 (proj1 S1)), (one_line l2 (proj1 S2)).
  rewrite !ssa_lines_app, F. cbn [bind app ssa_lines]. rewrite L1, L2. cbn [bind]. rewrite A1, A2. cbn [bind].
  apply (read_same (fun _ => True) (with_styles ((n2, st2) :: (n1, st1) :: sr_styles f) f) ((n1, st1) :: (n2, st2) :: sr_styles f)); auto. intros n _. cbn [style_find with_styles sr_styles].
  destruct (str_eqb n2 n) eqn:E2, (str_eqb n1 n) eqn:E1; try reflexivity. apply str_eqb_iff in E1, E2. congruence.
Qed.
Lemma ssa_style_again ks name a l1 l2 b : styles_so_far ks a -> style_with ks name l1 -> style_with ks name l2 -> can_be_read (a ++ l1 ++ [lf]) -> can_be_read (a ++ l2 ++ [lf]) ->
  ssa_reader_string (a ++ (l1 ++ [lf]) ++ (l2 ++ [lf]) ++ b) = ssa_reader_string (a ++ (l2 ++ [lf]) ++ b).
Proof.
  intros S S1 S2 R1 R2. destruct (style_state _ _ _ _ S S1 R1) as (f & st1 & F & L1 & A1 & _). destruct (style_state _ _ _ _ S S2 R2) as (f' & st2 & F' & L2 & A2 & _).
  assert (f' = f) by congruence. subst f'. destruct (styles_state _ _ S) as [W _].
  unfold ssa_reader_string, ssa_read. rewrite !(string_lines_app a) by exact W. rewrite (string_lines_app (l1 ++ [lf])), (string_lines_app (l2 ++ [lf])) by apply whole_line.
  rewrite (one_line l1 (proj1 S1)), (one_line l2 (proj1 S2)).
  rewrite !ssa_lines_app, F. cbn [bind app ssa_lines]. rewrite L1, L2. cbn [bind]. rewrite A2. cbn [bind].
  symmetry. apply (read_same (fun _ => True) (with_styles ((name, st2) :: sr_styles f) f) ((name, st2) :: (name, st1) :: sr_styles f)); auto. intros n _. cbn [style_find with_styles sr_styles].
  now destruct (str_eqb name n).
Qed.
