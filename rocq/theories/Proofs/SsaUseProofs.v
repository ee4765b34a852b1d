(** What users of the SSA reader rely on. *)
From Coq Require Import ZArith Lia List Bool Ascii String.
From Verif.Model Require Import Base Strings Float TimeModel Types Lines RawConvert.
From Verif.Spec Require Import Outcome TextSpec LinesSpec StlFileSpec RawSpec SsaTagSpec SsaSpec SsaUseSpec SubripUseSpec.
From Verif.Model Require Import Ssa.
From Verif.Proofs Require Import StringProofs LinesProofs StlReadProofs SsaTagProofs SsaTextProofs SsaProofs SubripFontProofs SubripUseProofs.
Import ListNotations.
Local Open Scope Z_scope.
Local Notation length := List.length.

(** * Fields *)

Lemma removelast_snoc {A : Type} (l : list A) a : removelast (l ++ [a]) = l.
Proof. apply removelast_last. Qed.

Lemma in_turn_app {A B : Type} (step : A -> B -> A -> Prop) l1 l2 : forall a c, in_turn step a (l1 ++ l2) c <-> exists b, in_turn step a l1 b /\ in_turn step b l2 c.
Proof.
  induction l1 as [|x l1 IH]; intros a c; cbn [app].
  - split; [intros H; exists a; split; [constructor|exact H]|]. intros (b & H1 & H2). inversion H1; subst. exact H2.
  - split.
    + intros H. inversion H as [|? ? a1 ? ? S T]; subst. apply IH in T. destruct T as (b & T1 & T2). exists b. split; [now apply turn_step with a1|exact T2].
    + intros (b & H1 & H2). inversion H1 as [|? ? a1 ? ? S T]; subst. apply turn_step with a1; [exact S|]. apply IH. now exists b.
Qed.
Lemma in_turn_one {A B : Type} (step : A -> B -> A -> Prop) x a c : in_turn step a [x] c <-> step a x c.
Proof.
  split; [|intros S; apply turn_step with c; [exact S|constructor]]. intros H. inversion H as [|? ? a1 ? ? S T]; subst. inversion T; subst. exact S.
Qed.

Lemma event_entry_out f ev key x ev' : event_entry f ev key x ev' -> key <> lit "Text" -> ev_out ev' = ev_out ev.
Proof. intros E N. destruct E; try reflexivity. now elim N. Qed.
Lemma event_steps_out f l : forall ev ev', in_turn (event_step f) ev l ev' -> ~ In (lit "Text") (map fst l) -> ev_out ev' = ev_out ev.
Proof.
  induction l as [|[k v] l IH]; intros ev ev' T N; inversion T as [|? ? e1 ? ? S T']; subst; [reflexivity|].
  cbn [map In fst] in N. rewrite (IH _ _ T') by tauto. destruct S as (t & _ & E). cbn [fst] in E. apply (event_entry_out _ _ _ _ _ E). intros ->. apply N. now left.
Qed.

Lemma combine_fst {A B : Type} (l : list A) : forall (l' : list B), length l = length l' -> map fst (combine l l') = l.
Proof. induction l as [|a l IH]; intros [|b l'] E; cbn in *; try discriminate; [reflexivity|]. f_equal. apply IH. lia. Qed.
Lemma combine_snoc {A B : Type} (l : list A) : forall (l' : list B) a b, length l = length l' -> combine (l ++ [a]) (l' ++ [b]) = combine l l' ++ [(a, b)].
Proof. induction l as [|x l IH]; intros [|y l'] a b E; cbn in *; try discriminate; [reflexivity|]. f_equal. apply IH. lia. Qed.

Lemma trimmed_unique s t t' : trimmed s t -> trimmed s t' -> t = t'.
Proof. intros A B. apply trim_iff in A, B. congruence. Qed.

Theorem text_field f ks vs text raws : sr_event_format f = ks ++ [lit "Text"] -> length vs = length ks -> Forall (fun v => ~ In comma v) vs ->
  ~ In (lit "Text") ks ->
  (dialogue f (join [comma] (vs ++ [text])) = Ok raws <->
   exists ev t, in_turn (event_step f) new_event (combine ks vs) ev /\ trimmed text t /\ text_subtitles (text_context f ev) (ev_sub ev) t raws).
Proof.
  intros F L V N. rewrite dialogue_iff. unfold dialogue_line. rewrite F.
  assert (FV : field_values (length (ks ++ [lit "Text"])) (join [comma] (vs ++ [text])) (vs ++ [text])).
  { split; [rewrite !app_length; cbn; lia|]. split; [reflexivity|]. now rewrite removelast_snoc. }
  split.
  - intros (_ & vs' & ev' & FV' & T & ->). rewrite (field_values_unique _ _ _ _ FV' FV) in T. rewrite combine_snoc in T by (symmetry; exact L).
    apply in_turn_app in T. destruct T as (ev & T1 & T2). pose proof (proj1 (in_turn_one _ _ _ _) T2) as T3; clear T2; destruct T3 as (t & TR & E). cbn [fst snd] in *.
    exists ev, t. split; [exact T1|]. split; [exact TR|].
    assert (O : ev_out ev = []) by (apply (event_steps_out _ _ _ _ T1); rewrite combine_fst by (symmetry; exact L); exact N).
    inversion E as [| | | | | | | | | |r st l rt out x raws TS E1 E2 E3|ev0 key x NK]; subst.
    + cbn [ev_out ev_sub] in *. subst out. exact TS.
    + exfalso. apply NK. cbn. tauto.
  - intros (ev & t & T1 & TR & TS). split; [now destruct ks|]. exists (vs ++ [text]). destruct ev as [r st l rt out] eqn:EV.
    exists (mkEv r st l rt (out ++ raws)). split; [exact FV|]. rewrite combine_snoc by (symmetry; exact L).
    assert (O : out = []) by (change out with (ev_out (mkEv r st l rt out)); apply (event_steps_out _ _ _ _ T1); rewrite combine_fst by (symmetry; exact L); exact N).
    split; [|now rewrite O]. apply in_turn_app. eexists. split; [exact T1|]. refine (proj2 (in_turn_one _ _ _ _) _). exists t. split; [exact TR|]. apply event_text. exact TS.
Qed.

(** * Plain text *)

Lemma plain_items s : plain_text s -> ssa_text s (map Char s).
Proof. induction 1 as [|c s (N1 & N2 & N3) F IH]; cbn [map]; [constructor|]. apply text_char; assumption. Qed.
Lemma items_unique s its its' : ssa_text s its -> ssa_text s its' -> its = its'.
Proof. intros A B. apply lex_iff in A, B. congruence. Qed.
Lemma cut_chars c size r s : forall text ps, cut_up c size r text (map Char s) ps <-> ps = with_piece (text ++ s) r.
Proof.
  induction s as [|x s IH]; intros text ps; cbn [map].
  - rewrite app_nil_r. split; [intros H; inversion H; reflexivity|intros ->; constructor].
  - replace (text ++ x :: s) with ((text ++ [x]) ++ s) by now rewrite <- app_assoc. split.
    + intros H. inversion H; subst. now apply IH.
    + intros E. constructor. now apply IH.
Qed.

Lemma text_subtitles_plain c base s raws : plain_text s -> s <> [] -> r_text base = [] -> text_subtitles c base s raws -> exists r, raws = [r] /\ r_text r = s.
Proof.
  intros P NE B (its & r & n & ps & T & F & M & C & D). rewrite (items_unique _ _ _ T (plain_items s P)), B in C. apply cut_chars in C. subst ps. cbn [app] in D.
  destruct s as [|x s]; [congruence|]. cbn [with_piece] in D. inversion D as [|? r' ? ? (ref & p & _ & _ & ->) D']; subst. inversion D'; subst.
  eexists. split; [reflexivity|reflexivity].
Qed.

Lemma event_entry_text f ev key x ev' : event_entry f ev key x ev' -> r_text (ev_sub ev') = r_text (ev_sub ev).
Proof. now destruct 1. Qed.
Lemma event_steps_text f l : forall ev ev', in_turn (event_step f) ev l ev' -> r_text (ev_sub ev') = r_text (ev_sub ev).
Proof.
  induction l as [|[k v] l IH]; intros ev ev' T; inversion T as [|? ? e1 ? ? S T']; subst; [reflexivity|].
  rewrite (IH _ _ T'). destruct S as (t & _ & E). apply (event_entry_text _ _ _ _ _ E).
Qed.

Theorem plain_text_field f ks vs text raws : sr_event_format f = ks ++ [lit "Text"] -> length vs = length ks -> Forall (fun v => ~ In comma v) vs ->
  ~ In (lit "Text") ks -> plain_text text -> tidy text -> text <> [] ->
  dialogue f (join [comma] (vs ++ [text])) = Ok raws -> exists r, raws = [r] /\ r_text r = text.
Proof.
  intros F L V N P (T1 & T2) NE R. apply (text_field f ks vs text raws F L V N) in R. destruct R as (ev & t & S & TR & TS).
  assert (t = text). { apply (trimmed_unique text); [exact TR|]. exists [], []. rewrite app_nil_r. repeat split; try constructor; assumption. } subst t.
  apply (text_subtitles_plain _ _ _ _ P NE) in TS; [exact TS|]. now rewrite (event_steps_text _ _ _ _ S).
Qed.

(** * Looks *)


Definition alike (r r' : raw) : Prop := bare r = bare r'.
Ltac alike_fields := match goal with A : alike ?r ?r' |- _ =>
  let A' := fresh in pose proof A as A'; clear A; destruct r as [? ? ? ? ? ? ? ? ? ? [? ? ? ?] ? ? ? ?]; destruct r' as [? ? ? ? ? ? ? ? ? ? [? ? ? ?] ? ? ? ?];
  unfold alike, bare, with_text, with_vpos in A'; cbn in A'; injection A' as; subst end.
Lemma override_alike c r r' t r1 : alike r r' -> override c r t r1 -> exists r1', override c r' t r1' /\ alike r1 r1'.
Proof.
  intros A O. inversion O as [s f I E|k h v x I M E|a b1 x b2 y N1 N2 N3 B1 B2 E|n NE E|s last k K E|E|t' N1 N2 N3 N4 N5 E]; subst.
  - exists (f r'). split; [now constructor|]. cbn in I. repeat destruct I as [I|I]; try contradiction; injection I as <- <-; alike_fields; reflexivity.
  - eexists. split; [apply override_align; [exact I|exact M]|]. alike_fields. reflexivity.
  - eexists. split; [apply override_pos; assumption|]. alike_fields. reflexivity.
  - eexists. split; [now apply override_size|]. alike_fields. reflexivity.
  - eexists. split; [apply override_colour; exact K|]. alike_fields. reflexivity.
  - eexists. split; [apply override_colour_reset|]. alike_fields. reflexivity.
  - exists r'. split; [now apply override_nothing|exact A].
Qed.
Lemma shown_alike c r its l : ssa_shown c r its l -> forall r', alike r r' -> ssa_shown c r' its l.
Proof.
  induction 1 as [r|r x its l S IH|r its l S IH|r t r1 its l O S IH]; intros r' A.
  - constructor.
  - rewrite A. constructor. now apply IH.
  - constructor. now apply IH.
  - destruct (override_alike _ _ _ _ _ A O) as (r1' & O' & A'). apply ssa_shown_tag with r1'; [exact O'|]. now apply IH.
Qed.
Lemma alike_sym r r' : alike r r' -> alike r' r.
Proof. intros A. symmetry. exact A. Qed.
Lemma alike_below size r r1 : row_below size r r1 -> alike r r1.
Proof. intros (ref & p & _ & _ & ->). destruct r. reflexivity. Qed.
Lemma cells_piece text r : List.concat (map cells (with_piece text r)) = map (fun x => (x, bare r)) text.
Proof. destruct text; cbn [with_piece map List.concat]; [reflexivity|]. rewrite app_nil_r. reflexivity. Qed.
Lemma piece_not_empty text r : Forall (fun r => r_text r <> []) (with_piece text r).
Proof. destruct text; cbn [with_piece]; repeat constructor. discriminate. Qed.

Lemma cut_shown c size r text its ps : cut_up c size r text its ps ->
  exists l, ssa_shown c r its l /\ List.concat (map cells ps) = map (fun x => (x, bare r)) text ++ l /\ Forall (fun r => r_text r <> []) ps.
Proof.
  induction 1 as [r text|r text x its ps C (l & S & E & F)|r text t r1 its ps O C (l & S & E & F)|r text r1 its ps B C (l & S & E & F)].
  - exists []. split; [constructor|]. split; [now rewrite cells_piece, app_nil_r|apply piece_not_empty].
  - exists ((x, bare r) :: l). split; [now constructor|]. split; [|exact F]. rewrite E, map_app, <- app_assoc. reflexivity.
  - exists l. split; [now apply ssa_shown_tag with r1|]. split; [|apply Forall_app; split; [apply piece_not_empty|exact F]].
    rewrite map_app, concat_app, cells_piece, E. reflexivity.
  - exists l. split; [constructor; apply (shown_alike _ _ _ _ S), alike_sym, (alike_below size), B|]. split; [|apply Forall_app; split; [apply piece_not_empty|exact F]].
    rewrite map_app, concat_app, cells_piece, E. reflexivity.
Qed.
Lemma finished_cells base n size ps raws : Forall2 (finished base n size) ps raws -> map cells raws = map cells ps /\ map r_text raws = map r_text ps.
Proof.
  induction 1 as [|p r ps raws (ref & q & _ & _ & ->) F [IH1 IH2]]; [split; reflexivity|]. cbn [map]. rewrite IH1, IH2. split; reflexivity.
Qed.
Lemma shown_letters c r its l : ssa_shown c r its l -> map fst l = letters its.
Proof. induction 1; cbn [map letters fst]; congruence. Qed.
Lemma cells_letters raws : map fst (List.concat (map cells raws)) = List.concat (map r_text raws).
Proof.
  induction raws as [|r raws IH]; [reflexivity|]. cbn [map List.concat]. rewrite map_app, IH. f_equal. unfold cells. rewrite map_map. apply map_id.
Qed.

Theorem looks_of_text base s c raws : r_text base = [] -> parse_line base s c = Ok raws ->
  exists its r, ssa_text s its /\ first_look c base r /\ ssa_shown c r its (List.concat (map cells raws)) /\
    List.concat (map r_text raws) = letters its /\ Forall (fun r => r_text r <> []) raws.
Proof.
  intros B R. apply parse_line_iff in R. destruct R as (its & r & n & ps & T & F & M & C & D). rewrite B in C. exists its, r.
  apply cut_shown in C. destruct C as (l & S & E & NE). cbn [map app] in E. destruct (finished_cells _ _ _ _ _ D) as [D1 D2]. rewrite D1, E.
  split; [exact T|]. split; [exact F|]. split; [exact S|]. split.
  - rewrite <- cells_letters, D1, E. now apply shown_letters in S.
  - rewrite Forall_forall in *. intros x I. apply (in_map r_text) in I. rewrite D2 in I. apply in_map_iff in I. destruct I as (y & <- & I). now apply NE.
Qed.

(** * Texts that can be read *)

Lemma margin_offset_total c h : margins_fit c -> exists x, margin_offset c h x.
Proof. intros (A & B). destruct h; eexists; constructor; assumption. Qed.
Lemma override_total c r t : margins_fit c -> (forall e, ~ bad_override t e) -> exists r', override c r t r'.
Proof.
  intros (A & B) N. pose proof (parse_tag_defined r t c A B) as D. destruct (parse_tag r t c) as [r'|e|u] eqn:E.
  - exists r'. now apply parse_tag_iff.
  - exfalso. apply (N e). now apply (parse_tag_throws r t c).
  - destruct (D u eq_refl).
Qed.
Definition ready (r : raw) : Prop := exists ref p, v_ref (r_vpos r) = Some ref /\ v_prop (r_vpos r) = Some p.
Lemma override_ready c r t r' : override c r t r' -> ready r -> ready r'.
Proof.
  intros O (ref & p & R & P). inversion O as [s f I E|k h v x I M E|a b1 x b2 y N1 N2 N3 B1 B2 E|n NE E|s last k K E|E|t' N1 N2 N3 N4 N5 E]; subst.
  - exists ref, p. cbn in I. repeat destruct I as [I|I]; try contradiction; injection I as <- <-; now split.
  - exists v, p. now split.
  - eexists _, _. now split.
  - exists ref, p. now split.
  - exists ref, p. now split.
  - exists ref, p. now split.
  - exists ref, p. now split.
Qed.
Lemma cut_total c size its : margins_fit c -> Forall known_tag its -> forall r text, ready r ->
  exists ps, cut_up c size r text its ps.
Proof.
  intros M. induction 1 as [|i its K F IH]; intros r text RD; [eexists; constructor|]. destruct i as [x| |t].
  - destruct (IH r (text ++ [x]) RD) as (ps & C). exists ps. now constructor.
  - destruct RD as (ref & p & R & P). destruct (IH (with_proportion (shifted size ref p) r) []) as (ps & C); [exists ref; eexists; split; [exact R|reflexivity]|].
    eexists. eapply cut_break; [|exact C]. now exists ref, p.
  - destruct (override_total c r t M K) as (r' & O). destruct (IH r' [] (override_ready _ _ _ _ O RD)) as (ps & C). eexists. eapply cut_tag; [exact O|exact C].
Qed.
Lemma cut_ready c size r text its ps : cut_up c size r text its ps -> ready r -> Forall ready ps.
Proof.
  assert (PR : forall text r, ready r -> Forall ready (with_piece text r)).
  { intros [|x tx] q RD; cbn [with_piece]; repeat constructor. exact RD. }
  induction 1 as [r text|r text x its ps C IH|r text t r1 its ps O C IH|r text r1 its ps B C IH]; intros RD.
  - now apply PR.
  - now apply IH.
  - apply Forall_app. split; [now apply PR|]. apply IH. now apply override_ready in O.
  - apply Forall_app. split; [now apply PR|]. apply IH. destruct B as (ref & p & R & P & ->). exists ref. eexists. split; [exact R|reflexivity].
Qed.
Lemma finish_total base n size ps : Forall ready ps -> exists raws, Forall2 (finished base n size) ps raws.
Proof.
  induction 1 as [|r ps (ref & p & R & P) F (raws & IH)]; [exists []; constructor|]. eexists. constructor; [|exact IH]. now exists ref, p.
Qed.
Lemma first_look_ready c base r : first_look c base r -> ready r.
Proof. intros (x & _ & ->). exists (reference_of base), (f_of_int 0). split; reflexivity. Qed.
Theorem text_read base s its c : margins_fit c -> ssa_text s its -> Forall known_tag its -> exists raws, parse_line base s c = Ok raws.
Proof.
  intros M T K. destruct (margin_offset_total c (h_ref (r_hpos base)) M) as (x & MO).
  assert (F : exists r, first_look c base r) by (eexists; exists x; split; [exact MO|reflexivity]). destruct F as (r & F).
  pose proof (first_look_ready _ _ _ F) as RD. destruct (cut_total c (row_size c base) its M K r (r_text base) RD) as (ps & C).
  destruct (finish_total base (count_line_breaks s) (row_size c base) ps (cut_ready _ _ _ _ _ _ C RD)) as (raws & D).
  exists raws. apply parse_line_iff. exists its, r, (count_line_breaks s), ps. split; [exact T|]. split; [exact F|]. split; [apply count_marks|]. now split.
Qed.

(** * Alignments *)

Definition same_refs (r p : raw) : Prop := h_ref (r_hpos p) = h_ref (r_hpos r) /\ v_ref (r_vpos p) = v_ref (r_vpos r).
Lemma piece_refs text r : Forall (same_refs r) (with_piece text r).
Proof. destruct text; cbn [with_piece]; repeat constructor. Qed.
Lemma stays_refs c size r text its ps : cut_up c size r text its ps -> Forall stays its -> Forall (same_refs r) ps.
Proof.
  induction 1 as [r text|r text x its ps C IH|r text t r1 its ps O C IH|r text r1 its ps B C IH]; intros S.
  - apply piece_refs.
  - apply IH. now inversion S.
  - inversion S as [|? ? NN S']; subst. cbn [stays] in NN. destruct NN as (N1 & N2). apply Forall_app. split; [apply piece_refs|]. specialize (IH S').
    assert (E : same_refs r r1).
    { inversion O as [s f I E|k h v x I M E|a b1 x b2 y M1 M2 M3 B1 B2 E|n NE E|s last k K E|E|t' M1 M2 M3 M4 M5 E]; subst.
      - cbn in I. repeat destruct I as [I|I]; try contradiction; injection I as <- <-; now split.
      - now elim (N1 k (h, v) I).
      - now elim (N2 (a ++ b1 :: x ++ b2 :: y)).
      - now split.
      - now split.
      - now split.
      - now split. }
    revert IH. apply Forall_impl. intros p (E1 & E2). destruct E as (E3 & E4). split; congruence.
  - inversion S as [|? ? _ S']; subst. apply Forall_app. split; [apply piece_refs|]. specialize (IH S').
    destruct B as (ref & p & _ & _ & ->). exact IH.
Qed.
Lemma finished_refs base n size r ps raws : Forall2 (finished base n size) ps raws -> Forall (same_refs r) ps -> Forall (same_refs r) raws.
Proof.
  induction 1 as [|p x ps raws (ref & q & R & Q & ->) F IH]; intros H; [constructor|]. inversion H as [|? ? (H1 & H2) H']; subst. constructor; [|now apply IH].
  split; [exact H1|exact H2].
Qed.

Lemma one_tag_block t s its : ~ In "}"%char t -> ~ In bslash t -> ssa_text s its ->
  ssa_text ("{"%char :: (bslash :: t) ++ "}"%char :: s) (Tag [] :: Tag (bslash :: t) :: its).
Proof.
  intros N1 N2 T. apply (text_block (bslash :: t) [[]; bslash :: t] s its).
  - intros I. destruct I as [E|I]; [discriminate|contradiction].
  - exists [], [t]. split; [|reflexivity]. split; [discriminate|]. split; [reflexivity|]. repeat constructor; rewrite contains_one; [intros []|exact N2].
  - exact T.
Qed.

Lemma override_empty c r r' : override c r [] r' -> r' = r.
Proof.
  intros O. inversion O as [s f I E|k h v x I M E|a b1 x b2 y N1 N2 N3 B1 B2 E|n NE E|s last k K E|E|t' N1 N2 N3 N4 N5 E]; subst; try discriminate. reflexivity.
Qed.
(** A text that starts with one tag. *)
Lemma tag_first base t s c raws : r_text base = [] -> ~ In "}"%char t -> ~ In bslash t ->
  parse_line base ("{"%char :: bslash :: t ++ "}"%char :: s) c = Ok raws ->
  exists its r r1 n ps, ssa_text s its /\ first_look c base r /\ override c r (bslash :: t) r1 /\ cut_up c (row_size c base) r1 [] its ps /\
    Forall2 (finished base n (row_size c base)) ps raws /\ break_marks ("{"%char :: bslash :: t ++ "}"%char :: s) n.
Proof.
  intros B N1 N2 R. apply parse_line_iff in R. destruct R as (its & r & n & ps & T & F & M & C & D).
  destruct (ssa_text_exists (length s) s (le_n _)) as (its' & T'). pose proof (one_tag_block t s its' N1 N2 T') as T2.
  rewrite (items_unique _ _ _ T T2), B in C. inversion C as [| |? ? ? r0 ? ps' O0 C0|]; subst. cbn [with_piece app] in *.
  apply override_empty in O0. subst r0. inversion C0 as [| |? ? ? r1 ? ps2 O1 C1|]; subst. cbn [with_piece app] in *.
  exists its', r, r1, n, ps2. repeat (split; [assumption|]). assumption.
Qed.

Theorem align_tag base k h v s its c raws : In (k, (h, v)) keypad -> r_text base = [] -> ssa_text s its -> Forall stays its ->
  parse_line base (lit "{" ++ tag "an" ++ lit k ++ lit "}" ++ s) c = Ok raws ->
  Forall (fun r => h_ref (r_hpos r) = h /\ v_ref (r_vpos r) = Some v) raws.
Proof.
  intros K B T S R.
  assert (K' : exists x, lit k = [x] /\ x <> "}"%char /\ x <> bslash).
  { cbn in K. repeat destruct K as [K|K]; try contradiction; injection K as <- <- <-; eexists; (split; [reflexivity|]); split; discriminate. }
  destruct K' as (x & EK & X1 & X2). rewrite EK in R.
  apply (tag_first base (lit "an" ++ [x]) s c raws B) in R; [|cbn; intuition congruence..].
  destruct R as (its' & r & r1 & n & ps & T' & F & O & C & D & _). rewrite (items_unique _ _ _ T' T) in C.
  pose proof (stays_refs _ _ _ _ _ _ C S) as SR. apply (finished_refs _ _ _ _ _ _ D) in SR. revert SR. apply Forall_impl. intros p (E1 & E2). rewrite E1, E2.
  assert (O' : exists y, margin_offset c h y /\ r1 = with_reference v (with_horizontal h y r)).
  { apply parse_tag_iff in O. rewrite <- EK in O. change (bslash :: lit "an" ++ lit k) with (tag "an" ++ lit k) in O.
    apply parse_tag_iff in O. inversion O as [s' f I E|k' h' v' y I M E|a b1 y b2 z N1 N2 N3 B1 B2 E|? NE E|s' last ? ? E|E|t' N1 N2 N3 N4 N5 E]; subst; try discriminate.
    - exfalso. clear - I E K. cbn in I, K. repeat destruct I as [I|I]; try contradiction; injection I as <- <-; repeat destruct K as [K|K]; try contradiction; injection K as <- <- <-; discriminate.
    - assert (EE : (k', (h', v')) = (k, (h, v))).
      { cbn in I, K. repeat destruct I as [I|I]; try contradiction; injection I as <- <- <-; repeat destruct K as [K|K]; try contradiction; injection K as <- <- <-; (reflexivity || discriminate). }
      injection EE as -> -> ->. now exists y.
    - now elim (N2 k (h, v) K). }
  destruct O' as (y & _ & ->). split; reflexivity.
Qed.
Theorem keeps_alignment base s its c raws : ssa_text s its -> Forall stays its -> parse_line base s c = Ok raws ->
  Forall (fun r => h_ref (r_hpos r) = h_ref (r_hpos base) /\ v_ref (r_vpos r) = Some (reference_of base)) raws.
Proof.
  intros T S R. apply parse_line_iff in R. destruct R as (its' & r & n & ps & T' & F & M & C & D). rewrite (items_unique _ _ _ T' T) in C.
  pose proof (stays_refs _ _ _ _ _ _ C S) as SR. apply (finished_refs _ _ _ _ _ _ D) in SR. revert SR. apply Forall_impl. intros p (E1 & E2).
  destruct F as (x & _ & ->). now split.
Qed.

(** * Style fields *)

Section LastValue.
  Variables (A : Type) (get : style -> A) (key : str).
  Hypothesis others : forall st k x st', style_entry st k x st' -> k <> key -> get st' = get st.
  Lemma style_steps_keep l : forall st st', in_turn style_step st l st' -> (forall k v, In (k, v) l -> ~ trimmed k key) -> get st' = get st.
  Proof.
    induction l as [|[k v] l IH]; intros st st' T N; inversion T as [|? ? s1 ? ? S T']; subst; [reflexivity|].
    rewrite (IH _ _ T') by (intros k' v' I; apply (N k' v'); now right). destruct S as (k1 & v1 & TK & TV & E). cbn [fst snd] in *.
    apply (others _ _ _ _ E). intros ->. apply (N k v); [now left|exact TK].
  Qed.
  Lemma last_value_set format line value st : style_parse format line = Ok st -> last_value key format line value ->
    exists s0 s1, style_entry s0 key value s1 /\ get st = get s1.
  Proof.
    intros R (ks & vs & before & k & v & after & P1 & P2 & L & E & TK & TV & N). apply style_parse_iff in R. destruct R as (ks' & vs' & P1' & P2' & _ & T).
    rewrite (parts_unique _ _ _ _ P1' P1), (parts_unique _ _ _ _ P2' P2), E in T. pose proof (proj1 (in_turn_app _ _ _ _ _) T) as (s0 & T1 & T2).
    inversion T2 as [|? ? s1 ? ? S T3]; subst. destruct S as (k1 & v1 & TK1 & TV1 & EN). cbn [fst snd] in *.
    rewrite (trimmed_unique _ _ _ TK1 TK), (trimmed_unique _ _ _ TV1 TV) in EN. exists s0, s1. split; [exact EN|]. apply (style_steps_keep _ _ _ T3 N).
  Qed.
  Lemma no_key_keeps format line st : style_parse format line = Ok st -> no_key key format -> get st = get base_style.
  Proof.
    intros R (ks & P1 & N). apply style_parse_iff in R. destruct R as (ks' & vs' & P1' & P2' & _ & T). rewrite (parts_unique _ _ _ _ P1' P1) in T.
    apply (style_steps_keep _ _ _ T). intros k v I. apply in_combine_l in I. rewrite Forall_forall in N. now apply N.
  Qed.
End LastValue.

Definition refs_of (st : style) : href * vref := (st_href st, st_vref st).
Lemma refs_others st k x st' : style_entry st k x st' -> k <> lit "Alignment" -> refs_of st' = refs_of st.
Proof. intros E N. destruct E; try reflexivity. now elim N. Qed.
Lemma primary_others st k x st' : style_entry st k x st' -> k <> lit "PrimaryColour" -> st_primary_colour st' = st_primary_colour st.
Proof. intros E N. destruct E; try reflexivity. now elim N. Qed.
Lemma back_others st k x st' : style_entry st k x st' -> k <> lit "BackColour" -> st_back_colour st' = st_back_colour st.
Proof. intros E N. destruct E; try reflexivity. now elim N. Qed.

Lemma alignment_unique v h vr h' vr' : alignment v h vr -> alignment v h' vr' -> h = h' /\ vr = vr'.
Proof. intros A B. apply alignment_iff in A, B. intuition congruence. Qed.
Theorem style_alignment format line value h v st : style_parse format line = Ok st -> last_value (lit "Alignment") format line value -> alignment value h v ->
  st_href st = h /\ st_vref st = v.
Proof.
  intros R L A. destruct (last_value_set _ refs_of _ refs_others _ _ _ _ R L) as (s0 & s1 & E & G). unfold refs_of in G. injection G as -> ->.
  inversion E as [| | | | | | | | | |? ? ? ? ? ? ? ? ? ? ? ? ? ? ? h' v' A'| | | |? ? ? N]; subst.
  - cbn. now apply (alignment_unique value).
  - exfalso. apply N. cbn. tauto.
Qed.
Theorem style_no_alignment format line st : style_parse format line = Ok st -> no_key (lit "Alignment") format ->
  st_href st = HORIZONTAL_CENTRE_OF_SCREEN /\ st_vref st = BOTTOM_OF_SCREEN.
Proof. intros R N. pose proof (no_key_keeps _ refs_of _ refs_others _ _ _ R N) as G. unfold refs_of in G. injection G as -> ->. now split. Qed.

(** * Colours *)

Lemma hex_pair_app a va s v : hex_numeral a va -> hex_pair s v -> hex_numeral (a ++ s) (256 * va + v).
Proof.
  intros A (c1 & d1 & c2 & d2 & -> & H1 & H2 & ->). change [c1; c2] with ([c1] ++ [c2]). rewrite app_assoc.
  replace (256 * va + (16 * d1 + d2)) with (16 * (16 * va + d1) + d2) by lia. constructor; [|exact H2]. now constructor.
Qed.
Lemma hex_pair_bound s v : hex_pair s v -> 0 <= v <= 255.
Proof. intros (c1 & d1 & c2 & d2 & _ & H1 & H2 & ->). unfold hex_digit in *. lia. Qed.
Lemma hex_pair_hex s v : hex_pair s v -> Forall is_hex_char s.
Proof. intros (c1 & d1 & c2 & d2 & -> & H1 & H2 & _). repeat constructor; eexists; eassumption. Qed.
Ltac code_lia := match goal with |- context [char_code ?x] => let v := eval vm_compute in (char_code x) in change (char_code x) with v; lia end.
Ltac code_lia_in H := match type of H with context [char_code ?x] => let v := eval vm_compute in (char_code x) in change (char_code x) with v in H; lia end.
Lemma hex_not_special c : is_hex_char c -> ~ ampersand_or_h c /\ ~ white c /\ ~ is_sign_char c /\ c <> "x"%char /\ c <> "X"%char /\ c <> "}"%char /\ c <> bslash /\ c <> ","%char.
Proof.
  intros (d & H).
  assert (K : 48 <= char_code c <= 57 \/ 65 <= char_code c <= 70 \/ 97 <= char_code c <= 102) by (unfold hex_digit in H; lia). clear H.
  assert (NE : forall x, ~ (48 <= char_code x <= 57 \/ 65 <= char_code x <= 70 \/ 97 <= char_code x <= 102) -> c <> x) by (intros x N ->; contradiction).
  unfold ampersand_or_h, is_sign_char, white. split; [|split; [lia|split; [|repeat split; apply NE; code_lia]]].
  - intros [E|E]; revert E; apply NE; code_lia.
  - intros [E|E]; revert E; apply NE; code_lia.
Qed.
Lemma bgr_bytes r g b a : 0 <= r <= 255 -> 0 <= g <= 255 -> 0 <= b <= 255 -> bgr (((a * 256 + b) * 256 + g) * 256 + r) = rgb r g b.
Proof.
  intros R G B. unfold bgr, rgb, of_255. change (fdiv (f_of_int r) (f_of_int 255)) with (byte_fraction r). change (fdiv (f_of_int g) (f_of_int 255)) with (byte_fraction g).
  change (fdiv (f_of_int b) (f_of_int 255)) with (byte_fraction b). rewrite !byte_fraction_share by assumption.
  f_equal; f_equal.
  - rewrite Z.add_comm, Z.mod_add by lia. apply Z.mod_small. lia.
  - rewrite Z.add_comm, Z.div_add by lia. rewrite (Z.div_small r) by lia. rewrite Z.add_0_l, Z.add_comm, Z.mod_add by lia. apply Z.mod_small. lia.
  - change 65536 with (256 * 256). rewrite <- Z.div_div by lia. rewrite Z.add_comm, Z.div_add by lia. rewrite (Z.div_small r), Z.add_0_l by lia.
    rewrite Z.add_comm, Z.div_add by lia. rewrite (Z.div_small g), Z.add_0_l by lia. rewrite Z.add_comm, Z.mod_add by lia. apply Z.mod_small. lia.
Qed.
Lemma colour_bytes alpha bs gs rs b g r e : alpha_or_none alpha -> hex_pair bs b -> hex_pair gs g -> hex_pair rs r -> ~ begins is_hex_char e ->
  colour_text (lit "&H" ++ alpha ++ bs ++ gs ++ rs ++ e) (rgb r g b).
Proof.
  intros A B G R N. set (n := alpha ++ bs ++ gs ++ rs ++ e).
  assert (AV : exists a, 0 <= a <= 255 /\ hex_numeral alpha a /\ Forall is_hex_char alpha).
  { destruct A as [->|(a & A)]; [exists 0; split; [lia|]; split; constructor|]. exists a. split; [now apply hex_pair_bound in A|].
    split; [|now apply hex_pair_hex in A]. change alpha with ([] ++ alpha). replace a with (256 * 0 + a) by lia. apply hex_pair_app; [constructor|exact A]. }
  destruct AV as (a & AB & AH & AF).
  pose proof (hex_pair_app _ _ _ _ (hex_pair_app _ _ _ _ (hex_pair_app _ _ _ _ AH B) G) R) as H.
  pose proof (hex_pair_bound _ _ B). pose proof (hex_pair_bound _ _ G). pose proof (hex_pair_bound _ _ R).
  set (d := ((alpha ++ bs) ++ gs) ++ rs) in *. assert (E : n = d ++ e) by (unfold n, d; now rewrite <- !app_assoc).
  assert (DF : Forall is_hex_char d).
  { unfold d. repeat (apply Forall_app; split); [exact AF|eapply hex_pair_hex; eassumption..]. }
  assert (DN : exists x d', d = x :: d' /\ is_hex_char x).
  { destruct d as [|x d'] eqn:DE; [|exists x, d'; split; [reflexivity|now inversion DF]]. exfalso. unfold d in DE. apply app_eq_nil in DE. destruct DE as [_ DE]. destruct R as (? & ? & ? & ? & -> & _). discriminate. }
  destruct DN as (x & d' & DE & HX). destruct (hex_not_special _ HX) as (X1 & X2 & X3 & X4 & X5 & _).
  exists [], n, (256 * (256 * (256 * a + b) + g) + r). split; [reflexivity|]. split; [constructor|].
  assert (BE : forall P : ascii -> Prop, ~ P x -> ~ begins P n) by (intros P NP; rewrite E, DE; exact NP).
  split; [now apply BE|]. split.
  - change n with ([] ++ n). apply c_hex_positive; [constructor|now apply BE|now apply BE|]. rewrite E. apply c_hex_plain; [exact H|exact N|].
    intros p c t P EP I. destruct d' as [|y d'].
    + (* six digits at least *) exfalso. assert (length d = 1%nat) by now rewrite DE. unfold d in H3. rewrite app_length in H3. destruct R as (? & ? & ? & ? & -> & _), G as (? & ? & ? & ? & -> & _). rewrite !app_length in H3. cbn in H3. lia.
    + rewrite DE in DF. inversion DF as [|? ? _ DF']; subst. inversion DF' as [|? ? HY _]; subst. destruct (hex_not_special _ HY) as (_ & _ & _ & Y4 & Y5 & _).
      rewrite DE in EP. destruct P as [->| ->]; cbn in EP; injection EP as; congruence.
  - unfold saturate. rewrite Z.min_r, Z.max_r by lia. symmetry. replace (256 * (256 * (256 * a + b) + g) + r) with (((a * 256 + b) * 256 + g) * 256 + r) by lia. now apply bgr_bytes.
Qed.

Theorem colour_tag base alpha bs gs rs b g r s c raws : alpha_or_none alpha -> hex_pair bs b -> hex_pair gs g -> hex_pair rs r -> r_text base = [] ->
  plain_text s -> s <> [] -> parse_line base (lit "{" ++ tag "c" ++ lit "&H" ++ alpha ++ bs ++ gs ++ rs ++ lit "&}" ++ s) c = Ok raws ->
  exists x, raws = [x] /\ r_text x = s /\ r_colour x = rgb r g b.
Proof.
  intros A B G R BT P NE RD. set (t := lit "c&H" ++ alpha ++ bs ++ gs ++ rs ++ lit "&").
  assert (HF : Forall is_hex_char (alpha ++ bs ++ gs ++ rs)).
  { repeat (apply Forall_app; split); try (eapply hex_pair_hex; eassumption). destruct A as [->|(a & A)]; [constructor|]. eapply hex_pair_hex; eassumption. }
  assert (NT : forall x, In x t -> x <> "}"%char /\ x <> bslash).
  { intros x I. unfold t in I. rewrite Forall_forall in HF. repeat rewrite in_app_iff in I. repeat rewrite in_app_iff in HF.
    destruct I as [I|I]; [cbn in I; intuition (subst; discriminate)|].
    assert (HX : In x (alpha ++ bs ++ gs ++ rs) \/ In x (lit "&")) by (rewrite !in_app_iff; tauto). destruct HX as [HX|HX].
    - apply HF in HX. apply hex_not_special in HX. tauto.
    - cbn in HX. intuition (subst; discriminate). }
  assert (EQ : lit "{" ++ tag "c" ++ lit "&H" ++ alpha ++ bs ++ gs ++ rs ++ lit "&}" ++ s = "{"%char :: bslash :: t ++ "}"%char :: s).
  { unfold t. repeat rewrite <- app_assoc. reflexivity. }
  rewrite EQ in RD. apply (tag_first base t s c raws BT) in RD; [|intros I; now apply NT in I..].
  destruct RD as (its & r0 & r1 & n & ps & T & F & O & C & D & _). rewrite (items_unique _ _ _ T (plain_items s P)) in C. apply cut_chars in C. subst ps. cbn [app] in D.
  destruct s as [|x s]; [congruence|]. cbn [with_piece] in D. inversion D as [|? r' ? ? (ref & p & _ & _ & ->) D']; subst. inversion D'; subst.
  eexists. split; [reflexivity|]. split; [reflexivity|]. cbn.
  assert (CT : colour_text (lit "&H" ++ alpha ++ bs ++ gs ++ rs) (rgb r g b)).
  { rewrite <- (app_nil_r rs). apply (colour_bytes alpha bs gs rs b g r []); try assumption. intros []. }
  assert (PT : parse_tag r0 (bslash :: t) c = Ok (with_colour (rgb r g b) r0)).
  { apply parse_tag_iff. replace (bslash :: t) with (tag "c" ++ (lit "&H" ++ alpha ++ bs ++ gs ++ rs) ++ ["&"%char]) by (unfold t; rewrite <- !app_assoc; reflexivity).
    now apply override_colour. }
  apply parse_tag_iff in O. rewrite O in PT. injection PT as ->. reflexivity.
Qed.

Lemma numeral_chars d v : numeral d v -> Forall is_digit_char d /\ d <> [].
Proof.
  induction 1 as [c d H|s v c d N [IH1 IH2] H].
  - split; [|discriminate]. repeat constructor. now exists d.
  - split; [|now destruct s]. apply Forall_app. split; [exact IH1|]. repeat constructor. now exists d.
Qed.
Lemma numeral_nonneg d v : numeral d v -> 0 <= v.
Proof. intros N. now apply numeral_digits in N. Qed.
Lemma written_colour_is s r g b : written_colour s r g b -> style_colour_is s (rgb r g b).
Proof.
  intros [(alpha & bs & gs & rs & e & -> & A & B & G & R & E)|(B1 & B2 & B3 & N)].
  - apply colour_hex. apply colour_bytes; try assumption. destruct E as [->| ->]; [intros []|]. cbn. intros H. apply hex_not_special in H. destruct H as [H _]. apply H. now left.
  - rewrite <- (bgr_bytes r g b 0) by assumption. apply colour_decimal.
    + intros X. destruct s as [|x s]; [contradiction|]. cbn in X. subst x. apply numeral_chars in N. destruct N as [N _]. inversion N as [|? ? (d & H1 & H2) _]; subst. code_lia_in H2.
    + apply convert_int_iff. apply (convert_digits _ _ _ N). split; [unfold is_int; lia|lia].
Qed.
Lemma style_colour_unique s k k' : style_colour_is s k -> style_colour_is s k' -> k = k'.
Proof. intros A B. apply style_colour_iff in A, B. congruence. Qed.
Theorem style_primary format line value r g b st : style_parse format line = Ok st -> last_value (lit "PrimaryColour") format line value ->
  written_colour value r g b -> st_primary_colour st = rgb r g b.
Proof.
  intros R L A. destruct (last_value_set _ st_primary_colour _ primary_others _ _ _ _ R L) as (s0 & s1 & E & ->).
  inversion E as [| | |? ? ? ? ? ? ? ? ? ? ? ? ? ? ? y C| | | | | | | | | | |? ? ? N]; subst.
  - cbn. apply (style_colour_unique value); [exact C|]. now apply written_colour_is.
  - exfalso. apply N. cbn. tauto.
Qed.
Theorem style_back format line value r g b st : style_parse format line = Ok st -> last_value (lit "BackColour") format line value ->
  written_colour value r g b -> st_back_colour st = Some (rgb r g b).
Proof.
  intros R L A. destruct (last_value_set _ st_back_colour _ back_others _ _ _ _ R L) as (s0 & s1 & E & ->).
  inversion E as [| | | |? ? ? ? ? ? ? ? ? ? ? ? ? ? ? y C| | | | | | | | | |? ? ? N]; subst.
  - cbn. f_equal. apply (style_colour_unique value); [exact C|]. now apply written_colour_is.
  - exfalso. apply N. cbn. tauto.
Qed.

(** * Times *)

Lemma digits_no_sign d : Forall is_digit_char d -> no_time_sign d.
Proof.
  apply Forall_impl. intros c (d' & H1 & H2) [->| ->]; code_lia_in H2.
Qed.
Theorem time_read hs ms ss cs h m s c : numeral hs h -> numeral ms m -> numeral ss s -> numeral cs c -> h * 3600 + m * 60 + s < 2 ^ 31 -> c * 10 < 2 ^ 31 ->
  ssa_parse_time (hs ++ lit ":" ++ ms ++ lit ":" ++ ss ++ lit "." ++ cs) = Ok (mkT (h * 3600 + m * 60 + s) (c * 10) (Some (mkR 1000 1))).
Proof.
  intros H M S C L1 L2. apply parse_time_iff. pose proof (numeral_nonneg _ _ H). pose proof (numeral_nonneg _ _ M). pose proof (numeral_nonneg _ _ S). pose proof (numeral_nonneg _ _ C).
  assert (IT : forall d v, numeral d v -> 0 <= v < 2 ^ 31 -> int_text d v).
  { intros d v N B. apply convert_int_iff. apply (convert_digits _ _ _ N). split; [unfold is_int; lia|reflexivity]. }
  exists hs, ms, ss, cs, h, m, s, c. split.
  - exists ":"%char, ":"%char, "."%char. split; [reflexivity|]. unfold time_sign. 
    repeat (split; [tauto|]). repeat split; apply digits_no_sign; eapply numeral_chars; eassumption.
  - repeat (split; [apply IT; [assumption|lia]|]). split; [unfold is_int; lia|]. split; [|reflexivity]. unfold time_fits, is_int. lia.
Qed.

(** * Alignments of [V4 Styles] *)

Theorem v4_bottom : forall format line k h v st, In (k, (h, v)) v4_alignments -> In k ["1"; "2"; "3"]%string ->
  style_parse format line = Ok st -> last_value (lit "Alignment") format line (lit k) -> st_href st = h /\ st_vref st = v.
Proof.
  intros format line k h v st I J R L. apply (style_alignment format line (lit k) h v st R L). left. exists k. split; [|reflexivity].
  cbn in J. repeat destruct J as [J|J]; try contradiction; subst k; cbn in I; repeat destruct I as [I|I]; try contradiction; try discriminate; injection I as <- <-; cbn [In keypad]; tauto.
Qed.
Definition v4_given (k : string) : href * vref :=
  if String.eqb k "1" then (LEFT_OF_SCREEN, BOTTOM_OF_SCREEN) else if String.eqb k "3" then (RIGHT_OF_SCREEN, BOTTOM_OF_SCREEN)
  else if String.eqb k "5" then (HORIZONTAL_CENTRE_OF_SCREEN, VERTICAL_CENTRE_OF_SCREEN) else if String.eqb k "6" then (RIGHT_OF_SCREEN, VERTICAL_CENTRE_OF_SCREEN)
  else if String.eqb k "7" then (LEFT_OF_SCREEN, TOP_OF_SCREEN) else if String.eqb k "9" then (RIGHT_OF_SCREEN, TOP_OF_SCREEN)
  else (HORIZONTAL_CENTRE_OF_SCREEN, BOTTOM_OF_SCREEN).
Lemma v4_given_ok k h v : In (k, (h, v)) v4_alignments -> alignment (lit k) (fst (v4_given k)) (snd (v4_given k)).
Proof.
  intros I. cbn in I. repeat destruct I as [I|I]; try contradiction; injection I as <- <- <-; cbn [v4_given String.eqb Ascii.eqb Bool.eqb fst snd].
  all: try (left; eexists; split; [|reflexivity]; cbn [In keypad]; tauto).
  all: right; split; [|split; reflexivity]; intros k hv J; cbn in J; repeat destruct J as [J|J]; try contradiction; injection J as <- <-; discriminate.
Qed.
Theorem v4_all : forall format line k h v st, In (k, (h, v)) v4_alignments -> style_parse format line = Ok st -> last_value (lit "Alignment") format line (lit k) ->
  (st_href st = h /\ st_vref st = v <-> In k ["1"; "2"; "3"]%string).
Proof.
  intros format line k h v st I R L. destruct (style_alignment format line (lit k) _ _ st R L (v4_given_ok k h v I)) as (E1 & E2). rewrite E1, E2. clear R L E1 E2.
  cbn in I. repeat destruct I as [I|I]; try contradiction; injection I as <- <- <-; cbn [v4_given String.eqb Ascii.eqb Bool.eqb fst snd In].
  all: split; [intros (A & B); try discriminate; tauto|intros J; try (split; reflexivity); exfalso; repeat destruct J as [J|J]; try contradiction; discriminate].
Qed.
