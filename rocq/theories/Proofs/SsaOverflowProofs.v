(** The undefined behaviour of the SSA reader against Spec/SsaOverflowSpec. *)
From Coq Require Import ZArith List Bool Ascii String Lia.
From Verif.Model Require Import Base Strings Float TimeModel Types Lines RawConvert Compose.
From Verif.Spec Require Import Outcome TextSpec LinesSpec StlFileSpec RawSpec SsaTagSpec SsaSpec SsaUseSpec SsaOverflowSpec.
From Verif.Proofs Require Import StringProofs LinesProofs ComposeProofs StlReadProofs SsaTagProofs SsaTextProofs SsaProofs SsaUseProofs SsaSafeProofs.
From Verif.Model Require Import Ssa.
Import ListNotations.
Local Open Scope Z_scope.
Local Notation length := List.length.

Lemma bind_undef {A B : Type} (x : res A) (f : A -> res B) u : bind x f = Undef u <-> x = Undef u \/ exists a, x = Ok a /\ f a = Undef u.
Proof.
  destruct x as [a|e|u']; cbn.
  - split; [intros H; right; now exists a|]. intros [H|(b & [= <-] & H)]; [discriminate|exact H].
  - split; [discriminate|]. intros [H|(b & H & _)]; discriminate.
  - split; [intros [= <-]; now left|]. intros [[= <-]|(b & H & _)]; [reflexivity|discriminate].
Qed.
Lemma bind_ok_undef {A B : Type} (x : res A) (g : A -> B) u : (let* y := x in Ok (g y)) = Undef u <-> x = Undef u.
Proof. rewrite bind_undef. split; [intros [H|(y & _ & H)]; [exact H|discriminate]|tauto]. Qed.
(** [overflow x P]: [x] is undefined just when [P]. *)
Definition overflow {A : Type} (x : res A) (P : Prop) : Prop := forall u, x = Undef u <-> u = UbIntOverflow /\ P.
Lemma overflow_iff {A : Type} (x : res A) P Q : (P <-> Q) -> overflow x P -> overflow x Q.
Proof. intros E O u. specialize (O u). rewrite O. tauto. Qed.
Lemma overflow_map {A B : Type} (x : res A) (g : A -> B) P : overflow x P -> overflow (let* y := x in Ok (g y)) P.
Proof. intros O u. rewrite bind_ok_undef. apply O. Qed.
Lemma overflow_never {A : Type} (x : res A) (P : Prop) : (forall u, x <> Undef u) -> ~ P -> overflow x P.
Proof. intros N NP u. split; [intros H; now apply N in H|tauto]. Qed.
Lemma overflow_bind {A B : Type} (x : res A) (f : A -> res B) P (Q : A -> Prop) : overflow x P -> (forall a, x = Ok a -> overflow (f a) (Q a)) ->
  overflow (bind x f) (P \/ exists a, x = Ok a /\ Q a).
Proof.
  intros O F u. specialize (O u). rewrite bind_undef, O. split.
  - intros [[-> H]|(a & E & H)]; [tauto|]. apply (F a E) in H. destruct H as [-> H]. split; [reflexivity|]. right. now exists a.
  - intros [-> [H|(a & E & H)]]; [tauto|]. right. exists a. split; [exact E|]. apply (F a E). now split.
Qed.

Lemma chk_overflow z : overflow (chk z) (~ is_int z).
Proof. intros u. unfold chk. destruct (in_int z) eqn:E; [apply in_int_iff in E; split; [discriminate|tauto]|]. split; [intros [= <-]|intros [-> _]; reflexivity]. split; [reflexivity|]. intros I. apply in_int_iff in I. congruence. Qed.
Lemma is_int_dec z : is_int z \/ ~ is_int z.
Proof. unfold is_int. lia. Qed.

(** * Steps *)

Section Steps.
Context {A B : Type} (f : A -> B -> res A) (F : A -> list B -> res A).
Hypothesis F_nil : forall a, F a [] = Ok a.
Hypothesis F_cons : forall a b l, F a (b :: l) = bind (f a b) (fun a' => F a' l).
Variable step : A -> B -> A -> Prop.
Hypothesis step_iff : forall a b a', f a b = Ok a' <-> step a b a'.
Variable stop : A -> B -> Prop.
Hypothesis stop_iff : forall a b, overflow (f a b) (stop a b).

Lemma steps_stop l : forall a, overflow (F a l) (stops_in_turn step stop a l).
Proof.
  induction l as [|b l IH]; intros a.
  - rewrite F_nil. apply overflow_never; [discriminate|]. intros (before & b & after & a1 & E & _). destruct before; discriminate.
  - rewrite F_cons. eapply overflow_iff; [|apply overflow_bind; [apply stop_iff|intros a' _; apply IH]]. split.
    + intros [H|(a1 & H & K)].
      * exists [], b, l, a. split; [reflexivity|]. split; [constructor|exact H].
      * destruct K as (before & b' & after & a2 & -> & T & Fl). exists (b :: before), b', after, a2.
        split; [reflexivity|]. split; [|exact Fl]. apply turn_step with a1; [now apply step_iff|exact T].
    + intros (before & b' & after & a2 & E & T & Fl). destruct before as [|b0 before]; cbn in E; injection E; intros; subst.
      * left. inversion T; subst. exact Fl.
      * right. inversion T as [|? ? a1 ? ? S T1]; subst. exists a1. split; [now apply step_iff|]. exists before, b', after, a2. now split.
Qed.
End Steps.

(** * Numbers and times *)

Lemma convert_overflow s : overflow (raw_convert_int s) (too_big s).
Proof.
  rewrite convert_int_cval. eapply overflow_iff; [|apply chk_overflow]. split.
  - intros N. exists (cval s). split; [apply c_number_total|exact N].
  - intros (v & C & N). apply c_number_cval in C. now subst v.
Qed.
Lemma hms_overflow h m s ms : overflow (from_hms h m s ms) (~ time_fits h m s).
Proof.
  intros u. unfold from_hms, hms_seconds, iadd, imul, chk.
  destruct (from_hms h m s ms) as [t|e|u'] eqn:E.
  - assert (T : time_fits h m s) by (apply from_hms_iff in E; tauto). unfold from_hms, hms_seconds, iadd, imul, chk in E. rewrite E. split; [discriminate|tauto].
  - now apply from_hms_no_throw in E.
  - assert (T : ~ time_fits h m s). { intros T. assert (X : from_hms h m s ms = Ok (mkT (h * 3600 + m * 60 + s) ms (Some (mkR 1000 1)))) by (apply from_hms_iff; now split). congruence. }
    assert (U : u' = UbIntOverflow).
    { clear T. unfold from_hms, hms_seconds, iadd, imul, chk in E. repeat (match type of E with context [in_int ?z] => destruct (in_int z); cbn [bind] in E end; try discriminate; try congruence). }
    unfold from_hms, hms_seconds, iadd, imul, chk in E. rewrite E. subst u'. split; [intros [= <-]; now split|intros [-> _]; reflexivity].
Qed.

Lemma four_parts_unique s a b c d a' b' c' d' : four_parts s a b c d -> four_parts s a' b' c' d' -> a = a' /\ b = b' /\ c = c' /\ d = d'.
Proof. intros X Y. apply four_parts_iff in X, Y. rewrite X in Y. injection Y as -> -> -> ->. tauto. Qed.

Lemma time_overflow s : overflow (ssa_parse_time s) (ssa_time_overflows s).
Proof.
  unfold ssa_parse_time. destruct (split (is_any_of (lit ":.")) s) as [|a [|b [|c [|d [|x l]]]]] eqn:E;
    try (apply overflow_never; [discriminate|]; intros (a' & b' & c' & d' & _ & _ & _ & _ & FP & _); apply four_parts_iff in FP; congruence).
  apply four_parts_iff in E. rewrite !convert_int_cval.
  assert (O : overflow (let* h := chk (cval a) in let* m := chk (cval b) in let* s0 := chk (cval c) in let* c0 := chk (cval d) in
     let* ms := imul c0 10 in from_hms h m s0 ms)
     (~ (is_int (cval a) /\ is_int (cval b) /\ is_int (cval c) /\ is_int (cval d) /\ is_int (cval d * 10) /\ time_fits (cval a) (cval b) (cval c)))).
  { intros u. unfold imul, chk at 1. destruct (in_int (cval a)) eqn:Ia; cbn [bind].
    2:{ split; [intros [= <-]; split; [reflexivity|]|intros [-> _]; reflexivity]. intros (I & _). apply in_int_iff in I. congruence. }
    apply in_int_iff in Ia. unfold chk at 1. destruct (in_int (cval b)) eqn:Ib; cbn [bind].
    2:{ split; [intros [= <-]; split; [reflexivity|]|intros [-> _]; reflexivity]. intros (_ & I & _). apply in_int_iff in I. congruence. }
    apply in_int_iff in Ib. unfold chk at 1. destruct (in_int (cval c)) eqn:Ic; cbn [bind].
    2:{ split; [intros [= <-]; split; [reflexivity|]|intros [-> _]; reflexivity]. intros (_ & _ & I & _). apply in_int_iff in I. congruence. }
    apply in_int_iff in Ic. unfold chk at 1. destruct (in_int (cval d)) eqn:Id; cbn [bind].
    2:{ split; [intros [= <-]; split; [reflexivity|]|intros [-> _]; reflexivity]. intros (_ & _ & _ & I & _). apply in_int_iff in I. congruence. }
    apply in_int_iff in Id. unfold chk at 1. destruct (in_int (cval d * 10)) eqn:Ie; cbn [bind].
    2:{ split; [intros [= <-]; split; [reflexivity|]|intros [-> _]; reflexivity]. intros (_ & _ & _ & _ & I & _). apply in_int_iff in I. congruence. }
    apply in_int_iff in Ie. pose proof (hms_overflow (cval a) (cval b) (cval c) (cval d * 10) u) as HM. rewrite HM. tauto. }
  revert O. apply overflow_iff. unfold ssa_time_overflows. split.
  - intros N. exists a, b, c, d, (cval a), (cval b), (cval c), (cval d). repeat (split; [first [exact E|apply c_number_total]|]). exact N.
  - intros (a' & b' & c' & d' & h & m & sec & cs & FP & Ca & Cb & Cc & Cd & N). destruct (four_parts_unique _ _ _ _ _ _ _ _ _ E FP) as (<- & <- & <- & <-).
    apply c_number_cval in Ca, Cb, Cc, Cd. subst. exact N.
Qed.

(** * Tags and texts *)

Lemma margin_overflow c r : overflow (update_horizontal_position c r) (margins_overflow c (h_ref (r_hpos r))).
Proof.
  unfold update_horizontal_position, margins_overflow. destruct (h_ref (r_hpos r)).
  - apply overflow_never; [discriminate|]. now intros [H _].
  - intros u. unfold isub, imul, chk at 1. destruct (in_int (left_margin c - right_margin c)) eqn:E; cbn [bind].
    2:{ split; [intros [= <-]; split; [reflexivity|]; split; [reflexivity|]|intros [-> _]; reflexivity]. intros (I & _). apply in_int_iff in I. congruence. }
    apply in_int_iff in E. unfold chk. destruct (in_int (2 * play_res_x c)) eqn:E'; cbn [bind].
    2:{ split; [intros [= <-]; split; [reflexivity|]; split; [reflexivity|]|intros [-> _]; reflexivity]. intros (_ & I). apply in_int_iff in I. congruence. }
    apply in_int_iff in E'. split; [discriminate|]. tauto.
  - apply overflow_never; [discriminate|]. now intros [H _].
Qed.
Lemma h_colour_no_undef s u : h_colour s <> Undef u.
Proof. unfold h_colour. destruct s as [|a [|b t]]; try discriminate. destruct (_ && _); discriminate. Qed.
Lemma tag_overflow r t c : overflow (parse_tag r t c) (tag_overflows c t).
Proof.
  rewrite parse_tag_eq. destruct (style_tag style_tags t) as [f|] eqn:S.
  { apply overflow_never; [discriminate|]. intros (k & h & v & I & -> & _). apply style_tag_some in S. destruct S as (s & J & E). revert E. cbn in I, J.
    repeat (destruct I as [I|I]; [injection I as <- <- <-; repeat (destruct J as [J|J]; [injection J as <- <-; discriminate|]); contradiction|]). contradiction. }
  destruct (an_tag t) as [[h v]|] eqn:A.
  - apply an_tag_some in A. destruct A as (k & I & ->). eapply overflow_iff; [|apply margin_overflow]. cbn [r_hpos set_vref set_href set_hpos h_ref]. split.
    + intros M. exists k, h, v. split; [exact I|]. split; [reflexivity|exact M].
    + intros (k' & h' & v' & I' & E & M). assert (X : h' = h); [|now subst h'].
      revert E. cbn in I, I'. repeat (destruct I as [I|I]; [injection I as <- <- <-; repeat (destruct I' as [I'|I']; [injection I' as <- <- <-; (reflexivity || discriminate)|]); contradiction|]). contradiction.
  - apply overflow_never.
    + intros u. destruct (starts_with t (tag "pos")). { destruct (split _ t) as [|? [|? [|? [|? ?]]]]; discriminate. }
      destruct (starts_with t (tag "fs")). { destruct (is_nil _); discriminate. } destruct (starts_with t (tag "c")); [|discriminate].
      destruct (is_nil _); [discriminate|]. rewrite bind_ok_undef. apply h_colour_no_undef.
    + intros (k & h & v & I & E & _). apply (proj1 (an_tag_none t) A k (h, v) I E).
Qed.

Lemma run_overflow c size its : forall current, ready current -> overflow (run c size current its) (cut_overflows c size (with_text [] current) its).
Proof.
  induction its as [|[x| |t] its IH]; intros current RD; cbn [run].
  - apply overflow_never; [discriminate|inversion 1].
  - eapply overflow_iff; [|apply IH; exact RD]. change (with_text [] (set_text (r_text current ++ [x]) current)) with (with_text [] current).
    split; [apply overflows_char|now inversion 1].
  - destruct RD as (ref & p & R & P). rewrite R, P. cbn [opt_get bind]. rewrite shifted_is. apply overflow_map.
    eapply overflow_iff; [|apply IH; exists ref; eexists; split; [exact R|reflexivity]]. split.
    + intros H. eapply overflows_break; [exists ref, p; split; [exact R|]; split; [exact P|reflexivity]|]. exact H.
    + inversion 1 as [| | |? r1 ? (ref' & p' & R' & P' & ->) C]; subst.
      change (v_ref (r_vpos (with_text [] current))) with (v_ref (r_vpos current)) in R'.
      change (v_prop (r_vpos (with_text [] current))) with (v_prop (r_vpos current)) in P'.
      assert (ref' = ref) as -> by congruence. assert (p' = p) as -> by congruence. exact C.
  - eapply overflow_iff; [|apply overflow_bind; [apply tag_overflow|]].
    2:{ intros r1 H. cbv beta. apply overflow_map. apply IH. apply (parse_tag_ready _ _ _ _ H). exact RD. }
    cbv beta. split.
    + intros [H|(r1 & H & K)]; [now apply overflows_tag|]. apply parse_tag_iff in H.
      pose proof (override_text _ _ _ _ H) as T. cbn in T. rewrite (with_text_nil r1 T) in K. eapply overflows_later; [exact H|exact K].
    + inversion 1 as [|? ? ? B|? ? r1 ? O C|]; subst; [now left|]. right.
      pose proof (override_text _ _ _ _ O) as T. cbn in T. exists r1. split; [now apply parse_tag_iff|]. now rewrite (with_text_nil r1 T).
Qed.

Lemma run_ready c size its : forall r ps, ready r -> run c size r its = Ok ps -> Forall ready ps.
Proof. intros r ps R H. apply run_iff in H. now apply (cut_ready _ _ _ _ _ _ H). Qed.
Lemma start_overflow c base : overflow (start_of c base) (margins_overflow c (h_ref (r_hpos base))).
Proof.
  unfold start_of. apply overflow_map. eapply overflow_iff; [|apply margin_overflow]. destruct base as [? ? ? ? ? ? ? ? ? [? ?] [? ? ? [v|]] ? ? ? ?]; reflexivity.
Qed.

Lemma text_overflow base s c : overflow (parse_line base s c) (text_overflows c base s).
Proof.
  rewrite parse_line_eq.
  assert (M : forall ps, Forall ready ps -> exists raws, mapM (ssa_finish base (count_line_breaks s) (row_size c base)) ps = Ok raws).
  { intros ps F. destruct (finish_total base (count_line_breaks s) (row_size c base) ps F) as (raws & D). exists raws.
    apply mapM_iff. revert D. apply Forall2_iff. intros a b. apply finish_iff. }
  assert (RD : forall r, start_of c base = Ok r -> ready r).
  { intros r S. apply start_iff in S. destruct S as [S _]. apply first_look_ready in S. exact S. }
  eapply overflow_iff; [|apply overflow_bind; [apply start_overflow|]].
  2:{ intros r S. cbv beta. intros u. rewrite bind_undef. split.
      - intros [H|(ps & H & K)]; [apply (run_overflow _ _ _ r (RD r S)) in H; exact H|].
        apply (run_ready _ _ _ _ _ (RD r S)) in H. destruct (M ps H) as (raws & E). congruence.
      - intros H. left. now apply (run_overflow _ _ _ r (RD r S)). }
  cbv beta. unfold text_overflows. apply or_iff_compat_l. split.
  - intros (r & S & C). apply start_iff in S. destruct S as [S _]. exists (lex s TEXT []), (with_text [] r). split; [now apply lex_iff|]. now split.
  - intros (its & r & L & S & C). apply lex_iff in L. subst its. exists (with_text (r_text base) r).
    assert (E : with_text [] (with_text (r_text base) r) = r) by (destruct S as (x & _ & ->); reflexivity).
    split; [apply start_iff; rewrite E; now split|]. now rewrite E.
Qed.

(** * Styles *)

Lemma style_colour_overflow s : overflow (style_colour s) (~ begins (eq "&"%char) s /\ too_big s).
Proof.
  assert (D : ~ begins (eq "&"%char) s -> overflow (let* i := raw_convert_int s in Ok (bgr_colour i)) (~ begins (eq "&"%char) s /\ too_big s)).
  { intros N. apply overflow_map. eapply overflow_iff; [|apply convert_overflow]. tauto. }
  unfold style_colour. destruct s as [|a s]; [apply D; tauto|]. destruct (Ascii.eqb a "&") eqn:E.
  - apply eqb_iff in E. subst a. apply overflow_never; [intros u; apply h_colour_no_undef|]. intros [N _]. apply N. reflexivity.
  - apply D. cbn. intros <-. rewrite Ascii.eqb_refl in E. discriminate.
Qed.

Lemma style_field_overflow st key val : overflow (style_field st key val) (style_step_overflows st (key, val)).
Proof.
  unfold style_step_overflows. cbn [fst snd].
  assert (G : forall k v, trimmed key k -> trimmed val v -> (style_entry_overflows k v <-> (exists k v, trimmed key k /\ trimmed val v /\ style_entry_overflows k v))).
  { intros k v K V. split; [now exists k, v|]. intros (k' & v' & K' & V' & S). apply trim_iff in K, V, K', V'. subst. exact S. }
  eapply overflow_iff; [apply (G (trim key) (trim val)); now apply trim_iff|]. clear G. unfold style_entry_overflows.
  unfold style_field. remember (trim key) as k eqn:Ek. remember (trim val) as v eqn:Ev. clear Ek Ev key val.
  destruct st as [n fn fz pc bc b i u ef h vr vm lm rm].
  assert (N : forall (x : style) (P : Prop), ~ P -> overflow (Ok x) P) by (intros x P NP; apply overflow_never; [discriminate|exact NP]).
  assert (C : forall (g : colour -> style), In k colour_keys -> ~ In k number_keys -> overflow (let* y := style_colour v in Ok (g y)) (too_big v /\ (In k number_keys \/ In k colour_keys /\ ~ begins (eq "&"%char) v))).
  { intros g I1 I2. apply overflow_map. eapply overflow_iff; [|apply style_colour_overflow]. tauto. }
  assert (I : forall (g : Z -> style), In k number_keys -> overflow (let* y := raw_convert_int v in Ok (g y)) (too_big v /\ (In k number_keys \/ In k colour_keys /\ ~ begins (eq "&"%char) v))).
  { intros g I1. apply overflow_map. eapply overflow_iff; [|apply convert_overflow]. tauto. }
  Ltac no_key := intros [_ [K|[K _]]]; cbn in K; (intuition discriminate).
  key k "Name"%string. { apply N. no_key. }
  key k "Fontname"%string. { apply N. no_key. }
  key k "Fontsize"%string. { apply I. cbn. tauto. }
  key k "PrimaryColour"%string. { apply C; [cbn; tauto|]. cbn. intuition discriminate. }
  key k "BackColour"%string. { apply C; [cbn; tauto|]. cbn. intuition discriminate. }
  key k "Bold"%string. { apply N. no_key. }
  key k "Italic"%string. { apply N. no_key. }
  key k "Underline"%string. { apply N. no_key. }
  key k "BorderStyle"%string. { apply N. no_key. }
  key k "Alignment"%string. { apply N. no_key. }
  key k "MarginV"%string. { apply I. cbn. tauto. }
  key k "MarginL"%string. { apply I. cbn. tauto. }
  key k "MarginR"%string. { apply I. cbn. tauto. }
  repeat match goal with H : str_eqb _ _ = false |- _ => apply str_eqb_false in H end.
  apply N. intros [_ [K|[K _]]]; unfold number_keys, colour_keys in K; cbn [map In] in K; intuition congruence.
Qed.

Lemma style_fields_overflow l st : overflow (style_fields st l) (stops_in_turn style_step style_step_overflows st l).
Proof.
  apply (steps_stop (fun s kv => style_field s (fst kv) (snd kv)) style_fields); [reflexivity|intros a [k v] l'; reflexivity| |].
  - intros a [k v] a'. apply style_field_iff.
  - intros a [k v]. apply style_field_overflow.
Qed.
Lemma style_parse_overflow format line : overflow (style_parse format line) (style_line_overflows format line).
Proof.
  rewrite style_parse_eq. unfold style_line_overflows. destruct (Nat.eqb _ _) eqn:E.
  - apply Nat.eqb_eq in E. eapply overflow_iff; [|apply style_fields_overflow]. split.
    + intros H. eexists _, _. split; [now apply parts_iff|]. split; [now apply parts_iff|]. now split.
    + intros (ks & vs & K & V & L & T). apply parts_iff in K, V. subst ks vs. exact T.
  - apply Nat.eqb_neq in E. apply overflow_never; [discriminate|]. intros (ks & vs & K & V & L & T). apply parts_iff in K, V. subst ks vs. contradiction.
Qed.

(** * Dialogues *)

Lemma zero_not_big : ~ too_big (lit "0").
Proof. intros (v & C & N). apply c_number_cval in C. subst v. apply N. change (cval (lit "0")) with 0. unfold is_int. lia. Qed.

Lemma event_field_overflow f ev key val : overflow (event_field f ev key val) (event_step_overflows f ev (key, val)).
Proof.
  unfold event_step_overflows. cbn [fst snd].
  assert (G : forall v, trimmed val v -> (event_entry_overflows f ev key v <-> (exists v, trimmed val v /\ event_entry_overflows f ev key v))).
  { intros v V. split; [now exists v|]. intros (v' & V' & S). apply trim_iff in V, V'. subst. exact S. }
  eapply overflow_iff; [apply (G (trim val)); now apply trim_iff|]. clear G. unfold event_field. remember (trim val) as v eqn:Ev. clear Ev val.
  destruct ev as [sub st l rt out].
  assert (N : forall (x : ssa_event) (P : Prop), ~ P -> overflow (Ok x) P) by (intros x P NP; apply overflow_never; [discriminate|exact NP]).
  key key "Start"%string. { apply overflow_map. eapply overflow_iff; [|apply time_overflow]. split; [intros H; apply overflows_time; [now left|exact H]|].
    inversion 1 as [? ? K T|? ? K T|]; subst; [exact T|]. destruct K; discriminate. }
  key key "End"%string. { apply overflow_map. eapply overflow_iff; [|apply time_overflow]. split; [intros H; apply overflows_time; [now right|exact H]|].
    inversion 1 as [? ? K T|? ? K T|]; subst; [exact T|]. destruct K; discriminate. }
  assert (B : event_entry_overflows f (mkEv sub st l rt out) key v -> (key = lit "MarginL" \/ key = lit "MarginR") /\ too_big v \/
    key = lit "Text" /\ text_overflows (text_context f (mkEv sub st l rt out)) sub v).
  { inversion 1 as [? ? [->| ->] T|? ? K T|? T]; subst; [now rewrite str_eqb_refl in E|now rewrite str_eqb_refl in E0|left; now split|right; now split]. }
  key key "Style"%string. { match goal with |- context [match ?o with Some _ => _ | None => _ end] => destruct o end; apply N; intros H; apply B in H; intuition discriminate. }
  key key "MarginV"%string. { destruct (negb _ && negb _); apply N; intros H; apply B in H; intuition discriminate. }
  key key "MarginL"%string. { destruct (str_eqb v (lit "0")) eqn:V0; cbn [negb].
    - apply str_eqb_iff in V0. subst v. apply N. intros H. apply B in H. destruct H as [[_ H]|[H _]]; [now apply zero_not_big|discriminate].
    - apply overflow_map. eapply overflow_iff; [|apply convert_overflow]. split; [intros H; apply overflows_margin; [now left|exact H]|]. intros H. apply B in H. destruct H as [[_ H]|[H _]]; [exact H|discriminate]. }
  key key "MarginR"%string. { destruct (str_eqb v (lit "0")) eqn:V0; cbn [negb].
    - apply str_eqb_iff in V0. subst v. apply N. intros H. apply B in H. destruct H as [[_ H]|[H _]]; [now apply zero_not_big|discriminate].
    - apply overflow_map. eapply overflow_iff; [|apply convert_overflow]. split; [intros H; apply overflows_margin; [now right|exact H]|]. intros H. apply B in H. destruct H as [[_ H]|[H _]]; [exact H|discriminate]. }
  key key "Text"%string. { apply overflow_map. eapply overflow_iff; [|apply text_overflow]. split; [intros H; now apply overflows_text|].
    intros H. apply B in H. destruct H as [[[H|H] _]|[_ H]]; [discriminate..|exact H]. }
  repeat match goal with H : str_eqb _ _ = false |- _ => apply str_eqb_false in H end.
  apply N. intros H. apply B in H. intuition congruence.
Qed.

Lemma event_fields_overflow f l ev : overflow (event_fields f ev l) (stops_in_turn (event_step f) (event_step_overflows f) ev l).
Proof.
  apply (steps_stop (fun s kv => event_field f s (fst kv) (snd kv)) (event_fields f)); [reflexivity|intros a [k v] l'; reflexivity| |].
  - intros a [k v] a'. apply event_field_iff.
  - intros a [k v]. apply event_field_overflow.
Qed.

Lemma dialogue_overflow f body : overflow (dialogue f body) (dialogue_overflows f body).
Proof.
  unfold dialogue_overflows. destruct (sr_event_format f) as [|k ks] eqn:EF.
  { unfold dialogue. rewrite EF. cbn [is_nil negb sub_assert bind]. apply overflow_never; [discriminate|]. intros [N _]. congruence. }
  destruct (dialogue_cases f body) as [(vs & V & ->)|(N & ->)]; [rewrite EF; discriminate| |]; rewrite EF in *.
  - apply overflow_map. eapply overflow_iff; [|apply event_fields_overflow]. split.
    + intros H. split; [discriminate|]. exists vs. now split.
    + intros (_ & vs' & V' & T). now rewrite (field_values_unique _ _ _ _ V V').
  - apply overflow_never; [discriminate|]. intros (_ & vs & V & _). now apply N in V.
Qed.

(** * Lines and files *)

Lemma keyed_step_overflow f type body : overflow (keyed_step f type body) (keyed_overflows f type body).
Proof.
  destruct f as [part rx ry styles sf ef subs]. cbn [keyed_step].
  assert (N : forall (x : ssa_reader) (P : Prop), ~ P -> overflow (Ok x) P) by (intros x P NP; apply overflow_never; [discriminate|exact NP]).
  destruct part.
  - key type "PlayResX"%string. { apply overflow_map. eapply overflow_iff; [|apply convert_overflow]. split; [intros H; apply overflows_res; [reflexivity|now left|exact H]|].
      inversion 1; subst; (assumption || discriminate). }
    key type "PlayResY"%string. { apply overflow_map. eapply overflow_iff; [|apply convert_overflow]. split; [intros H; apply overflows_res; [reflexivity|now right|exact H]|].
      inversion 1; subst; (assumption || discriminate). }
    apply str_eqb_false in E, E0. apply N. inversion 1; subst; [tauto|discriminate..].
  - key type "Format"%string. { apply N. inversion 1; discriminate. }
    key type "Style"%string. { destruct sf as [|c sf]; cbn [is_nil negb sub_assert bind].
      - apply overflow_never; [discriminate|]. inversion 1; subst; [discriminate|]. cbn [sr_style_format] in *. congruence.
      - apply overflow_map. eapply overflow_iff; [|apply style_parse_overflow]. split; [intros H; apply overflows_style; [reflexivity|discriminate|exact H]|].
        inversion 1; subst; [discriminate|assumption]. }
    apply str_eqb_false in E0. apply N. inversion 1; subst; cbn [sr_part] in *; congruence.
  - key type "Format"%string. { apply N. inversion 1; discriminate. }
    key type "Dialogue"%string. { apply overflow_map. eapply overflow_iff; [|apply dialogue_overflow]. split; [intros H; now apply overflows_dialogue|].
      inversion 1; subst; [discriminate|assumption]. }
    apply str_eqb_false in E0. apply N. inversion 1; subst; cbn [sr_part] in *; congruence.
Qed.

Lemma ssa_line_overflow f line : overflow (ssa_line f line) (ssa_line_overflows f line).
Proof.
  pose proof (proj1 (line_body_iff line _) eq_refl) as LB. pose proof (line_kinds f line) as K. cbv zeta in K.
  remember (remove_unicode_bom (trim line)) as l eqn:El. clear El. unfold ssa_line_overflows.
  assert (U : forall l', line_body line l' -> l' = l) by (intros l' H; exact (line_body_unique _ _ _ H LB)).
  assert (X : (exists l key body, line_body line l /\ ~ begins (fun c => c = ";"%char \/ c = "["%char) l /\ keyed l key body /\ keyed_overflows f key body) ->
    l <> [] /\ ~ begins (fun c => c = ";"%char \/ c = "["%char) l /\ In ":"%char l).
  { intros (l' & key & body & B & NB & (r & KB & _) & _). apply U in B. subst l'. split; [rewrite KB; destruct key; discriminate|]. split; [exact NB|]. rewrite KB. apply in_or_app. right. now left. }
  destruct K as [[D E]|[(s & D & E)|[(h & p & I & D & E)|[(s & D & N & E)|(NE & NB & [[NC E]|(key & body & KB & E)])]]]]; rewrite E.
  - apply overflow_never; [discriminate|]. intros H. apply X in H. tauto.
  - apply overflow_never; [discriminate|]. intros H. apply X in H. destruct H as (_ & H & _). apply H. rewrite D. now left.
  - apply overflow_never; [discriminate|]. intros H. apply X in H. destruct H as (_ & H & _). apply H. rewrite D. apply not_heading_start in I. destruct (lit h) as [|c t]; [contradiction|]. cbn in I |- *. right. now symmetry.
  - apply overflow_never; [discriminate|]. intros H. apply X in H. destruct H as (_ & H & _). apply H. rewrite D. now right.
  - apply overflow_never; [discriminate|]. intros H. apply X in H. tauto.
  - eapply overflow_iff; [|apply keyed_step_overflow]. split.
    + intros H. exists l, key, body. split; [exact LB|]. split; [exact NB|]. now split.
    + intros (l' & key' & body' & B & _ & KB' & KO). apply U in B. subst l'. destruct (keyed_unique _ _ _ _ _ KB KB') as [<- <-]. exact KO.
Qed.

Theorem ssa_string_undefined s u : ssa_reader_string s = Undef u <-> u = UbIntOverflow /\ ssa_file_overflows s.
Proof.
  revert u. change (overflow (ssa_reader_string s) (ssa_file_overflows s)).
  unfold ssa_reader_string, ssa_read, ssa_file_overflows. change ssa_init with new_file. apply overflow_map.
  eapply overflow_iff; [|apply (steps_stop ssa_line ssa_lines); [reflexivity..|intros a b x; apply ssa_line_iff|apply ssa_line_overflow]]. split.
  - intros H. exists (lines_of_string s). split; [now apply lines_of_string_iff|exact H].
  - intros (ls & L & T). apply lines_of_string_iff in L. now subst ls.
Qed.
Theorem ssa_string_total s : (exists raws, ssa_file s raws) \/ (exists e, ssa_file_refused s e) \/ ssa_file_overflows s.
Proof.
  destruct (ssa_reader_string s) as [raws|e|u] eqn:E.
  - left. exists raws. now apply ssa_string_iff.
  - right. left. exists e. now apply ssa_string_refused.
  - right. right. now apply ssa_string_undefined in E.
Qed.
Theorem ssa_string_defined s : defined (ssa_reader_string s) <-> ~ ssa_file_overflows s.
Proof.
  split.
  - intros D H. apply (D UbIntOverflow). now apply ssa_string_undefined.
  - intros N u E. apply N. now apply ssa_string_undefined in E.
Qed.
