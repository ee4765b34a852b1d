(** Styles, dialogues and files: the SSA reader against Spec/SsaSpec. *)
From Coq Require Import ZArith List Bool Ascii String Lia.
From Verif.Model Require Import Base Strings Float TimeModel Types Lines RawConvert Compose.
From Verif.Spec Require Import Outcome TextSpec LinesSpec StlFileSpec RawSpec SsaTagSpec SsaSpec.
From Verif.Proofs Require Import StringProofs LinesProofs ComposeProofs StlReadProofs SsaTagProofs SsaTextProofs.
From Verif.Model Require Import Ssa.
Import ListNotations.
Local Open Scope Z_scope.
Local Notation length := List.length.

(** * Steps *)

Section Steps.
Context {A B : Type} (f : A -> B -> res A) (F : A -> list B -> res A).
Hypothesis F_nil : forall a, F a [] = Ok a.
Hypothesis F_cons : forall a b l, F a (b :: l) = bind (f a b) (fun a' => F a' l).
Variable step : A -> B -> A -> Prop.
Hypothesis step_iff : forall a b a', f a b = Ok a' <-> step a b a'.
Variable fail : A -> B -> exn -> Prop.
Hypothesis fail_iff : forall a b e, f a b = Throw e <-> fail a b e.

Lemma steps_iff l : forall a a', F a l = Ok a' <-> in_turn step a l a'.
Proof.
  induction l as [|b l IH]; intros a a'.
  - rewrite F_nil. split; [intros [= <-]; constructor|now inversion 1].
  - rewrite F_cons, bind_ok. split.
    + intros (a1 & H & K). apply step_iff in H. apply IH in K. econstructor; eassumption.
    + inversion 1 as [|? ? a1 ? ? S T]; subst. exists a1. split; [now apply step_iff|now apply IH].
Qed.
Lemma steps_fail l : forall a e, F a l = Throw e <-> fails_in_turn step fail a l e.
Proof.
  induction l as [|b l IH]; intros a e.
  - rewrite F_nil. split; [discriminate|]. intros (before & b & after & a1 & E & _). destruct before; discriminate.
  - rewrite F_cons, bind_throw. split.
    + intros [H|(a1 & H & K)].
      * exists [], b, l, a. split; [reflexivity|]. split; [constructor|now apply fail_iff].
      * apply IH in K. destruct K as (before & b' & after & a2 & -> & T & Fl). exists (b :: before), b', after, a2.
        split; [reflexivity|]. split; [|exact Fl]. apply turn_step with a1; [now apply step_iff|exact T].
    + intros (before & b' & after & a2 & E & T & Fl). destruct before as [|b0 before]; cbn in E; injection E; intros; subst.
      * left. inversion T; subst. now apply fail_iff.
      * right. inversion T as [|? ? a1 ? ? S T1]; subst. exists a1. split; [now apply step_iff|]. apply IH. exists before, b', after, a2. now split.
Qed.
End Steps.

(** * Times *)

Lemma time_sign_iff c : is_any_of (lit ":.") c = true <-> time_sign c.
Proof. unfold is_any_of, time_sign. cbn. rewrite orb_false_r, orb_true_iff, !eqb_iff. tauto. Qed.
Lemma no_time_sign_iff s : no_time_sign s <-> free (is_any_of (lit ":.")) s.
Proof.
  unfold no_time_sign, free. rewrite !Forall_forall. split.
  - intros N c I. destruct (is_any_of (lit ":.") c) eqn:E; [|reflexivity]. apply time_sign_iff in E. now apply N in I.
  - intros F c I T. apply F in I. apply time_sign_iff in T. congruence.
Qed.

Lemma four_parts_iff s a b c d : split (is_any_of (lit ":.")) s = [a; b; c; d] <-> four_parts s a b c d.
Proof.
  split.
  - intros E. apply split_cons_inv in E. destruct E as [(E & _)|(x & r1 & -> & X & F1 & E)]; [discriminate|]. symmetry in E.
    apply split3_inv in E. destruct E as (y & z & -> & Y & Z0 & F2 & F3 & F4). exists x, y, z. rewrite <- !time_sign_iff, !no_time_sign_iff. now repeat split.
  - intros (x & y & z & -> & X & Y & Z0 & F1 & F2 & F3 & F4). apply time_sign_iff in X, Y, Z0. apply no_time_sign_iff in F1, F2, F3, F4.
    rewrite split_piece by assumption. now rewrite split3.
Qed.

Lemma parse_time_iff s t : ssa_parse_time s = Ok t <-> ssa_time s t.
Proof.
  unfold ssa_parse_time, ssa_time. split.
  - destruct (split (is_any_of (lit ":.")) s) as [|a [|b [|c [|d [|x l]]]]] eqn:E; try discriminate. apply four_parts_iff in E.
    intros H. apply bind_ok in H. destruct H as (h & Hh & H). apply bind_ok in H. destruct H as (m & Hm & H). apply bind_ok in H. destruct H as (sec & Hs & H).
    apply bind_ok in H. destruct H as (cs & Hc & H). apply bind_ok in H. destruct H as (ms & M & H). apply convert_int_iff in Hh, Hm, Hs, Hc.
    unfold imul in M. apply chk_iff in M. destruct M as [M ->]. apply from_hms_iff in H. destruct H as [T ->].
    exists a, b, c, d, h, m, sec, cs. now repeat (split; [assumption|]).
  - intros (a & b & c & d & h & m & sec & cs & F & Hh & Hm & Hs & Hc & I & T & ->). apply four_parts_iff in F. rewrite F.
    apply convert_int_iff in Hh, Hm, Hs, Hc. rewrite Hh, Hm, Hs, Hc. cbn [bind].
    assert (M : imul cs 10 = Ok (cs * 10)) by (apply chk_iff; now split). rewrite M. cbn [bind]. apply from_hms_iff. now split.
Qed.

Lemma from_hms_no_throw h m s ms e : from_hms h m s ms <> Throw e.
Proof.
  unfold from_hms, hms_seconds, iadd, imul, chk.
  repeat (match goal with |- context [in_int ?z] => destruct (in_int z); cbn [bind] end; try discriminate).
Qed.

Lemma parse_time_refused s e : ssa_parse_time s = Throw e <-> not_ssa_time s /\ e = EProgramming.
Proof.
  unfold ssa_parse_time, not_ssa_time. split.
  - intros H. destruct (split (is_any_of (lit ":.")) s) as [|a [|b [|c [|d [|x l]]]]] eqn:E;
      try (injection H as <-; split; [|reflexivity]; intros a0 b0 c0 d0 F; apply four_parts_iff in F; congruence).
    exfalso. repeat (apply bind_throw in H; destruct H as [H|(? & _ & H)]; [first [now apply convert_int_no_throw in H|unfold imul, chk in H; match type of H with context [in_int ?z] => destruct (in_int z); discriminate end]|]).
    now apply from_hms_no_throw in H.
  - intros [N ->]. destruct (split (is_any_of (lit ":.")) s) as [|a [|b [|c [|d [|x l]]]]] eqn:E; try reflexivity.
    exfalso. apply four_parts_iff in E. exact (N _ _ _ _ E).
Qed.

(** * Styles *)

Lemma colour_text_amp s k : colour_text s k -> begins (eq "&"%char) s.
Proof. intros (p & n & v & -> & _). reflexivity. Qed.

Lemma style_colour_iff s k : style_colour s = Ok k <-> style_colour_is s k.
Proof.
  assert (D : ~ begins (eq "&"%char) s -> (let* i := raw_convert_int s in Ok (bgr_colour i)) = Ok k <-> style_colour_is s k).
  { intros N. rewrite bind_ok. split.
    - intros (v & H & [= <-]). rewrite bgr_colour_is. apply colour_decimal; [exact N|now apply convert_int_iff].
    - inversion 1 as [? ? C|? v _ I]; subst; [apply colour_text_amp in C; contradiction|]. exists v. split; [now apply convert_int_iff|now rewrite bgr_colour_is]. }
  unfold style_colour. destruct s as [|a s]; [apply D; tauto|]. destruct (Ascii.eqb a "&") eqn:E.
  - apply eqb_iff in E. subst a. rewrite h_colour_iff. split; [apply colour_hex|]. inversion 1 as [|? ? N]; subst; [assumption|]. exfalso. apply N. reflexivity.
  - apply D. cbn. intros <-. rewrite Ascii.eqb_refl in E. discriminate.
Qed.
Lemma style_colour_refused s e : style_colour s = Throw e <-> bad_style_colour s e.
Proof.
  assert (D : ~ begins (eq "&"%char) s -> (let* i := raw_convert_int s in Ok (bgr_colour i)) = Throw e <-> bad_style_colour s e).
  { intros N. rewrite bind_throw. split.
    - intros [H|(v & _ & H)]; [now apply convert_int_no_throw in H|discriminate].
    - intros [B _]. contradiction. }
  unfold style_colour. destruct s as [|a s]; [apply D; tauto|]. destruct (Ascii.eqb a "&") eqn:E.
  - apply eqb_iff in E. subst a. unfold bad_style_colour. split.
    + intros H. split; [reflexivity|]. assert (N : forall t, "&"%char :: s <> lit "&H" ++ t).
      { intros t Et. destruct (h_colour_good _ t Et) as (c & G). congruence. }
      split; [exact N|]. rewrite (h_colour_bad _ N) in H. congruence.
    + intros (_ & N & ->). now apply h_colour_bad.
  - apply D. cbn. intros <-. rewrite Ascii.eqb_refl in E. discriminate.
Qed.

Lemma str_eqb_false a b : str_eqb a b = false <-> a <> b.
Proof. rewrite <- not_true_iff_false, str_eqb_iff. tauto. Qed.
Lemma is_yes_iff v b : str_eqb v (lit "-1") = b <-> is_yes v b.
Proof.
  unfold is_yes. destruct b.
  - rewrite str_eqb_iff. tauto.
  - rewrite str_eqb_false. split; [|intros [A B] E; now apply B in E]. intros N. split; [discriminate|contradiction].
Qed.

Definition on_keypad (v : str) : option (href * vref) :=
  match find (fun kv => str_eqb v (lit (fst kv))) keypad with Some kv => Some (snd kv) | None => None end.
Lemma alignment_is v : (alignment_href v, alignment_vref v) = match on_keypad v with Some hv => hv | None => (HORIZONTAL_CENTRE_OF_SCREEN, BOTTOM_OF_SCREEN) end.
Proof.
  unfold alignment_href, alignment_vref, on_keypad, keypad. cbn [find fst snd].
  destruct (str_eqb v (lit "7")) eqn:E7; [apply str_eqb_iff in E7; subst v; reflexivity|].
  destruct (str_eqb v (lit "8")) eqn:E8; [apply str_eqb_iff in E8; subst v; reflexivity|].
  destruct (str_eqb v (lit "9")) eqn:E9; [apply str_eqb_iff in E9; subst v; reflexivity|].
  destruct (str_eqb v (lit "4")) eqn:E4; [apply str_eqb_iff in E4; subst v; reflexivity|].
  destruct (str_eqb v (lit "5")) eqn:E5; [apply str_eqb_iff in E5; subst v; reflexivity|].
  destruct (str_eqb v (lit "6")) eqn:E6; [apply str_eqb_iff in E6; subst v; reflexivity|].
  destruct (str_eqb v (lit "1")) eqn:E1; [apply str_eqb_iff in E1; subst v; reflexivity|].
  destruct (str_eqb v (lit "2")) eqn:E2; [apply str_eqb_iff in E2; subst v; reflexivity|].
  destruct (str_eqb v (lit "3")) eqn:E3; [apply str_eqb_iff in E3; subst v; reflexivity|].
  reflexivity.
Qed.
Lemma alignment_iff v h vr : alignment_href v = h /\ alignment_vref v = vr <-> alignment v h vr.
Proof.
  assert (P : alignment_href v = h /\ alignment_vref v = vr <-> (alignment_href v, alignment_vref v) = (h, vr)) by (split; [intros [-> ->]; reflexivity|intros [= -> ->]; now split]).
  rewrite P, alignment_is. unfold on_keypad, alignment. clear P. destruct (find _ keypad) as [[k hv]|] eqn:E.
  - apply find_some in E. destruct E as [I E]. apply str_eqb_iff in E. cbn [fst snd] in *. split.
    + intros ->. left. now exists k.
    + intros [(k' & I' & E')|(N & _)]; [|exfalso; exact (N _ _ I E)]. subst v. unfold lit in E'.
      cbn in I, I'. repeat (destruct I as [I|I]; [injection I as <- <-; repeat (destruct I' as [I'|I']; [injection I' as <- <- <-; cbn in E'; congruence|]); contradiction|]). contradiction.
  - pose proof (find_none _ _ E) as N. cbn [fst] in N. split.
    + intros [= <- <-]. right. split; [|now split]. intros k hv I EV. apply N in I. cbn [fst] in I. subst v. now rewrite str_eqb_refl in I.
    + intros [(k & I & EV)|(_ & -> & ->)]; [|reflexivity]. apply N in I. cbn [fst] in I. subst v. now rewrite str_eqb_refl in I.
Qed.

Ltac other_key := intros I; unfold style_keys, event_keys, known_keys in I; cbn [map In sr_part] in I; intuition congruence.
Ltac key k name := let E := fresh "E" in destruct (str_eqb k (lit name)) eqn:E; [apply str_eqb_iff in E; subst k|].

Lemma style_field_iff st key val st' : style_field st key val = Ok st' <-> style_step st (key, val) st'.
Proof.
  unfold style_step. cbn [fst snd].
  assert (G : forall k v, trimmed key k -> trimmed val v -> ((exists k v, trimmed key k /\ trimmed val v /\ style_entry st k v st') <-> style_entry st k v st')).
  { intros k v K V. split; [|now exists k, v]. intros (k' & v' & K' & V' & S). apply trim_iff in K, V, K', V'. subst. exact S. }
  rewrite (G (trim key) (trim val)); [|now apply trim_iff..]. clear G.
  unfold style_field. remember (trim key) as k eqn:Ek. remember (trim val) as v eqn:Ev. clear Ek Ev key val.
  destruct st as [n fn fz pc bc b i u e h vr vm lm rm].
  key k "Name"%string. { split; [intros [= <-]; constructor|inversion 1; subst; [reflexivity|]]. exfalso. apply H0. cbn. tauto. }
  key k "Fontname"%string. { split; [intros [= <-]; constructor|inversion 1; subst; [reflexivity|]]. exfalso. apply H0. cbn. tauto. }
  key k "Fontsize"%string. { rewrite bind_ok. split; [intros (x & I & [= <-]); constructor; now apply convert_int_iff|]. inversion 1; subst.
    - eexists. split; [apply convert_int_iff; eassumption|reflexivity].
    - exfalso. apply H0. cbn. tauto. }
  key k "PrimaryColour"%string. { rewrite bind_ok. split; [intros (x & I & [= <-]); constructor; now apply style_colour_iff|]. inversion 1; subst.
    - eexists. split; [apply style_colour_iff; eassumption|reflexivity].
    - exfalso. apply H0. cbn. tauto. }
  key k "BackColour"%string. { rewrite bind_ok. split; [intros (x & I & [= <-]); constructor; now apply style_colour_iff|]. inversion 1; subst.
    - eexists. split; [apply style_colour_iff; eassumption|reflexivity].
    - exfalso. apply H0. cbn. tauto. }
  key k "Bold"%string. { split; [intros [= <-]; constructor; now apply is_yes_iff|inversion 1; subst]; [|exfalso; apply H0; cbn; tauto].
    match goal with H : is_yes _ _ |- _ => apply is_yes_iff in H; rewrite H end. reflexivity. }
  key k "Italic"%string. { split; [intros [= <-]; constructor; now apply is_yes_iff|inversion 1; subst]; [|exfalso; apply H0; cbn; tauto].
    match goal with H : is_yes _ _ |- _ => apply is_yes_iff in H; rewrite H end. reflexivity. }
  key k "Underline"%string. { split; [intros [= <-]; constructor; now apply is_yes_iff|inversion 1; subst]; [|exfalso; apply H0; cbn; tauto].
    match goal with H : is_yes _ _ |- _ => apply is_yes_iff in H; rewrite H end. reflexivity. }
  key k "BorderStyle"%string. { destruct (str_eqb v (lit "1")) eqn:V.
    - apply str_eqb_iff in V. subst v. split; [intros [= <-]; constructor|inversion 1; subst; [reflexivity|congruence|]]. exfalso. apply H0. cbn. tauto.
    - apply str_eqb_false in V. split; [intros [= <-]; now constructor|inversion 1; subst; [congruence|reflexivity|]]. exfalso. apply H0. cbn. tauto. }
  key k "Alignment"%string. { split; [intros [= <-]; constructor; now apply alignment_iff|inversion 1; subst]; [|exfalso; apply H0; cbn; tauto].
    match goal with H : alignment _ _ _ |- _ => apply alignment_iff in H; destruct H as [-> ->] end. reflexivity. }
  key k "MarginV"%string. { rewrite bind_ok. split; [intros (x & I & [= <-]); constructor; now apply convert_int_iff|]. inversion 1; subst.
    - eexists. split; [apply convert_int_iff; eassumption|reflexivity].
    - exfalso. apply H0. cbn. tauto. }
  key k "MarginL"%string. { rewrite bind_ok. split; [intros (x & I & [= <-]); constructor; now apply convert_int_iff|]. inversion 1; subst.
    - eexists. split; [apply convert_int_iff; eassumption|reflexivity].
    - exfalso. apply H0. cbn. tauto. }
  key k "MarginR"%string. { rewrite bind_ok. split; [intros (x & I & [= <-]); constructor; now apply convert_int_iff|]. inversion 1; subst.
    - eexists. split; [apply convert_int_iff; eassumption|reflexivity].
    - exfalso. apply H0. cbn. tauto. }
  repeat match goal with H : str_eqb _ _ = false |- _ => apply str_eqb_false in H end.
  split; [intros [= <-]; apply entry_other; other_key|]. inversion 1; subst; try contradiction; reflexivity.
Qed.

Lemma style_field_refused st key val e : style_field st key val = Throw e <-> style_step_fails st (key, val) e.
Proof.
  unfold style_step_fails. cbn [fst snd].
  assert (G : forall k v, trimmed key k -> trimmed val v -> ((exists k v, trimmed key k /\ trimmed val v /\ bad_style_entry k v e) <-> bad_style_entry k v e)).
  { intros k v K V. split; [|now exists k, v]. intros (k' & v' & K' & V' & S). apply trim_iff in K, V, K', V'. subst. exact S. }
  rewrite (G (trim key) (trim val)); [|now apply trim_iff..]. clear G. unfold bad_style_entry.
  unfold style_field. remember (trim key) as k eqn:Ek. remember (trim val) as v eqn:Ev. clear Ek Ev key val.
  destruct st as [n fn fz pc bc b i u ef h vr vm lm rm].
  assert (C : forall (x : res colour) (g : colour -> style), (let* y := x in Ok (g y)) = Throw e <-> x = Throw e).
  { intros x g. rewrite bind_throw. split; [intros [H|(y & _ & H)]; [exact H|discriminate]|tauto]. }
  assert (I : forall s (g : Z -> style), (let* y := raw_convert_int s in Ok (g y)) <> Throw e).
  { intros s g H. apply bind_throw in H. destruct H as [H|(y & _ & H)]; [now apply convert_int_no_throw in H|discriminate]. }
  key k "Name"%string. { split; [discriminate|]. intros [[H|H] _]; discriminate. }
  key k "Fontname"%string. { split; [discriminate|]. intros [[H|H] _]; discriminate. }
  key k "Fontsize"%string. { split; [intros H; now apply I in H|]. intros [[H|H] _]; discriminate. }
  key k "PrimaryColour"%string. { rewrite C, style_colour_refused. tauto. }
  key k "BackColour"%string. { rewrite C, style_colour_refused. tauto. }
  key k "Bold"%string. { split; [discriminate|]. intros [[H|H] _]; discriminate. }
  key k "Italic"%string. { split; [discriminate|]. intros [[H|H] _]; discriminate. }
  key k "Underline"%string. { split; [discriminate|]. intros [[H|H] _]; discriminate. }
  key k "BorderStyle"%string. { split; [discriminate|]. intros [[H|H] _]; discriminate. }
  key k "Alignment"%string. { split; [discriminate|]. intros [[H|H] _]; discriminate. }
  key k "MarginV"%string. { split; [intros H; now apply I in H|]. intros [[H|H] _]; discriminate. }
  key k "MarginL"%string. { split; [intros H; now apply I in H|]. intros [[H|H] _]; discriminate. }
  key k "MarginR"%string. { split; [intros H; now apply I in H|]. intros [[H|H] _]; discriminate. }
  repeat match goal with H : str_eqb _ _ = false |- _ => apply str_eqb_false in H end.
  split; [discriminate|]. intros [[H|H] _]; contradiction.
Qed.

Lemma style_fields_iff l st st' : style_fields st l = Ok st' <-> in_turn style_step st l st'.
Proof.
  apply (steps_iff (fun s kv => style_field s (fst kv) (snd kv)) style_fields); [reflexivity|intros a [k v] l'; reflexivity|].
  intros a [k v] a'. apply style_field_iff.
Qed.
Lemma style_fields_refused l st e : style_fields st l = Throw e <-> fails_in_turn style_step style_step_fails st l e.
Proof.
  apply (steps_fail (fun s kv => style_field s (fst kv) (snd kv)) style_fields); [reflexivity|intros a [k v] l'; reflexivity| |].
  - intros a [k v] a'. apply style_field_iff.
  - intros a [k v] e'. apply style_field_refused.
Qed.

Lemma style_parse_eq format line : style_parse format line =
  if Nat.eqb (length (split (is_any_of [comma]) format)) (length (split (is_any_of [comma]) line))
  then style_fields base_style (combine (split (is_any_of [comma]) format) (split (is_any_of [comma]) line)) else Throw EProgramming.
Proof.
  unfold style_parse. change (lit ",") with [comma].
  pose proof (split_not_nil (is_any_of [comma]) format) as A. pose proof (split_not_nil (is_any_of [comma]) line) as B.
  destruct (split (is_any_of [comma]) format) as [|k ks] eqn:E1; [congruence|]. destruct (split (is_any_of [comma]) line) as [|v vs] eqn:E2; [congruence|].
  cbn [is_nil negb sub_assert bind]. unfold sub_assert. now destruct (Nat.eqb _ _).
Qed.
Lemma style_parse_iff format line st : style_parse format line = Ok st <-> style_line format line st.
Proof.
  rewrite style_parse_eq. unfold style_line. split.
  - destruct (Nat.eqb _ _) eqn:E; [|discriminate]. apply Nat.eqb_eq in E. intros H. apply style_fields_iff in H.
    eexists _, _. split; [now apply parts_iff|]. split; [now apply parts_iff|]. now split.
  - intros (ks & vs & K & V & L & T). apply parts_iff in K, V. subst ks vs. rewrite L, Nat.eqb_refl. now apply style_fields_iff.
Qed.
Lemma style_parse_refused format line e : style_parse format line = Throw e <-> style_line_refused format line e.
Proof.
  rewrite style_parse_eq. unfold style_line_refused. split.
  - destruct (Nat.eqb _ _) eqn:E; intros H; eexists _, _; (split; [now apply parts_iff|]); (split; [now apply parts_iff|]).
    + right. apply Nat.eqb_eq in E. split; [exact E|]. now apply style_fields_refused.
    + left. apply Nat.eqb_neq in E. split; [exact E|congruence].
  - intros (ks & vs & K & V & [[L ->]|[L T]]); apply parts_iff in K, V; subst ks vs.
    + apply Nat.eqb_neq in L. now rewrite L.
    + rewrite L, Nat.eqb_refl. now apply style_fields_refused.
Qed.

(** * Fields of a dialogue *)

Lemma join_cons_cons x a b l : join [x] (a :: b :: l) = a ++ x :: join [x] (b :: l). Proof. reflexivity. Qed.
Lemma join_last_two_length a b l : length (join_last_two (a :: b :: l)) = S (length l).
Proof. revert a b. induction l as [|c l IH]; intros a b; [reflexivity|]. change (join_last_two (a :: b :: c :: l)) with (a :: join_last_two (b :: c :: l)). cbn [length]. now rewrite IH. Qed.
Lemma join_last_two_ne a b l : exists c m, join_last_two (a :: b :: l) = c :: m.
Proof. destruct l as [|c l]; cbn; eauto. Qed.
Lemma join_last_two_join (l : list str) : (2 <= length l)%nat -> join [comma] (join_last_two l) = join [comma] l.
Proof.
  induction l as [|a l IH]; [reflexivity|]. intros L. destruct l as [|b l]; [reflexivity|]. destruct l as [|c l]; [reflexivity|].
  change (join_last_two (a :: b :: c :: l)) with (a :: join_last_two (b :: c :: l)).
  rewrite (join_cons_cons comma a b (c :: l)), <- IH by (cbn; lia). destruct (join_last_two_ne b c l) as (d & m & ->). reflexivity.
Qed.
Lemma join_last_two_free (l : list str) : (2 <= length l)%nat -> Forall (fun v => ~ In comma v) (removelast l) -> Forall (fun v => ~ In comma v) (removelast (join_last_two l)).
Proof.
  induction l as [|a l IH]; [easy|]. intros L F. destruct l as [|b l]; [cbn in L; lia|]. destruct l as [|c l]; [constructor|].
  change (join_last_two (a :: b :: c :: l)) with (a :: join_last_two (b :: c :: l)).
  change (removelast (a :: b :: c :: l)) with (a :: removelast (b :: c :: l)) in F. inversion F as [|? ? F1 F2]; subst.
  specialize (IH ltac:(cbn; lia) F2). destruct (join_last_two_ne b c l) as (d & m & E).
  rewrite E in IH |- *. now constructor.
Qed.

Lemma reassemble_values fuel n : (1 <= n)%nat -> forall event : list str, (length event <= n + fuel)%nat -> (n <= length event)%nat ->
  Forall (fun v => ~ In comma v) (removelast event) ->
  exists vs, reassemble fuel n event = Ok vs /\ field_values n (join [comma] event) vs.
Proof.
  intros N. induction fuel as [|fuel IH]; intros event L G F; cbn [reassemble].
  - destruct (Nat.ltb_spec n (length event)); [lia|]. exists event. split; [reflexivity|]. split; [lia|]. now split.
  - destruct (Nat.ltb_spec n (length event)) as [C|C].
    + destruct (Nat.ltb_spec (length event) 2) as [D|D]; [lia|].
      assert (LJ : length (join_last_two event) = (length event - 1)%nat).
      { destruct event as [|a [|b l]]; [cbn in D; lia..|]. rewrite join_last_two_length. cbn. lia. }
      destruct (IH (join_last_two event)) as (vs & R & V); [lia|lia|now apply join_last_two_free|].
      exists vs. split; [exact R|]. now rewrite join_last_two_join in V by lia.
    + exists event. split; [reflexivity|]. split; [lia|]. now split.
Qed.
Lemma reassemble_short fuel n (event : list str) : (length event <= n)%nat -> reassemble fuel n event = Ok event.
Proof. intros L. destruct fuel; cbn [reassemble]; (destruct (Nat.ltb_spec n (length event)); [lia|reflexivity]). Qed.

Lemma first_sep (x : ascii) a a' j j' : ~ In x a -> ~ In x a' -> a ++ x :: j = a' ++ x :: j' -> a = a' /\ j = j'.
Proof.
  revert a'. induction a as [|c a IH]; intros [|c' a'] N N' E; cbn in E.
  - injection E as E. now split.
  - injection E as E1 E2. exfalso. apply N'. now left.
  - injection E as E1 E2. exfalso. apply N. now left.
  - injection E as E1 E2. destruct (IH a' (fun I => N (or_intror I)) (fun I => N' (or_intror I)) E2) as [-> ->]. subst c'. now split.
Qed.

Lemma field_values_unique n : forall body vs vs', field_values n body vs -> field_values n body vs' -> vs = vs'.
Proof.
  induction n as [|n IH]; intros body vs vs' (L & E & F) (L' & E' & F').
  - destruct vs; [|discriminate]. destruct vs'; [reflexivity|discriminate].
  - destruct vs as [|a vs]; [discriminate|]. destruct vs' as [|a' vs']; [discriminate|].
    destruct vs as [|b vs]; destruct vs' as [|b' vs']; cbn in L, L'; [cbn in E, E'; congruence|lia|lia|].
    rewrite join_cons_cons in E, E'. rewrite E in E'.
    change (removelast (a :: b :: vs)) with (a :: removelast (b :: vs)) in F. change (removelast (a' :: b' :: vs')) with (a' :: removelast (b' :: vs')) in F'.
    inversion F as [|? ? F1 F2]; inversion F' as [|? ? F1' F2']; subst.
    assert (A : a = a' /\ join [comma] (b :: vs) = join [comma] (b' :: vs')).
    { exact (first_sep _ _ _ _ _ F1 F1' E'). }
    destruct A as [-> J]. f_equal. apply (IH (join [comma] (b :: vs))).
    + split; [cbn in *; lia|]. now split.
    + split; [cbn in *; lia|]. now split.
Qed.

(** A text with [n] fields has at least [n] parts. *)
Lemma values_parts n body vs : field_values (S n) body vs -> (S n <= length (split (is_any_of [comma]) body))%nat.
Proof.
  revert body vs. induction n as [|n IH]; intros body vs (L & E & F).
  - pose proof (split_not_nil (is_any_of [comma]) body). destruct (split (is_any_of [comma]) body); [congruence|cbn; lia].
  - destruct vs as [|a [|b vs]]; [discriminate..|]. rewrite join_cons_cons in E.
    change (removelast (a :: b :: vs)) with (a :: removelast (b :: vs)) in F. inversion F as [|? ? F1 F2]; subst.
    rewrite split_piece; [|now apply free_not_in|now apply is_any_one]. cbn [length]. apply le_n_S. apply (IH _ (b :: vs)). split; [cbn in *; lia|]. now split.
Qed.

Lemma removelast_forall {A : Type} (P : A -> Prop) l : Forall P l -> Forall P (removelast l).
Proof. induction 1 as [|a l H F IH]; [constructor|]. cbn. destruct l; [constructor|]. now constructor. Qed.

Lemma event_values n body : (1 <= n)%nat ->
  (exists vs, reassemble (length (split (is_any_of (lit ",")) body)) n (split (is_any_of (lit ",")) body) = Ok vs /\ vs <> [] /\
    (length vs = n /\ field_values n body vs \/ length vs <> n /\ forall vs, ~ field_values n body vs)).
Proof.
  intros N. change (lit ",") with [comma]. set (ev := split (is_any_of [comma]) body).
  assert (P : parts_of [comma] body ev) by now apply parts_iff. pose proof (parts_no _ _ _ P) as F. destruct P as (NE & E & _).
  destruct (le_lt_dec n (length ev)) as [G|G].
  - destruct (reassemble_values (length ev) n N ev) as (vs & R & V); [lia|exact G|now apply removelast_forall|]. rewrite <- E in V.
    exists vs. split; [exact R|]. split; [intros ->; destruct V as [V _]; cbn in V; lia|]. left. split; [apply V|exact V].
  - exists ev. split; [apply reassemble_short; lia|]. split; [exact NE|]. right. split; [lia|]. intros vs V.
    destruct n as [|n]; [lia|]. apply values_parts in V. fold ev in V. lia.
Qed.

(** ** Styles by name *)

Lemma style_find_some l name st : style_find name l = Some st <-> last_style l name st.
Proof.
  induction l as [|[n s] l IH]; cbn [style_find]; [split; [discriminate|inversion 1]|].
  destruct (str_eqb n name) eqn:E.
  - apply str_eqb_iff in E. subst n. split; [intros [= <-]; constructor|]. inversion 1; subst; [reflexivity|congruence].
  - apply str_eqb_false in E. rewrite IH. split; [intros H; constructor; [congruence|exact H]|]. inversion 1; subst; [congruence|assumption].
Qed.
Lemma style_find_none l name : style_find name l = None <-> no_style l name.
Proof.
  induction l as [|[n s] l IH]; cbn [style_find]; [split; [intros _ st []|reflexivity]|].
  destruct (str_eqb n name) eqn:E.
  - apply str_eqb_iff in E. subst n. split; [discriminate|]. intros N. exfalso. apply (N s). now left.
  - apply str_eqb_false in E. rewrite IH. split.
    + intros N st [H|H]; [congruence|now apply (N st)].
    + intros N st H. apply (N st). now right.
Qed.
Lemma style_for_iff l name o : (match style_find name l with Some s => Some s | None => style_find (lit "Default") l end) = o <-> style_for l name o.
Proof.
  destruct (style_find name l) as [s|] eqn:A.
  - split.
    + intros <-. apply style_named. now apply style_find_some.
    + inversion 1 as [st S|st N|N]; subst; [apply style_find_some in S; congruence|apply style_find_none in N; congruence|apply style_find_none in N; congruence].
  - pose proof (proj1 (style_find_none _ _) A) as NA. destruct (style_find (lit "Default") l) as [d|] eqn:D.
    + pose proof (proj1 (style_find_some _ _ _) D) as SD. split.
      * intros <-. now apply style_fallback.
      * inversion 1 as [st S|st N S|N N']; subst; [apply style_find_some in S; congruence|apply style_find_some in S; congruence|apply style_find_none in N'; congruence].
    + pose proof (proj1 (style_find_none _ _) D) as ND. split.
      * intros <-. now apply style_none.
      * inversion 1 as [st S|st N S|N N']; subst; [apply style_find_some in S; congruence|apply style_find_some in S; congruence|reflexivity].
Qed.

Lemma starless_iff s t : trim_left_if (is_any_of (lit "*")) s = t <-> starless s t.
Proof.
  unfold trim_left_if. change (lit "*") with ["*"%char]. split.
  - intros <-. exists (length (take_while (is_any_of ["*"%char]) s)). split.
    + assert (E : take_while (is_any_of ["*"%char]) s = repeat "*"%char (length (take_while (is_any_of ["*"%char]) s))).
      { apply Forall_eq_repeat. eapply Forall_impl; [|apply take_while_all]. intros c H. cbv beta in H. apply is_any_one in H. now symmetry. }
      rewrite <- E. now rewrite take_drop.
    + pose proof (drop_while_starts (is_any_of ["*"%char]) s) as D. destruct (drop_while (is_any_of ["*"%char]) s) as [|c r]; [exact (fun f => f)|].
      cbn. intros <-. cbn in D. discriminate.
  - intros (n & -> & N). apply drop_while_app.
    + apply Forall_forall. intros c I. apply repeat_spec in I. subst c. reflexivity.
    + destruct t as [|c r]; [exact I|]. cbn [starts_not]. destruct (is_any_of ["*"%char] c) eqn:E; [|reflexivity]. apply is_any_one in E. exfalso. now apply N.
Qed.

Lemma apply_style_is y st r : apply_style y st r = styled y st r.
Proof. unfold apply_style, styled, vertical_of. destruct (st_vref st) eqn:E; cbn [vref_eqb negb]; destruct r as [? ? ? ? ? ? ? ? ? [? ?] [? ? ? ?] ? ? ? ?]; reflexivity. Qed.

Lemma vref_eqb_iff a b : vref_eqb a b = true <-> a = b.
Proof. split; [destruct a, b; (reflexivity || discriminate)|intros ->; destruct b; reflexivity]. Qed.
Lemma keep_margin_iff x (r : raw) : negb (str_eqb x (lit "0")) && negb (opt_eqb vref_eqb (v_ref (r_vpos r)) (Some VERTICAL_CENTRE_OF_SCREEN)) = true <->
  x <> lit "0" /\ v_ref (r_vpos r) <> Some VERTICAL_CENTRE_OF_SCREEN.
Proof.
  rewrite andb_true_iff, !negb_true_iff, str_eqb_false. apply and_iff_compat_l. destruct (v_ref (r_vpos r)) as [v|]; cbn; [|split; [discriminate|reflexivity]].
  rewrite <- not_true_iff_false, vref_eqb_iff. split; congruence.
Qed.

(** ** One field *)

Lemma event_field_iff f ev key val ev' : event_field f ev key val = Ok ev' <-> event_step f ev (key, val) ev'.
Proof.
  unfold event_step. cbn [fst snd].
  assert (G : forall v, trimmed val v -> ((exists v, trimmed val v /\ event_entry f ev key v ev') <-> event_entry f ev key v ev')).
  { intros v V. split; [|now exists v]. intros (v' & V' & S). apply trim_iff in V, V'. subst. exact S. }
  rewrite (G (trim val)) by now apply trim_iff. clear G. unfold event_field. remember (trim val) as v eqn:Ev. clear Ev val.
  destruct ev as [sub st l rt out].
  key key "Start"%string. { rewrite bind_ok. split.
    - intros (t & H & [= <-]). apply event_start. now apply parse_time_iff.
    - inversion 1; subst; [eexists; split; [apply parse_time_iff; eassumption|reflexivity]|]. exfalso. apply H0. cbn. tauto. }
  key key "End"%string. { rewrite bind_ok. split.
    - intros (t & H & [= <-]). apply event_end. now apply parse_time_iff.
    - inversion 1; subst; [eexists; split; [apply parse_time_iff; eassumption|reflexivity]|]. exfalso. apply H0. cbn. tauto. }
  key key "Style"%string. { pose proof (proj1 (starless_iff v _) eq_refl) as SL. remember (trim_left_if (is_any_of (lit "*")) v) as name eqn:En.
    pose proof (proj1 (style_for_iff (sr_styles f) name _) eq_refl) as SF.
    remember (match style_find name (sr_styles f) with Some s => Some s | None => style_find (lit "Default") (sr_styles f) end) as o eqn:Eo.
    assert (U : forall name' o', starless v name' -> style_for (sr_styles f) name' o' -> o' = o).
    { intros name' o' A B. apply starless_iff in A. apply style_for_iff in B. rewrite <- En in A. subst name'. now rewrite <- B, Eo. }
    clear En Eo.
    destruct o as [s|].
    - split.
      + intros [= <-]. rewrite apply_style_is. now apply event_style with name.
      + inversion 1; subst.
        * match goal with A : starless v ?n, B : style_for _ ?n (Some ?x) |- context [styled _ ?x _] => pose proof (U _ _ A B) as X end. injection X as ->. now rewrite apply_style_is.
        * match goal with A : starless v ?n, B : style_for _ ?n None |- _ => pose proof (U _ _ A B) as X end. discriminate.
        * exfalso. apply H0. cbn. tauto.
    - split.
      + intros [= <-]. now apply event_no_style with name.
      + inversion 1; subst.
        * match goal with A : starless v ?n, B : style_for _ ?n (Some _) |- _ => pose proof (U _ _ A B) as X end. discriminate.
        * reflexivity.
        * exfalso. apply H0. cbn. tauto. }
  key key "MarginV"%string. { destruct (negb _ && negb _) eqn:K.
    - apply keep_margin_iff in K. destruct K as [K1 K2]. split; [intros [= <-]; now apply event_margin_v|]. inversion 1; subst; [reflexivity| |].
      + exfalso. match goal with D : _ \/ _ |- _ => cbn [ev_sub] in D; tauto end.
      + exfalso. apply H0. cbn. tauto.
    - assert (K' : v = lit "0" \/ v_ref (r_vpos sub) = Some VERTICAL_CENTRE_OF_SCREEN).
      { destruct (str_eqb v (lit "0")) eqn:V0; [left; now apply str_eqb_iff|]. right. cbn [negb andb] in K.
        destruct (v_ref (r_vpos sub)) as [x|]; [|discriminate]. cbn in K. destruct x; try discriminate. reflexivity. }
      split; [intros [= <-]; now apply event_keep_margin_v|]. inversion 1; subst; [exfalso; tauto|reflexivity|reflexivity]. }
  key key "MarginL"%string. { destruct (str_eqb v (lit "0")) eqn:V0; cbn [negb].
    - apply str_eqb_iff in V0. subst v. split; [intros [= <-]; apply event_keep_margin_l|]. inversion 1; subst; (congruence || reflexivity).
    - apply str_eqb_false in V0. rewrite bind_ok. split.
      + intros (x & I & [= <-]). constructor; [exact V0|now apply convert_int_iff].
      + inversion 1; subst; [eexists; split; [apply convert_int_iff; eassumption|reflexivity]|congruence|]. exfalso. apply H0. cbn. tauto. }
  key key "MarginR"%string. { destruct (str_eqb v (lit "0")) eqn:V0; cbn [negb].
    - apply str_eqb_iff in V0. subst v. split; [intros [= <-]; apply event_keep_margin_r|]. inversion 1; subst; (congruence || reflexivity).
    - apply str_eqb_false in V0. rewrite bind_ok. split.
      + intros (x & I & [= <-]). constructor; [exact V0|now apply convert_int_iff].
      + inversion 1; subst; [eexists; split; [apply convert_int_iff; eassumption|reflexivity]|congruence|]. exfalso. apply H0. cbn. tauto. }
  key key "Text"%string. { rewrite bind_ok. split.
    - intros (raws & H & [= <-]). apply event_text. now apply parse_line_iff.
    - inversion 1; subst; [eexists; split; [apply parse_line_iff; eassumption|reflexivity]|]. exfalso. apply H0. cbn. tauto. }
  repeat match goal with H : str_eqb _ _ = false |- _ => apply str_eqb_false in H end.
  split; [intros [= <-]; apply event_other; other_key|]. inversion 1; subst; try contradiction; reflexivity.
Qed.

Lemma event_field_refused f ev key val e : event_field f ev key val = Throw e <-> event_step_fails f ev (key, val) e.
Proof.
  unfold event_step_fails. cbn [fst snd].
  assert (G : forall v, trimmed val v -> ((exists v, trimmed val v /\ bad_event_entry f ev key v e) <-> bad_event_entry f ev key v e)).
  { intros v V. split; [|now exists v]. intros (v' & V' & S). apply trim_iff in V, V'. subst. exact S. }
  rewrite (G (trim val)) by now apply trim_iff. clear G. unfold event_field. remember (trim val) as v eqn:Ev. clear Ev val.
  destruct ev as [sub st l rt out].
  assert (C : forall (A : Type) (x : res A) (g : A -> ssa_event), (let* y := x in Ok (g y)) = Throw e <-> x = Throw e).
  { intros A x g. rewrite bind_throw. split; [intros [H|(y & _ & H)]; [exact H|discriminate]|tauto]. }
  key key "Start"%string. { rewrite C, parse_time_refused. split; [intros [N ->]; constructor; [now left|exact N]|]. inversion 1; subst. now split. }
  key key "End"%string. { rewrite C, parse_time_refused. split; [intros [N ->]; constructor; [now right|exact N]|]. inversion 1; subst. now split. }
  assert (B : bad_event_entry f (mkEv sub st l rt out) key v e -> key = lit "Text" /\ text_refused (text_context f (mkEv sub st l rt out)) sub v e).
  { inversion 1 as [? ? [->| ->] T|? ? T]; subst; [now rewrite str_eqb_refl in E|now rewrite str_eqb_refl in E0|]. now split. }
  key key "Style"%string. { match goal with |- context [match ?o with Some _ => _ | None => _ end] => destruct o end; (split; [discriminate|intros H; apply B in H; now destruct H]). }
  key key "MarginV"%string. { destruct (negb _ && negb _); (split; [discriminate|intros H; apply B in H; now destruct H]). }
  key key "MarginL"%string. { destruct (negb _); [rewrite C; split; [intros H; now apply convert_int_no_throw in H|]|split; [discriminate|]]; intros H; apply B in H; now destruct H. }
  key key "MarginR"%string. { destruct (negb _); [rewrite C; split; [intros H; now apply convert_int_no_throw in H|]|split; [discriminate|]]; intros H; apply B in H; now destruct H. }
  key key "Text"%string. { rewrite C, parse_line_refused. split; [intros H; now apply bad_text|]. intros H. now apply B in H. }
  split; [discriminate|]. intros H. apply B in H. destruct H as [H _]. apply str_eqb_false in E5. contradiction.
Qed.

Lemma event_fields_iff f l ev ev' : event_fields f ev l = Ok ev' <-> in_turn (event_step f) ev l ev'.
Proof.
  apply (steps_iff (fun s kv => event_field f s (fst kv) (snd kv)) (event_fields f)); [reflexivity|intros a [k v] l'; reflexivity|].
  intros a [k v] a'. apply event_field_iff.
Qed.
Lemma event_fields_refused f l ev e : event_fields f ev l = Throw e <-> fails_in_turn (event_step f) (event_step_fails f) ev l e.
Proof.
  apply (steps_fail (fun s kv => event_field f s (fst kv) (snd kv)) (event_fields f)); [reflexivity|intros a [k v] l'; reflexivity| |].
  - intros a [k v] a'. apply event_field_iff.
  - intros a [k v] e'. apply event_field_refused.
Qed.

Lemma dialogue_cases f body : sr_event_format f <> [] ->
  (exists vs, field_values (length (sr_event_format f)) body vs /\
     dialogue f body = let* ev := event_fields f new_event (combine (sr_event_format f) vs) in Ok (ev_out ev)) \/
  (forall vs, ~ field_values (length (sr_event_format f)) body vs) /\ dialogue f body = Throw EProgramming.
Proof.
  intros NE. unfold dialogue. destruct (sr_event_format f) as [|k ks] eqn:EF; [congruence|]. cbn [is_nil negb sub_assert bind].
  destruct (event_values (length (k :: ks)) body) as (vs & R & NV & [[L V]|[L V]]); [cbn; lia|left|right].
  - exists vs. split; [exact V|]. rewrite R. cbn [bind]. destruct vs as [|v vs]; [congruence|]. cbn [is_nil negb sub_assert bind].
    rewrite L, Nat.eqb_refl. reflexivity.
  - split; [exact V|]. rewrite R. cbn [bind]. destruct vs as [|v vs]; [congruence|]. cbn [is_nil negb sub_assert bind].
    destruct (Nat.eqb_spec (length (k :: ks)) (length (v :: vs))) as [E|_]; [now symmetry in E|reflexivity].
Qed.

Lemma dialogue_iff f body raws : dialogue f body = Ok raws <-> dialogue_line f body raws.
Proof.
  unfold dialogue_line. destruct (sr_event_format f) as [|k ks] eqn:EF.
  { unfold dialogue. rewrite EF. split; [discriminate|]. intros [N _]. congruence. }
  destruct (dialogue_cases f body) as [(vs & V & ->)|(N & ->)]; [rewrite EF; discriminate| |]; rewrite EF in *.
  - rewrite bind_ok. split.
    + intros (ev & H & [= <-]). apply event_fields_iff in H. split; [discriminate|]. exists vs, ev. now split.
    + intros (_ & vs' & ev & V' & T & ->). rewrite (field_values_unique _ _ _ _ V V'). exists ev. split; [now apply event_fields_iff|reflexivity].
  - split; [discriminate|]. intros (_ & vs & ev & V & _). now apply N in V.
Qed.
Lemma dialogue_refused_iff f body e : dialogue f body = Throw e <-> dialogue_refused f body e.
Proof.
  unfold dialogue_refused. destruct (sr_event_format f) as [|k ks] eqn:EF.
  { unfold dialogue. rewrite EF. cbn [is_nil negb sub_assert bind]. split; [intros [= <-]; left; now split|]. intros [[_ ->]|[[_ ->]|[N _]]]; [reflexivity..|congruence]. }
  destruct (dialogue_cases f body) as [(vs & V & ->)|(N & ->)]; [rewrite EF; discriminate| |]; rewrite EF in *.
  - rewrite bind_throw. split.
    + intros [H|(ev & _ & H)]; [|discriminate]. apply event_fields_refused in H. right. right. split; [discriminate|]. exists vs. now split.
    + intros [[D _]|[[N _]|(_ & vs' & V' & T)]]; [discriminate|now apply N in V|]. left. rewrite (field_values_unique _ _ _ _ V V'). now apply event_fields_refused.
  - split.
    + intros [= <-]. right. left. now split.
    + intros [[D _]|[[_ ->]|(_ & vs & V & _)]]; [discriminate|reflexivity|now apply N in V].
Qed.

(** * Lines of the file *)

Lemma line_body_iff line l : remove_unicode_bom (trim line) = l <-> line_body line l.
Proof.
  unfold line_body. rewrite remove_bom_iff. split.
  - intros H. exists (trim line). split; [now apply trim_iff|exact H].
  - intros (u & T & H). apply trim_iff in T. subst u. exact H.
Qed.

Lemma find_colon l : match find_sub l (lit ":") with
  | Some n => exists rest, l = firstn n l ++ ":"%char :: rest /\ skipn (n + 1) l = rest /\ ~ In ":"%char (firstn n l)
  | None => ~ In ":"%char l end.
Proof.
  destruct (in_dec_ascii ":"%char l) as [I|N].
  - apply first_in in I. destruct I as (a & b & -> & N).
    assert (F : find_sub (a ++ lit ":" ++ b) (lit ":") = Some (length a)).
    { apply find_sub_found. intros u v E. cbn [lit list_ascii_of_string app] in E. clear -N E. revert u E. induction a as [|c a IH]; intros u E; [cbn; lia|].
      destruct u as [|d u]; cbn in E; injection E as E1 E2; [exfalso; apply N; now left|]. cbn. apply le_n_S. apply IH; [intros I; apply N; now right|exact E2]. }
    cbn [lit list_ascii_of_string app] in F. change (lit ":") with [":"%char]. rewrite F. exists b.
    rewrite firstn_app_exact by reflexivity. split; [reflexivity|]. split; [|exact N].
    change (a ++ ":"%char :: b) with (a ++ [":"%char] ++ b). rewrite app_assoc. apply skipn_app_exact. rewrite app_length. reflexivity.
  - destruct (find_sub l (lit ":")) as [n|] eqn:F; [|exact N].
    assert (H : find_sub l (lit ":") = None). { apply find_sub_none. intros (a & b & ->). apply N. apply in_or_app. right. now left. }
    congruence.
Qed.

Lemma keyed_unique l k b k' b' : keyed l k b -> keyed l k' b' -> k = k' /\ b = b'.
Proof.
  intros (r & E & N & T) (r' & E' & N' & T'). rewrite E in E'.
  assert (A : k = k' /\ r = r').
  { exact (first_sep _ _ _ _ _ N N' E'). }
  destruct A as [-> ->]. apply trim_iff in T, T'. split; [reflexivity|congruence].
Qed.

Definition keyed_step (f : ssa_reader) (type body : str) : res ssa_reader :=
  let '(mkSsa part rx ry styles sf ef subs) := f in
  match part with
  | INFO =>
      if str_eqb type (lit "PlayResX") then
        let* x := raw_convert_int body in Ok (mkSsa part x ry styles sf ef subs)
      else if str_eqb type (lit "PlayResY") then
        let* y := raw_convert_int body in Ok (mkSsa part rx y styles sf ef subs)
      else Ok f
  | STYLES =>
      if str_eqb type (lit "Format") then Ok (mkSsa part rx ry styles body ef subs)
      else if str_eqb type (lit "Style") then
        let* _ := sub_assert (negb (is_nil sf)) in
        let* s := style_parse sf body in
        Ok (mkSsa part rx ry ((st_name s, s) :: styles) sf ef subs)
      else Ok f
  | EVENTS =>
      if str_eqb type (lit "Format") then
        Ok (mkSsa part rx ry styles sf (map trim (split (is_any_of (lit ",")) body)) subs)
      else if str_eqb type (lit "Dialogue") then
        let* out := dialogue f body in
        Ok (mkSsa part rx ry styles sf ef (subs ++ out))
      else Ok f
  end.

Lemma map_trim l l' : map trim l = l' <-> Forall2 trimmed l l'.
Proof.
  split.
  - intros <-. induction l; cbn; constructor; [now apply trim_iff|assumption].
  - induction 1 as [|a b l l' T _ IH]; [reflexivity|]. apply trim_iff in T. cbn. now rewrite T, IH.
Qed.

Lemma keyed_step_iff f type body f' : keyed_step f type body = Ok f' <-> keyed_entry f type body f'.
Proof.
  destruct f as [part rx ry styles sf ef subs]. cbn [keyed_step]. destruct part.
  - key type "PlayResX"%string. { rewrite bind_ok. split; [intros (x & H & [= <-]); constructor; now apply convert_int_iff|]. inversion 1; subst.
      - eexists. split; [apply convert_int_iff; eassumption|reflexivity].
      - exfalso. apply H0. cbn. tauto. }
    key type "PlayResY"%string. { rewrite bind_ok. split; [intros (x & H & [= <-]); constructor; now apply convert_int_iff|]. inversion 1; subst.
      - eexists. split; [apply convert_int_iff; eassumption|reflexivity].
      - exfalso. apply H0. cbn. tauto. }
    apply str_eqb_false in E, E0. split; [intros [= <-]; apply entry_unknown; other_key|]. inversion 1; subst; congruence.
  - key type "Format"%string. { split; [intros [= <-]; constructor|]. inversion 1; subst; [reflexivity|]. exfalso. apply H0. cbn. tauto. }
    key type "Style"%string. { split.
      - destruct sf as [|c sf]; [discriminate|]. cbn [is_nil negb sub_assert bind]. intros H. apply bind_ok in H. destruct H as (s & H & [= <-]).
        apply entry_style; [discriminate|now apply style_parse_iff].
      - inversion 1; subst; [|exfalso; apply H0; cbn; tauto]. destruct sf as [|c sf]; [congruence|]. cbn [is_nil negb sub_assert bind].
        apply bind_ok. eexists. split; [apply style_parse_iff; eassumption|reflexivity]. }
    apply str_eqb_false in E, E0. split; [intros [= <-]; apply entry_unknown; other_key|]. inversion 1; subst; congruence.
  - key type "Format"%string. { change (lit ",") with [comma]. split.
      - intros [= <-]. eapply entry_event_format; [now apply parts_iff|now apply map_trim].
      - inversion 1; subst; [|exfalso; apply H0; cbn; tauto]. match goal with P : parts_of _ _ _, T : Forall2 _ _ _ |- _ => apply parts_iff in P; apply map_trim in T; subst end. reflexivity. }
    key type "Dialogue"%string. { rewrite bind_ok. split.
      - intros (out & H & [= <-]). apply entry_dialogue. now apply dialogue_iff.
      - inversion 1; subst; [|exfalso; apply H0; cbn; tauto]. eexists. split; [apply dialogue_iff; eassumption|reflexivity]. }
    apply str_eqb_false in E, E0. split; [intros [= <-]; apply entry_unknown; other_key|]. inversion 1; subst; congruence.
Qed.

Lemma keyed_step_refused f type body e : keyed_step f type body = Throw e <-> keyed_refused f type body e.
Proof.
  destruct f as [part rx ry styles sf ef subs]. cbn [keyed_step].
  assert (I : forall s (g : Z -> ssa_reader), (let* y := raw_convert_int s in Ok (g y)) <> Throw e).
  { intros s g H. apply bind_throw in H. destruct H as [H|(y & _ & H)]; [now apply convert_int_no_throw in H|discriminate]. }
  destruct part.
  - assert (N : ~ keyed_refused (mkSsa INFO rx ry styles sf ef subs) type body e) by (inversion 1; discriminate).
    key type "PlayResX"%string. { split; [intros H; now apply I in H|contradiction]. }
    key type "PlayResY"%string. { split; [intros H; now apply I in H|contradiction]. }
    split; [discriminate|contradiction].
  - key type "Format"%string. { split; [discriminate|]. inversion 1; discriminate. }
    key type "Style"%string. { split.
      - destruct sf as [|c sf]; [intros [= <-]; now apply refused_no_format|]. cbn [is_nil negb sub_assert bind]. intros H. apply bind_throw in H.
        destruct H as [H|(s & _ & H)]; [|discriminate]. apply refused_style; [reflexivity|discriminate|now apply style_parse_refused].
      - inversion 1 as [? _ S|? ? _ S R|? ? P]; subst; cbn [sr_style_format sr_part] in *; [subst sf; reflexivity|].
        destruct sf as [|c sf]; [congruence|]. cbn [is_nil negb sub_assert bind]. apply bind_throw. left. now apply style_parse_refused. }
    apply str_eqb_false in E0. split; [discriminate|]. inversion 1; subst; cbn [sr_part] in *; congruence.
  - key type "Format"%string. { split; [discriminate|]. inversion 1; discriminate. }
    key type "Dialogue"%string. { rewrite bind_throw. split.
      - intros [H|(s & _ & H)]; [|discriminate]. apply refused_dialogue; [reflexivity|now apply dialogue_refused_iff].
      - inversion 1; subst. left. now apply dialogue_refused_iff. }
    apply str_eqb_false in E0. split; [discriminate|]. inversion 1; subst; cbn [sr_part] in *; congruence.
Qed.

Lemma ssa_line_eq f line : ssa_line f line =
  let l := remove_unicode_bom (trim line) in
  if starts_with l (lit ";") || is_nil l then Ok f
  else if starts_with l (lit "[") then
    if str_eqb l (lit "[Script Info]") then Ok (with_part INFO f)
    else if str_eqb l (lit "[V4 Styles]") || str_eqb l (lit "[V4+ Styles]") then Ok (with_part STYLES f)
    else if str_eqb l (lit "[Events]") then Ok (with_part EVENTS f) else Ok f
  else match find_sub l (lit ":") with
       | None => Throw EProgramming
       | Some colon => keyed_step f (firstn colon l) (trim (skipn (colon + 1) l))
       end.
Proof.
  unfold ssa_line. destruct f as [part rx ry styles sf ef subs]. cbn [keyed_step]. destruct (_ || _); [reflexivity|].
  destruct (starts_with _ _); reflexivity.
Qed.

Lemma line_body_unique line l l' : line_body line l -> line_body line l' -> l = l'.
Proof. intros A B. apply line_body_iff in A, B. congruence. Qed.

Lemma starts_char c l : starts_with l [c] = true <-> begins (eq c) l.
Proof.
  rewrite starts_with_iff. split.
  - intros (r & ->). reflexivity.
  - destruct l as [|d l]; [intros []|]. cbn. intros <-. now exists l.
Qed.

(** The kinds of lines exclude each other. *)
Lemma line_kinds f line : let l := remove_unicode_bom (trim line) in
  (l = [] /\ ssa_line f line = Ok f) \/ (exists s, l = ";"%char :: s /\ ssa_line f line = Ok f) \/
  (exists h p, In (h, p) headings /\ l = lit h /\ ssa_line f line = Ok (with_part p f)) \/
  (exists s, l = "["%char :: s /\ (forall h p, In (h, p) headings -> l <> lit h) /\ ssa_line f line = Ok f) \/
  (l <> [] /\ ~ begins (fun c => c = ";"%char \/ c = "["%char) l /\
    (~ In ":"%char l /\ ssa_line f line = Throw EProgramming \/
     exists key body, keyed l key body /\ ssa_line f line = keyed_step f key body)).
Proof.
  cbv zeta. rewrite ssa_line_eq. cbv zeta. remember (remove_unicode_bom (trim line)) as l eqn:El. clear El.
  destruct l as [|c l]; [left; now split|].
  change (starts_with (c :: l) (lit ";")) with (starts_with (c :: l) [";"%char]). change (starts_with (c :: l) (lit "[")) with (starts_with (c :: l) ["["%char]).
  cbn [is_nil]. rewrite orb_false_r.
  destruct (starts_with (c :: l) [";"%char]) eqn:S.
  { apply starts_char in S. cbn in S. subst c. right. left. now exists l. }
  destruct (starts_with (c :: l) ["["%char]) eqn:B.
  { apply starts_char in B. cbn in B. subst c. right. right.
    destruct (str_eqb ("["%char :: l) (lit "[Script Info]")) eqn:H1.
    { apply str_eqb_iff in H1. left. exists "[Script Info]"%string, INFO. split; [cbn; tauto|]. now split. }
    destruct (str_eqb ("["%char :: l) (lit "[V4 Styles]")) eqn:H2.
    { apply str_eqb_iff in H2. left. exists "[V4 Styles]"%string, STYLES. split; [cbn; tauto|]. now split. }
    destruct (str_eqb ("["%char :: l) (lit "[V4+ Styles]")) eqn:H3.
    { apply str_eqb_iff in H3. left. exists "[V4+ Styles]"%string, STYLES. split; [cbn; tauto|]. now split. }
    destruct (str_eqb ("["%char :: l) (lit "[Events]")) eqn:H4.
    { apply str_eqb_iff in H4. left. exists "[Events]"%string, EVENTS. split; [cbn; tauto|]. now split. }
    right. left. exists l. split; [reflexivity|]. split; [|reflexivity].
    apply str_eqb_false in H1, H2, H3, H4. intros h p I. cbn in I.
    repeat (destruct I as [I|I]; [injection I as <- <-; assumption|]). contradiction. }
  right. right. right. right. split; [discriminate|].
  split. { intros [-> | ->]; [cbn in S; destruct l; discriminate S|cbn in B; destruct l; discriminate B]. }
  pose proof (find_colon (c :: l)) as F. destruct (find_sub (c :: l) (lit ":")) as [n|]; [|left; now split].
  destruct F as (rest & E & R & N). right. exists (firstn n (c :: l)), (trim rest). rewrite R. split; [|reflexivity].
  exists rest. split; [exact E|]. split; [exact N|now apply trim_iff].
Qed.

Lemma not_heading_start h p : In (h, p) headings -> begins (eq "["%char) (lit h).
Proof. cbn. intros I. repeat (destruct I as [I|I]; [injection I as <- <-; reflexivity|]). contradiction. Qed.

Lemma heading_part h p h' p' : In (h, p) headings -> In (h', p') headings -> lit h = lit h' -> p = p'.
Proof.
  cbn. intros I I' E. repeat (destruct I as [I|I]; [injection I as <- <-; repeat (destruct I' as [I'|I']; [injection I' as <- <-; cbn in E; congruence|]); contradiction|]). contradiction.
Qed.

Lemma ssa_line_iff f line f' : ssa_line f line = Ok f' <-> ssa_line_read f line f'.
Proof.
  pose proof (proj1 (line_body_iff line _) eq_refl) as LB. pose proof (line_kinds f line) as K. cbv zeta in K.
  remember (remove_unicode_bom (trim line)) as l eqn:El. clear El.
  assert (U : forall l', line_body line l' -> l' = l) by (intros l' H; exact (line_body_unique _ _ _ H LB)).
  split.
  - intros H. destruct K as [[-> E]|[(s & -> & E)|[(h & p & I & -> & E)|[(s & -> & N & E)|(NE & NB & [[NC E]|(key & body & KB & E)])]]]]; rewrite E in H.
    + injection H as <-. now apply line_blank.
    + injection H as <-. now apply line_comment with s.
    + injection H as <-. now apply line_heading with h.
    + injection H as <-. now apply line_other_heading with s.
    + discriminate.
    + apply line_keyed with l key body; try assumption. now apply keyed_step_iff.
  - intros R. inversion R as [? ? B|? ? s B|? ? h p B I|? ? s B N|? ? l' key body ? B NB KB KE]; subst; apply U in B; subst l.
    + destruct K as [[_ E]|[(s' & D & E)|[(h' & p' & I' & D & E)|[(s' & D & N' & E)|(NE & NB & _)]]]]; try discriminate; try exact E; [|congruence].
      apply not_heading_start in I'. rewrite <- D in I'. contradiction.
    + destruct K as [[D E]|[(s' & D & E)|[(h' & p' & I' & D & E)|[(s' & D & N' & E)|(NE & NB & _)]]]]; try discriminate; try exact E; [|exfalso; apply NB; now left].
      apply not_heading_start in I'. rewrite <- D in I'. discriminate.
    + pose proof (not_heading_start _ _ I) as HS.
      destruct K as [[D E]|[(s' & D & E)|[(h' & p' & I' & D & E)|[(s' & D & N' & E)|(NE & NB & _)]]]].
      * rewrite D in HS. contradiction.
      * rewrite D in HS. discriminate.
      * rewrite E. now rewrite (heading_part _ _ _ _ I I' D).
      * exfalso. exact (N' _ _ I eq_refl).
      * exfalso. apply NB. destruct (lit h) as [|c t]; [contradiction|]. cbn in HS |- *. right. now symmetry.
    + destruct K as [[D E]|[(s' & D & E)|[(h' & p' & I' & D & E)|[(s' & D & N' & E)|(NE & NB & _)]]]]; try discriminate; try exact E; [|exfalso; apply NB; now right].
      exfalso. exact (N _ _ I' D).
    + destruct K as [[D E]|[(s' & D & E)|[(h' & p' & I' & D & E)|[(s' & D & N' & E)|(NE & _ & [[NC E]|(key' & body' & KB' & E)])]]]].
      * exfalso. destruct KB as (r & EK & _). rewrite D in EK. destruct key; discriminate.
      * exfalso. apply NB. rewrite D. now left.
      * exfalso. apply NB. rewrite D. apply not_heading_start in I'. destruct (lit h') as [|c t]; [contradiction|]. cbn in I' |- *. right. now symmetry.
      * exfalso. apply NB. rewrite D. now right.
      * exfalso. apply NC. destruct KB as (r & -> & _). apply in_or_app. right. now left.
      * destruct (keyed_unique _ _ _ _ _ KB KB') as [<- <-]. rewrite E. now apply keyed_step_iff.
Qed.

Lemma ssa_line_refused_iff f line e : ssa_line f line = Throw e <-> ssa_line_refused f line e.
Proof.
  pose proof (proj1 (line_body_iff line _) eq_refl) as LB. pose proof (line_kinds f line) as K. cbv zeta in K.
  remember (remove_unicode_bom (trim line)) as l eqn:El. clear El.
  assert (U : forall l', line_body line l' -> l' = l) by (intros l' H; exact (line_body_unique _ _ _ H LB)).
  split.
  - intros H. destruct K as [[-> E]|[(s & -> & E)|[(h & p & I & -> & E)|[(s & -> & N & E)|(NE & NB & [[NC E]|(key & body & KB & E)])]]]]; rewrite E in H; try discriminate.
    + injection H as <-. now apply refused_no_colon with l.
    + apply refused_keyed with l key body; try assumption. now apply keyed_step_refused.
  - intros R. assert (X : l <> [] /\ ~ begins (fun c => c = ";"%char \/ c = "["%char) l /\
       (~ In ":"%char l /\ e = EProgramming \/ exists key body, keyed l key body /\ keyed_refused f key body e)).
    { inversion R as [l' B NE NB NC|l' key body ? B NB KB KR]; subst; apply U in B; subst l'.
      - split; [exact NE|]. split; [exact NB|]. left. now split.
      - split; [destruct KB as (r & -> & _); destruct key; discriminate|]. split; [exact NB|]. right. now exists key, body. }
    destruct X as (NE & NB & X).
    destruct K as [[D E]|[(s' & D & E)|[(h' & p' & I' & D & E)|[(s' & D & N' & E)|(_ & _ & K)]]]].
    + contradiction.
    + exfalso. apply NB. rewrite D. now left.
    + exfalso. apply NB. rewrite D. apply not_heading_start in I'. destruct (lit h') as [|c t]; [contradiction|]. cbn in I' |- *. right. now symmetry.
    + exfalso. apply NB. rewrite D. now right.
    + destruct K as [[NC E]|(key' & body' & KB' & E)]; destruct X as [[NC' ->]|(key & body & KB & KR)].
      * exact E.
      * exfalso. apply NC. destruct KB as (r & -> & _). apply in_or_app. right. now left.
      * exfalso. apply NC'. destruct KB' as (r & -> & _). apply in_or_app. right. now left.
      * destruct (keyed_unique _ _ _ _ _ KB KB') as [<- <-]. rewrite E. now apply keyed_step_refused.
Qed.

Lemma ssa_lines_iff ls f f' : ssa_lines f ls = Ok f' <-> in_turn ssa_line_read f ls f'.
Proof. apply (steps_iff ssa_line ssa_lines); [reflexivity..|]. intros a b a'. apply ssa_line_iff. Qed.
Lemma ssa_lines_refused ls f e : ssa_lines f ls = Throw e <-> fails_in_turn ssa_line_read ssa_line_refused f ls e.
Proof. apply (steps_fail ssa_line ssa_lines); [reflexivity..| |]; intros a b x; [apply ssa_line_iff|apply ssa_line_refused_iff]. Qed.

Theorem ssa_string_iff s raws : ssa_reader_string s = Ok raws <-> ssa_file s raws.
Proof.
  unfold ssa_reader_string, ssa_read, ssa_file. change ssa_init with new_file. rewrite bind_ok. split.
  - intros (f & H & [= <-]). apply ssa_lines_iff in H. exists (lines_of_string s), f. split; [now apply lines_of_string_iff|]. now split.
  - intros (ls & f & L & T & ->). apply lines_of_string_iff in L. subst ls. exists f. split; [now apply ssa_lines_iff|reflexivity].
Qed.
Theorem ssa_string_refused s e : ssa_reader_string s = Throw e <-> ssa_file_refused s e.
Proof.
  unfold ssa_reader_string, ssa_read, ssa_file_refused. change ssa_init with new_file. rewrite bind_throw. split.
  - intros [H|(f & _ & H)]; [|discriminate]. apply ssa_lines_refused in H. exists (lines_of_string s). split; [now apply lines_of_string_iff|exact H].
  - intros (ls & L & T). apply lines_of_string_iff in L. subst ls. left. now apply ssa_lines_refused.
Qed.
