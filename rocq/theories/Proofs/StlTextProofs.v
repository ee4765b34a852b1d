(** The text STL reader meets its specification. *)
From Coq Require Import ZArith List Bool Ascii String Lia.
From Verif.Model Require Import Base Strings Float TimeModel Types Lines StlText.
From Verif.Spec Require Import Outcome TextSpec LinesSpec StlFileSpec RawSpec SsaSpec StopSpec StlTextSpec.
From Verif.Proofs Require Import StringProofs EqualityProofs LinesProofs StlReadProofs SsaTagProofs SsaTextProofs SsaProofs SsaUseProofs.
Import ListNotations.
Local Open Scope Z_scope.
Local Notation length := List.length.

(** * Lines *)

Lemma getlines_iff fuel s ls : (length s <= fuel)%nat -> (getlines fuel s = ls <-> complete_lines s ls).
Proof.
  revert s ls. induction fuel as [|k IH]; intros s ls L.
  - destruct s; [|cbn in L; lia]. cbn [getlines]. split.
    + intros <-. constructor. intros [].
    + intros C. inversion C as [|l rest ls' N C' E]; [reflexivity|]. destruct l; discriminate.
  - cbn [getlines]. destruct (break_nl s) as [[l rest]|] eqn:B.
    + apply break_nl_some in B. destruct B as [-> N]. rewrite app_length in L. cbn in L. split.
      * intros <-. constructor; [exact N|]. apply IH; [lia|reflexivity].
      * intros C. inversion C as [s' NI E|l2 rest2 ls2 N2 C2 E]; subst.
        -- destruct NI. apply in_or_app. right. now left.
        -- assert (A : l2 = l /\ rest2 = rest) by exact (first_sep _ _ _ _ _ N2 N E). destruct A as [-> ->].
           f_equal. apply IH; [lia|exact C2].
    + apply break_nl_none in B. split.
      * intros <-. now constructor.
      * intros C. inversion C as [|l rest ls' N C' E]; [reflexivity|]. subst. destruct B. apply in_or_app. right. now left.
Qed.

(** * Times *)

Lemma cast_throw s : is_integer s \/ (~ is_integer s /\ lexical_cast_int s = Throw EBadLexicalCast).
Proof.
  destruct (lexical_cast_int s) as [v|e|u] eqn:E.
  - left. exists v. now apply lexical_cast_iff.
  - right. split.
    + intros [v I]. apply lexical_cast_iff in I. congruence.
    + unfold lexical_cast_int in E. destruct (take_sign s) as [neg d]. destruct d; [now injection E as <-|].
      destruct (forallb is_digit (a :: d)); [|now injection E as <-]. destruct (in_int _); [discriminate|now injection E as <-].
  - exfalso. unfold lexical_cast_int in E. destruct (take_sign s) as [neg d]. destruct d; [discriminate|].
    destruct (forallb is_digit (a :: d)); [|discriminate]. destruct (in_int _); discriminate.
Qed.

Lemma hmsf_cases h m s f : (time_fits h m s /\ from_hmsf h m s f None = Ok (mkT (h * 3600 + m * 60 + s) f None)) \/
  (~ time_fits h m s /\ from_hmsf h m s f None = Undef UbIntOverflow).
Proof.
  unfold from_hmsf, hms_seconds, imul, iadd, time_fits, chk. rewrite <- !in_int_iff.
  destruct (in_int (h * 3600)); cbn [bind]; [|right; split; [intuition congruence|reflexivity]].
  destruct (in_int (m * 60)); cbn [bind]; [|right; split; [intuition congruence|reflexivity]].
  destruct (in_int (h * 3600 + m * 60)); cbn [bind]; [|right; split; [intuition congruence|reflexivity]].
  destruct (in_int (h * 3600 + m * 60 + s)); cbn [bind]; [|right; split; [intuition congruence|reflexivity]].
  left. split; [now repeat split|reflexivity].
Qed.

Definition time_case (s : str) (x : res (option time)) : Prop :=
  match x with
  | Ok None => no_time s
  | Ok (Some t) => frame_time s t
  | Throw e => e = EBadLexicalCast /\ bad_time s
  | Undef u => u = UbIntOverflow /\ big_time s
  end.
Lemma fields_split s a b c d : four_fields s a b c d <-> split (is_any_of (lit ":")) s = [a; b; c; d].
Proof. symmetry. apply parts_iff. Qed.
Lemma time_total s : time_case s (stlt_time s).
Proof.
  unfold stlt_time. destruct (split (is_any_of (lit ":")) s) as [|a [|b [|c [|d [|e r]]]]] eqn:E;
    try (intros p q x y F; apply fields_split in F; congruence).
  apply fields_split in E.
  destruct (cast_throw a) as [[h H]|[N T]]; [|rewrite T; split; [reflexivity|]; exists a, b, c, d; split; [exact E|tauto]].
  pose proof (proj2 (lexical_cast_iff _ _) H) as ->. cbn [bind].
  destruct (cast_throw b) as [[m M]|[N T]]; [|rewrite T; split; [reflexivity|]; exists a, b, c, d; split; [exact E|tauto]].
  pose proof (proj2 (lexical_cast_iff _ _) M) as ->. cbn [bind].
  destruct (cast_throw c) as [[sec S]|[N T]]; [|rewrite T; split; [reflexivity|]; exists a, b, c, d; split; [exact E|tauto]].
  pose proof (proj2 (lexical_cast_iff _ _) S) as ->. cbn [bind].
  destruct (cast_throw d) as [[f F]|[N T]]; [|rewrite T; split; [reflexivity|]; exists a, b, c, d; split; [exact E|tauto]].
  pose proof (proj2 (lexical_cast_iff _ _) F) as ->. cbn [bind].
  destruct (hmsf_cases h m sec f) as [[TF ->]|[TF ->]]; cbn [bind].
  - now exists a, b, c, d, h, m, sec, f.
  - split; [reflexivity|]. exists a, b, c, d, h, m, sec. assert (is_integer d) by now exists f. tauto.
Qed.
Lemma time_sound s x : time_case s x -> stlt_time s = x.
Proof.
  unfold time_case, stlt_time. destruct x as [[t|]|e|u].
  - intros (a & b & c & d & h & m & sec & f & E & H & M & S & F & TF & ->). apply fields_split in E. rewrite E.
    apply lexical_cast_iff in H, M, S, F. rewrite H, M, S, F. cbn [bind]. destruct (hmsf_cases h m sec f) as [[_ ->]|[N _]]; [reflexivity|tauto].
  - intros N. destruct (split (is_any_of (lit ":")) s) as [|a [|b [|c [|d [|e r]]]]] eqn:E; try reflexivity.
    apply fields_split in E. now apply N in E.
  - intros (-> & a & b & c & d & E & N). apply fields_split in E. rewrite E.
    destruct (cast_throw a) as [Ia|[_ ->]]; [|reflexivity]. destruct (cast_throw b) as [Ib|[_ ->]];
      [|destruct Ia as [? Ia]; apply lexical_cast_iff in Ia; rewrite Ia; reflexivity].
    destruct (cast_throw c) as [Ic|[_ ->]];
      [|destruct Ia as [? Ia], Ib as [? Ib]; apply lexical_cast_iff in Ia, Ib; rewrite Ia, Ib; reflexivity].
    destruct (cast_throw d) as [Id|[_ ->]]; [tauto|].
    destruct Ia as [? Ia], Ib as [? Ib], Ic as [? Ic]; apply lexical_cast_iff in Ia, Ib, Ic; rewrite Ia, Ib, Ic; reflexivity.
  - intros (-> & a & b & c & d & h & m & sec & E & H & M & S & [f F] & TF). apply fields_split in E. rewrite E.
    apply lexical_cast_iff in H, M, S, F. rewrite H, M, S, F. cbn [bind]. destruct (hmsf_cases h m sec f) as [[T _]|[_ ->]]; [tauto|reflexivity].
Qed.
Lemma time_iff s x : stlt_time s = x <-> time_case s x.
Proof. split; [intros <-; apply time_total|apply time_sound]. Qed.

(** * Text *)

Lemma with_text_same r : with_text (r_text r) r = r.
Proof. now destruct r. Qed.
Lemma with_text_nil r : r_text r = [] -> with_text [] r = r.
Proof. intros <-. apply with_text_same. Qed.
Lemma bar_iff c : Ascii.eqb c "|" = true <-> is_bar c. Proof. apply eqb_iff. Qed.
Lemma caret_iff c : Ascii.eqb c "^" = true <-> is_caret c. Proof. apply eqb_iff. Qed.

Definition toggle (d : ascii) (r : raw) : raw :=
  if Ascii.eqb d "B"%char then set_bold (negb (r_bold r)) r
  else if Ascii.eqb d "I"%char then set_italic (negb (r_italic r)) r
  else if Ascii.eqb d "U"%char then set_underline (negb (r_underline r)) r
  else r.
Lemma toggled_iff d r r' : toggle d r = r' <-> toggled d r r'.
Proof.
  unfold toggle, toggled. destruct (Ascii.eqb_spec d "B") as [->|NB].
  { split; [intros <-; now left|]. intros [[_ ->]|[[? _]|[[? _]|(? & _)]]]; (reflexivity || congruence). }
  destruct (Ascii.eqb_spec d "I") as [->|NI].
  { split; [intros <-; right; now left|]. intros [[? _]|[[_ ->]|[[? _]|(_ & ? & _)]]]; (reflexivity || congruence). }
  destruct (Ascii.eqb_spec d "U") as [->|NU].
  { split; [intros <-; right; right; now left|]. intros [[? _]|[[? _]|[[_ ->]|(_ & _ & ? & _)]]]; (reflexivity || congruence). }
  split; [intros <-; right; right; right; tauto|]. intros [[? _]|[[? _]|[[? _]|(_ & _ & _ & ->)]]]; (reflexivity || congruence).
Qed.

Definition ready (r : raw) : Prop := exists n, v_line (r_vpos r) = Some n.
Lemma ready_toggle d r : ready r -> ready (toggle d r).
Proof. intros [n H]. unfold toggle. destruct (Ascii.eqb d "B"), (Ascii.eqb d "I"), (Ascii.eqb d "U"); now exists n. Qed.
Lemma toggle_text' d r : r_text (toggle d r) = r_text r.
Proof. unfold toggle. destruct (Ascii.eqb d "B"), (Ascii.eqb d "I"), (Ascii.eqb d "U"); reflexivity. Qed.

(** The text read so far is pushed in front of a mark. *)
Lemma text_total n : forall s sub subs, (length s <= n)%nat -> ready sub -> Forall plain_char (r_text sub) ->
  exists r' ps, stlt_text s sub subs = Ok (r', subs ++ ps) /\ pieces (with_text [] sub) (r_text sub ++ s) r' ps /\ ready r' /\ r_text r' = [].
Proof.
  assert (PUSH : forall sub subs, ready sub -> exists ps0, stlt_push sub subs = (fst (stlt_push sub subs), subs ++ ps0) /\
    ready (fst (stlt_push sub subs)) /\ r_text (fst (stlt_push sub subs)) = [] /\
    (Forall plain_char (r_text sub) -> forall s r' ps, (s = [] \/ begins (fun c => ~ plain_char c) s) ->
       pieces (fst (stlt_push sub subs)) s r' ps -> pieces (with_text [] sub) (r_text sub ++ s) r' (ps0 ++ ps))).
  { intros sub subs R. unfold stlt_push. destruct (r_text sub) as [|c t] eqn:T.
    - exists []. rewrite app_nil_r. cbn [fst]. split; [reflexivity|]. split; [exact R|]. split; [exact T|]. intros _ s r' ps _ P. cbn [app].
      rewrite (with_text_nil sub T). exact P.
    - exists [sub]. cbn [fst]. repeat split; [now exists 0|]. intros F s r' ps B P.
      cbn [app]. replace sub with (with_text (c :: t) (with_text [] sub)) at 2
        by (rewrite <- T; destruct sub; reflexivity).
      apply (pieces_text (with_text [] sub) (c :: t) s r' ps); [discriminate|exact F|exact B|exact P]. }
  induction n as [|n IH]; intros s sub subs L R F.
  - destruct s; [|cbn in L; lia]. cbn [stlt_text]. destruct (PUSH sub subs R) as (ps0 & E & R1 & T1 & P).
    exists (fst (stlt_push sub subs)), ps0. rewrite E at 1. split; [reflexivity|]. split; [|now split].
    specialize (P F [] (fst (stlt_push sub subs)) [] (or_introl eq_refl) (pieces_end _)). rewrite (app_nil_r ps0) in P. exact P.
  - destruct s as [|c s].
    { cbn [stlt_text]. destruct (PUSH sub subs R) as (ps0 & E & R1 & T1 & P).
      exists (fst (stlt_push sub subs)), ps0. rewrite E at 1. split; [reflexivity|]. split; [|now split].
      specialize (P F [] (fst (stlt_push sub subs)) [] (or_introl eq_refl) (pieces_end _)). rewrite (app_nil_r ps0) in P. exact P. }
    cbn in L. cbn [stlt_text]. destruct (Ascii.eqb c "|") eqn:B; [|destruct (Ascii.eqb c "^") eqn:C].
    + apply bar_iff in B. destruct (PUSH sub subs R) as (ps0 & E & R1 & T1 & P). rewrite E. set (sub1 := fst (stlt_push sub subs)) in *.
      destruct R1 as [k K]. rewrite K. cbn [opt_get bind].
      destruct (IH s (set_line (Some (k + 1)) sub1) (subs ++ ps0)) as (r' & ps & E2 & P2 & R2 & T2); [lia|now exists (k + 1)|cbn; rewrite T1; constructor|].
      exists r', (ps0 ++ ps). rewrite E2, app_assoc. split; [reflexivity|]. split; [|now split].
      apply P; [exact F|right; cbn; intros [X _]; exact (X B)|].
      apply (pieces_bar _ k); [exact B|exact K|]. cbn [r_text set_line set_vpos] in P2. rewrite T1 in P2. cbn [app] in P2.
      replace (with_line (k + 1) sub1) with (with_text [] (set_line (Some (k + 1)) sub1)); [exact P2|]. destruct sub1; cbn in T1 |- *. now subst.
    + apply caret_iff in C. destruct (PUSH sub subs R) as (ps0 & E & R1 & T1 & P). rewrite E. set (sub1 := fst (stlt_push sub subs)) in *.
      destruct s as [|d s].
      * unfold stlt_push at 1. rewrite T1. exists sub1, ps0. split; [reflexivity|]. split; [|now split].
        replace ps0 with (ps0 ++ []) by apply app_nil_r. apply P; [exact F|right; cbn; intros [_ X]; exact (X C)|]. now apply pieces_caret.
      * fold (toggle d sub1).
        destruct (IH s (toggle d sub1) (subs ++ ps0)) as (r' & ps & E2 & P2 & R2 & T2); [cbn in L; lia|now apply ready_toggle|rewrite toggle_text', T1; constructor|].
        exists r', (ps0 ++ ps). rewrite E2, app_assoc. split; [reflexivity|]. split; [|now split].
        apply P; [exact F|right; cbn; intros [_ X]; exact (X C)|].
        apply (pieces_toggle _ _ _ (toggle d sub1)); [exact C|now apply toggled_iff|].
        rewrite toggle_text', T1 in P2. cbn [app] in P2. replace (toggle d sub1) with (with_text [] (toggle d sub1)); [exact P2|].
        rewrite <- T1, <- (toggle_text' d sub1). apply with_text_same.
    + destruct (IH s (set_text (r_text sub ++ [c]) sub) subs) as (r' & ps & E2 & P2 & R2 & T2); [lia|exact R| |].
      { cbn. apply Forall_app. split; [exact F|]. constructor; [|constructor]. split; intros X; [apply bar_iff in X|apply caret_iff in X]; congruence. }
      exists r', ps. rewrite E2. split; [reflexivity|]. split; [|now split]. cbn in P2. rewrite <- app_assoc in P2. exact P2.
Qed.

Lemma plain_first (t1 : str) : forall s1 t2 s2, Forall plain_char t1 -> Forall plain_char t2 -> (s1 = [] \/ begins (fun c => ~ plain_char c) s1) ->
  (s2 = [] \/ begins (fun c => ~ plain_char c) s2) -> t1 ++ s1 = t2 ++ s2 -> t1 = t2 /\ s1 = s2.
Proof.
  induction t1 as [|a t1 IH]; intros s1 t2 s2 F1 F2 B1 B2 E.
  - destruct t2 as [|b t2]; [now split|]. cbn in E. subst s1. inversion F2. destruct B1 as [?|X]; [discriminate|]. now cbn in X.
  - inversion F1 as [|? ? Pa F1']; subst. destruct t2 as [|b t2].
    + cbn in E. subst s2. destruct B2 as [?|X]; [discriminate|]. now cbn in X.
    + inversion F2; subst. cbn in E. injection E as -> E. destruct (IH s1 t2 s2) as [-> ->]; auto.
Qed.

Lemma pieces_unique r s r1 ps1 : pieces r s r1 ps1 -> forall r2 ps2, pieces r s r2 ps2 -> r1 = r2 /\ ps1 = ps2.
Proof.
  induction 1 as [r|r n c s r1 ps1 B V P IH|r x c ra s r1 ps1 C T P IH|r c C|r t s r1 ps1 NE F B P IH]; intros r2 ps2 Q.
  - inversion Q; subst; try (now split). destruct t; [congruence|discriminate].
  - inversion Q; subst.
    + assert (n0 = n) by congruence. subst. now apply IH.
    + unfold is_bar, is_caret in *. congruence.
    + unfold is_bar, is_caret in *. congruence.
    + exfalso. destruct t; [congruence|]. match goal with H : (_ :: _) ++ _ = _ |- _ => cbn in H; injection H as -> _ end.
      match goal with H : Forall plain_char _ |- _ => inversion H as [|? ? [X _]]; subst; exact (X B) end.
  - inversion Q; subst.
    + unfold is_bar, is_caret in *. congruence.
    + match goal with H : toggled c r _, K : toggled c r _ |- _ => apply toggled_iff in H, K; rewrite H in K; subst end. now apply IH.
    + exfalso. destruct t; [congruence|]. match goal with H : (_ :: _) ++ _ = _ |- _ => cbn in H; injection H as -> _ end.
      match goal with H : Forall plain_char _ |- _ => inversion H as [|? ? [_ X]]; subst; exact (X C) end.
  - inversion Q; subst; try (now split).
    + unfold is_bar, is_caret in *. congruence.
    + exfalso. destruct t; [congruence|]. match goal with H : (_ :: _) ++ _ = _ |- _ => cbn in H; injection H as -> _ end.
      match goal with H : Forall plain_char _ |- _ => inversion H as [|? ? [_ X]]; subst; exact (X C) end.
  - destruct t as [|a t]; [congruence|]. pose proof (Forall_inv F) as [Nb Nc].
    inversion Q; subst.
    + tauto.
    + tauto.
    + tauto.
    + match goal with H : ?u ++ ?v = a :: t ++ s |- _ => destruct (plain_first u v (a :: t) s) as [-> ->]; try assumption end.
      match goal with H : pieces (with_line 0 r) _ _ _ |- _ => destruct (IH _ _ H) as [-> ->] end. now split.
Qed.

Lemma text_read s sub subs : ready sub -> r_text sub = [] -> forall r' ps, pieces sub s r' ps -> stlt_text s sub subs = Ok (r', subs ++ ps).
Proof.
  intros R T r' ps P. destruct (text_total _ s sub subs (le_n _) R) as (r2 & ps2 & E & P2 & _); [rewrite T; constructor|].
  rewrite T in P2. cbn [app] in P2. rewrite (with_text_nil sub T) in P2.
  destruct (pieces_unique _ _ _ _ P _ _ P2) as [-> ->]. exact E.
Qed.

(** * Lines *)

Lemma find_comma l : match find_sub l (lit ",") with
  | Some n => exists rest, l = firstn n l ++ comma :: rest /\ skipn (n + 1) l = rest /\ ~ In comma (firstn n l)
  | None => ~ In comma l end.
Proof.
  destruct (in_dec_ascii comma l) as [I|N].
  - apply first_in in I. destruct I as (a & b & -> & N).
    assert (F : find_sub (a ++ lit "," ++ b) (lit ",") = Some (length a)).
    { apply find_sub_found. intros u v E. cbn [lit list_ascii_of_string app] in E. clear -N E. revert u E. induction a as [|c a IH]; intros u E; [cbn; lia|].
      destruct u as [|d u]; cbn in E; injection E as E1 E2; [exfalso; apply N; now left|]. cbn. apply le_n_S. apply IH; [intros I; apply N; now right|exact E2]. }
    cbn [lit list_ascii_of_string app] in F. change (lit ",") with [comma]. change [","%char] with [comma] in F. change (","%char :: b) with (comma :: b) in F. rewrite F. exists b.
    rewrite firstn_app_exact by reflexivity. split; [reflexivity|]. split; [|exact N].
    change (a ++ comma :: b) with (a ++ [comma] ++ b). rewrite app_assoc. apply skipn_app_exact. rewrite app_length. reflexivity.
  - destruct (find_sub l (lit ",")) as [n|] eqn:F; [|exact N].
    assert (H : find_sub l (lit ",") = None). { apply find_sub_none. intros (a & b & ->). apply N. apply in_or_app. right. now left. }
    congruence.
Qed.

(** A trimmed line. *)
Definition line_step (r : raw) (l : str) : res (raw * list raw) :=
  if starts_with l (lit "//") then Ok (r, [])
  else if starts_with l (lit "$") then
    match split (is_any_of (lit "=")) l with
    | [name; value] => let* r' := stlt_set r (trim name) (trim value) in Ok (r', [])
    | _ => Ok (r, [])
    end
  else
    match stlt_fields l with
    | None => Ok (r, [])
    | Some (start, finish, text) =>
        let* from := stlt_time start in
        let* to := stlt_time finish in
        match from, to with
        | Some f, Some t => stlt_text text (set_to t (set_from f r)) []
        | _, _ => Ok (r, [])
        end
    end.
Lemma text_subs s : forall sub subs, ready sub -> r_text sub = [] ->
  stlt_text s sub subs = let* x := stlt_text s sub [] in Ok (fst x, subs ++ snd x).
Proof.
  intros sub subs R T. destruct (text_total _ s sub [] (le_n _) R) as (r2 & ps2 & E & P2 & _); [rewrite T; constructor|].
  rewrite E. cbn [bind fst snd app]. apply text_read; [exact R|exact T|]. rewrite T in P2. cbn [app] in P2.
  now rewrite (with_text_nil sub T) in P2.
Qed.
Definition good (r : raw) : Prop := ready r /\ r_text r = [].
Lemma line_step_ok r subs l : good r -> stlt_line r subs l = let* x := line_step r (trim l) in Ok (fst x, subs ++ snd x).
Proof.
  intros [R T]. unfold stlt_line, line_step. assert (N : Ok (r, subs) = Ok (r, subs ++ [])) by now rewrite app_nil_r.
  destruct (starts_with (trim l) (lit "//")); [exact N|]. destruct (starts_with (trim l) (lit "$")).
  { destruct (split (is_any_of (lit "=")) (trim l)) as [|a [|b [|c d]]]; try exact N.
    destruct (stlt_set r (trim a) (trim b)) as [x| |]; cbn [bind fst snd]; [now rewrite app_nil_r|reflexivity..]. }
  destruct (stlt_fields (trim l)) as [[[a b] text]|]; [|exact N].
  destruct (stlt_time a) as [f| |]; [|reflexivity..]. cbn [bind]. destruct (stlt_time b) as [t| |]; [|reflexivity..]. cbn [bind].
  destruct f as [f|]; [|exact N]. destruct t as [t|]; [|exact N]. apply text_subs; assumption.
Qed.

(** The three kinds of lines. *)
Definition timed_step (r : raw) (start finish text : str) : res (raw * list raw) :=
  let* from := stlt_time start in
  let* to := stlt_time finish in
  match from, to with
  | Some f, Some t => stlt_text text (set_to t (set_from f r)) []
  | _, _ => Ok (r, [])
  end.
Lemma setting_step r l name v : setting_line l name v -> line_step r l = let* r' := stlt_set r name v in Ok (r', []).
Proof.
  intros (S & n & w & -> & Nn & Nw & Tn & Tw). unfold line_step.
  assert (C : starts_with (n ++ "="%char :: w) (lit "//") = false).
  { destruct S as [rest E]. rewrite E. reflexivity. }
  rewrite C. rewrite (proj2 (starts_with_iff _ _) S).
  assert (P : split (is_any_of (lit "=")) (n ++ "="%char :: w) = [n; w]).
  { apply (parts_iff "="%char). split; [discriminate|]. split; [reflexivity|]. constructor; [|constructor; [|constructor]]; rewrite contains_one; assumption. }
  rewrite P. apply trim_iff in Tn, Tw. now rewrite Tn, Tw.
Qed.
Lemma starts_false s p : starts_with s p = false <-> ~ begins_with p s.
Proof. rewrite <- Bool.not_true_iff_false. unfold begins_with. now rewrite starts_with_iff. Qed.
Lemma fields_found l start finish text : subtitle_line l start finish text -> stlt_fields l = Some (start, finish, text).
Proof.
  intros (_ & _ & NE & from & x & to & (-> & N1 & N2) & NF & T1 & T2). unfold stlt_fields.
  set (l := (from ++ [x]) ++ comma :: to ++ comma :: text) in *.
  pose proof (find_comma l) as F. destruct (find_sub l (lit ",")) as [d0|]; [|exfalso; apply F; unfold l; apply in_or_app; right; now left].
  destruct F as (rest & E & SK & NI). assert (A : from ++ [x] = firstn d0 l /\ to ++ comma :: text = rest) by exact (first_sep _ _ _ _ _ N1 NI E).
  destruct A as [A1 A2].
  assert (D0 : d0 = length (from ++ [x])). { rewrite A1. rewrite firstn_length. apply (f_equal (@List.length _)) in E. rewrite app_length, firstn_length in E. cbn in E. lia. }
  rewrite SK. pose proof (find_comma rest) as F. destruct (find_sub rest (lit ",")) as [d1|]; [|exfalso; apply F; rewrite <- A2; apply in_or_app; right; now left].
  destruct F as (rest2 & E2 & SK2 & NI2). rewrite <- A2 in E2. assert (A : to = firstn d1 rest /\ text = rest2).
  { rewrite <- A2 in NI2 |- *. exact (first_sep _ _ _ _ _ N2 NI2 E2). }
  destruct A as [A3 A4].
  assert (D1 : d1 = length to). { rewrite A3. rewrite firstn_length. apply (f_equal (@List.length _)) in A2. rewrite app_length in A2. cbn in A2.
    apply (f_equal (@List.length _)) in A3. rewrite firstn_length in A3. apply (f_equal (@List.length _)) in SK2. rewrite <- A4, skipn_length in SK2.
    destruct text; [congruence|]. cbn in SK2, A2. lia. }
  cbv zeta. rewrite app_length in D0. cbn in D0.
  assert (LL : length l = (d0 + 1 + d1 + 1 + length text)%nat). { unfold l. rewrite !app_length. cbn. rewrite app_length. cbn. lia. }
  assert (LT : (0 < length text)%nat) by (destruct text; [congruence|cbn; lia]).
  assert (LF : (0 < length from)%nat) by (destruct from; [congruence|cbn; lia]).
  replace (Nat.leb d0 1) with false by (symmetry; apply Nat.leb_gt; lia).
  replace (Nat.leb (length l - 1) (d0 + 1 + d1)) with false by (symmetry; apply Nat.leb_gt; lia). cbn [orb].
  replace (firstn (d0 - 1) l) with from.
  2:{ unfold l. rewrite <- app_assoc. rewrite firstn_app_exact; [reflexivity|lia]. }
  replace (d0 + 1 + d1 - d0 - 1)%nat with d1 by lia. rewrite <- A3.
  replace (skipn (d0 + 1 + d1 + 1) l) with text.
  2:{ unfold l. change ((from ++ [x]) ++ comma :: to ++ comma :: text) with ((from ++ [x]) ++ [comma] ++ to ++ [comma] ++ text).
      rewrite !app_assoc. symmetry. apply skipn_app_exact. rewrite !app_length. cbn. lia. }
  apply trim_iff in T1, T2. now rewrite T1, T2.
Qed.
Lemma subtitle_step r l start finish text : subtitle_line l start finish text -> line_step r l = timed_step r start finish text.
Proof.
  intros S. unfold line_step. rewrite (fields_found _ _ _ _ S). destruct S as (NC & NS & _). apply starts_false in NC, NS. now rewrite NC, NS.
Qed.
Lemma fields_kind l : ~ is_comment l -> ~ is_setting l ->
  (exists start finish text, subtitle_line l start finish text) \/
  stlt_fields l = None /\ (forall start finish text, ~ subtitle_line l start finish text).
Proof.
  intros C' S'.
  pose proof (find_comma l) as F. destruct (find_sub l (lit ",")) as [d0|] eqn:E0.
  2:{ right. split; [unfold stlt_fields; now rewrite E0|].
      intros start finish text (_ & _ & _ & from & x & to & (-> & _) & _). apply F. apply in_or_app. right. now left. }
  destruct F as (rest & EL & SK & NI). pose proof (find_comma rest) as F. destruct (find_sub rest (lit ",")) as [d1|] eqn:E1.
  2:{ right. split; [unfold stlt_fields; now rewrite E0, SK, E1|].
      intros start finish text (_ & _ & _ & from & x & to & (E & N1 & N2) & _). rewrite E in EL.
      assert (A : from ++ [x] = firstn d0 l /\ to ++ comma :: text = rest).
      { rewrite <- E in EL. rewrite E in EL at 1. exact (first_sep _ _ _ _ _ N1 NI EL). }
      destruct A as [_ <-]. apply F. apply in_or_app. right. now left. }
  destruct F as (text & ER & SK1 & NI1).
  assert (LL : length l = (d0 + 1 + d1 + 1 + length text)%nat /\ d0 = length (firstn d0 l)).
  { apply (f_equal (@List.length _)) in EL. apply (f_equal (@List.length _)) in ER. apply (f_equal (@List.length _)) in SK1. apply (f_equal (@List.length _)) in SK.
    rewrite skipn_length in SK, SK1. rewrite app_length, firstn_length in EL, ER. rewrite firstn_length. cbn in EL, ER. lia. }
  destruct LL as [LL LF].
  destruct (Nat.leb d0 1 || Nat.leb (length l - 1) (d0 + 1 + d1)) eqn:G.
  - right. split; [unfold stlt_fields; rewrite E0, SK, E1; cbv zeta; now rewrite G|].
    intros start finish text' (_ & _ & NE & from & x & to & (E & N1 & N2) & NF & _). pose proof EL as EL'. rewrite E in EL' at 1.
    assert (A : from ++ [x] = firstn d0 l /\ to ++ comma :: text' = rest) by exact (first_sep _ _ _ _ _ N1 NI EL').
    destruct A as [A1 A2]. rewrite ER in A2. assert (A : to = firstn d1 rest /\ text' = text) by exact (first_sep _ _ _ _ _ N2 NI1 A2).
    destruct A as [_ ->]. rewrite <- A1, app_length in LF. cbn in LF. destruct from; [congruence|]. destruct text; [congruence|].
    apply Bool.orb_true_iff in G. destruct G as [G|G]; apply Nat.leb_le in G; cbn in LF, LL; lia.
  - left. apply Bool.orb_false_iff in G. destruct G as [G1 G2]. apply Nat.leb_gt in G1, G2.
    destruct (snoc_split (firstn d0 l)) as (from & x & E & _). { intros Z. rewrite Z in LF. cbn in LF. lia. }
    exists (trim from), (trim (firstn d1 rest)), text. split; [exact C'|]. split; [exact S'|]. split; [intros ->; cbn in LL; lia|].
    exists from, x, (firstn d1 rest). split.
    + split; [|split; [rewrite <- E; exact NI|exact NI1]]. rewrite <- E, <- ER. exact EL.
    + split; [intros ->; rewrite E in LF; cbn in LF; lia|]. split; now apply trim_iff.
Qed.

Lemma line_kind r l : (exists name v, setting_line l name v) \/ (exists start finish text, subtitle_line l start finish text) \/
  line_step r l = Ok (r, []) /\ (forall name v, ~ setting_line l name v) /\ (forall start finish text, ~ subtitle_line l start finish text).
Proof.
  destruct (starts_with l (lit "//")) eqn:C.
  { right. right. split; [unfold line_step; now rewrite C|]. apply starts_with_iff in C. split.
    - intros name v ([rest S] & _). destruct C as [rest' C]. rewrite S in C. discriminate.
    - intros start finish text (N & _). now apply N. }
  destruct (starts_with l (lit "$")) eqn:S.
  { destruct (split (is_any_of (lit "=")) l) as [|a [|b [|c d]]] eqn:E.
    1,2,4: right; right; split; [unfold line_step; now rewrite C, S, E|]; split;
      [|intros start finish text (_ & N & _); apply N; now apply starts_with_iff].
    1,2,3: intros name v (_ & n & w & -> & Nn & Nw & _);
      assert (P : split (is_any_of (lit "=")) (n ++ "="%char :: w) = [n; w])
        by (apply (parts_iff "="%char); split; [discriminate|]; split; [reflexivity|]; constructor; [|constructor; [|constructor]]; rewrite contains_one; assumption);
      congruence.
    left. exists (trim a), (trim b). split; [now apply starts_with_iff|]. apply (parts_iff "="%char) in E. destruct E as (_ & -> & F).
    inversion F as [|? ? Fa F2]; subst. inversion F2 as [|? ? Fb _]; subst. rewrite contains_one in Fa, Fb.
    exists a, b. split; [reflexivity|]. split; [exact Fa|]. split; [exact Fb|]. split; now apply trim_iff. }
  right. assert (NS : forall name v, ~ setting_line l name v).
  { intros name v (X & _). apply starts_false in S. now apply S. }
  pose proof C as C'. pose proof S as S'. apply starts_false in C', S'. destruct (fields_kind l C' S') as [(start & finish & text & H)|(E & H)].
  - left. now exists start, finish, text.
  - right. split; [unfold line_step; now rewrite C, S, E|]. now split.
Qed.

(** What a line does. *)
Definition line_case (r : raw) (l : str) (x : res (raw * list raw)) : Prop :=
  match x with
  | Ok (r', rs) => line_means r l r' rs
  | Throw e => text_stops l (Throw e)
  | Undef u => text_stops l (Undef u)
  end.

Lemma truth v b : (b = true <-> v = lit "True") -> str_eqb v (lit "True") = b.
Proof.
  intros H. destruct b; [now apply str_eqb_iff, H|]. apply str_eqb_neq. intros E. apply H in E. discriminate.
Qed.
Lemma truth' v : str_eqb v (lit "True") = true <-> v = lit "True".
Proof. apply str_eqb_iff. Qed.

Lemma set_total r l name v : setting_line l name v -> line_case r l (let* r' := stlt_set r name v in Ok (r', [])).
Proof.
  intros S. unfold stlt_set.
  destruct (str_eqb name (lit "$FontName")) eqn:E1. { apply str_eqb_iff in E1. subst. cbn [bind]. now apply means_font. }
  destruct (str_eqb name (lit "$Bold")) eqn:E2. { apply str_eqb_iff in E2. subst. cbn [bind]. apply (means_bold r l v); [exact S|apply truth']. }
  destruct (str_eqb name (lit "$Italic")) eqn:E3. { apply str_eqb_iff in E3. subst. cbn [bind]. apply (means_italic r l v); [exact S|apply truth']. }
  destruct (str_eqb name (lit "$Underlined")) eqn:E4. { apply str_eqb_iff in E4. subst. cbn [bind]. apply (means_underline r l v); [exact S|apply truth']. }
  destruct (str_eqb name (lit "$FontSize")) eqn:E5.
  { apply str_eqb_iff in E5. subst. destruct (cast_throw v) as [[n I]|[N ->]].
    - rewrite (proj2 (lexical_cast_iff _ _) I). cbn [bind]. now apply (means_size r l v).
    - cbn [bind]. now apply (stops_size l v). }
  cbn [bind]. apply (means_unknown r l name v); [exact S|]. cbn [map In].
  intros [<-|[<-|[<-|[<-|[<-|[]]]]]]; rewrite str_eqb_refl in *; discriminate.
Qed.

Lemma timed_total r l start finish text : good r -> subtitle_line l start finish text -> line_case r l (timed_step r start finish text).
Proof.
  intros [R T] S. unfold timed_step. pose proof (time_total start) as A. destruct (stlt_time start) as [[f|]|e|u]; cbn [time_case bind] in A |- *.
  - pose proof (time_total finish) as B. destruct (stlt_time finish) as [[t|]|e|u]; cbn [time_case bind] in B |- *.
    + destruct (text_total _ text (set_to t (set_from f r)) [] (le_n _)) as (r2 & ps & E & P & _); [exact R|cbn; rewrite T; constructor|].
      rewrite E. cbn [app line_case]. apply (means_subtitle r l start finish f t text); try assumption.
      cbn in P. rewrite T in P. cbn [app] in P.
      replace (with_times f t r) with (with_text [] (set_to t (set_from f r))); [exact P|]. destruct r; cbn in T |- *. now subst.
    + apply (means_no_times r l start finish text S). right. split; [exact B|now exists f].
    + destruct B as [-> B]. apply (stops_finish l start finish text S); [right; now exists f|exact B].
    + destruct B as [-> B]. apply (stops_finish_big l start finish text S); [right; now exists f|exact B].
  - pose proof (time_total finish) as B. destruct (stlt_time finish) as [[t|]|e|u]; cbn [time_case bind] in B |- *.
    + apply (means_no_times r l start finish text S). left. split; [exact A|right; now exists t].
    + apply (means_no_times r l start finish text S). left. split; [exact A|now left].
    + destruct B as [-> B]. apply (stops_finish l start finish text S); [now left|exact B].
    + destruct B as [-> B]. apply (stops_finish_big l start finish text S); [now left|exact B].
  - destruct A as [-> A]. now apply (stops_start l start finish text).
  - destruct A as [-> A]. now apply (stops_start_big l start finish text).
Qed.

Lemma line_total r l : good r -> line_case r l (line_step r l).
Proof.
  intros G. destruct (line_kind r l) as [(name & v & S)|[(start & finish & text & S)|(E & N1 & N2)]].
  - rewrite (setting_step r l name v S). now apply set_total.
  - rewrite (subtitle_step r l start finish text S). now apply timed_total.
  - rewrite E. now apply means_nothing.
Qed.

Lemma line_sound r l x : good r -> line_case r l x -> line_step r l = x.
Proof.
  intros [R T]. destruct x as [[r' rs]|e|u]; cbn [line_case].
  - intros H. destruct H as [l v S|l v b S B|l v b S B|l v b S B|l v n S I|l name v S N|l start finish from to text r' rs S F1 F2 P|l start finish text S O|l N1 N2].
    + now rewrite (setting_step r _ _ _ S).
    + rewrite (setting_step r _ _ _ S). unfold stlt_set. rewrite (truth v b B). reflexivity.
    + rewrite (setting_step r _ _ _ S). unfold stlt_set. rewrite (truth v b B). reflexivity.
    + rewrite (setting_step r _ _ _ S). unfold stlt_set. rewrite (truth v b B). reflexivity.
    + rewrite (setting_step r _ _ _ S). unfold stlt_set. apply lexical_cast_iff in I. rewrite I. reflexivity.
    + rewrite (setting_step r _ _ _ S). unfold stlt_set. cbn [map In] in N.
      rewrite !str_eqb_neq by (intros ->; apply N; auto 6). reflexivity.
    + rewrite (subtitle_step r _ _ _ _ S). unfold timed_step.
      rewrite (proj2 (time_iff start (Ok (Some from))) F1), (proj2 (time_iff finish (Ok (Some to))) F2). cbn [bind].
      replace (Ok (r', rs)) with (Ok (r', [] ++ rs)) by reflexivity. apply text_read; [exact R|exact T|exact P].
    + rewrite (subtitle_step r _ _ _ _ S). unfold timed_step.
      destruct O as [(N & [N2|[t F]])|(N & [t F])].
      * rewrite (proj2 (time_iff start (Ok None)) N), (proj2 (time_iff finish (Ok None)) N2). reflexivity.
      * rewrite (proj2 (time_iff start (Ok None)) N), (proj2 (time_iff finish (Ok (Some t))) F). reflexivity.
      * rewrite (proj2 (time_iff start (Ok (Some t))) F), (proj2 (time_iff finish (Ok None)) N). reflexivity.
    + destruct (line_kind r l) as [(name & v & S)|[(start & finish & text & S)|(E & _)]]; [now apply N1 in S|now apply N2 in S|exact E].
  - intros H. inversion H as [? v S N| ? start finish text S B| |? start finish text S O B|]; subst.
    + rewrite (setting_step r _ _ _ S). unfold stlt_set. destruct (cast_throw v) as [I|[_ ->]]; [tauto|reflexivity].
    + rewrite (subtitle_step r _ _ _ _ S). unfold timed_step. now rewrite (proj2 (time_iff start (Throw EBadLexicalCast)) (conj eq_refl B)).
    + rewrite (subtitle_step r _ _ _ _ S). unfold timed_step. rewrite (proj2 (time_iff finish (Throw EBadLexicalCast)) (conj eq_refl B)).
      destruct O as [N|[t F]]; [now rewrite (proj2 (time_iff start (Ok None)) N)|now rewrite (proj2 (time_iff start (Ok (Some t))) F)].
  - intros H. inversion H as [| |? start finish text S B| |? start finish text S O B]; subst.
    + rewrite (subtitle_step r _ _ _ _ S). unfold timed_step. now rewrite (proj2 (time_iff start (Undef UbIntOverflow)) (conj eq_refl B)).
    + rewrite (subtitle_step r _ _ _ _ S). unfold timed_step. rewrite (proj2 (time_iff finish (Undef UbIntOverflow)) (conj eq_refl B)).
      destruct O as [N|[t F]]; [now rewrite (proj2 (time_iff start (Ok None)) N)|now rewrite (proj2 (time_iff start (Ok (Some t))) F)].
Qed.
Lemma line_case_iff r l x : good r -> (line_step r l = x <-> line_case r l x).
Proof. intros G. split; [intros <-; now apply line_total|now apply line_sound]. Qed.

Lemma line_good r l r' rs : good r -> line_step r l = Ok (r', rs) -> good r'.
Proof.
  intros G E. apply (line_case_iff r l _ G) in E. cbn [line_case] in E. destruct G as [[n V] T].
  assert (K : good r) by (split; [now exists n|exact T]).
  destruct E as [l v S|l v b S B|l v b S B|l v b S B|l v k S I|l name v S N|l start finish from to text r' rs S F1 F2 P|l start finish text S O|l N1 N2];
    try exact K; try (split; [now exists n|exact T]).
  destruct (text_total _ text (with_times from to r) [] (le_n _)) as (r2 & ps & E & P2 & R2 & T2); [now exists n|cbn; rewrite T; constructor|].
  cbn in P2. rewrite T in P2. cbn [app] in P2.
  assert (X : with_text [] (with_times from to r) = with_times from to r) by (destruct r; cbn in T |- *; now subst).
  rewrite X in P2. destruct (pieces_unique _ _ _ _ P _ _ P2) as [-> _]. now split.
Qed.

(** * Files *)

Lemma lines_iff ls : forall r subs raws, good r -> (stlt_lines r subs ls = Ok raws <-> exists r' rs, lines_mean r ls r' rs /\ raws = subs ++ rs).
Proof.
  induction ls as [|l ls IH]; intros r subs raws G; cbn [stlt_lines].
  - split.
    + intros [= <-]. exists r, []. split; [constructor|now rewrite app_nil_r].
    + intros (r' & rs & M & ->). inversion M. now rewrite app_nil_r.
  - rewrite (line_step_ok r subs l G). split.
    + intros H. destruct (line_step r (trim l)) as [[r1 rs]| |] eqn:E; [|discriminate..]. cbn [bind fst snd] in H.
      pose proof (line_good _ _ _ _ G E) as G1. apply (IH r1 (subs ++ rs) raws G1) in H. destruct H as (r2 & rs2 & M & ->).
      exists r2, (rs ++ rs2). split; [|now rewrite app_assoc]. apply (lines_mean_cons r l (trim l) r1); [now apply trim_iff| |exact M].
      now apply (line_case_iff r (trim l) (Ok (r1, rs)) G).
    + intros (r2 & rs2 & M & ->). inversion M as [|? ? l' r1 rs ? ? rss T L M2]; subst. apply trim_iff in T. subst l'.
      pose proof (proj2 (line_case_iff r (trim l) (Ok (r1, rs)) G) L) as E. rewrite E. cbn [bind fst snd].
      apply (IH r1 (subs ++ rs) _ (line_good _ _ _ _ G E)). exists r2, rss. split; [exact M2|now rewrite app_assoc].
Qed.

Lemma new_look_good : good new_look.
Proof. split; [now exists 0|reflexivity]. Qed.
Lemma new_look_ok : set_vref (Some TOP_OF_SUBTITLE) (set_line (Some 0) raw_default) = new_look.
Proof. reflexivity. Qed.

Theorem text_stl_iff s raws : stl_text_read true s = Ok raws <-> text_stl_file s raws.
Proof.
  unfold stl_text_read. rewrite new_look_ok, (lines_iff _ _ _ _ new_look_good). unfold text_stl_file. cbn [app]. split.
  - intros (r & rs & M & ->). exists (getlines (length s) s), r. split; [now apply (getlines_iff (length s))|exact M].
  - intros (ls & r & C & M). apply (getlines_iff (length s)) in C; [|lia]. subst ls. now exists r, raws.
Qed.

(** Where the reader stops. *)
Definition outcome {A B} (x : res A) (o : res B) : Prop :=
  match x, o with Throw e, Throw e' => e = e' | Undef u, Undef u' => u = u' | _, _ => False end.
Lemma lines_stop ls (o : res (list raw)) : forall r subs, good r ->
  (outcome (stlt_lines r subs ls) o <-> exists before l after l' r' rs, ls = before ++ l :: after /\ lines_mean r before r' rs /\ trimmed l l' /\ text_stops l' o).
Proof.
  induction ls as [|l ls IH]; intros r subs G; cbn [stlt_lines].
  - split; [intros []|]. intros (b & l & a & l' & r' & rs & E & _). destruct b; discriminate.
  - rewrite (line_step_ok r subs l G). pose proof (line_total r (trim l) G) as T. split.
    + intros H. destruct (line_step r (trim l)) as [[r1 rs]|e|u] eqn:E; cbn [bind fst snd line_case] in H, T.
      * apply (IH r1 (subs ++ rs) (line_good _ _ _ _ G E)) in H. destruct H as (b & k & a & l' & r' & rs' & -> & M & TR & S).
        exists (l :: b), k, a, l', r', (rs ++ rs'). split; [reflexivity|]. split; [|now split].
        apply (lines_mean_cons r l (trim l) r1); [now apply trim_iff|exact T|exact M].
      * exists [], l, ls, (trim l), r, []. split; [reflexivity|]. split; [constructor|]. split; [now apply trim_iff|].
        destruct o; cbn in H; try tauto. now subst.
      * exists [], l, ls, (trim l), r, []. split; [reflexivity|]. split; [constructor|]. split; [now apply trim_iff|].
        destruct o; cbn in H; try tauto. now subst.
    + intros (b & k & a & l' & r' & rs' & E & M & TR & S). destruct b as [|l0 b]; cbn in E; injection E as E1 E2; subst.
      * apply trim_iff in TR. subst l'. destruct o as [x|e|u].
        -- inversion S.
        -- rewrite (proj2 (line_case_iff r (trim k) (Throw e) G) S). reflexivity.
        -- rewrite (proj2 (line_case_iff r (trim k) (Undef u) G) S). reflexivity.
      * inversion M as [|? ? l0' r1 rs ? ? rss T0 L M2]; subst. apply trim_iff in T0. subst l0'.
        pose proof (proj2 (line_case_iff r (trim l0) (Ok (r1, rs)) G) L) as E. rewrite E. cbn [bind fst snd].
        apply (IH r1 (subs ++ rs) (line_good _ _ _ _ G E)). now exists b, k, a, l', r', rss.
Qed.

Theorem text_stl_stop_iff s (o : res (list raw)) : (forall x, o <> Ok x) -> (stl_text_read true s = o <-> text_stl_stops s o).
Proof.
  intros NO. assert (A : stl_text_read true s = o <-> outcome (stl_text_read true s) o).
  { destruct o as [x|e|u]; [now specialize (NO x)| |]; destruct (stl_text_read true s); cbn; split; try tauto; try discriminate; congruence. }
  rewrite A. unfold stl_text_read. rewrite new_look_ok, (lines_stop _ o _ _ new_look_good). unfold text_stl_stops. split.
  - intros (b & l & a & l' & r & rs & E & M & T & S). exists b, l, a, l', r, rs. split; [|now split].
    apply (getlines_iff (length s)); [lia|exact E].
  - intros (b & l & a & l' & r & rs & C & M & T & S). apply (getlines_iff (length s)) in C; [|lia]. now exists b, l, a, l', r, rs.
Qed.

Lemma text_stl_overflow s u : stl_text_read true s = Undef u -> text_stl_overflows s.
Proof.
  intros E. apply text_stl_stop_iff in E; [|discriminate]. destruct E as (before & l & after & l' & r & raws & C & M & T & X).
  inversion X as [| |? start finish text SL B| |? start finish text SL OK B]; subst; exists before, l, after, l', r, raws, start, finish, text; auto 10.
Qed.
Theorem text_stl_defined s : defined (stl_text_read true s) <-> ~ text_stl_overflows s.
Proof.
  split.
  - intros D (before & l & after & l' & r & raws & start & finish & text & C & M & T & SL & B). apply (D UbIntOverflow). apply text_stl_stop_iff; [discriminate|].
    exists before, l, after, l', r, raws. split; [exact C|]. split; [exact M|]. split; [exact T|].
    destruct B as [B|[OK B]]; [exact (stops_start_big _ _ _ _ SL B)|exact (stops_finish_big _ _ _ _ SL OK B)].
  - intros N u E. exact (N (text_stl_overflow s u E)).
Qed.
