(** Outcomes of the SubRip reader other than a result. *)
From Coq Require Import ZArith List Bool Ascii String Lia.
From Verif.Model Require Import Base Strings Float TimeModel Types Lines RawConvert Compose Ssa Subrip.
From Verif.Spec Require Import Outcome TextSpec LinesSpec StlFileSpec RawSpec SsaTagSpec SubripSpec StopSpec.
From Verif.Proofs Require Import StringProofs ComposeProofs Iso6937Proofs StlReadProofs SsaTagProofs LinesProofs SubripTokenProofs SubripFontProofs SubripProofs.
Import ListNotations.
Local Open Scope Z_scope.
Local Notation length := List.length.

(** [stopped x o]: x ends in the same exception or undefined behaviour as o. *)
Definition stopped {A B} (x : res A) (o : res B) : Prop :=
  match x, o with
  | Throw e, Throw e' => e = e'
  | Undef u, Undef u' => u = u'
  | _, _ => False
  end.
Lemma stopped_bind {A B C} (x : res A) (k : A -> res B) (o : res C) : stopped (bind x k) o <-> stopped x o \/ exists a, x = Ok a /\ stopped (k a) o.
Proof.
  destruct x as [a|e|u]; cbn [bind].
  - split; [intros S; right; now exists a|]. intros [[]|(a' & E & S)]. apply Ok_inj in E. now subst.
  - split; [now left|]. intros [S|(a & E & _)]; [exact S|discriminate].
  - split; [now left|]. intros [S|(a & E & _)]; [exact S|discriminate].
Qed.

(** * Times *)

Lemma any_free x s : ~ In x s <-> free (is_any_of [x]) s.
Proof.
  unfold free. rewrite Forall_forall. split.
  - intros N c I. apply is_any_one_false. intros ->. contradiction.
  - intros F I. apply F in I. apply is_any_one_false in I. congruence.
Qed.
Lemma integer_no x s v : ~ number_char x -> integer s v -> ~ In x s.
Proof. intros N I. apply any_free. now apply integer_free with v. Qed.
Lemma is_integer_iff s : is_integer s <-> exists v, lexical_cast_int s = Ok v.
Proof. split; intros (v & H); exists v; now apply lexical_cast_iff. Qed.

Section Times.
Variable sep : ascii.
Hypotheses (S1 : ~ number_char sep) (S2 : sep <> ":"%char).

Lemma split_two_colons s a b c : split (is_any_of (lit ":")) s = [a; b; c] <-> s = two_colons a b c /\ no_colon a /\ no_colon b /\ no_colon c.
Proof.
  change (is_any_of (lit ":")) with (is_any_of [":"%char]). unfold no_colon. rewrite !any_free. split.
  - intros SP. apply split3_inv in SP. destruct SP as (b1 & b2 & -> & B1 & B2 & F0 & F1 & F2). apply is_any_one in B1, B2. subst b1 b2. now repeat split.
  - intros (-> & F0 & F1 & F2). apply split3; try assumption; reflexivity.
Qed.
Lemma split_sep c x y : split (is_any_of [sep]) c = [x; y] <-> c = x ++ sep :: y /\ no_sep sep x /\ no_sep sep y.
Proof.
  unfold no_sep. rewrite !any_free. split.
  - intros SP. apply split_cons_inv in SP. destruct SP as [(Q & _)|(b & rest & -> & B & G0 & Q)]; [discriminate|]. symmetry in Q.
    apply split_cons_inv in Q. destruct Q as [(_ & -> & G1)|(b' & rest' & _ & _ & _ & Q)]; [|symmetry in Q; now apply split_not_nil in Q].
    apply is_any_one in B. now subst b.
  - intros (-> & F0 & F1). rewrite split_piece; [|exact F0|now apply is_any_one]. now rewrite split_free by exact F1.
Qed.
Lemma two_colons_inj a b c a' b' c' : no_colon a -> no_colon b -> no_colon c -> no_colon a' -> no_colon b' -> no_colon c' ->
  two_colons a b c = two_colons a' b' c' -> a = a' /\ b = b' /\ c = c'.
Proof.
  intros A B C A' B' C' E. pose proof (proj2 (split_two_colons _ a b c) (conj eq_refl (conj A (conj B C)))) as X.
  pose proof (proj2 (split_two_colons _ a' b' c') (conj eq_refl (conj A' (conj B' C')))) as Y. rewrite E in X.
  rewrite X in Y. now injection Y.
Qed.
Lemma cast_or_no s e k : ~ is_integer s -> cast_or s e k = Ok (CExpected e).
Proof.
  rewrite is_integer_iff. intros N. unfold cast_or. destruct (lexical_cast_int s) as [v| |] eqn:E; [|reflexivity..]. destruct N. now exists v.
Qed.
Lemma cast_or_yes s v e k : integer s v -> cast_or s e k = k v.
Proof. intros I. apply lexical_cast_iff in I. unfold cast_or. now rewrite I. Qed.

Lemma not_integer_colon s : is_integer s -> no_colon s.
Proof. intros (v & I). exact (integer_no _ _ _ colon_no_number I). Qed.
Lemma not_integer_sep s : is_integer s -> no_sep sep s.
Proof. intros (v & I). exact (integer_no _ _ _ S1 I). Qed.
Lemma no_colon_app x y : no_colon (x ++ sep :: y) <-> no_colon x /\ no_colon y.
Proof.
  unfold no_colon. rewrite in_app_iff. cbn [In]. split.
  - intros N. split; intros I; apply N; auto.
  - intros [X Y] [I|[I|I]]; auto.
Qed.

Lemma convert_time_expected s e : convert_time s [sep] = Ok (CExpected e) <-> time_refused sep s e.
Proof.
  unfold convert_time. split.
  - destruct (split (is_any_of (lit ":")) s) as [|a [|b [|c [|d l]]]] eqn:SP.
    5: { intros [= <-]. apply refused_colons. intros a' b' c' A B C E. pose proof (proj2 (split_two_colons s a' b' c') (conj E (conj A (conj B C)))). congruence. }
    1-3: intros [= <-]; apply refused_colons; intros a' b' c' A B C E; pose proof (proj2 (split_two_colons s a' b' c') (conj E (conj A (conj B C)))); congruence.
    apply split_two_colons in SP. destruct SP as (-> & A & B & C).
    destruct (split (is_any_of [sep]) c) as [|x [|y [|z l]]] eqn:SP2.
    1,2,4: intros [= <-]; match goal with |- time_refused _ _ ?x => change x with (lit "time in the format h:m:s" ++ sep :: lit "ms") end; apply refused_separator; try assumption; intros x' y' X Y E;
      pose proof (proj2 (split_sep c x' y') (conj E (conj X Y))); congruence.
    apply split_sep in SP2. destruct SP2 as (-> & X & Y). pose proof (proj1 (no_colon_app x y) C) as [_ YC].
    intros H.
    assert (DA : is_integer a \/ ~ is_integer a). { rewrite is_integer_iff. destruct (lexical_cast_int a) as [v| |]; [left; now exists v|right; intros (v & Q); discriminate..]. }
    assert (DB : is_integer b \/ ~ is_integer b). { rewrite is_integer_iff. destruct (lexical_cast_int b) as [v| |]; [left; now exists v|right; intros (v & Q); discriminate..]. }
    assert (DX : is_integer x \/ ~ is_integer x). { rewrite is_integer_iff. destruct (lexical_cast_int x) as [v| |]; [left; now exists v|right; intros (v & Q); discriminate..]. }
    assert (DY : is_integer y \/ ~ is_integer y). { rewrite is_integer_iff. destruct (lexical_cast_int y) as [v| |]; [left; now exists v|right; intros (v & Q); discriminate..]. }
    destruct DA as [IA|NA]; [|rewrite (cast_or_no a _ _ NA) in H; injection H as <-; now apply refused_hour]. pose proof IA as (va & Ia). rewrite (cast_or_yes _ _ _ _ Ia) in H.
    destruct DB as [IB|NB]; [|rewrite (cast_or_no b _ _ NB) in H; injection H as <-; now apply refused_minute]. pose proof IB as (vb & Ib). rewrite (cast_or_yes _ _ _ _ Ib) in H.
    destruct DX as [IX|NX]; [|rewrite (cast_or_no x _ _ NX) in H; injection H as <-; now apply refused_second]. pose proof IX as (vx & Ix). rewrite (cast_or_yes _ _ _ _ Ix) in H.
    destruct DY as [IY|NY]; [|rewrite (cast_or_no y _ _ NY) in H; injection H as <-; now apply refused_millisecond]. pose proof IY as (vy & Iy). rewrite (cast_or_yes _ _ _ _ Iy) in H.
    destruct (from_hms va vb vx vy); discriminate.
  - intros R. destruct R as [s N|a b c A B C N|a b x y A B C X Y NI|a b x y IA B C X Y NI|a b x y IA IB C X Y NI|a b x y IA IB IX C Y NI].
    + destruct (split (is_any_of (lit ":")) s) as [|a [|b [|c [|d l]]]] eqn:SP; try reflexivity.
      apply split_two_colons in SP. destruct SP as (-> & A & B & C). now destruct (N a b c A B C).
    + rewrite (proj2 (split_two_colons _ a b c)) by now repeat split.
      destruct (split (is_any_of [sep]) c) as [|x [|y [|z l]]] eqn:SP2; try reflexivity.
      apply split_sep in SP2. destruct SP2 as (-> & X & Y). now destruct (N x y X Y).
    + rewrite (proj2 (split_two_colons _ a b (x ++ sep :: y))) by now repeat split. rewrite (proj2 (split_sep _ x y)) by now repeat split.
      now apply cast_or_no.
    + pose proof (not_integer_colon a IA). destruct IA as (va & Ia).
      rewrite (proj2 (split_two_colons _ a b (x ++ sep :: y))) by now repeat split. rewrite (proj2 (split_sep _ x y)) by now repeat split.
      rewrite (cast_or_yes _ _ _ _ Ia). now apply cast_or_no.
    + pose proof (not_integer_colon a IA). pose proof (not_integer_colon b IB). destruct IA as (va & Ia), IB as (vb & Ib).
      rewrite (proj2 (split_two_colons _ a b (x ++ sep :: y))) by now repeat split. rewrite (proj2 (split_sep _ x y)) by now repeat split.
      rewrite (cast_or_yes _ _ _ _ Ia), (cast_or_yes _ _ _ _ Ib). now apply cast_or_no.
    + pose proof (not_integer_colon a IA). pose proof (not_integer_colon b IB). pose proof (not_integer_colon x IX). pose proof (not_integer_sep x IX).
      assert (no_colon (x ++ sep :: y)) by (apply no_colon_app; now split). destruct IA as (va & Ia), IB as (vb & Ib), IX as (vx & Ix).
      rewrite (proj2 (split_two_colons _ a b (x ++ sep :: y))) by now repeat split. rewrite (proj2 (split_sep _ x y)) by now repeat split.
      rewrite (cast_or_yes _ _ _ _ Ia), (cast_or_yes _ _ _ _ Ib), (cast_or_yes _ _ _ _ Ix). now apply cast_or_no.
Qed.

Lemma chk_stopped {B} z (o : res B) : stopped (chk z) o <-> o = Undef UbIntOverflow /\ ~ is_int z.
Proof.
  unfold chk. destruct (in_int z) eqn:E.
  - split; [intros []|]. intros [_ N]. destruct N. now apply in_int_iff.
  - assert (N : ~ is_int z) by (rewrite <- in_int_iff; congruence). destruct o; cbn; split.
    + intros [].
    + intros [E' _]. discriminate.
    + intros [].
    + intros [E' _]. discriminate.
    + intros <-. now split.
    + intros [[= ->] _]. reflexivity.
Qed.
Lemma is_int_dec z : is_int z \/ ~ is_int z.
Proof. unfold is_int. lia. Qed.
Lemma from_hms_stopped {B} h m s ms (o : res B) : stopped (from_hms h m s ms) o <-> o = Undef UbIntOverflow /\ ~ time_fits h m s.
Proof.
  unfold from_hms, hms_seconds, time_fits, imul, iadd.
  assert (U : stopped (Undef UbIntOverflow : res time) o <-> o = Undef UbIntOverflow) by (destruct o; cbn; intuition congruence).
  unfold chk. rewrite <- !in_int_iff.
  destruct (in_int (h * 3600)); cbn [bind]; [|rewrite U; intuition congruence].
  destruct (in_int (m * 60)); cbn [bind]; [|rewrite U; intuition congruence].
  destruct (in_int (h * 3600 + m * 60)); cbn [bind]; [|rewrite U; intuition congruence].
  destruct (in_int (h * 3600 + m * 60 + s)); cbn [bind]; [|rewrite U; intuition congruence].
  split; [intros []|]. intros [_ N]. destruct N. now repeat split.
Qed.

Lemma cue_parts_unique s h m sec ms h' m' sec' ms' : cue_time_parts sep s h m sec ms -> cue_time_parts sep s h' m' sec' ms' ->
  h = h' /\ m = m' /\ sec = sec' /\ ms = ms'.
Proof.
  intros (a & b & x & y & -> & Ia & Ib & Ix & Iy) (a' & b' & x' & y' & E & Ia' & Ib' & Ix' & Iy').
  assert (D : forall s v, integer s v -> no_colon s) by (intros t v I; apply not_integer_colon; now exists v).
  assert (D' : forall s v, integer s v -> no_sep sep s) by (intros t v I; apply not_integer_sep; now exists v).
  apply two_colons_inj in E; try (now eapply D; eassumption); try (apply no_colon_app; split; now eapply D; eassumption).
  destruct E as (<- & <- & E).
  pose proof (proj2 (split_sep _ x y) (conj eq_refl (conj (D' _ _ Ix) (D' _ _ Iy)))) as X.
  pose proof (proj2 (split_sep _ x' y') (conj eq_refl (conj (D' _ _ Ix') (D' _ _ Iy')))) as Y. rewrite E, Y in X. injection X as -> ->.
  repeat split; eapply integer_unique; eassumption.
Qed.

Lemma convert_time_stopped {B} s (o : res B) : stopped (convert_time s [sep]) o <-> o = Undef UbIntOverflow /\ time_overflows sep s.
Proof.
  destruct (convert_time_cases sep s) as [(e & E)|(h & m & sec & ms & P & E)].
  - rewrite E. split; [intros []|]. intros [_ (h & m & sec & ms & P & _)]. now destruct (convert_time_refused sep S1 S2 s e E h m sec ms).
  - rewrite E, stopped_bind, from_hms_stopped. split.
    + intros [[-> N]|(a & _ & [])]. split; [reflexivity|]. now exists h, m, sec, ms.
    + intros [-> (h' & m' & sec' & ms' & P' & N)]. left. split; [reflexivity|].
      destruct (cue_parts_unique _ _ _ _ _ _ _ _ _ P P') as (<- & <- & <- & <-). exact N.
Qed.
End Times.

(** * Font colours *)

Lemma convert_digits_stopped {B} d v (o : res B) : numeral d v -> (stopped (raw_convert_int d) o <-> o = Undef UbIntOverflow /\ ~ is_int v).
Proof.
  intros N. unfold raw_convert_int, raw_convert_int_in. rewrite c_local.
  pose proof (numeral_digits d v N) as (F & V & NE & _). unfold scan_int.
  assert (S : starts_not is_space d) by (destruct d as [|x d]; [congruence|]; inversion F; subst; now apply digit_not_space).
  rewrite drop_while_id by exact S. destruct d as [|x d]; [congruence|]. cbn [take_sign]. destruct (numeral_head x d v N) as [-> ->].
  pose proof (take_while_app is_digit (x :: d) [] F I) as T. rewrite app_nil_r in T. rewrite T. rewrite V. apply chk_stopped.
Qed.

Lemma search_hash_unique saw s ds s' ds' : last_place (fun s => exists ds, hash_colour s ds) saw s -> hash_colour s ds ->
  last_place (fun s => exists ds, hash_colour s ds) saw s' -> hash_colour s' ds' -> ds = ds'.
Proof.
  intros L H L' H'. assert (A : search_last match_hex_here saw = Some ds) by (apply search_hash_some; now exists s).
  assert (B : search_last match_hex_here saw = Some ds') by (apply search_hash_some; now exists s'). congruence.
Qed.

Lemma search_rgba_some saw rs gs bs : search_last match_rgba_here saw = Some (rs, gs, bs) <->
  exists s, last_place (fun s => exists r g b, rgba_colour s r g b) saw s /\ match_rgba_here s = Some (rs, gs, bs).
Proof.
  rewrite search_last_some. split.
  - intros (b & s & E & M & L). exists s. split; [|exact M]. split; [apply rgba_some; congruence|]. exists b. split; [exact E|].
    intros b' s' E' H. apply (L b' s' E'). now apply rgba_some.
  - intros (s & (_ & b & E & L) & M). exists b, s. split; [exact E|]. split; [exact M|]. intros b' s' E' N. apply (L b' s' E'). now apply rgba_some.
Qed.
Lemma search_rgba_none saw : search_last match_rgba_here saw = None <-> forall before s r g b, saw = before ++ s -> ~ rgba_colour s r g b.
Proof.
  rewrite search_last_none. split.
  - intros N b s r g bl E H. apply match_rgba_iff in H. destruct H as (rs & gs & bs & M & _). rewrite (N b s E) in M. discriminate.
  - intros N b s E. destruct (match_rgba_here s) eqn:M; [|reflexivity]. exfalso.
    assert (H : exists r g b, rgba_colour s r g b) by (apply rgba_some; congruence). destruct H as (r & g & bl & H). now apply (N b s r g bl).
Qed.
Lemma rgba_numerals s rs gs bs : match_rgba_here s = Some (rs, gs, bs) -> exists r g b, numeral rs r /\ numeral gs g /\ numeral bs b.
Proof.
  intros M. apply match_rgba_some in M.
  destruct M as (n1 & n2 & n3 & n4 & rest & E & (v1 & P1) & (v2 & P2) & (v3 & P3) & (v4 & P4) & -> & -> & ->).
  exists v1, v2, v3. repeat split; now apply padded_digits.
Qed.

Lemma from_hex_ok ds : Forall is_hex_char ds ->
  (length ds = 6%nat -> exists k, from_rgb_hex ds = Ok k) /\ (length ds = 8%nat -> exists k, from_rgba_hex ds = Ok k).
Proof.
  intros F. split; intros L.
  - destruct ds as [|c1 [|c2 [|c3 [|c4 [|c5 [|c6 [|? ?]]]]]]]; try discriminate.
    do 6 (match type of F with Forall _ (_ :: _) => let D := fresh "D" in apply Forall_cons_iff in F; destruct F as [D F]; destruct D as (? & D) end).
    eexists. eapply (rgb_hex_share _ _ _ _ _ _ _ _ _ _ _ _ []); eassumption.
  - destruct ds as [|c1 [|c2 [|c3 [|c4 [|c5 [|c6 [|c7 [|c8 [|? ?]]]]]]]]]; try discriminate.
    do 8 (match type of F with Forall _ (_ :: _) => let D := fresh "D" in apply Forall_cons_iff in F; destruct F as [D F]; destruct D as (? & D) end).
    eexists. eapply (rgba_hex_share _ _ _ _ _ _ _ _ _ _ _ _ _ _ _ _ []); eassumption.
Qed.

Lemma font_colour_stopped {B} n ctx a (o : res B) : stopped (font_colour n ctx a) o <->
  o = Throw (ESubrip n a needs_colour ctx) /\ no_font_colour a \/ o = Undef UbIntOverflow /\ font_overflows a.
Proof.
  assert (T : forall e, stopped (Throw e : res colour) o <-> o = Throw e).
  { intros e. destruct o; cbn; intuition congruence. }
  unfold font_colour. change colour_expected with needs_colour. destruct (search_last match_hex_here a) as [ds|] eqn:S.
  - apply search_hash_some in S. destruct S as (s & LP & H). pose proof H as (q & rest & _ & _ & _ & F & _).
    assert (NOT : no_font_colour a -> length ds <> 6%nat /\ length ds <> 8%nat).
    { intros [s' ds' LP' H' L6 L8|NH _].
      - now rewrite (search_hash_unique a s ds s' ds' LP H LP' H').
      - destruct LP as (_ & b & E & _). now destruct (NH b s ds E). }
    assert (NO : ~ font_overflows a).
    { intros [NH _]. destruct LP as (_ & b & E & _). now destruct (NH b s ds E). }
    destruct (from_hex_ok ds F) as [OK6 OK8].
    destruct (Nat.eqb_spec (length ds) 6) as [L6|L6]; [|destruct (Nat.eqb_spec (length ds) 8) as [L8|L8]].
    + destruct (OK6 L6) as (k & ->). split; [intros []|]. intros [[_ N]|[_ N]]; [now apply NOT in N as [N _]|contradiction].
    + destruct (OK8 L8) as (k & ->). split; [intros []|]. intros [[_ N]|[_ N]]; [now apply NOT in N as [_ N]|contradiction].
    + rewrite T. split.
      * intros ->. left. split; [reflexivity|]. now apply (wrong_length a s ds).
      * intros [[-> _]|[_ N]]; [reflexivity|contradiction].
  - pose proof (proj1 (search_hash_none a) S) as NH. clear S. destruct (search_last match_rgba_here a) as [[[rs gs] bs]|] eqn:R.
    + apply search_rgba_some in R. destruct R as (s & LP & M). destruct (rgba_numerals _ _ _ _ M) as (r & g & b & Nr & Ng & Nb).
      assert (RC : rgba_colour s r g b) by (apply match_rgba_iff; eexists _, _, _; split; [exact M|now repeat split]).
      assert (NC : ~ no_font_colour a).
      { intros [s' ds' (_ & b' & E & _) H' _ _|_ NR]; [now destruct (NH b' s' ds' E)|]. destruct LP as (_ & b' & E & _). now destruct (NR b' s r g b E). }
      assert (FO : font_overflows a <-> ~ (is_int r /\ is_int g /\ is_int b)).
      { split.
        - intros (_ & s' & r' & g' & b' & LP' & RC' & N).
          assert (A : search_last match_rgba_here a = Some (rs, gs, bs)) by (apply search_rgba_some; now exists s).
          pose proof RC' as RC''. apply match_rgba_iff in RC''. destruct RC'' as (rs' & gs' & bs' & M' & Nr' & Ng' & Nb').
          assert (A' : search_last match_rgba_here a = Some (rs', gs', bs')) by (apply search_rgba_some; now exists s').
          rewrite A in A'. injection A' as <- <- <-.
          now rewrite (numeral_unique _ _ _ Nr Nr'), (numeral_unique _ _ _ Ng Ng'), (numeral_unique _ _ _ Nb Nb').
        - intros N. split; [exact NH|]. now exists s, r, g, b. }
      rewrite stopped_bind, (convert_digits_stopped rs r) by exact Nr. rewrite FO. split.
      * intros [[-> N]|(v & E & S)]; [right; split; [reflexivity|tauto]|]. right. rewrite stopped_bind, (convert_digits_stopped gs g) in S by exact Ng.
        destruct S as [[-> N]|(v' & E' & S)]; [split; [reflexivity|tauto]|]. rewrite stopped_bind, (convert_digits_stopped bs b) in S by exact Nb.
        destruct S as [[-> N]|(v'' & E'' & [])]. split; [reflexivity|tauto].
      * intros [[_ N]|[-> N]]; [contradiction|]. destruct (is_int_dec r) as [Ir|]; [|now left]. right. exists r. split; [apply (convert_digits rs r r Nr); now split|].
        apply stopped_bind. rewrite (convert_digits_stopped gs g) by exact Ng. destruct (is_int_dec g) as [Ig|]; [|now left]. right. exists g. split; [apply (convert_digits gs g g Ng); now split|].
        apply stopped_bind. rewrite (convert_digits_stopped bs b) by exact Nb. left. split; [reflexivity|]. tauto.
    + pose proof (proj1 (search_rgba_none a) R) as NR. rewrite T. split.
      * intros ->. left. split; [reflexivity|]. now apply nothing_there.
      * intros [[-> _]|[_ (_ & s & r & g & b & (_ & b' & E & _) & RC & _)]]; [reflexivity|]. now destruct (NR b' s r g b E).
Qed.

(** * Lines of text *)

Lemma lexed_unique s toks toks' : lexed s toks -> lexed s toks' -> toks = toks'.
Proof.
  intros L. revert toks'. induction L as [|s tok rest toks T L IH|c s toks N L IH]; intros toks' L'.
  - inversion L' as [|s tok rest toks2 T L2|]; subst; [reflexivity|]. apply first_tag_iff in T. apply first_tag_length in T. cbn in T. lia.
  - inversion L' as [|s' tok' rest' toks2 T' L2|c s' toks2 N L2]; subst.
    + apply first_tag_iff in T. apply first_tag_length in T. cbn in T. lia.
    + apply first_tag_iff in T, T'. rewrite T in T'. injection T' as <- <-. f_equal. now apply IH.
    + now apply N in T.
  - inversion L' as [|s' tok' rest' toks2 T' L2|c' s' toks2 N' L2]; subst.
    + now apply N in T'.
    + f_equal. now apply IH.
Qed.
Lemma lexed_total s : exists toks, lexed s toks.
Proof.
  remember (length s) as n eqn:E. assert (L : (length s <= n)%nat) by lia. clear E. revert s L. induction n as [|n IH]; intros s L.
  - destruct s; [|cbn in L; lia]. exists []. constructor.
  - destruct s as [|c s]; [exists []; constructor|]. destruct (first_tag (c :: s)) as [[tok rest]|] eqn:F.
    + pose proof (first_tag_length _ _ _ F) as LR. destruct (IH rest) as (toks & LX); [cbn in L, LR; lia|].
      exists (tok :: toks). apply (lexed_tag _ _ rest); [now apply first_tag_iff|exact LX].
    + destruct (IH s) as (toks & LX); [cbn in L; lia|]. exists (TChar c :: toks). apply lexed_char; [now apply first_tag_none|exact LX].
Qed.

(** What stops the tokens [toks]. *)
Definition tokens_stop {B} (n : Z) (ctx : list str) (d : nat) (toks : list token) (o : res B) : Prop :=
  exists before tok after d' o', toks = before ++ tok :: after /\ well_formed d before d' /\ token_stops n ctx d' tok o' /\ stopped o' o.

Lemma tokens_stop_skip {B} n ctx d d1 tok toks (o : res B) :
  (forall toks d', well_formed d (tok :: toks) d' <-> well_formed d1 toks d') -> (forall o, ~ token_stops n ctx d tok o) ->
  (tokens_stop n ctx d (tok :: toks) o <-> tokens_stop n ctx d1 toks o).
Proof.
  intros W N. split.
  - intros (before & tok' & after & d' & o' & E & WF & TS & SO). destruct before as [|x before]; injection E as <- E.
    + inversion WF; subst. now apply N in TS.
    + subst toks. apply W in WF. now exists before, tok', after, d', o'.
  - intros (before & tok' & after & d' & o' & -> & WF & TS & SO). exists (tok :: before), tok', after, d', o'. split; [reflexivity|].
    split; [now apply W|]. now split.
Qed.
Lemma tokens_stop_here {B} n ctx d tok toks (o : res B) : (forall toks d', ~ well_formed d (tok :: toks) d') ->
  (tokens_stop n ctx d (tok :: toks) o <-> exists o', token_stops n ctx d tok o' /\ stopped o' o).
Proof.
  intros W. split.
  - intros (before & tok' & after & d' & o' & E & WF & TS & SO). destruct before as [|x before]; injection E as <- E.
    + inversion WF; subst. now exists o'.
    + now apply W in WF.
  - intros (o' & TS & SO). exists [], tok, toks, d, o'. repeat split; try assumption. constructor.
Qed.

Lemma default_override r body : (exists r', parse_tag r (backslash :: body) subrip_ssa_context = Ok r') <-> forall e, ~ bad_override (bslash :: body) e.
Proof.
  assert (D : defined (parse_tag r (backslash :: body) subrip_ssa_context)) by (apply parse_tag_defined; unfold is_int; cbn; lia).
  split.
  - intros (r' & E) e B. apply (parse_tag_throws r _ subrip_ssa_context) in B. change bslash with backslash in B. congruence.
  - intros N. destruct (parse_tag r (backslash :: body) subrip_ssa_context) as [r'|e|u] eqn:E; [now exists r'| |now destruct (D u)].
    apply parse_tag_throws in E. now apply N in E.
Qed.


Lemma convert_chars_outcome {B} fuel n ctx t p cs subs toks (o : res B) : (length t <= fuel)%nat -> cs <> [] -> lexed t toks ->
  ((exists x, convert_chars fuel n ctx t p cs subs = Ok x) <-> exists d', well_formed (length cs - 1) toks d') /\
  (stopped (convert_chars fuel n ctx t p cs subs) o <-> tokens_stop n ctx (length cs - 1) toks o).
Proof.
  assert (FIN : forall d, ((exists x, (Ok (p, subs) : res (raw * list raw)) = Ok x) <-> exists d', well_formed d [] d') /\
     (stopped (Ok (p, subs) : res (raw * list raw)) o <-> tokens_stop n ctx d [] o)).
  { intros d. split; split.
    - intros _. exists d. constructor.
    - intros _. now eexists.
    - intros [].
    - intros (before & tok' & after & d' & o' & E & _). now destruct before. }
  revert t p cs subs toks FIN. induction fuel as [|k IH]; intros t p cs subs toks FIN L NE LX.
  - destruct t; [|cbn in L; lia]. assert (toks = []) as -> by (eapply lexed_unique; [exact LX|constructor]). apply FIN.
  - destruct t as [|c t].
    { assert (toks = []) as -> by (eapply lexed_unique; [exact LX|constructor]). apply FIN. }
    assert (IH' : forall t p cs subs toks, (length t <= k)%nat -> cs <> [] -> lexed t toks ->
      ((exists x, convert_chars k n ctx t p cs subs = Ok x) <-> exists d', well_formed (length cs - 1) toks d') /\
      (stopped (convert_chars k n ctx t p cs subs) o <-> tokens_stop n ctx (length cs - 1) toks o)).
    { intros. apply IH; try assumption. intros d. split; split.
      - intros _. exists d. constructor.
      - intros _. now eexists.
      - intros [].
      - intros (before & tok' & after & d' & o' & E & _). now destruct before. }
    clear IH FIN. rewrite convert_step, maybe_eq. cbn [fst snd].
    apply lexed_step in LX. destruct LX as (tok & rest & toks' & -> & LX & [T|(N & -> & ->)]).
    + pose proof T as T'. apply first_tag_iff in T. rewrite T.
      assert (LR : (length rest <= k)%nat) by (apply first_tag_length in T; cbn in T, L; lia).
      assert (SKIP : forall p1 cs1 subs1, cs1 <> [] -> (forall toks d', well_formed (length cs - 1) (tok :: toks) d' <-> well_formed (length cs1 - 1) toks d') ->
        (forall o, ~ token_stops n ctx (length cs - 1) tok o) ->
        ((exists x, convert_chars k n ctx rest p1 cs1 subs1 = Ok x) <-> exists d', well_formed (length cs - 1) (tok :: toks') d') /\
        (stopped (convert_chars k n ctx rest p1 cs1 subs1) o <-> tokens_stop n ctx (length cs - 1) (tok :: toks') o)).
      { intros p1 cs1 subs1 N1 W NS. destruct (IH' rest p1 cs1 subs1 toks' LR N1 LX) as [A1 A2]. split.
        - rewrite A1. split; intros (d' & D); exists d'; now apply W.
        - rewrite A2. symmetry. now apply tokens_stop_skip. }
      destruct tok as [on|on|on|attrs| |body|ch].
      * apply SKIP; [exact NE| |intros o' TS; inversion TS]. intros ts d'. split; [inversion 1; now subst|now constructor].
      * apply SKIP; [exact NE| |intros o' TS; inversion TS]. intros ts d'. split; [inversion 1; now subst|now constructor].
      * apply SKIP; [exact NE| |intros o' TS; inversion TS]. intros ts d'. split; [inversion 1; now subst|now constructor].
      * assert (LC : forall col, length (col :: cs) = S (length cs)) by reflexivity.
        assert (SL : (S (length cs) - 1 = S (length cs - 1))%nat) by (destruct cs; [congruence|cbn; lia]).
        destruct (font_colour n ctx attrs) as [col|e|u] eqn:FC; cbn [bind].
        -- apply SKIP; [discriminate| |].
           ++ intros ts d'. rewrite LC, SL. split; [inversion 1; now subst|]. intros W. apply (wf_font _ _ col); [now apply font_colour_iff in FC|exact W].
           ++ intros o' TS. assert (ST : stopped (font_colour n ctx attrs) o').
              { apply font_colour_stopped. inversion TS; subst; [left|right]; now split. }
              rewrite FC in ST. exact ST.
        -- split; [split; [intros (x & E); discriminate|]|].
           ++ intros (d' & W). inversion W as [| | | | |? ? ? ? ? FI| |]; subst. apply (font_colour_iff n ctx) in FI. congruence.
           ++ rewrite tokens_stop_here.
              2: { intros ts d' W. inversion W as [| | | | |? ? ? ? ? FI| |]; subst. apply (font_colour_iff n ctx) in FI. congruence. }
              pose proof (font_colour_stopped n ctx attrs (Throw e : res (list raw))) as FS. rewrite FC in FS. destruct (proj1 FS eq_refl) as [[E NF]|[E _]]; [|discriminate].
              injection E as ->. split.
              ** intros S. exists (Throw (ESubrip n attrs needs_colour ctx)). split; [now constructor|exact S].
              ** intros (o' & TS & SO). inversion TS as [? NF'|? FO| |]; subst; [exact SO|].
                 pose proof (proj2 (font_colour_stopped n ctx attrs (Undef UbIntOverflow : res (list raw))) (or_intror (conj eq_refl FO))) as Q. rewrite FC in Q. destruct Q.
        -- split; [split; [intros (x & E); discriminate|]|].
           ++ intros (d' & W). inversion W as [| | | | |? ? ? ? ? FI| |]; subst. apply (font_colour_iff n ctx) in FI. congruence.
           ++ rewrite tokens_stop_here.
              2: { intros ts d' W. inversion W as [| | | | |? ? ? ? ? FI| |]; subst. apply (font_colour_iff n ctx) in FI. congruence. }
              pose proof (font_colour_stopped n ctx attrs (Undef u : res (list raw))) as FS. rewrite FC in FS. destruct (proj1 FS eq_refl) as [[E _]|[E FO]]; [discriminate|].
              injection E as ->. split.
              ** intros S. exists (Undef UbIntOverflow). split; [now constructor|exact S].
              ** intros (o' & TS & SO). inversion TS as [? NF'|? FO'| |]; subst; [|exact SO].
                 pose proof (proj2 (font_colour_stopped n ctx attrs (Throw (ESubrip n attrs needs_colour ctx) : res (list raw))) (or_introl (conj eq_refl NF'))) as Q. rewrite FC in Q. destruct Q.
      * destruct cs as [|k1 [|k2 cs]]; [congruence| |].
        -- split; [split; [intros (x & E); discriminate|]|].
           ++ intros (d' & W). inversion W.
           ++ rewrite tokens_stop_here by (intros ts d' W; inversion W). split.
              ** intros S. exists (Undef UbEmptyVector). split; [now constructor|exact S].
              ** intros (o' & TS & SO). inversion TS; subst. exact SO.
        -- apply SKIP; [discriminate| |].
           ++ intros ts d'. cbn [length]. replace (S (S (length cs)) - 1)%nat with (S (length cs)) by lia. replace (S (length cs) - 1)%nat with (length cs) by lia.
              split; [inversion 1; now subst|now constructor].
           ++ intros o' TS. cbn [length] in TS. inversion TS as [| |D|]; subst. lia.
      * destruct (parse_tag p (backslash :: body) subrip_ssa_context) as [p1|e|u] eqn:PT; cbn [bind].
        -- assert (OK : forall e, ~ bad_override (bslash :: body) e) by (apply (default_override p); now exists p1).
           apply SKIP; [exact NE| |].
           ++ intros ts d'. split; [inversion 1; now subst|now constructor].
           ++ intros o' TS. inversion TS as [| | |? ? BO]; subst. now apply OK in BO.
        -- apply parse_tag_throws in PT. change backslash with bslash in PT. split; [split; [intros (x & E); discriminate|]|].
           ++ intros (d' & W). inversion W as [| | | | | | |? ? ? ? OK]; subst. now apply OK in PT.
           ++ rewrite tokens_stop_here by (intros ts d' W; inversion W as [| | | | | | |? ? ? ? OK]; subst; now apply OK in PT). split.
              ** intros S. exists (Throw e). split; [now constructor|exact S].
              ** intros (o' & TS & SO). inversion TS as [| | |? e' BO]; subst. apply (parse_tag_throws p _ subrip_ssa_context) in BO, PT. rewrite PT in BO. injection BO as <-. exact SO.
        -- exfalso. assert (D : defined (parse_tag p (backslash :: body) subrip_ssa_context)) by (apply parse_tag_defined; unfold is_int; cbn; lia). now apply D in PT.
      * now apply (tag_no_char _ _ _ ch) in T'.
    + pose proof (proj2 (first_tag_none _) N) as FT. rewrite FT.
      destruct (IH' t (set_text (r_text p ++ [c]) p) cs subs toks') as [A1 A2]; [cbn in L; lia|exact NE|exact LX|]. split.
      * rewrite A1. split; intros (d' & D); exists d'; [now constructor|inversion D; now subst].
      * rewrite A2. symmetry. apply tokens_stop_skip; [|intros o' TS; inversion TS]. intros ts d'. split; [inversion 1; now subst|now constructor].
Qed.

Lemma row_stops_iff {B} n ctx t p subs (o : res B) :
  ((exists x, convert_line n ctx t p subs = Ok x) <-> row_fine t) /\
  (stopped (convert_line n ctx t p subs) o <-> exists o', row_stops n ctx t o' /\ stopped o' o).
Proof.
  destruct (lexed_total t) as (toks & LX).
  destruct (convert_chars_outcome (length t) n ctx t p [Types.white] subs toks o (le_n _) ltac:(discriminate) LX) as [A1 A2].
  cbn [length Nat.sub] in A1, A2. unfold convert_line. split.
  - unfold row_fine. split.
    + intros (x & E). destruct (convert_chars (length t) n ctx t p [Types.white] subs) as [y| |] eqn:C; [|discriminate..].
      destruct (proj1 A1 (ex_intro _ y eq_refl)) as (d & W). now exists toks, d.
    + intros (toks' & d & LX' & W). rewrite (lexed_unique _ _ _ LX' LX) in W. destruct (proj2 A1 (ex_intro _ d W)) as ([q qs] & E). rewrite E. cbn [bind]. now eexists.
  - rewrite stopped_bind, A2. unfold tokens_stop, row_stops. split.
    + intros [(before & tok & after & d & o' & -> & W & TS & SO)|([q qs] & _ & [])]. exists o'. split; [|exact SO]. now exists before, tok, after, d.
    + intros (o' & (before & tok & after & d & LX' & W & TS) & SO). left. exists before, tok, after, d, o'. split; [now apply (lexed_unique t)|]. now repeat split.
Qed.

Lemma sub_lines_outcome {B} n ctx ls r subs (o : res B) : is_some (v_line (r_vpos r)) = true ->
  ((exists x, convert_sub_lines n ctx ls r subs = Ok x) <-> Forall row_fine ls) /\
  (stopped (convert_sub_lines n ctx ls r subs) o <->
   exists before row after o', ls = before ++ row :: after /\ Forall row_fine before /\ row_stops n ctx row o' /\ stopped o' o).
Proof.
  revert r subs. induction ls as [|l ls IH]; intros r subs V; cbn [convert_sub_lines].
  - split; split.
    + intros _. constructor.
    + intros _. now eexists.
    + intros [].
    + intros (before & row & after & o' & E & _). now destruct before.
  - destruct (row_stops_iff n ctx l r subs o) as [A1 A2].
    destruct (convert_line n ctx l r subs) as [[r1 s1]|e|u] eqn:C; cbn [bind].
    + assert (FL : row_fine l) by (apply A1; now eexists).
      assert (NS : forall o', row_stops n ctx l o' -> ~ stopped o' o).
      { intros o' RS SO. assert (X : stopped (Ok (r1, s1) : res (raw * list raw)) o) by (apply A2; now exists o'). exact X. }
      assert (V1 : v_line (r_vpos r1) = v_line (r_vpos r)).
      { unfold convert_line in C. destruct (convert_chars (length l) n ctx l r [Types.white] subs) as [[q qs]| |] eqn:E; [|discriminate..]. cbn [bind] in C.
        apply convert_chars_iff in E; [|lia|discriminate]. destruct E as (toks & ps & _ & P & _). apply pieces_line in P. cbn in P.
        rewrite maybe_eq in C. apply Ok_inj in C. injection C as <- _. exact P. }
      rewrite V1. destruct (v_line (r_vpos r)) as [z|]; [|discriminate]. cbn [opt_get bind].
      destruct (IH (set_text [] (set_line (Some (z + 1)) r1)) s1 eq_refl) as [B1 B2]. split.
      * rewrite B1. split; [intros F; now constructor|]. inversion 1; now subst.
      * rewrite B2. split.
        -- intros (before & row & after & o' & -> & F & RS & SO). exists (l :: before), row, after, o'. split; [reflexivity|]. split; [now constructor|]. now split.
        -- intros (before & row & after & o' & E & F & RS & SO). destruct before as [|x before]; injection E as <- E.
           ++ now apply NS in SO.
           ++ inversion F; subst. now exists before, row, after, o'.
    + assert (NF : ~ row_fine l) by (intros F; apply A1 in F; destruct F; discriminate). split.
      * split; [intros (x & E); discriminate|]. inversion 1; subst. contradiction.
      * etransitivity; [exact A2|]. split.
        -- intros (o' & RS & SO). exists [], l, ls, o'. repeat split; try assumption. constructor.
        -- intros (before & row & after & o' & E & F & RS & SO). destruct before as [|x before]; injection E as <- E; [now exists o'|]. inversion F; subst. contradiction.
    + assert (NF : ~ row_fine l) by (intros F; apply A1 in F; destruct F; discriminate). split.
      * split; [intros (x & E); discriminate|]. inversion 1; subst. contradiction.
      * etransitivity; [exact A2|]. split.
        -- intros (o' & RS & SO). exists [], l, ls, o'. repeat split; try assumption. constructor.
        -- intros (before & row & after & o' & E & F & RS & SO). destruct before as [|x before]; injection E as <- E; [now exists o'|]. inversion F; subst. contradiction.
Qed.

(** * The file *)

Definition where_is (st : subrip_state) : place := match st with COUNTER => AtCounter | METADATA => AtTiming | CONTENT => AtText end.

(** One round of the loop on the cleaned line [line]. *)
Definition round (ln : Z) (st : subrip_state) (ctx : list str) (rs : raw) (subs : list raw) (line : str) (rest : list str)
  : res (subrip_state * raw * list raw) :=
  match st with
  | COUNTER => match line with [] => Ok (COUNTER, rs, subs) | _ => Ok (METADATA, subrip_new, subs) end
  | METADATA =>
      let line := trim_right_if (is_any_of (lit " ")) line in
      let p := split_compress (is_any_of (lit " ")) line in
      if negb (Nat.eqb (length p) 3) && negb (Nat.eqb (length p) 7) then Throw (ESubrip ln line (lit "a time/position line") (error_context ctx rest))
      else
        let* from := convert_time (nth 0 p []) (lit ",") in
        match from with
        | CExpected e => Throw (ESubrip ln (nth 0 p []) e ctx)
        | CTime from =>
            let* to := convert_time (nth 2 p []) (lit ",") in
            match to with
            | CExpected e => Throw (ESubrip ln (nth 2 p []) e ctx)
            | CTime to => Ok (CONTENT, set_to to (set_from from rs), subs)
            end
        end
  | CONTENT =>
      match line with
      | [] => Ok (COUNTER, rs, subs)
      | _ => let* x := convert_sub_lines ln ctx (split_lit line_separator line) rs subs in Ok (CONTENT, fst x, snd x)
      end
  end.
Lemma loop_round l rest ln st ctx rs subs : subrip_loop (l :: rest) ln st ctx rs subs =
  let* x := round (ln + 1) st (push_context ctx (clean_line l)) rs subs (clean_line l) rest in
  subrip_loop rest (ln + 1) (fst (fst x)) (push_context ctx (clean_line l)) (snd (fst x)) (snd x).
Proof.
  cbn [subrip_loop]. destruct st; unfold round.
  - now destruct (clean_line l).
  - cbv zeta. destruct (_ && _); [reflexivity|]. destruct (convert_time _ _) as [[from|e]| |]; cbn [bind]; try reflexivity.
    destruct (convert_time _ _) as [[to|e]| |]; reflexivity.
  - destruct (clean_line l); [reflexivity|]. destruct (convert_sub_lines _ _ _ _ _) as [[q qs]| |]; reflexivity.
Qed.

Definition has_line (r : raw) : Prop := is_some (v_line (r_vpos r)) = true.

Lemma sub_lines_has_line n ctx ls r subs q qs : has_line r -> convert_sub_lines n ctx ls r subs = Ok (q, qs) -> has_line q.
Proof.
  revert r subs. induction ls as [|l ls IH]; intros r subs V; cbn [convert_sub_lines].
  - intros E. apply Ok_inj in E. now injection E as <- _.
  - destruct (convert_line n ctx l r subs) as [[r1 s1]| |]; [|discriminate..]. cbn [bind].
    destruct (v_line (r_vpos r1)) as [z|]; [|discriminate]. cbn [opt_get bind]. apply IH. reflexivity.
Qed.
Lemma round_has_line ln st ctx rs subs l rest st' rs' subs' : has_line rs -> round ln st ctx rs subs l rest = Ok (st', rs', subs') -> has_line rs'.
Proof.
  intros V. unfold round. destruct st.
  - destruct l; intros E; apply Ok_inj in E; injection E as <- <- <-; [exact V|reflexivity].
  - cbv zeta. destruct (_ && _); [discriminate|]. destruct (convert_time _ _) as [[from|e]| |]; cbn [bind]; try discriminate.
    destruct (convert_time _ _) as [[to|e]| |]; cbn [bind]; try discriminate. intros E. apply Ok_inj in E. now injection E as <- <- <-.
  - destruct l as [|c l]; [intros E; apply Ok_inj in E; now injection E as <- <- <-|].
    destruct (convert_sub_lines _ _ _ _ _) as [[q qs]| |] eqn:C; cbn [bind fst snd]; try discriminate. apply sub_lines_has_line in C; [|exact V].
    intros E. apply Ok_inj in E. now injection E as <- <- <-.
Qed.
Lemma round_next ln st ctx rs subs l rest st' rs' subs' seen : comes_next seen (where_is st) -> round ln st ctx rs subs l rest = Ok (st', rs', subs') ->
  comes_next (seen ++ [l]) (where_is st').
Proof.
  intros C. unfold round. destruct st; cbn [where_is] in C.
  - destruct l; intros E; apply Ok_inj in E; injection E as <- <- <-; now constructor.
  - cbv zeta. destruct (_ && _); [discriminate|]. destruct (convert_time _ _) as [[from|e]| |]; cbn [bind]; try discriminate.
    destruct (convert_time _ _) as [[to|e]| |]; cbn [bind]; try discriminate. intros E. apply Ok_inj in E. injection E as <- <- <-. now constructor.
  - destruct l as [|c l]; [intros E; apply Ok_inj in E; injection E as <- <- <-; now constructor|].
    destruct (convert_sub_lines _ _ _ _ _) as [[q qs]| |] eqn:S; cbn [bind fst snd]; try discriminate.
    intros E. apply Ok_inj in E. injection E as <- <- <-. now constructor.
Qed.
(** Only the lines after it matter, and only for the context of an error. *)
Lemma round_rest ln st ctx rs subs l rest rest' x : round ln st ctx rs subs l rest = Ok x -> round ln st ctx rs subs l rest' = Ok x.
Proof. unfold round. destruct st; auto. cbv zeta. now destruct (_ && _). Qed.

Definition after_line (p : place) (l : str) : place :=
  match p, l with AtCounter, [] => AtCounter | AtCounter, _ => AtTiming | AtTiming, _ => AtText | AtText, [] => AtCounter | AtText, _ => AtText end.
Lemma comes_next_snoc ls l p : comes_next (ls ++ [l]) p -> exists q, comes_next ls q /\ p = after_line q l.
Proof.
  intros C. inversion C as [E|ls' C' E|ls' l' C' N E|ls' l' C' E|ls' l' C' N E|ls' C' E];
    try (apply app_inj_tail in E; destruct E as [-> <-]; eexists; split; [exact C'|]; cbn; try reflexivity; now destruct l').
  now destruct ls.
Qed.
Lemma comes_next_unique ls p q : comes_next ls p -> comes_next ls q -> p = q.
Proof.
  revert p q. induction ls as [|l ls IH] using rev_ind; intros p q C D.
  - assert (G : forall p, comes_next [] p -> p = AtCounter); [|now rewrite (G p C), (G q D)].
    clear. intros p C. remember ([] : list str) as ls eqn:Q. destruct C; try reflexivity; symmetry in Q; apply app_cons_not_nil in Q; contradiction.
  - apply comes_next_snoc in C, D. destruct C as (p' & C & ->), D as (q' & D & ->). now rewrite (IH _ _ C D).
Qed.

Lemma push_recent seen ctx l : recent seen ctx -> recent (seen ++ [l]) (push_context ctx l).
Proof.
  intros (older & -> & L & O). unfold push_context. cbv zeta. rewrite app_length. cbn [length].
  destruct (Nat.ltb_spec 5 (length ctx + 1)) as [G|G].
  - destruct ctx as [|c ctx]; [cbn in G; lia|]. cbn [app tl]. exists (older ++ [c]). split; [now rewrite <- !app_assoc|].
    rewrite app_length. cbn in *. split; [lia|]. right. lia.
  - exists older. split; [now rewrite app_assoc|]. rewrite app_length. cbn [length]. split; [lia|]. destruct O as [->|O]; [now left|lia].
Qed.
Lemma recent_unique ls a b : recent ls a -> recent ls b -> a = b.
Proof.
  intros (o1 & -> & L1 & O1) (o2 & E & L2 & O2).
  assert (Q : length o1 = length o2).
  { pose proof (f_equal (@length str) E) as Q. rewrite !app_length in Q. destruct O1 as [->|O1], O2 as [->|O2]; cbn [length] in *; lia. }
  clear -E Q. revert o2 Q E. induction o1 as [|x o1 IH]; intros [|y o2] Q E; try discriminate; [exact E|]. injection E as -> E. apply (IH o2); [now injection Q|exact E].
Qed.
Lemma upcoming_iff ls n : upcoming ls n <-> n = firstn 2 ls.
Proof.
  split.
  - intros (later & -> & L & O). destruct n as [|a [|b [|c n]]]; cbn in L; try lia.
    + destruct O as [->|O]; [reflexivity|discriminate].
    + destruct O as [->|O]; [reflexivity|discriminate].
    + reflexivity.
  - intros ->. exists (skipn 2 ls). split; [symmetry; apply firstn_skipn|]. destruct ls as [|a [|b ls]]; cbn; split; auto.
Qed.

Lemma sep_comma : ~ number_char ","%char.
Proof. intros [H|[H|H]]; discriminate. Qed.

Lemma timing_fields l : let p := split_compress (is_any_of (lit " ")) (trim_right_if (is_any_of (lit " ")) l) in
  (negb (Nat.eqb (length p) 3) && negb (Nat.eqb (length p) 7) = true <-> length p <> 3%nat /\ length p <> 7%nat) /\
  (negb (Nat.eqb (length p) 3) && negb (Nat.eqb (length p) 7) = false <->
   exists f0 f1 f2 more, p = f0 :: f1 :: f2 :: more /\ (length more = 0%nat \/ length more = 4%nat)).
Proof.
  cbv zeta. set (p := split_compress _ _). clearbody p. split.
  - rewrite andb_true_iff, !negb_true_iff, !Nat.eqb_neq. reflexivity.
  - rewrite andb_false_iff, !negb_false_iff, !Nat.eqb_eq. split.
    + intros L. destruct p as [|f0 [|f1 [|f2 more]]]; cbn in L; try lia. exists f0, f1, f2, more. split; [reflexivity|]. cbn in L. lia.
    + intros (f0 & f1 & f2 & more & -> & L). cbn. lia.
Qed.

Lemma round_stops {B} ln st ctx rs subs l rest next (o : res B) : has_line rs -> upcoming rest next ->
  (stopped (round ln st ctx rs subs l rest) o <-> exists o', line_stops ln ctx next (where_is st) l o' /\ stopped o' o).
Proof.
  intros V U. apply upcoming_iff in U. subst next. unfold round. destruct st; cbn [where_is].
  - split; [destruct l; intros []|]. intros (o' & LS & _). inversion LS.
  - destruct (timing_fields l) as [A1 A2]. pose proof (fields_iff l) as FI.
    destruct (proj1 (trim_right_iff (eq space) (is_any_of (lit " ")) l _ (fun c => conj (fun h => eq_sym (proj1 (space_iff c) h)) (fun h => proj2 (space_iff c) (eq_sym h)))) eq_refl)
      as (ends & TE & TF & TN).
    cbv zeta in A1, A2 |- *. set (body := trim_right_if (is_any_of (lit " ")) l) in *.
    set (p := split_compress (is_any_of (lit " ")) body) in *.
    assert (TRIM : trim_right_if (is_any_of (lit " ")) l = body) by reflexivity. clearbody p body.
    destruct (negb (Nat.eqb (length p) 3) && negb (Nat.eqb (length p) 7)) eqn:LP.
    + destruct (proj1 A1 eq_refl) as [L3 L7]. assert (NF : forall f0 f1 f2 more, fields l (f0 :: f1 :: f2 :: more) -> (length more = 0%nat \/ length more = 4%nat) -> False).
      { intros f0 f1 f2 more F LM. apply FI in F. rewrite F in L3, L7. cbn in L3, L7. lia. }
      split.
      * intros S. exists (Throw (ESubrip ln body (lit "a time/position line") (error_context ctx rest))). split; [|exact S].
        apply (stop_form _ _ _ _ body (length ends) p); try assumption; [now apply FI|].
        rewrite TE at 1. f_equal. clear -TF. induction TF as [|c e C F IH]; [reflexivity|]. subst c. cbn [length repeat]. f_equal. exact IH.
      * intros (o' & LS & SO). inversion LS as [? body' k fs F L3' L7' E NE|? ? ? ? ? ? F LM R|? ? ? ? ? F LM R|? ? ? ? ? ? ? F LM R|? ? ? ? ? ? F LM R|]; subst;
          try (exfalso; now apply (NF _ _ _ _ F LM)).
        match goal with H : trim_right_if _ _ = body |- _ => rename H into TR end.
        assert (Q : body = body'); [|rewrite Q; exact SO]. rewrite <- TR.
        apply (trim_right_iff (eq space) (is_any_of (lit " ")) _ _ (fun c => conj (fun h => eq_sym (proj1 (space_iff c) h)) (fun h => proj2 (space_iff c) (eq_sym h)))).
        exists (repeat space k). split; [exact E|]. split; [|exact NE]. clear. induction k; cbn; constructor; auto.
    + destruct (proj1 A2 eq_refl) as (f0 & f1 & f2 & more & PE & LM). rewrite PE. cbn [nth].
      assert (F : fields l (f0 :: f1 :: f2 :: more)) by (apply FI; exact PE).
      assert (FU : forall g0 g1 g2 more', fields l (g0 :: g1 :: g2 :: more') -> g0 = f0 /\ g2 = f2).
      { intros g0 g1 g2 more' G. apply FI in G, F. rewrite F in G. now injection G. }
      assert (NFO : forall fs, fields l fs -> length fs <> 3%nat -> length fs <> 7%nat -> False).
      { intros fs G L3 L7. apply FI in G. rewrite PE in G. subst fs. cbn in L3, L7. lia. }
      assert (CT : forall s t, convert_time s (lit ",") = Ok (CTime t) <-> cue_time ","%char s t) by (intros s t; apply (convert_time_ok ","%char sep_comma); discriminate).
      assert (CE : forall s e, convert_time s (lit ",") = Ok (CExpected e) <-> time_refused ","%char s e) by (intros s e; apply (convert_time_expected ","%char sep_comma); discriminate).
      assert (CS : forall C s (o : res C), stopped (convert_time s (lit ",")) o <-> o = Undef UbIntOverflow /\ time_overflows ","%char s)
        by (intros C s o'; apply (convert_time_stopped ","%char sep_comma); discriminate).
      rewrite stopped_bind. split.
      * intros [S|([from|e] & E & S)].
        -- apply CS in S. destruct S as [-> TO]. exists (Undef UbIntOverflow). split; [|reflexivity]. now apply (stop_start_big _ _ _ l f0 f1 f2 more).
        -- apply CT in E. rewrite stopped_bind in S. destruct S as [S|([to|e] & E' & S)]; [| |].
           ++ apply CS in S. destruct S as [-> TO]. exists (Undef UbIntOverflow). split; [|reflexivity]. now apply (stop_finish_big _ _ _ l f0 f1 f2 more from).
           ++ destruct S.
           ++ apply CE in E'. exists (Throw (ESubrip ln f2 e ctx)). split; [|exact S]. now apply (stop_finish _ _ _ l f0 f1 f2 more from).
        -- apply CE in E. exists (Throw (ESubrip ln f0 e ctx)). split; [|exact S]. now apply (stop_start _ _ _ l f0 f1 f2 more).
      * intros (o' & LS & SO).
        inversion LS as [? body' k fs G L3' L7' E NE|? ? ? ? ? ? G LM' R|? ? ? ? ? G LM' R|? ? ? ? ? ? ? G LM' CU R|? ? ? ? ? ? G LM' CU R|]; subst.
        -- exfalso. now apply (NFO fs).
        -- destruct (FU _ _ _ _ G) as [-> ->]. apply CE in R. right. eexists. split; [exact R|exact SO].
        -- destruct (FU _ _ _ _ G) as [-> ->]. left. apply CS. split; [|exact R]. destruct o; cbn in SO; try contradiction. now subst.
        -- destruct (FU _ _ _ _ G) as [-> ->]. apply CT in CU. apply CE in R. right. eexists. split; [exact CU|]. apply stopped_bind. right. eexists. split; [exact R|exact SO].
        -- destruct (FU _ _ _ _ G) as [-> ->]. apply CT in CU. right. eexists. split; [exact CU|]. apply stopped_bind. left. apply CS. split; [|exact R].
           destruct o; cbn in SO; try contradiction. now subst.
  - destruct l as [|c l].
    + split; [intros []|]. intros (o' & LS & _). inversion LS; congruence.
    + rewrite stopped_bind. destruct (sub_lines_outcome ln ctx (split_lit line_separator (c :: l)) rs subs o V) as [_ A]. rewrite A. split.
      * intros [(before & row & after & o' & E & F & RS & SO)|(x & _ & [])]. exists o'. split; [|exact SO].
        apply (stop_text _ _ _ _ before row after); [discriminate| |exact F|exact RS]. rewrite <- E. now apply line_separator_iff.
      * intros (o' & LS & SO). inversion LS as [| | | | |? before row after ? NE P F RS]; subst. left. exists before, row, after, o'.
        split; [now apply line_separator_iff|]. now repeat split.
Qed.

Lemma loop_prefix before : forall ln st ctx rs subs raws seen, has_line rs -> comes_next seen (where_is st) -> recent seen ctx ->
  subrip_loop before ln st ctx rs subs = Ok raws -> exists st' ctx' rs', has_line rs' /\ comes_next (seen ++ map clean_line before) (where_is st') /\
    recent (seen ++ map clean_line before) ctx' /\
    forall after, subrip_loop (before ++ after) ln st ctx rs subs = subrip_loop after (ln + Z.of_nat (length before)) st' ctx' rs' raws.
Proof.
  induction before as [|l before IH]; intros ln st ctx rs subs raws seen V C R E.
  - cbn [subrip_loop] in E. apply Ok_inj in E. subst raws. exists st, ctx, rs. cbn [map]. rewrite app_nil_r. repeat split; try assumption.
    intros after. cbn [app length]. now rewrite Z.add_0_r.
  - rewrite loop_round in E. destruct (round _ _ _ _ _ _ before) as [[[st1 rs1] subs1]| |] eqn:RD; [|discriminate..]. cbn [bind fst snd] in E.
    apply (IH _ _ _ _ _ _ (seen ++ [clean_line l])) in E; [|now apply round_has_line in RD|now apply (round_next _ _ _ _ _ _ _ _ _ _ seen) in RD|now apply push_recent].
    destruct E as (st' & ctx' & rs' & V' & C' & R' & E). exists st', ctx', rs'. cbn [map]. rewrite <- app_assoc in C', R'. cbn [app] in C', R'. repeat split; try assumption.
    intros after. cbn [app]. rewrite loop_round, (round_rest _ _ _ _ _ _ _ (before ++ after) _ RD). cbn [bind fst snd]. rewrite E.
    f_equal. cbn [length]. lia.
Qed.

Lemma cleaned_map ls ls' : Forall2 cleaned ls ls' <-> ls' = map clean_line ls.
Proof.
  split.
  - induction 1 as [|l l' ls ls' C F IH]; [reflexivity|]. cbn [map]. f_equal; [|exact IH]. symmetry. now apply clean_line_iff.
  - intros ->. induction ls as [|l ls IH]; cbn [map]; constructor; [now apply clean_line_iff|exact IH].
Qed.

(** The first line at which reading stops. *)
Lemma first_stop {B} ls (o : res B) : stopped (subrip_read ls) o -> exists before l after raws, ls = before ++ l :: after /\ subrip_read before = Ok raws /\ ~ (exists r, subrip_read (before ++ [l]) = Ok r).
Proof.
  intros S. assert (G : forall after before, ls = before ++ after -> (exists r, subrip_read before = Ok r) ->
    exists before l after raws, ls = before ++ l :: after /\ subrip_read before = Ok raws /\ ~ (exists r, subrip_read (before ++ [l]) = Ok r)).
  { induction after as [|l after IH]; intros before E (r & R).
    - rewrite app_nil_r in E. subst before. rewrite R in S. destruct S.
    - destruct (subrip_read (before ++ [l])) as [r'| |] eqn:Q.
      + apply (IH (before ++ [l])); [now rewrite <- app_assoc|]. now exists r'.
      + exists before, l, after, r. split; [exact E|]. split; [exact R|]. rewrite Q. intros (r' & D). discriminate.
      + exists before, l, after, r. split; [exact E|]. split; [exact R|]. rewrite Q. intros (r' & D). discriminate. }
  apply (G ls []); [reflexivity|]. now exists [].
Qed.

Lemma prefix_read before raws : subrip_read before = Ok raws -> exists st ctx rs, has_line rs /\ comes_next (map clean_line before) (where_is st) /\
    recent (map clean_line before) ctx /\
    forall after, subrip_read (before ++ after) = subrip_loop after (Z.of_nat (length before)) st ctx rs raws.
Proof.
  intros R. destruct (loop_prefix before 0 COUNTER [] subrip_new [] raws [] eq_refl) as (st & ctx & rs & V & C & RC & E).
  - constructor.
  - exists []. repeat split; [cbn; lia|now left].
  - exact R.
  - exists st, ctx, rs. cbn [app] in C, RC. repeat split; assumption.
Qed.

Theorem subrip_stops_iff {B} ls (o : res B) : stopped (subrip_read ls) o <-> exists o', subrip_stops ls o' /\ stopped o' o.
Proof.
  split.
  - intros S. destruct (first_stop ls o S) as (before & l & after & raws & -> & R & NO).
    destruct (prefix_read before raws R) as (st & ctx & rs & V & C & RC & E). rewrite E, loop_round, stopped_bind in S.
    assert (RD : stopped (round (Z.of_nat (length before) + 1) st (push_context ctx (clean_line l)) rs raws (clean_line l) after) o).
    { destruct S as [S|([[st1 rs1] subs1] & Q & _)]; [exact S|]. exfalso. apply NO. rewrite E, loop_round, (round_rest _ _ _ _ _ _ _ [] _ Q). cbn [bind]. now eexists. }
    apply (round_stops _ _ _ _ _ _ _ (firstn 2 after)) in RD; [|exact V|now apply upcoming_iff]. destruct RD as (o' & LS & SO). exists o'. split; [|exact SO].
    exists before, l, after, (map clean_line before), (clean_line l), raws, (where_is st), (push_context ctx (clean_line l)), (firstn 2 after).
    split; [reflexivity|]. split; [now apply cleaned_map|]. split; [now apply clean_line_iff|]. split; [now apply subrip_read_iff|]. split; [exact C|].
    split; [now apply push_recent|]. split; [now apply upcoming_iff|exact LS].
  - intros (o' & (before & l & after & before' & l' & raws & p & ctx' & next & -> & CB & CL & R & CN & RE & U & LS) & SO).
    apply cleaned_map in CB. subst before'. apply clean_line_iff in CL. subst l'. apply subrip_read_iff in R.
    destruct (prefix_read before raws R) as (st & ctx & rs & V & C & RC & E). rewrite E, loop_round, stopped_bind. left.
    apply (round_stops _ _ _ _ _ _ _ next); [exact V|exact U|]. exists o'. split; [|exact SO].
    rewrite (comes_next_unique _ _ _ C CN). now rewrite (recent_unique _ _ _ (push_recent _ _ (clean_line l) RC) RE).
Qed.

Lemma stopped_eq {A} (x o : res A) : (forall a, o <> Ok a) -> (stopped x o <-> x = o).
Proof. intros N. destruct o as [a|e|u]; [now destruct (N a)|..]; destruct x; cbn; intuition congruence. Qed.

(** The three outcomes. *)
Theorem subrip_read_throws ls e : subrip_read ls = Throw e <-> subrip_stops ls (Throw e).
Proof.
  rewrite <- (stopped_eq (subrip_read ls) (Throw e)) by discriminate. rewrite subrip_stops_iff. split.
  - intros (o' & S & SO). assert (N : forall a, Throw e <> Ok a :> res (list raw)) by discriminate. apply (stopped_eq o' (Throw e) N) in SO. now subst o'.
  - intros S. exists (Throw e). split; [exact S|reflexivity].
Qed.
Theorem subrip_read_undefined ls u : subrip_read ls = Undef u <-> subrip_stops ls (Undef u).
Proof.
  rewrite <- (stopped_eq (subrip_read ls) (Undef u)) by discriminate. rewrite subrip_stops_iff. split.
  - intros (o' & S & SO). assert (N : forall a, Undef u <> Ok a :> res (list raw)) by discriminate. apply (stopped_eq o' (Undef u) N) in SO. now subst o'.
  - intros S. exists (Undef u). split; [exact S|reflexivity].
Qed.
