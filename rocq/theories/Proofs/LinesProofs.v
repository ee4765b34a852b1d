(** Lines, cleaning, timing lines: Model/Lines and the time parser against Spec/LinesSpec. *)
From Coq Require Import ZArith List Bool Ascii String Lia.
From Verif.Model Require Import Base Strings Float TimeModel Types Lines RawConvert Compose Ssa Subrip.
From Verif.Spec Require Import Outcome TextSpec LinesSpec.
From Verif.Proofs Require Import StringProofs SsaTagProofs.
Import ListNotations.
Local Open Scope Z_scope.
Local Notation length := List.length.

(** * Lines *)

Lemma newline_lf : newline = lf. Proof. reflexivity. Qed.

Lemma break_nl_some s a b : break_nl s = Some (a, b) <-> s = a ++ lf :: b /\ ~ In lf a.
Proof.
  revert a b. induction s as [|c s IH]; intros a b; cbn [break_nl].
  - split; [discriminate|]. intros [E _]. destruct a; discriminate.
  - rewrite newline_lf. destruct (Ascii.eqb_spec c lf) as [->|N].
    + split.
      * intros [= <- <-]. split; [reflexivity|intros []].
      * intros [E NI]. destruct a as [|x a]; [inversion E; reflexivity|]. inversion E. exfalso. apply NI. now left.
    + destruct (break_nl s) as [[a' b']|] eqn:B.
      * destruct (proj1 (IH a' b') eq_refl) as [-> NI]. split.
        -- intros [= <- <-]. split; [reflexivity|]. intros [E|E]; [congruence|contradiction].
        -- intros [E NI']. destruct a as [|x a]; [inversion E; congruence|]. injection E as EX E. subst x.
           assert (Q : Some (a', b') = Some (a, b)).
           { apply IH. split; [exact E|]. intros I. apply NI'. now right. }
           now injection Q as -> ->.
      * split; [discriminate|]. intros [E NI']. destruct a as [|x a]; [inversion E; congruence|]. injection E as EX E. subst x.
        assert (Q : None = Some (a, b)); [|discriminate]. apply IH. split; [exact E|]. intros I. apply NI'. now right.
Qed.
Lemma break_nl_none s : break_nl s = None <-> ~ In lf s.
Proof.
  induction s as [|c s IH]; cbn [break_nl]; [split; [intros _ []|reflexivity]|]. rewrite newline_lf.
  destruct (Ascii.eqb_spec c lf) as [->|N].
  - split; [discriminate|]. intros NI. exfalso. apply NI. now left.
  - destruct (break_nl s) as [[a b]|].
    + split; [discriminate|]. intros NI. assert (Q : Some (a, b) = None); [|discriminate]. apply IH. intros I. apply NI. now right.
    + split; [|reflexivity]. intros _ [E|I]; [congruence|]. now apply IH.
Qed.

Lemma all_lines_string fuel s ls : (length s <= fuel)%nat -> (all_lines get_line_string fuel s = ls <-> text_lines s ls).
Proof.
  revert s ls. induction fuel as [|k IH]; intros s ls L.
  - destruct s; [|cbn in L; lia]. cbn. split.
    + intros <-. constructor.
    + intros T. inversion T; [reflexivity|congruence|]. destruct l; discriminate.
  - cbn [all_lines]. destruct s as [|c s].
    + split; [intros <-; constructor|]. intros T. inversion T; [reflexivity|congruence|]. destruct l; discriminate.
    + assert (G : get_line_string (c :: s) = match break_nl (c :: s) with None => Some (c :: s, []) | Some x => Some x end).
      { unfold get_line_string. destruct (break_nl (c :: s)) as [[? ?]|]; reflexivity. }
      rewrite G. clear G. destruct (break_nl (c :: s)) as [[a b]|] eqn:B.
      * apply break_nl_some in B. destruct B as [E NI]. split.
        -- intros <-. rewrite E. apply lines_more; [exact NI|]. apply IH; [|reflexivity].
           apply (f_equal (@length ascii)) in E. rewrite app_length in E. cbn [length] in *. lia.
        -- intros T. inversion T as [Q|l NE NL Q|l rest ls' NL T' Q]; subst.
           ++ exfalso. apply NL. rewrite E. apply in_or_app. right. now left.
           ++ assert (R : Some (a, b) = Some (l, rest)).
              { transitivity (break_nl (c :: s)); [symmetry|]; apply break_nl_some; split; congruence. }
              injection R as -> ->. f_equal. apply IH; [|exact T'].
              apply (f_equal (@length ascii)) in E. rewrite app_length in E. cbn [length] in *. lia.
      * apply break_nl_none in B. split.
        -- intros <-. replace (all_lines get_line_string k []) with (@nil str).
           ++ apply lines_last; [discriminate|exact B].
           ++ destruct k; reflexivity.
        -- intros T. inversion T as [Q|l NE NL Q|l rest ls' NL T' Q]; subst.
           ++ destruct k; reflexivity.
           ++ exfalso. apply B. rewrite <- Q. apply in_or_app. right. now left.
Qed.
Theorem lines_of_string_iff s ls : lines_of_string s = ls <-> text_lines s ls.
Proof. now apply all_lines_string. Qed.

(** * Cleaning *)

Lemma rev_ends (P : ascii -> Prop) (p : ascii -> bool) s : (forall c, p c = true <-> P c) -> (starts_not p (rev s) <-> ~ ends_in P s).
Proof.
  intros D. destruct s as [|c s] using rev_ind.
  - split; [|intros _; exact I]. intros _ (b & x & E & _). destruct b; discriminate.
  - rewrite rev_unit. cbn. clear IHs. split.
    + intros F (b & x & E & X). apply app_inj_tail in E. destruct E as [_ <-]. apply D in X. congruence.
    + intros N. destruct (p c) eqn:E; [|reflexivity]. exfalso. apply N. exists s, c. split; [reflexivity|now apply D].
Qed.

Lemma trim_right_iff (P : ascii -> Prop) (p : ascii -> bool) s u : (forall c, p c = true <-> P c) ->
  (trim_right_if p s = u <-> exists ends, s = u ++ ends /\ Forall P ends /\ ~ ends_in P u).
Proof.
  intros D. unfold trim_right_if. split.
  - intros <-. exists (rev (take_while p (rev s))). split; [|split].
    + rewrite <- rev_app_distr, take_drop. now rewrite rev_involutive.
    + apply Forall_rev. eapply Forall_impl; [|apply take_while_all]. intros c. apply D.
    + apply (rev_ends P p _ D). rewrite rev_involutive. apply drop_while_starts.
  - intros (ends & -> & F & N). rewrite rev_app_distr. rewrite drop_while_app.
    + apply rev_involutive.
    + apply Forall_rev. eapply Forall_impl; [|exact F]. intros c. apply D.
    + now apply (rev_ends P p _ D).
Qed.

Lemma bom_chars a b c : (code a =? 239) && (code b =? 187) && (code c =? 191) = true <-> [a; b; c] = bom.
Proof.
  split.
  - intros E. apply andb_true_iff in E. destruct E as [E C]. apply andb_true_iff in E. destruct E as [A B]. rewrite Z.eqb_eq in *.
    unfold bom. cbn. repeat f_equal; apply code_inj; [rewrite A|rewrite B|rewrite C]; reflexivity.
  - intros E. injection E as -> -> ->. reflexivity.
Qed.
Lemma remove_bom_iff u l : remove_unicode_bom u = l <-> u = bom ++ l \/ ~ begins_with bom u /\ l = u.
Proof.
  assert (S : forall u, (length u < 3)%nat -> (remove_unicode_bom u = u) /\ ~ begins_with bom u).
  { intros v L. destruct v as [|a [|b [|c v]]]; cbn in L; try lia; (split; [reflexivity|]); intros (rest & E); discriminate. }
  destruct (Nat.lt_ge_cases (length u) 3) as [L|L].
  - destruct (S u L) as [E N]. rewrite E. split.
    + intros <-. right. now split.
    + intros [Q|[_ Q]]; [|congruence]. exfalso. apply N. now exists l.
  - destruct u as [|a [|b [|c u]]]; cbn in L; try lia. cbn [remove_unicode_bom].
    destruct ((code a =? 239) && (code b =? 187) && (code c =? 191)) eqn:B.
    + apply bom_chars in B. change (a :: b :: c :: u) with ([a; b; c] ++ u). rewrite B. split.
      * intros <-. now left.
      * intros [Q|[N _]]; [now apply app_inv_head in Q|]. exfalso. apply N. now exists u.
    + assert (N : ~ begins_with bom (a :: b :: c :: u)).
      { intros (rest & E). assert (Q : [a; b; c] = bom) by (injection E as -> -> -> _; reflexivity). apply bom_chars in Q. congruence. }
      split.
      * intros <-. right. now split.
      * intros [Q|[_ Q]]; [|congruence]. exfalso. apply N. now exists l.
Qed.

Lemma line_end_iff c : is_any_of [newline; chr 13] c = true <-> line_end c.
Proof. unfold is_any_of, line_end. cbn. rewrite orb_false_r, orb_true_iff, !eqb_iff. reflexivity. Qed.

Theorem clean_line_iff l l' : clean_line l = l' <-> cleaned l l'.
Proof.
  unfold clean_line, cleaned. rewrite remove_bom_iff. set (u := trim_right_if (is_any_of [newline; chr 13]) l).
  pose proof (trim_right_iff line_end _ l u line_end_iff) as T. split.
  - intros H. destruct (proj1 T eq_refl) as (ends & E & F & N). exists u, ends. now repeat split.
  - intros (u' & ends & E & F & N & H). assert (Q : u = u').
    { apply (proj2 (trim_right_iff line_end _ l u' line_end_iff)). exists ends. now repeat split. }
    now rewrite Q.
Qed.

(** * Separators of three different bytes *)

Section Sep.
Variables x y z : ascii.
Hypotheses (XY : x <> y) (XZ : x <> z).
Let sep : str := [x; y; z].

Lemma contains_cons c s : contains sep (c :: s) <-> (exists t, c :: s = sep ++ t) \/ contains sep s.
Proof.
  split.
  - intros (a & b & E). destruct a as [|d a]; [left; now exists b|]. injection E as _ E. right. now exists a, b.
  - intros [(t & E)|(a & b & ->)]; [now exists [], t|now exists (c :: a), b].
Qed.

Lemma starts_sep s : starts_with s sep = true <-> exists t, s = sep ++ t.
Proof. apply starts_with_iff. Qed.

Lemma split_lit_sep rest : split_lit sep (sep ++ rest) = [] :: split_lit sep rest.
Proof.
  unfold split_lit. change (sep ++ rest) with (x :: y :: z :: rest). cbn [split_lit_aux].
  replace (starts_with (x :: y :: z :: rest) sep) with true; [reflexivity|]. symmetry. apply starts_sep. now exists rest.
Qed.
Lemma split_lit_other c s : starts_with (c :: s) sep = false -> split_lit sep (c :: s) = cons_head c (split_lit sep s).
Proof. intros E. unfold split_lit. cbn [split_lit_aux]. now rewrite E. Qed.

Lemma not_early c p rest : ~ contains sep (c :: p) -> starts_with ((c :: p) ++ sep ++ rest) sep = false.
Proof.
  intros N. destruct (starts_with ((c :: p) ++ sep ++ rest) sep) eqn:E; [|reflexivity]. exfalso.
  apply starts_sep in E. destruct E as (t & E). destruct p as [|d [|e p]]; cbn in E.
  - injection E as _ E _. congruence.
  - injection E as _ _ E. congruence.
  - injection E as -> -> -> E. apply N. now exists [], p.
Qed.
Lemma not_at_all c p : ~ contains sep (c :: p) -> starts_with (c :: p) sep = false.
Proof.
  intros N. destruct (starts_with (c :: p) sep) eqn:E; [|reflexivity]. exfalso. apply starts_sep in E. destruct E as (t & E).
  apply N. now exists [], t.
Qed.
Lemma split_lit_piece p rest : ~ contains sep p -> split_lit sep (p ++ sep ++ rest) = p :: split_lit sep rest.
Proof.
  induction p as [|c p IH]; intros N; [apply split_lit_sep|]. cbn [app]. rewrite split_lit_other.
  - rewrite IH; [reflexivity|]. intros C. apply N. apply contains_cons. now right.
  - now apply not_early.
Qed.
Lemma split_lit_last p : ~ contains sep p -> split_lit sep p = [p].
Proof.
  induction p as [|c p IH]; intros N; [reflexivity|]. rewrite split_lit_other by now apply not_at_all.
  rewrite IH; [reflexivity|]. intros C. apply N. apply contains_cons. now right.
Qed.

Lemma contains_nil : ~ contains sep [].
Proof. intros (a & b & E). destruct a; discriminate. Qed.

Lemma split_lit_parts n s : (length s <= n)%nat -> parts_of sep s (split_lit sep s).
Proof.
  revert s. induction n as [|n IH]; intros s L.
  - destruct s; [|cbn in L; lia]. repeat split; [discriminate|]. repeat constructor. apply contains_nil.
  - destruct s as [|c s]; [repeat split; [discriminate|]; repeat constructor; apply contains_nil|].
    destruct (starts_with (c :: s) sep) eqn:E.
    + apply starts_sep in E. destruct E as (t & E). rewrite E, split_lit_sep.
      assert (L' : (length t <= n)%nat). { apply (f_equal (@length ascii)) in E. rewrite app_length in E. cbn in *. lia. }
      destruct (IH t L') as (NE & J & F). split; [discriminate|]. split.
      * destruct (split_lit sep t) as [|w ws]; [congruence|]. rewrite J. reflexivity.
      * constructor; [apply contains_nil|exact F].
    + rewrite split_lit_other by exact E. destruct (IH s) as (NE & J & F); [cbn in L; lia|].
      destruct (split_lit sep s) as [|w ws]; [congruence|]. cbn [cons_head]. split; [discriminate|]. split.
      * rewrite J at 1. destruct ws; reflexivity.
      * apply Forall_cons_iff in F. destruct F as [Nw Fw]. constructor; [|exact Fw]. intros C. apply contains_cons in C.
        destruct C as [(t & C)|C]; [|contradiction]. assert (Q : starts_with (c :: s) sep = true); [|congruence].
        apply starts_sep. destruct ws as [|w2 ws]; cbn [join] in J.
        -- rewrite J. now exists t.
        -- exists (t ++ sep ++ join sep (w2 :: ws)). rewrite J. transitivity ((c :: w) ++ sep ++ join sep (w2 :: ws)); [reflexivity|].
           unfold str in *. rewrite C. now rewrite <- app_assoc.
Qed.

Lemma split_lit_iff s parts : split_lit sep s = parts <-> parts_of sep s parts.
Proof.
  split; [intros <-; now apply (split_lit_parts (length s))|]. intros (NE & -> & F).
  induction F as [|p parts Np F IH]; [congruence|]. destruct parts as [|q parts].
  - cbn [join]. now apply split_lit_last.
  - change (join sep (p :: q :: parts)) with (p ++ sep ++ join sep (q :: parts)). rewrite split_lit_piece by exact Np.
    f_equal. apply IH. discriminate.
Qed.

Lemma cons_head_concat c l : l <> [] -> List.concat (cons_head c l) = c :: List.concat l.
Proof. destruct l; [congruence|reflexivity]. Qed.
Lemma split_lit_aux_ne pat k s : split_lit_aux pat k s <> [].
Proof.
  revert k. induction s as [|c s IH]; intros k; [discriminate|]. cbn [split_lit_aux]. destruct k; [|apply IH]. destruct (starts_with (c :: s) pat); [discriminate|].
  specialize (IH O). destruct (split_lit_aux pat 0 s); [congruence|discriminate].
Qed.
Lemma replace_split k s : replace_all_aux sep [] k s = List.concat (split_lit_aux sep k s).
Proof.
  revert k. induction s as [|c s IH]; intros k; [reflexivity|]. cbn [replace_all_aux split_lit_aux]. destruct k as [|k]; [|apply IH].
  destruct (starts_with (c :: s) sep); [apply IH|]. rewrite cons_head_concat by apply split_lit_aux_ne. now rewrite IH.
Qed.
Lemma replace_all_iff s t : replace_all s sep [] = t <-> exists parts, parts_of sep s parts /\ t = List.concat parts.
Proof.
  change (replace_all s sep []) with (replace_all_aux sep [] 0 s). rewrite replace_split. change (split_lit_aux sep 0 s) with (split_lit sep s). split.
  - intros <-. exists (split_lit sep s). split; [now apply split_lit_iff|reflexivity].
  - intros (parts & P & ->). apply split_lit_iff in P. now rewrite P.
Qed.
End Sep.

Lemma line_separator_iff s parts : split_lit line_separator s = parts <-> parts_of u2028 s parts.
Proof. apply split_lit_iff; discriminate. Qed.

(** * Numbers and times *)

Lemma in_int_iff z : in_int z = true <-> is_int z.
Proof. unfold in_int, is_int, int_min, int_max. rewrite andb_true_iff, !Z.leb_le. tauto. Qed.
Lemma chk_iff z v : chk z = Ok v <-> is_int z /\ v = z.
Proof.
  unfold chk. destruct (in_int z) eqn:E.
  - apply in_int_iff in E. split; [intros [= <-]; now split|intros [_ ->]; reflexivity].
  - split; [discriminate|]. intros [I _]. apply in_int_iff in I. congruence.
Qed.

Lemma numeral_head c s v : numeral (c :: s) v -> Ascii.eqb c cminus = false /\ Ascii.eqb c cplus = false.
Proof.
  intros N. apply numeral_digits in N. destruct N as (F & _). inversion F as [|a b D _]; subst.
  split; destruct (Ascii.eqb_spec c cminus), (Ascii.eqb_spec c cplus); subst; try reflexivity; discriminate.
Qed.

Theorem lexical_cast_iff s v : lexical_cast_int s = Ok v <-> integer s v.
Proof.
  unfold lexical_cast_int. split.
  - destruct s as [|c s]; [discriminate|]. cbn [take_sign].
    destruct (Ascii.eqb c cminus) eqn:M; [|destruct (Ascii.eqb c cplus) eqn:P].
    + apply eqb_iff in M. subst c. destruct s as [|d s]; [discriminate|]. destruct (forallb is_digit (d :: s)) eqn:D; [|discriminate].
      destruct (in_int (- dec_val (d :: s))) eqn:I; [|discriminate]. intros H. injection H as <-. apply in_int_iff in I.
      apply integer_minus; [|exact I]. apply digits_numeral; [discriminate|]. apply Forall_forall. now apply forallb_forall.
    + apply eqb_iff in P. subst c. destruct s as [|d s]; [discriminate|]. destruct (forallb is_digit (d :: s)) eqn:D; [|discriminate].
      destruct (in_int (dec_val (d :: s))) eqn:I; [|discriminate]. intros H. injection H as <-. apply in_int_iff in I.
      apply integer_plus; [|exact I]. apply digits_numeral; [discriminate|]. apply Forall_forall. now apply forallb_forall.
    + destruct (forallb is_digit (c :: s)) eqn:D; [|discriminate].
      destruct (in_int (dec_val (c :: s))) eqn:I; [|discriminate]. intros H. injection H as <-. apply in_int_iff in I.
      apply integer_plain; [|exact I]. apply digits_numeral; [discriminate|]. apply Forall_forall. now apply forallb_forall.
  - assert (D : forall s v, numeral s v -> s <> [] /\ forallb is_digit s = true /\ dec_val s = v).
    { intros t w N. apply numeral_digits in N. destruct N as (F & V & NE & _). repeat split; [exact NE| |exact V].
      apply forallb_forall. now apply Forall_forall. }
    intros [t w N I|t w N I|t w N I]; destruct (D t w N) as (NE & F & V); apply in_int_iff in I.
    + destruct t as [|c t]; [congruence|]. cbn [take_sign]. destruct (numeral_head c t w N) as [-> ->]. now rewrite F, V, I.
    + cbn [take_sign]. change (Ascii.eqb "+" cminus) with false. change (Ascii.eqb "+" cplus) with true. cbv iota.
      destruct t as [|c t]; [congruence|]. now rewrite F, V, I.
    + cbn [take_sign]. change (Ascii.eqb "-" cminus) with true. cbv iota.
      destruct t as [|c t]; [congruence|]. now rewrite F, V, I.
Qed.

Lemma integer_unique s v w : integer s v -> integer s w -> v = w.
Proof. intros A B. apply lexical_cast_iff in A, B. congruence. Qed.

Theorem from_hms_iff h m s ms t : from_hms h m s ms = Ok t <-> time_fits h m s /\ t = mkT (h * 3600 + m * 60 + s) ms (Some (mkR 1000 1)).
Proof.
  unfold from_hms, hms_seconds, imul, iadd, time_fits. split.
  - intros H. destruct (chk (h * 3600)) as [a| |] eqn:A; [|discriminate..]. apply chk_iff in A. destruct A as [A ->]. cbn [bind] in H.
    destruct (chk (m * 60)) as [b| |] eqn:B; [|discriminate..]. apply chk_iff in B. destruct B as [B ->]. cbn [bind] in H.
    destruct (chk (h * 3600 + m * 60)) as [c| |] eqn:C; [|discriminate..]. apply chk_iff in C. destruct C as [C ->]. cbn [bind] in H.
    destruct (chk (h * 3600 + m * 60 + s)) as [d| |] eqn:D; [|discriminate..]. apply chk_iff in D. destruct D as [D ->]. cbn [bind] in H.
    injection H as <-. split; [exact (conj A (conj B (conj C D)))|reflexivity].
  - intros [(A & B & C & D) ->]. apply in_int_iff in A, B, C, D. unfold chk. rewrite A. cbn [bind]. rewrite B. cbn [bind]. rewrite C. cbn [bind]. now rewrite D.
Qed.

(** Which characters a number can have. *)
Definition number_char (c : ascii) : Prop := is_digit c = true \/ c = "+"%char \/ c = "-"%char.
Lemma integer_chars s v : integer s v -> Forall number_char s.
Proof.
  assert (D : forall s v, numeral s v -> Forall number_char s).
  { intros t w N. apply numeral_digits in N. destruct N as (F & _). eapply Forall_impl; [|exact F]. intros c C. now left. }
  intros [t w N _|t w N _|t w N _].
  - now apply D in N.
  - constructor; [now right; left|now apply D in N].
  - constructor; [now right; right|now apply D in N].
Qed.
Lemma integer_free x s v : ~ number_char x -> integer s v -> free (is_any_of [x]) s.
Proof.
  intros X I. apply integer_chars in I. eapply Forall_impl; [|exact I]. intros c C. cbn in C. apply is_any_one_false. congruence.
Qed.
Lemma colon_no_number : ~ number_char ":"%char.
Proof. intros [E|[E|E]]; discriminate. Qed.

Lemma cast_or_time s e k t : cast_or s e k = Ok (CTime t) <-> exists v, integer s v /\ k v = Ok (CTime t).
Proof.
  unfold cast_or. split.
  - destruct (lexical_cast_int s) as [v| |] eqn:E; [|discriminate..]. intros H. exists v. split; [now apply lexical_cast_iff|exact H].
  - intros (v & I & H). apply lexical_cast_iff in I. now rewrite I.
Qed.

Section ConvertTime.
Variable sep : ascii.
Hypotheses (S1 : ~ number_char sep) (S2 : sep <> ":"%char).

Lemma convert_time_ok s t : convert_time s [sep] = Ok (CTime t) <-> cue_time sep s t.
Proof.
  unfold convert_time, cue_time. change (is_any_of (lit ":")) with (is_any_of [":"%char]). split.
  - destruct (split (is_any_of [":"%char]) s) as [|a0 [|a1 [|a2 [|? ?]]]] eqn:SP; try discriminate.
    apply split3_inv in SP. destruct SP as (b1 & b2 & -> & B1 & B2 & F0 & F1 & F2). apply is_any_one in B1, B2. subst b1 b2.
    destruct (split (is_any_of [sep]) a2) as [|c0 [|c1 [|? ?]]] eqn:SP2; try discriminate.
    apply split_cons_inv in SP2. destruct SP2 as [(Q & _)|(b & rest & -> & B & G0 & Q)]; [discriminate|]. symmetry in Q.
    apply split_cons_inv in Q. destruct Q as [(_ & -> & G1)|(b' & rest' & _ & _ & _ & Q)]; [|symmetry in Q; now apply split_not_nil in Q].
    apply is_any_one in B. subst b.
    intros H. apply cast_or_time in H. destruct H as (h & Ih & H). apply cast_or_time in H. destruct H as (m & Im & H).
    apply cast_or_time in H. destruct H as (sec & Is & H). apply cast_or_time in H. destruct H as (ms & Ims & H).
    destruct (from_hms h m sec ms) as [t'| |] eqn:FH; [|discriminate..]. cbn [bind] in H. injection H as ->.
    apply from_hms_iff in FH. destruct FH as [TF ->]. exists h, m, sec, ms. split; [|now split].
    exists a0, a1, c0, c1. now repeat split.
  - intros (h & m & sec & ms & (hs & mins & secs & mss & -> & Ih & Im & Is & Ims) & TF & ->).
    assert (C : forall x v, integer x v -> free (is_any_of [":"%char]) x) by (intros x v; apply integer_free, colon_no_number).
    assert (D : forall x v, integer x v -> free (is_any_of [sep]) x) by (intros x v; now apply integer_free).
    rewrite split3.
    + change (secs ++ sep :: mss) with (secs ++ [sep] ++ mss). cbn [app]. rewrite split_piece.
      * rewrite split_free by now apply D in Ims.
        apply cast_or_time. exists h. split; [exact Ih|]. apply cast_or_time. exists m. split; [exact Im|].
        apply cast_or_time. exists sec. split; [exact Is|]. apply cast_or_time. exists ms. split; [exact Ims|].
        replace (from_hms h m sec ms) with (Ok (mkT (h * 3600 + m * 60 + sec) ms (Some (mkR 1000 1)))); [reflexivity|].
        symmetry. apply from_hms_iff. now split.
      * now apply D in Is.
      * now apply is_any_one.
    + reflexivity.
    + reflexivity.
    + now apply C in Ih.
    + now apply C in Im.
    + apply Forall_app. split; [now apply C in Is|]. constructor; [apply is_any_one_false; exact S2|now apply C in Ims].
Qed.

(** Either there are numbers, or the time is refused. *)
Lemma convert_time_refused s e : convert_time s [sep] = Ok (CExpected e) -> forall h m sec ms, ~ cue_time_parts sep s h m sec ms.
Proof.
  intros H h m sec ms (hs & mins & secs & mss & -> & Ih & Im & Is & Ims).
  assert (C : forall x v, integer x v -> free (is_any_of [":"%char]) x) by (intros x v; apply integer_free, colon_no_number).
  assert (D : forall x v, integer x v -> free (is_any_of [sep]) x) by (intros x v; now apply integer_free).
  unfold convert_time in H. change (is_any_of (lit ":")) with (is_any_of [":"%char]) in H. rewrite split3 in H.
  - rewrite split_piece in H; [|now apply D in Is|now apply is_any_one]. rewrite split_free in H by now apply D in Ims.
    unfold cast_or in H. apply lexical_cast_iff in Ih, Im, Is, Ims. rewrite Ih, Im, Is, Ims in H.
    destruct (from_hms h m sec ms); discriminate.
  - reflexivity.
  - reflexivity.
  - now apply C in Ih.
  - now apply C in Im.
  - apply Forall_app. split; [now apply C in Is|]. constructor; [apply is_any_one_false; exact S2|now apply C in Ims].
Qed.
Lemma convert_time_cases s : (exists e, convert_time s [sep] = Ok (CExpected e)) \/
  exists h m sec ms, cue_time_parts sep s h m sec ms /\ convert_time s [sep] = let* x := from_hms h m sec ms in Ok (CTime x).
Proof.
  unfold convert_time. change (is_any_of (lit ":")) with (is_any_of [":"%char]).
  destruct (split (is_any_of [":"%char]) s) as [|a0 [|a1 [|a2 [|? ?]]]] eqn:SP; try (left; eexists; reflexivity).
  apply split3_inv in SP. destruct SP as (b1 & b2 & -> & B1 & B2 & F0 & F1 & F2). apply is_any_one in B1, B2. subst b1 b2.
  destruct (split (is_any_of [sep]) a2) as [|c0 [|c1 [|? ?]]] eqn:SP2; try (left; eexists; reflexivity).
  apply split_cons_inv in SP2. destruct SP2 as [(Q & _)|(b & rest & -> & B & G0 & Q)]; [discriminate|]. symmetry in Q.
  apply split_cons_inv in Q. destruct Q as [(_ & -> & G1)|(b' & rest' & _ & _ & _ & Q)]; [|symmetry in Q; now apply split_not_nil in Q].
  apply is_any_one in B. subst b. unfold cast_or.
  destruct (lexical_cast_int a0) as [h| |] eqn:E0; try (left; eexists; reflexivity). apply lexical_cast_iff in E0.
  destruct (lexical_cast_int a1) as [m| |] eqn:E1; try (left; eexists; reflexivity). apply lexical_cast_iff in E1.
  destruct (lexical_cast_int c0) as [sec| |] eqn:E2; try (left; eexists; reflexivity). apply lexical_cast_iff in E2.
  destruct (lexical_cast_int c1) as [ms| |] eqn:E3; try (left; eexists; reflexivity). apply lexical_cast_iff in E3.
  right. exists h, m, sec, ms. split; [|reflexivity]. exists a0, a1, c0, c1. now repeat split.
Qed.
End ConvertTime.

(** * Fields *)

Lemma space_iff c : is_any_of (lit " ") c = true <-> c = space.
Proof. apply is_any_one. Qed.
Lemma no_space_free f : ~ In space f <-> free (is_any_of (lit " ")) f.
Proof.
  unfold free. rewrite Forall_forall. split.
  - intros N c I. apply is_any_one_false. intros ->. contradiction.
  - intros F I. apply F in I. discriminate.
Qed.

Lemma compress_free f : ~ In space f -> split_compress (is_any_of (lit " ")) f = [f].
Proof.
  intros N. apply no_space_free in N. induction N as [|c f C F IH]; [reflexivity|]. cbn [split_compress]. now rewrite C, IH.
Qed.
Lemma compress_spaces n rest : ~ begins_with [space] rest ->
  split_compress (is_any_of (lit " ")) (repeat space (S n) ++ rest) = [] :: split_compress (is_any_of (lit " ")) rest.
Proof.
  intros N. induction n as [|n IH].
  - cbn [repeat app split_compress]. replace (is_any_of (lit " ") space) with true by reflexivity.
    destruct rest as [|c rest]; [reflexivity|].
    destruct (is_any_of (lit " ") c) eqn:E; [|reflexivity]. apply space_iff in E. subst c. exfalso. apply N. now exists rest.
  - cbn [repeat app] in IH |- *. cbn [split_compress] in IH |- *. replace (is_any_of (lit " ") space) with true in * by reflexivity. exact IH.
Qed.
Lemma compress_piece f n rest : ~ In space f -> ~ begins_with [space] rest ->
  split_compress (is_any_of (lit " ")) (f ++ repeat space (S n) ++ rest) = f :: split_compress (is_any_of (lit " ")) rest.
Proof.
  intros N B. apply no_space_free in N. induction N as [|c f C F IH]; [now apply compress_spaces|].
  cbn [app split_compress]. now rewrite C, IH.
Qed.

Lemma spaced_compress s fs : spaced s fs -> split_compress (is_any_of (lit " ")) s = fs.
Proof.
  induction 1 as [f N|f n rest fs N B S IH]; [now apply compress_free|]. rewrite compress_piece by assumption. now rewrite IH.
Qed.
Lemma compress_spaced n s : (length s <= n)%nat -> spaced s (split_compress (is_any_of (lit " ")) s).
Proof.
  revert s. induction n as [|n IH]; intros s L.
  - destruct s; [|cbn in L; lia]. cbn. apply spaced_one. intros [].
  - pose proof (take_drop (fun c => negb (is_any_of (lit " ") c)) s) as E.
    pose proof (take_while_all (fun c => negb (is_any_of (lit " ") c)) s) as F.
    pose proof (drop_while_starts (fun c => negb (is_any_of (lit " ") c)) s) as S.
    set (f := take_while _ s) in *. set (r := drop_while _ s) in *.
    assert (N : ~ In space f).
    { apply no_space_free. eapply Forall_impl; [|exact F]. intros c. cbn beta. destruct (is_any_of (lit " ") c); [discriminate|reflexivity]. }
    destruct r as [|c r].
    + rewrite app_nil_r in E. rewrite <- E. rewrite compress_free by exact N. now apply spaced_one.
    + cbn [starts_not] in S. apply negb_false_iff in S. apply space_iff in S. subst c.
      pose proof (take_drop (is_any_of (lit " ")) r) as E2. pose proof (take_while_all (is_any_of (lit " ")) r) as F2.
      pose proof (drop_while_starts (is_any_of (lit " ")) r) as S2.
      set (sp := take_while _ r) in *. set (rest := drop_while _ r) in *.
      assert (R : sp = repeat space (length sp)).
      { clear -F2. revert F2. generalize sp. intros l F2. induction F2 as [|c l C F2 IH]; [reflexivity|]. apply space_iff in C. subst c. cbn [length repeat]. f_equal. exact IH. }
      assert (B : ~ begins_with [space] rest). { intros (t & Q). rewrite Q in S2. discriminate. }
      assert (Q : s = f ++ repeat space (S (length sp)) ++ rest). { rewrite <- E at 1. rewrite <- E2 at 1. rewrite R at 1. reflexivity. }
      rewrite Q, compress_piece by assumption. apply spaced_more; [exact N|exact B|]. apply IH.
      apply (f_equal (@length ascii)) in Q. rewrite !app_length, repeat_length in Q. lia.
Qed.
Lemma compress_iff s fs : split_compress (is_any_of (lit " ")) s = fs <-> spaced s fs.
Proof. split; [intros <-; now apply (compress_spaced (length s))|apply spaced_compress]. Qed.

Lemma fields_iff line fs : split_compress (is_any_of (lit " ")) (trim_right_if (is_any_of (lit " ")) line) = fs <-> fields line fs.
Proof.
  rewrite compress_iff. unfold fields.
  assert (D : forall c, is_any_of (lit " ") c = true <-> eq space c) by (intros c; rewrite space_iff; split; congruence).
  split.
  - intros S. destruct (proj1 (trim_right_iff (eq space) _ line _ D) eq_refl) as (ends & E & F & N).
    exists (trim_right_if (is_any_of (lit " ")) line), (length ends). repeat split; [|exact N|exact S].
    rewrite E at 1. f_equal. clear -F. induction F as [|c e C F IH]; [reflexivity|]. subst c. cbn [length repeat]. f_equal. exact IH.
  - intros (body & n & E & N & S). assert (Q : trim_right_if (is_any_of (lit " ")) line = body).
    { apply (trim_right_iff (eq space) _ line _ D). exists (repeat space n). repeat split; [exact E| |exact N].
      clear. induction n; cbn; constructor; auto. }
    now rewrite Q.
Qed.
