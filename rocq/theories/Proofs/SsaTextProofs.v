(** The text of a dialogue: parse_line against Spec/SsaSpec. *)
From Coq Require Import ZArith List Bool Ascii String Lia.
From Verif.Model Require Import Base Strings Float TimeModel Types Lines RawConvert Compose.
From Verif.Spec Require Import Outcome TextSpec LinesSpec StlFileSpec RawSpec SsaTagSpec SsaSpec.
From Verif.Proofs Require Import StringProofs LinesProofs ComposeProofs StlReadProofs SsaTagProofs.
From Verif.Model Require Import Ssa.
Import ListNotations.
Local Open Scope Z_scope.
Local Notation length := List.length.

(** * Strings *)

Lemma contains_one x p : contains [x] p <-> In x p.
Proof.
  split.
  - intros (a & b & ->). apply in_or_app. right. now left.
  - intros I. apply in_split in I. destruct I as (a & b & ->). now exists a, b.
Qed.

Lemma parts_iff x s ps : split (is_any_of [x]) s = ps <-> parts_of [x] s ps.
Proof.
  split.
  - intros <-. destruct (split_inv x s) as [J F]. split; [apply split_not_nil|]. split; [now rewrite J|].
    eapply Forall_impl; [|exact F]. intros p Fp. rewrite contains_one. now apply free_not_in.
  - intros (NE & -> & F). apply split_join; [now apply is_any_one|exact NE|]. eapply Forall_impl; [|exact F]. intros p Fp.
    apply free_not_in. rewrite <- contains_one. exact Fp.
Qed.
Lemma parts_unique x s ps ps' : parts_of [x] s ps -> parts_of [x] s ps' -> ps = ps'.
Proof. intros A B. apply parts_iff in A, B. congruence. Qed.

Lemma trim_iff s t : trim s = t <-> trimmed s t.
Proof.
  unfold trim, trim_left_if. split.
  - intros <-. destruct (proj1 (trim_right_iff white is_space s (trim_right_if is_space s) is_space_white) eq_refl) as (ends & E & F & N).
    remember (trim_right_if is_space s) as u eqn:U. clear U. pose proof (take_drop is_space u) as TD.
    exists (take_while is_space u), ends. split; [now rewrite app_assoc, TD|]. split; [apply white_all, take_while_all|]. split; [exact F|].
    split; [apply not_begins_white, drop_while_starts|].
    intros (b & c & E2 & W). apply N. rewrite <- TD, E2. exists (take_while is_space u ++ b), c. split; [now rewrite app_assoc|exact W].
  - intros (a & b & -> & A & B & S & N). apply white_all in A.
    destruct t as [|c t].
    + cbn [app]. assert (T : trim_right_if is_space (a ++ b) = []).
      { apply (trim_right_iff white is_space _ _ is_space_white). exists (a ++ b). split; [reflexivity|]. split; [|intros (x & y & E & _); destruct x; discriminate].
        apply Forall_app. split; [now apply white_all|exact B]. }
      rewrite T. reflexivity.
    + assert (T : trim_right_if is_space (a ++ (c :: t) ++ b) = a ++ c :: t).
      { apply (trim_right_iff white is_space _ _ is_space_white). exists b. split; [now rewrite app_assoc|]. split; [exact B|].
        intros (x & y & E & W). apply N. destruct (snoc_split (c :: t)) as (i & l & E2 & _); [discriminate|].
        rewrite E2 in E |- *. rewrite app_assoc in E. apply app_inj_tail in E. destruct E as [_ ->]. now exists i, y. }
      rewrite T. apply drop_while_app; [exact A|now apply not_begins_white].
Qed.

Lemma convert_int_cval s : raw_convert_int s = chk (cval s).
Proof. unfold raw_convert_int, raw_convert_int_in. rewrite c_local. apply scan_cval. Qed.
Lemma convert_int_iff s v : raw_convert_int s = Ok v <-> int_text s v.
Proof.
  rewrite convert_int_cval, chk_iff. unfold int_text. split.
  - intros [I ->]. split; [apply c_number_total|exact I].
  - intros [C I]. apply c_number_cval in C. subst v. now split.
Qed.
Lemma convert_int_no_throw s e : raw_convert_int s <> Throw e.
Proof. rewrite convert_int_cval. unfold chk. destruct (in_int _); discriminate. Qed.

(** * Lexing *)

Fixpoint lex (line : str) (st : ssa_state) (tag : str) : list item :=
  match line with
  | [] => []
  | c :: t =>
      match st with
      | TEXT => if Ascii.eqb c "{" then lex t TAG tag
                else if Ascii.eqb c backslash then lex t BACKSLASH tag
                else if negb (Ascii.eqb c (chr 13)) && negb (Ascii.eqb c newline) then Char c :: lex t TEXT tag else lex t TEXT tag
      | TAG => if Ascii.eqb c "}" || Ascii.eqb c backslash then
                 Tag tag :: (if Ascii.eqb c "}" then lex t TEXT [] else lex t TAG [c])
               else lex t TAG (tag ++ [c])
      | BACKSLASH => if Ascii.eqb c "n" || Ascii.eqb c "N" then Break :: lex t TEXT tag else lex t TEXT tag
      end
  end.

Fixpoint run (ctx : ssa_context) (size : flt) (current : raw) (its : list item) : res (list raw) :=
  match its with
  | [] => Ok (with_piece (r_text current) current)
  | Char c :: t => run ctx size (set_text (r_text current ++ [c]) current) t
  | Tag tg :: t =>
      let* c := parse_tag (set_text [] current) tg ctx in
      let* ps := run ctx size c t in Ok (with_piece (r_text current) current ++ ps)
  | Break :: t =>
      let* r := opt_get (v_ref (r_vpos current)) in
      let* p := opt_get (v_prop (r_vpos current)) in
      let* ps := run ctx size (set_vprop (Some (f_of_d (if vref_eqb r BOTTOM_OF_SCREEN then dsub (d_of_f p) size else dadd (d_of_f p) size))) (set_text [] current)) t in
      Ok (with_piece (r_text current) current ++ ps)
  end.

Lemma flush_is current subs : ssa_flush current subs = (set_text [] current, subs ++ with_piece (r_text current) current).
Proof.
  unfold ssa_flush, with_piece. destruct current as [t ? ? ? ? ? ? ? ? ? ? ? ? ? ?]. cbn. destruct t; cbn; [now rewrite app_nil_r|reflexivity].
Qed.

Lemma bind_assoc {A B C : Type} (x : res A) (f : A -> res B) (g : B -> res C) : bind (bind x f) g = bind x (fun a => bind (f a) g).
Proof. destruct x; reflexivity. Qed.
Lemma bind_ext {A B : Type} (x : res A) (f g : A -> res B) : (forall a, f a = g a) -> bind x f = bind x g.
Proof. intros E. destruct x; cbn; [apply E|reflexivity..]. Qed.

Lemma chars_run ctx size line : forall st current tag subs,
  ssa_chars ctx size line st current tag subs = let* ps := run ctx size current (lex line st tag) in Ok (subs ++ ps).
Proof.
  induction line as [|c line IH]; intros st current tag subs.
  - cbn [ssa_chars lex run bind]. rewrite flush_is. reflexivity.
  - cbn [ssa_chars lex]. destruct st.
    + destruct (Ascii.eqb c "{"); [apply IH|]. destruct (Ascii.eqb c backslash); [apply IH|].
      destruct (negb (Ascii.eqb c (chr 13)) && negb (Ascii.eqb c newline)); [|apply IH]. rewrite IH. reflexivity.
    + destruct (Ascii.eqb c "}" || Ascii.eqb c backslash); [|apply IH]. rewrite flush_is. cbn [run]. rewrite !bind_assoc.
      apply bind_ext. intros cur. destruct (Ascii.eqb c "}"); rewrite IH, bind_assoc; apply bind_ext; intros ps; cbn [bind]; now rewrite app_assoc.
    + destruct (Ascii.eqb c "n" || Ascii.eqb c "N"); [|apply IH]. rewrite flush_is. cbn [run].
      change (v_ref (r_vpos (set_text [] current))) with (v_ref (r_vpos current)). change (v_prop (r_vpos (set_text [] current))) with (v_prop (r_vpos current)).
      rewrite !bind_assoc. apply bind_ext. intros r. rewrite !bind_assoc. apply bind_ext. intros p. rewrite IH, bind_assoc. apply bind_ext. intros ps.
      cbn [bind]. now rewrite app_assoc.
Qed.

(** ** Blocks *)


Lemma lex_tag_text t rest tag : ~ In "}"%char t -> ~ In bslash t -> lex (t ++ rest) TAG tag = lex rest TAG (tag ++ t).
Proof.
  revert tag. induction t as [|c t IH]; intros tag A B; cbn [app]; [now rewrite app_nil_r|]. cbn [lex].
  assert (E1 : Ascii.eqb c "}" = false) by (apply Ascii.eqb_neq; intros ->; apply A; now left).
  assert (E2 : Ascii.eqb c backslash = false) by (apply Ascii.eqb_neq; intros ->; apply B; now left).
  rewrite E1, E2. cbn [orb]. rewrite IH; [now rewrite <- app_assoc|intros I; apply A; now right|intros I; apply B; now right].
Qed.

Lemma lex_parts rest parts : forall first tag, Forall (fun p => ~ In bslash p) (first :: parts) -> ~ In "}"%char (join [bslash] (first :: parts)) ->
  lex (join [bslash] (first :: parts) ++ "}"%char :: rest) TAG tag = map Tag ((tag ++ first) :: map (cons bslash) parts) ++ lex rest TEXT [].
Proof.
  induction parts as [|p parts IH]; intros first tag F N.
  - cbn [join] in N |- *. inversion F; subst. rewrite lex_tag_text by assumption. cbn [lex Ascii.eqb Bool.eqb orb]. reflexivity.
  - change (join [bslash] (first :: p :: parts)) with (first ++ bslash :: join [bslash] (p :: parts)) in N |- *. inversion F as [|? ? F1 F2]; subst.
    rewrite <- app_assoc. rewrite lex_tag_text; [|intros I; apply N, in_or_app; now left|exact F1].
    cbn [app lex]. change (Ascii.eqb bslash "}" || Ascii.eqb bslash backslash) with true. change (Ascii.eqb bslash "}") with false. cbn [map].
    rewrite IH; [reflexivity|exact F2|]. intros I. apply N, in_or_app. right. now right.
Qed.
Lemma lex_parts_open parts : forall first tag, Forall (fun p => ~ In bslash p) (first :: parts) -> ~ In "}"%char (join [bslash] (first :: parts)) ->
  lex (join [bslash] (first :: parts)) TAG tag = map Tag (removelast ((tag ++ first) :: map (cons bslash) parts)).
Proof.
  induction parts as [|p parts IH]; intros first tag F N.
  - cbn [join] in N |- *. inversion F; subst. rewrite <- (app_nil_r first) at 1. rewrite lex_tag_text by assumption. reflexivity.
  - change (join [bslash] (first :: p :: parts)) with (first ++ bslash :: join [bslash] (p :: parts)) in N |- *. inversion F as [|? ? F1 F2]; subst.
    rewrite lex_tag_text; [|intros I; apply N, in_or_app; now left|exact F1].
    cbn [app lex]. change (Ascii.eqb bslash "}" || Ascii.eqb bslash backslash) with true. change (Ascii.eqb bslash "}") with false.
    rewrite IH; [|exact F2|intros I; apply N, in_or_app; right; now right]. reflexivity.
Qed.

Lemma parts_no x s ps : parts_of [x] s ps -> Forall (fun p => ~ In x p) ps.
Proof. intros (_ & _ & F). eapply Forall_impl; [|exact F]. intros p N I. apply N. now apply contains_one. Qed.

Lemma lex_block body tags s : ~ In "}"%char body -> block_tags body tags -> lex ("{"%char :: body ++ "}"%char :: s) TEXT [] = map Tag tags ++ lex s TEXT [].
Proof.
  intros N (first & rest & P & ->). change (lex ("{"%char :: body ++ "}"%char :: s) TEXT []) with (lex (body ++ "}"%char :: s) TAG []).
  pose proof (parts_no _ _ _ P) as F. destruct P as (_ & -> & _). now rewrite lex_parts.
Qed.
Lemma lex_open body tags last : ~ In "}"%char body -> block_tags body (tags ++ [last]) -> lex ("{"%char :: body) TEXT [] = map Tag tags.
Proof.
  intros N (first & rest & P & E). change (lex ("{"%char :: body) TEXT []) with (lex body TAG []).
  pose proof (parts_no _ _ _ P) as F. destruct P as (_ & -> & _). rewrite lex_parts_open by assumption.
  f_equal. change (removelast (first :: map (cons bslash) rest) = tags). unfold str in *. rewrite <- E. apply removelast_last.
Qed.

Lemma ssa_text_lex s its : ssa_text s its -> lex s TEXT [] = its.
Proof.
  induction 1 as [|c s its N1 N2 N3 _ IH|c s its E _ IH|c s its B _ IH|c s its B _ IH| |body tags s its N B _ IH|body tags last N B].
  - reflexivity.
  - cbn [lex]. assert (E1 : Ascii.eqb c "{" = false) by now apply Ascii.eqb_neq. assert (E2 : Ascii.eqb c backslash = false) by now apply Ascii.eqb_neq.
    assert (E3 : Ascii.eqb c (chr 13) = false) by (apply Ascii.eqb_neq; intros ->; apply N3; now right).
    assert (E4 : Ascii.eqb c newline = false) by (apply Ascii.eqb_neq; intros ->; apply N3; now left).
    rewrite E1, E2, E3, E4. cbn [negb andb]. now rewrite IH.
  - destruct E as [-> | ->]; exact IH.
  - cbn [lex]. change (Ascii.eqb bslash "{") with false. change (Ascii.eqb bslash backslash) with true. cbn match.
    destruct B as [-> | ->]; cbn [Ascii.eqb Bool.eqb orb]; now rewrite IH.
  - cbn [lex]. change (Ascii.eqb bslash "{") with false. change (Ascii.eqb bslash backslash) with true. cbn match.
    assert (E1 : Ascii.eqb c "n" = false) by (apply Ascii.eqb_neq; intros ->; apply B; now left).
    assert (E2 : Ascii.eqb c "N" = false) by (apply Ascii.eqb_neq; intros ->; apply B; now right).
    rewrite E1, E2. exact IH.
  - reflexivity.
  - rewrite (lex_block _ _ _ N B). now rewrite IH.
  - now apply lex_open with last.
Qed.

Lemma block_exists body : exists tags, block_tags body tags.
Proof.
  destruct (split (is_any_of [bslash]) body) as [|first rest] eqn:E; [now apply split_not_nil in E|].
  apply parts_iff in E. eexists. exists first, rest. split; [exact E|reflexivity].
Qed.

Lemma in_dec_ascii (c : ascii) (s : str) : In c s \/ ~ In c s.
Proof. destruct (in_dec ascii_dec c s); tauto. Qed.
Lemma first_in (c : ascii) (s : str) : In c s -> exists a b, s = a ++ c :: b /\ ~ In c a.
Proof.
  induction s as [|x s IH]; [contradiction|]. intros I. destruct (ascii_dec x c) as [->|NE].
  - exists [], s. now split.
  - destruct I as [I|I]; [contradiction|]. destruct (IH I) as (a & b & -> & N). exists (x :: a), b. split; [reflexivity|].
    intros [E|E]; [now apply NE|now apply N].
Qed.

Lemma ssa_text_exists n : forall s, (length s <= n)%nat -> exists its, ssa_text s its.
Proof.
  induction n as [|n IH]; intros s L; [destruct s; [eexists; apply text_end|cbn in L; lia]|].
  destruct s as [|c s]; [eexists; apply text_end|]. cbn in L.
  destruct (ascii_dec c "{") as [->|N1].
  { destruct (in_dec_ascii "}"%char s) as [I|N].
    - apply first_in in I. destruct I as (body & rest & -> & N). destruct (block_exists body) as (tags & B).
      destruct (IH rest) as (its & T); [rewrite app_length in L; cbn in L; lia|]. eexists. exact (text_block _ _ _ _ N B T).
    - destruct (block_exists s) as (tags & B). assert (NT : tags <> []) by (destruct B as (f & r & _ & ->); discriminate).
      destruct (exists_last NT) as (init & last & ->).
      eexists. exact (text_open_block _ _ _ N B). }
  destruct (ascii_dec c bslash) as [->|N2].
  { destruct s as [|c s]; [eexists; apply text_lone_backslash|]. destruct (IH s) as (its & T); [cbn in L; lia|].
    destruct (ascii_dec c "n") as [E|A]; [eexists; apply text_break; [now left|exact T]|].
    destruct (ascii_dec c "N") as [E|B]; [eexists; apply text_break; [now right|exact T]|].
    eexists. apply text_escape; [intros [E|E]; contradiction|exact T]. }
  destruct (IH s) as (its & T); [lia|].
  destruct (ascii_dec c lf) as [E|N3]; [eexists; apply text_line_end; [now left|exact T]|].
  destruct (ascii_dec c cr) as [E|N4]; [eexists; apply text_line_end; [now right|exact T]|].
  exists (Char c :: its). apply text_char; try assumption. intros [E|E]; contradiction.
Qed.

Lemma lex_iff s its : lex s TEXT [] = its <-> ssa_text s its.
Proof.
  split; [|apply ssa_text_lex]. intros <-. destruct (ssa_text_exists (length s) s (le_n _)) as (its & T).
  pose proof (ssa_text_lex _ _ T) as E. now rewrite E.
Qed.

(** * Pieces *)

Lemma override_text c r t r' : override c r t r' -> r_text r' = r_text r.
Proof.
  intros O. inversion O as [s f I E|k h v x I M E|a b1 x b2 y N1 N2 N3 B1 B2 E|n NE E|s last k K E|E|t' N1 N2 N3 N4 N5 E]; subst; try reflexivity.
  cbn in I. repeat (destruct I as [I|I]; [injection I as <- <-; reflexivity|]). contradiction.
Qed.

Lemma piece_text r : with_piece (r_text r) (with_text [] r) = with_piece (r_text r) r.
Proof. unfold with_piece. destruct (r_text r); reflexivity. Qed.
Lemma with_text_nil r : r_text r = [] -> with_text [] r = r.
Proof. destruct r; cbn. now intros ->. Qed.

Lemma shifted_is r p size : f_of_d (if vref_eqb r BOTTOM_OF_SCREEN then dsub (d_of_f p) size else dadd (d_of_f p) size) = shifted size r p.
Proof. destruct r; reflexivity. Qed.

Lemma run_iff c size its : forall current ps, run c size current its = Ok ps <-> cut_up c size (with_text [] current) (r_text current) its ps.
Proof.
  induction its as [|[x| |t] its IH]; intros current ps; cbn [run].
  - split.
    + intros [= <-]. rewrite <- piece_text. apply cut_end.
    + inversion 1; subst. now rewrite piece_text.
  - rewrite IH. change (with_text [] (set_text (r_text current ++ [x]) current)) with (with_text [] current).
    change (r_text (set_text (r_text current ++ [x]) current)) with (r_text current ++ [x]).
    split; [apply cut_char|now inversion 1].
  - split.
    + destruct (v_ref (r_vpos current)) as [ref|] eqn:R; [|discriminate]. destruct (v_prop (r_vpos current)) as [p|] eqn:P; [|discriminate].
      cbn [opt_get bind]. rewrite shifted_is. intros H. apply bind_ok in H. destruct H as (qs & H & [= <-]). apply IH in H. rewrite <- piece_text.
      eapply cut_break; [exists ref, p; split; [exact R|]; split; [exact P|reflexivity]|]. exact H.
    + inversion 1 as [| | |? ? r1 ? qs (ref & p & R & P & ->) C]; subst.
      change (v_ref (r_vpos (with_text [] current))) with (v_ref (r_vpos current)) in R.
      change (v_prop (r_vpos (with_text [] current))) with (v_prop (r_vpos current)) in P. rewrite R, P. cbn [opt_get bind]. rewrite shifted_is.
      apply bind_ok. exists qs. split; [apply IH; exact C|now rewrite piece_text].
  - split.
    + intros H. apply bind_ok in H. destruct H as (r1 & H & K). apply bind_ok in K. destruct K as (qs & K & [= <-]). apply parse_tag_iff in H. apply IH in K.
      rewrite <- piece_text. pose proof (override_text _ _ _ _ H) as T. cbn in T. rewrite T, (with_text_nil r1 T) in K. eapply cut_tag; [exact H|exact K].
    + inversion 1 as [| |? ? ? r1 ? qs O C|]; subst. pose proof (override_text _ _ _ _ O) as T. cbn in T.
      apply bind_ok. exists r1. split; [now apply parse_tag_iff|]. apply bind_ok. exists qs. rewrite piece_text. split; [|reflexivity].
      apply IH. now rewrite T, (with_text_nil r1 T).
Qed.

Lemma bind_throw {A B : Type} (x : res A) (f : A -> res B) e : bind x f = Throw e <-> x = Throw e \/ exists a, x = Ok a /\ f a = Throw e.
Proof.
  destruct x as [a|e'|u]; cbn.
  - split; [intros H; right; now exists a|]. intros [H|(b & [= <-] & H)]; [discriminate|exact H].
  - split; [intros [= <-]; now left|]. intros [[= <-]|(b & H & _)]; [reflexivity|discriminate].
  - split; [discriminate|]. intros [H|(b & H & _)]; discriminate.
Qed.

Lemma run_refused c size its : forall current e, run c size current its = Throw e <-> cut_refused c size (with_text [] current) its e.
Proof.
  induction its as [|[x| |t] its IH]; intros current e; cbn [run].
  - split; [discriminate|inversion 1].
  - rewrite IH. change (with_text [] (set_text (r_text current ++ [x]) current)) with (with_text [] current).
    split; [apply refused_char|now inversion 1].
  - split.
    + destruct (v_ref (r_vpos current)) as [ref|] eqn:R; [|discriminate]. destruct (v_prop (r_vpos current)) as [p|] eqn:P; [|discriminate].
      cbn [opt_get bind]. rewrite shifted_is. intros H. apply bind_throw in H. destruct H as [H|(qs & _ & H)]; [|discriminate]. apply IH in H.
      eapply refused_break; [exists ref, p; split; [exact R|]; split; [exact P|reflexivity]|]. exact H.
    + inversion 1 as [| | |? r1 ? ? (ref & p & R & P & ->) C]; subst.
      change (v_ref (r_vpos (with_text [] current))) with (v_ref (r_vpos current)) in R.
      change (v_prop (r_vpos (with_text [] current))) with (v_prop (r_vpos current)) in P. rewrite R, P. cbn [opt_get bind]. rewrite shifted_is.
      apply bind_throw. left. apply IH. exact C.
  - split.
    + intros H. apply bind_throw in H. destruct H as [H|(r1 & H & K)]; [apply parse_tag_throws in H; now apply refused_tag|].
      apply bind_throw in K. destruct K as [K|(qs & _ & K)]; [|discriminate]. apply parse_tag_iff in H. apply IH in K.
      pose proof (override_text _ _ _ _ H) as T. cbn in T. rewrite (with_text_nil r1 T) in K. eapply refused_later; [exact H|exact K].
    + inversion 1 as [|? ? ? ? B|? ? r1 ? ? O C|]; subst.
      * apply bind_throw. left. now apply (proj2 (parse_tag_throws _ _ _ _)).
      * pose proof (override_text _ _ _ _ O) as T. cbn in T. apply bind_throw. right. exists r1. split; [now apply parse_tag_iff|].
        apply bind_throw. left. apply IH. now rewrite (with_text_nil r1 T).
Qed.

(** * Line breaks *)

Lemma break_char_iff c : Ascii.eqb c "n" || Ascii.eqb c "N" = true <-> break_char c.
Proof. rewrite orb_true_iff, !eqb_iff. reflexivity. Qed.

Lemma count_marks s : break_marks s (count_line_breaks s).
Proof.
  induction s as [|c s IH]; [apply marks_end|]. cbn [count_line_breaks]. destruct s as [|b s].
  - apply marks_other; [intros [_ []]|apply marks_end].
  - destruct (Ascii.eqb c backslash && (Ascii.eqb b "n" || Ascii.eqb b "N")) eqn:E.
    + apply andb_true_iff in E. destruct E as [E B]. apply eqb_iff in E. apply break_char_iff in B. subst c. rewrite Z.add_comm.
      apply marks_one; assumption.
    + rewrite Z.add_0_l. apply marks_other; [|exact IH]. intros [-> B]. apply break_char_iff in B. rewrite B in E. discriminate.
Qed.
Lemma marks_unique s n : break_marks s n -> forall m, break_marks s m -> n = m.
Proof.
  induction 1 as [|c s n B _ IH|c s n N _ IH]; intros m M.
  - now inversion M.
  - inversion M as [|? ? n' B' M'|? ? ? N' M']; subst; [now rewrite (IH n' M')|]. exfalso. apply N'. now split.
  - inversion M as [|? ? n' B' M'|? ? ? N' M']; subst; [exfalso; apply N; now split|now apply IH].
Qed.
Lemma marks_iff s n : count_line_breaks s = n <-> break_marks s n.
Proof. split; [intros <-; apply count_marks|]. intros M. exact (marks_unique _ _ (count_marks s) _ M). Qed.

(** * The whole text *)

Lemma finish_iff base n size r r' : ssa_finish base n size r = Ok r' <-> finished base n size r r'.
Proof.
  unfold ssa_finish, finished. split.
  - destruct (v_ref (r_vpos r)) as [ref|] eqn:R; [|discriminate]. destruct (v_prop (r_vpos r)) as [p|] eqn:P; [|discriminate].
    cbn [opt_get bind]. intros [= <-]. exists ref, p. split; [reflexivity|]. split; [reflexivity|]. destruct ref; reflexivity.
  - intros (ref & p & R & P & ->). rewrite R, P. cbn [opt_get bind]. destruct ref; reflexivity.
Qed.
Lemma finish_no_throw base n size r e : ssa_finish base n size r <> Throw e.
Proof. unfold ssa_finish. destruct (v_ref (r_vpos r)); [|discriminate]. destruct (v_prop (r_vpos r)); discriminate. Qed.

Definition start_of (c : ssa_context) (base : raw) : res raw :=
  let current := match v_ref (r_vpos base) with
                 | None => set_vref (Some BOTTOM_OF_SCREEN) base
                 | Some _ => base
                 end in
  let current := set_vprop (Some (f_of_int 0)) current in
  let* current := update_horizontal_position c current in
  Ok match fs_prop (r_font_size current) with
     | None => set_font_size
                 (set_proportional (r_font_size current)
                    (f_of_d (ddiv (d_of_int 72) (d_of_int (play_res_y c))))) current
     | Some _ => current
     end.

Lemma start_iff c base r : start_of c base = Ok r <-> first_look c base (with_text [] r) /\ r_text r = r_text base.
Proof.
  unfold start_of, first_look. set (b := set_vprop _ _).
  assert (B : b = set_href (h_ref (r_hpos base)) (with_vpos (mkV (Some (f_of_int 0)) (v_line (r_vpos base)) (v_lines (r_vpos base)) (Some (reference_of base))) base)).
  { unfold b, reference_of. destruct base as [? ? ? ? ? ? ? ? ? [? ?] [? ? ? [v|]] ? ? ? ?]; reflexivity. }
  rewrite B. clear b B. rewrite bind_ok.
  assert (S : forall x, match fs_prop (r_font_size base) with
     | None => set_font_size (set_proportional (r_font_size base) (f_of_d (ddiv (d_of_int 72) (d_of_int (play_res_y c))))) x
     | Some _ => x end = match fs_prop (r_font_size base) with None => with_font_size (mkFS (Some (size_of c base)) (fs_points (r_font_size base))) x | Some _ => x end).
  { intros x. unfold size_of, usual_size. destruct (fs_prop (r_font_size base)); reflexivity. }
  split.
  - intros (r1 & M & [= <-]). apply margin_ok in M. destruct M as (x & M & ->).
    unfold size_of. destruct base as [? ? [[p|] ?] ? ? ? ? ? ? [? ?] [? ? ? ?] ? ? ? ?]; cbn; (split; [|reflexivity]); exists x; (split; [exact M|reflexivity]).
  - intros ((x & M & E) & T). eexists. split; [apply margin_ok; exists x; split; [exact M|reflexivity]|]. f_equal.
    destruct r; cbn in E, T; subst. unfold size_of in E. destruct base as [? ? [[p|] ?] ? ? ? ? ? ? [? ?] [? ? ? ?] ? ? ? ?]; cbn in E |- *; injection E; intros; subst; reflexivity.
Qed.

Lemma start_no_throw c base e : start_of c base <> Throw e.
Proof.
  unfold start_of, update_horizontal_position, isub, imul, chk. destruct (h_ref _); [discriminate| |discriminate].
  destruct (in_int _); [|discriminate]. cbn [bind]. destruct (in_int _); discriminate.
Qed.

Lemma start_size c base r : start_of c base = Ok r -> fs_proportional (r_font_size r) (play_res_y c) = Ok (size_of c base).
Proof.
  intros S. apply start_iff in S. destruct S as [(x & _ & E) _]. unfold fs_proportional.
  assert (F : r_font_size r = mkFS (Some (size_of c base)) (fs_points (r_font_size base))) by (change (r_font_size r) with (r_font_size (with_text [] r)); rewrite E; reflexivity).
  now rewrite F.
Qed.

Lemma parse_line_eq base line c : parse_line base line c =
  let* r := start_of c base in
  let* ps := run c (row_size c base) r (lex line TEXT []) in
  mapM (ssa_finish base (count_line_breaks line) (row_size c base)) ps.
Proof.
  unfold parse_line. transitivity (let* r := start_of c base in
    let* fp := fs_proportional (r_font_size r) (play_res_y c) in
    let line_size := dmul (d_of_f fp) (d_lit 12 10) in
    let* subs := ssa_chars c line_size line TEXT r [] [] in
    mapM (ssa_finish base (count_line_breaks line) line_size) subs).
  { unfold start_of. rewrite bind_assoc. apply bind_ext. intros r. reflexivity. }
  destruct (start_of c base) as [r| |] eqn:S; cbn [bind]; [|reflexivity..].
  rewrite (start_size c base r S). cbn [bind]. cbv zeta. rewrite chars_run, bind_assoc. reflexivity.
Qed.

Theorem parse_line_iff base line c raws : parse_line base line c = Ok raws <-> text_subtitles c base line raws.
Proof.
  rewrite parse_line_eq. unfold text_subtitles. split.
  - intros H. apply bind_ok in H. destruct H as (r & S & H). apply bind_ok in H. destruct H as (ps & R & H).
    apply start_iff in S. destruct S as [S T]. apply run_iff in R. rewrite T in R. apply mapM_iff in H.
    exists (lex line TEXT []), (with_text [] r), (count_line_breaks line), ps. split; [now apply lex_iff|]. split; [exact S|].
    split; [apply count_marks|]. split; [exact R|]. revert H. apply Forall2_iff. intros a b. symmetry. apply finish_iff.
  - intros (its & r & n & ps & L & S & M & C & F). apply lex_iff in L. apply marks_iff in M. subst its n.
    apply bind_ok. exists (with_text (r_text base) r).
    assert (E : with_text [] (with_text (r_text base) r) = r).
    { destruct S as (x & _ & ->). reflexivity. }
    split; [apply start_iff; rewrite E; now split|]. apply bind_ok. exists ps. split; [apply run_iff; now rewrite E|].
    apply mapM_iff. revert F. apply Forall2_iff. intros a b. apply finish_iff.
Qed.

Lemma mapM_no_throw {A B : Type} (f : A -> res B) l e : (forall a, f a <> Throw e) -> mapM f l <> Throw e.
Proof.
  intros N. induction l as [|a l IH]; [discriminate|]. cbn [mapM]. intros H. apply bind_throw in H. destruct H as [H|(b & _ & H)]; [now apply N in H|].
  apply bind_throw in H. destruct H as [H|(bs & _ & H)]; [contradiction|discriminate].
Qed.

Theorem parse_line_refused base line c e : parse_line base line c = Throw e <-> text_refused c base line e.
Proof.
  rewrite parse_line_eq. unfold text_refused. split.
  - intros H. apply bind_throw in H. destruct H as [H|(r & S & H)]; [now apply start_no_throw in H|].
    apply bind_throw in H. destruct H as [H|(ps & R & H)]; [|apply mapM_no_throw in H; [contradiction|intros a; apply finish_no_throw]].
    apply start_iff in S. destruct S as [S T]. apply run_refused in H. exists (lex line TEXT []), (with_text [] r).
    split; [now apply lex_iff|]. now split.
  - intros (its & r & L & S & C). apply lex_iff in L. subst its. apply bind_throw. right. exists (with_text (r_text base) r).
    assert (E : with_text [] (with_text (r_text base) r) = r).
    { destruct S as (x & _ & ->). reflexivity. }
    split; [apply start_iff; rewrite E; now split|]. apply bind_throw. left. apply run_refused. now rewrite E.
Qed.
