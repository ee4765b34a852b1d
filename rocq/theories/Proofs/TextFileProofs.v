(** Proofs about text files with other line ends, with a byte order mark, and with more at the end. *)
From Coq Require Import ZArith Lia List Bool Ascii String.
From Verif.Model Require Import Base Strings Float TimeModel Types Lines Subrip WebVtt Ssa StlText.
From Verif.Spec Require Import Outcome TextSpec LinesSpec SubripUseSpec StlTextSpec TextFileSpec.
From Verif.Proofs Require Import StringProofs SsaTextProofs LinesProofs StlReadProofs SubripStopProofs SubripUseProofs WebVttProofs WebVttUseProofs SsaProofs SsaSafeProofs StlTextProofs.
Import ListNotations.
Local Open Scope Z_scope.
Local Notation length := List.length.

(** * Line ends *)

Lemma dos_other s : other_ends s (dos s).
Proof. unfold dos. induction s as [|c s IH]; cbn [flat_map]; [constructor|]. destruct (Ascii.eqb_spec c lf) as [->|]; cbn [app]; now constructor. Qed.

Lemma other_ends_app l : forall rest s', ~ In lf l -> other_ends (l ++ rest) s' -> exists rest', s' = l ++ rest' /\ other_ends rest rest'.
Proof.
  induction l as [|c l IH]; intros rest s' N O; [now exists s'|]. cbn in O. inversion O as [|c' s t O'|s t O']; subst.
  - destruct (IH rest t) as (rest' & -> & O2); [intros I; apply N; now right|exact O'|]. now exists rest'.
  - exfalso. apply N. now left.
Qed.
Lemma other_ends_free l s' : ~ In lf l -> other_ends l s' -> s' = l.
Proof.
  intros N O. rewrite <- (app_nil_r l) in O. destruct (other_ends_app l [] s' N O) as (r & -> & O2). inversion O2. now rewrite app_nil_r.
Qed.
Lemma cr_no_lf l : ~ In lf l -> ~ In lf (l ++ [cr]).
Proof. intros N I. apply in_app_iff in I. destruct I as [I|[I|[]]]; [now apply N|]. vm_compute in I. discriminate. Qed.

Definition ends_differ (l l' : str) : Prop := l' = l \/ l' = l ++ [cr].

Lemma other_lines s ls : text_lines s ls -> forall s', other_ends s s' -> exists ls', text_lines s' ls' /\ Forall2 ends_differ ls ls'.
Proof.
  induction 1 as [|l NE N|l rest ls N T IH]; intros s' O.
  - inversion O; subst. exists []. split; constructor.
  - apply other_ends_free in O; [|exact N]. subst s'. exists [l]. split; [now constructor|]. repeat constructor.
  - apply other_ends_app in O; [|exact N]. destruct O as (r & -> & O). inversion O as [|c' s t O'|s t O']; subst.
    + destruct (IH t O') as (ls' & T' & F). exists (l :: ls'). split; [now constructor|]. constructor; [now left|exact F].
    + destruct (IH t O') as (ls' & T' & F). exists ((l ++ [cr]) :: ls'). split.
      * replace (l ++ cr :: lf :: t) with ((l ++ [cr]) ++ lf :: t) by now rewrite <- app_assoc. constructor; [now apply cr_no_lf|exact T'].
      * constructor; [now right|exact F].
Qed.

Lemma clean_cr l : clean_line (l ++ [cr]) = clean_line l.
Proof. unfold clean_line, trim_right_if. now rewrite rev_app_distr. Qed.
Lemma trim_cr l : trim (l ++ [cr]) = trim l.
Proof. unfold trim, trim_right_if. now rewrite rev_app_distr. Qed.

Lemma clean_differ ls ls' : Forall2 ends_differ ls ls' -> Forall2 (fun a b => clean_line a = clean_line b) ls ls'.
Proof. induction 1 as [|a b x y [->| ->] F IH]; constructor; try exact IH; [reflexivity|]. now rewrite clean_cr. Qed.
Lemma trim_differ ls ls' : Forall2 ends_differ ls ls' -> Forall2 (fun a b => trim a = trim b) ls ls'.
Proof. induction 1 as [|a b x y [->| ->] F IH]; constructor; try exact IH; [reflexivity|]. now rewrite trim_cr. Qed.

Lemma subrip_lines_same ls ls' : Forall2 (fun a b => clean_line a = clean_line b) ls ls' -> same_outcome (subrip_read ls) (subrip_read ls').
Proof. intros F. now apply loop_same. Qed.
Lemma vtt_lines_same ls ls' : Forall2 (fun a b => clean_line a = clean_line b) ls ls' -> same_outcome (vtt_read ls) (vtt_read ls').
Proof. intros F. now apply vloop_same. Qed.
Lemma ssa_lines_same ls ls' : Forall2 (fun a b => trim a = trim b) ls ls' -> ssa_read ls = ssa_read ls'.
Proof.
  intros F. unfold ssa_read. f_equal. generalize ssa_init. induction F as [|a b x y E F IH]; intros f; [reflexivity|]. cbn [ssa_lines].
  assert (L : ssa_line f a = ssa_line f b) by (unfold ssa_line; now rewrite E). rewrite L. apply bind_ext. exact IH.
Qed.
Lemma stlt_lines_same ls ls' : Forall2 (fun a b => trim a = trim b) ls ls' -> forall sub subs, stlt_lines sub subs ls = stlt_lines sub subs ls'.
Proof.
  induction 1 as [|a b x y E F IH]; intros sub subs; [reflexivity|]. cbn [stlt_lines].
  assert (L : stlt_line sub subs a = stlt_line sub subs b) by (unfold stlt_line; now rewrite E). rewrite L. apply bind_ext. intros [sub' subs']. apply IH.
Qed.

Lemma subrip_ends s s' : other_ends s s' -> same_outcome (subrip_reader_string s) (subrip_reader_string s').
Proof.
  intros O. destruct (other_lines s (lines_of_string s) (proj1 (lines_of_string_iff s _) eq_refl) s' O) as (ls' & T & F).
  apply lines_of_string_iff in T. unfold subrip_reader_string. rewrite T. apply subrip_lines_same. now apply clean_differ.
Qed.
Lemma vtt_ends s s' : other_ends s s' -> same_outcome (vtt_reader_string s) (vtt_reader_string s').
Proof.
  intros O. destruct (other_lines s (lines_of_string s) (proj1 (lines_of_string_iff s _) eq_refl) s' O) as (ls' & T & F).
  apply lines_of_string_iff in T. unfold vtt_reader_string. rewrite T. apply vtt_lines_same. now apply clean_differ.
Qed.
Lemma ssa_ends s s' : other_ends s s' -> ssa_reader_string s = ssa_reader_string s'.
Proof.
  intros O. destruct (other_lines s (lines_of_string s) (proj1 (lines_of_string_iff s _) eq_refl) s' O) as (ls' & T & F).
  apply lines_of_string_iff in T. unfold ssa_reader_string. rewrite T. apply ssa_lines_same. now apply trim_differ.
Qed.

Lemma other_complete s ls : complete_lines s ls -> forall s', other_ends s s' -> exists ls', complete_lines s' ls' /\ Forall2 ends_differ ls ls'.
Proof.
  induction 1 as [l N|l rest ls N T IH]; intros s' O.
  - apply other_ends_free in O; [|exact N]. subst s'. exists []. split; [now constructor|constructor].
  - apply other_ends_app in O; [|exact N]. destruct O as (r & -> & O). inversion O as [|c' s t O'|s t O']; subst.
    + destruct (IH t O') as (ls' & T' & F). exists (l :: ls'). split; [now constructor|]. constructor; [now left|exact F].
    + destruct (IH t O') as (ls' & T' & F). exists ((l ++ [cr]) :: ls'). split.
      * replace (l ++ cr :: lf :: t) with ((l ++ [cr]) ++ lf :: t) by now rewrite <- app_assoc. constructor; [now apply cr_no_lf|exact T'].
      * constructor; [now right|exact F].
Qed.
Lemma stlt_ends good s s' : other_ends s s' -> stl_text_read good s = stl_text_read good s'.
Proof.
  intros O. destruct (other_complete s (getlines (length s) s)) with (s' := s') as (ls' & T & F); [now apply (getlines_iff (length s))|exact O|].
  apply (getlines_iff (length s')) in T; [|lia]. unfold stl_text_read. destruct good; [|reflexivity]. rewrite T. apply stlt_lines_same. now apply trim_differ.
Qed.

(** In files. *)
Lemma same_sym x y : same_outcome x y -> same_outcome y x.
Proof.
  assert (S : forall c c', Forall2 same_line c c' -> Forall2 same_line c' c).
  { induction 1 as [|a b c c' (l & A & B) F IH]; constructor; [now exists l|exact IH]. }
  destruct 1; constructor; now apply S.
Qed.
Lemma same_trans x y z : same_outcome x y -> same_outcome y z -> same_outcome x z.
Proof.
  assert (S : forall a b, Forall2 same_line a b -> forall c, Forall2 same_line b c -> Forall2 same_line a c).
  { induction 1 as [|a b x' y' (l & A & B) F IH]; intros c G; inversion G as [|? c0 ? c' (l' & B' & C) G']; subst; constructor; [|now apply IH].
    exists l. split; [exact A|]. apply clean_line_iff in B, B'. rewrite B in B'. now subst l'. }
  intros H. revert z. destruct H as [r|u|n saw why c c' F|saw why c c' F|e]; intros z K; inversion K; subst; try constructor; eauto.
Qed.
Lemma subrip_file_ends s s' : short_lines s -> short_lines s' -> other_ends s s' -> same_outcome (subrip_reader_file s) (subrip_reader_file s').
Proof. intros A B O. eapply same_trans; [now apply file_same|]. eapply same_trans; [now apply subrip_ends, O|]. now apply same_sym, file_same. Qed.
Lemma vtt_file_ends s s' : short_lines s -> short_lines s' -> other_ends s s' -> same_outcome (vtt_reader_file s) (vtt_reader_file s').
Proof. intros A B O. eapply same_trans; [now apply vtt_file_same|]. eapply same_trans; [now apply vtt_ends, O|]. now apply same_sym, vtt_file_same. Qed.
Lemma ssa_file_ends s s' : short_lines s -> short_lines s' -> other_ends s s' -> ssa_reader_file s = ssa_reader_file s'.
Proof. intros A B O. rewrite !ssa_file_same by assumption. now apply ssa_ends. Qed.

(** * Byte order marks *)

Lemma bom_no_lf : ~ In lf bom.
Proof. vm_compute. intuition discriminate. Qed.

Lemma bom_lines s ls : text_lines s ls -> s <> [] -> exists l rest, ls = l :: rest /\ text_lines (bom ++ s) ((bom ++ l) :: rest) /\ begins_with l s.
Proof.
  intros [|l NE N|l r ls' N T] NE'; [congruence| |].
  - exists l, []. split; [reflexivity|]. split; [|exists []; now rewrite app_nil_r]. constructor; [discriminate|].
    intros I. apply in_app_iff in I. destruct I; [now apply bom_no_lf|now apply N].
  - exists l, ls'. split; [reflexivity|]. split; [|now exists (lf :: r)]. rewrite app_assoc. constructor; [|exact T].
    intros I. apply in_app_iff in I. destruct I; [now apply bom_no_lf|now apply N].
Qed.

Lemma begins_trans p l s : begins_with p l -> begins_with l s -> begins_with p s.
Proof. intros [a ->] [b ->]. exists (a ++ b). now rewrite <- app_assoc. Qed.

Lemma drop_while_app_stop p a c : p c = false -> forall l, drop_while p (l ++ c :: a) = drop_while p l ++ c :: a.
Proof. intros P l. induction l as [|x l IH]; cbn; [now rewrite P|]. destruct (p x); [exact IH|reflexivity]. Qed.
Lemma trim_right_bom p l : p (ascii_of_nat 191) = false -> trim_right_if p (bom ++ l) = bom ++ trim_right_if p l.
Proof.
  intros P. unfold trim_right_if. rewrite rev_app_distr.
  change (rev bom) with (ascii_of_nat 191 :: map ascii_of_nat [187; 239]%nat). rewrite drop_while_app_stop by exact P.
  rewrite rev_app_distr. reflexivity.
Qed.
Lemma remove_bom s : remove_unicode_bom (bom ++ s) = s.
Proof. apply remove_bom_iff. now left. Qed.
Lemma remove_no_bom s : ~ begins_with bom s -> remove_unicode_bom s = s.
Proof. intros N. apply remove_bom_iff. now right. Qed.
Lemma trim_right_begins p l : begins_with (trim_right_if p l) l.
Proof.
  unfold trim_right_if. assert (D : forall s, exists t, s = t ++ drop_while p s) by (induction s as [|x s [t IH]]; cbn; [now exists []|destruct (p x); [exists (x :: t); cbn; congruence|now exists []]]).
  destruct (D (rev l)) as [t E]. exists (rev t). rewrite <- rev_app_distr, <- E. now rewrite rev_involutive.
Qed.

Lemma clean_bom l : ~ begins_with bom l -> clean_line (bom ++ l) = clean_line l.
Proof.
  intros N. unfold clean_line. rewrite trim_right_bom by (vm_compute; reflexivity). rewrite remove_bom, remove_no_bom; [reflexivity|].
  intros B. apply N. eapply begins_trans; [exact B|]. apply trim_right_begins.
Qed.

Lemma Forall2_same {A : Type} (R : A -> A -> Prop) l : (forall x, R x x) -> Forall2 R l l.
Proof. intros H. induction l; constructor; auto. Qed.

Lemma subrip_bom s : ~ begins_with bom s -> same_outcome (subrip_reader_string (bom ++ s)) (subrip_reader_string s).
Proof.
  intros N. destruct s as [|c s0]; [vm_compute; constructor|]. set (s := c :: s0) in *.
  destruct (bom_lines s (lines_of_string s)) as (l & rest & E & T & B); [now apply lines_of_string_iff|discriminate|].
  apply lines_of_string_iff in T. unfold subrip_reader_string. rewrite T, E. apply subrip_lines_same. constructor; [|now apply Forall2_same].
  apply clean_bom. intros B'. apply N. eapply begins_trans; eassumption.
Qed.
Lemma vtt_bom s : s <> [] -> ~ begins_with bom s -> same_outcome (vtt_reader_string (bom ++ s)) (vtt_reader_string s).
Proof.
  intros NE N. destruct (bom_lines s (lines_of_string s)) as (l & rest & E & T & B); [now apply lines_of_string_iff|exact NE|].
  apply lines_of_string_iff in T. unfold vtt_reader_string. rewrite T, E. apply vtt_lines_same. constructor; [|now apply Forall2_same].
  apply clean_bom. intros B'. apply N. eapply begins_trans; eassumption.
Qed.

Lemma trim_bom l : (forall c r, l = c :: r -> is_space c = false) -> ~ begins_with bom l -> remove_unicode_bom (trim (bom ++ l)) = remove_unicode_bom (trim l).
Proof.
  intros W N. unfold trim. rewrite trim_right_bom by (vm_compute; reflexivity). change (trim_left_if is_space (bom ++ ?x)) with (bom ++ x).
  rewrite remove_bom. assert (L : trim_left_if is_space (trim_right_if is_space l) = trim_right_if is_space l).
  { destruct (trim_right_begins is_space l) as [t E]. destruct (trim_right_if is_space l) as [|c r]; [reflexivity|]. unfold trim_left_if. cbn.
    now rewrite (W c (r ++ t) E). }
  rewrite L, remove_no_bom; [reflexivity|]. intros B. apply N. eapply begins_trans; [exact B|]. apply trim_right_begins.
Qed.
Lemma ssa_bom s : (forall c r, s = c :: r -> ~ white c) -> ~ begins_with bom s -> ssa_reader_string (bom ++ s) = ssa_reader_string s.
Proof.
  intros W N. destruct s as [|c s0]; [vm_compute; reflexivity|]. set (s := c :: s0) in *.
  destruct (bom_lines s (lines_of_string s)) as (l & rest & E & T & B); [now apply lines_of_string_iff|discriminate|].
  apply lines_of_string_iff in T. unfold ssa_reader_string, ssa_read. rewrite T, E. cbn [ssa_lines].
  assert (L : forall f, ssa_line f (bom ++ l) = ssa_line f l).
  { intros f. unfold ssa_line. rewrite trim_bom; [reflexivity| |].
    - intros c' r' ->. destruct B as [r B]. destruct (is_space c') eqn:S; [|reflexivity]. exfalso. apply (W c' (r' ++ r) B). now apply is_space_white.
    - intros B'. apply N. eapply begins_trans; eassumption. }
  now rewrite L.
Qed.

(** * More at the end *)

Lemma whole_cons c s : whole_lines (c :: s) -> whole_lines s.
Proof.
  intros [E|[t E]]; [discriminate|]. destruct t as [|x t]; cbn in E; injection E as -> ->; [now left|right; now exists t].
Qed.
Lemma whole_after l s : whole_lines (l ++ s) -> whole_lines s.
Proof. induction l as [|c l IH]; [auto|]. cbn. intros W. apply IH. now apply whole_cons in W. Qed.
Lemma whole_free l : whole_lines l -> ~ In lf l -> l = [].
Proof. intros [->|[t ->]] N; [reflexivity|]. exfalso. apply N, in_app_iff. right. now left. Qed.

Lemma lines_app a la : text_lines a la -> whole_lines a -> forall b lb, text_lines b lb -> text_lines (a ++ b) (la ++ lb).
Proof.
  induction 1 as [|l NE N|l rest ls N T IH]; intros W b lb B; [exact B| |].
  - now apply whole_free in W.
  - rewrite <- app_assoc. cbn [app]. constructor; [exact N|]. apply IH; [|exact B]. apply whole_after in W. now apply whole_cons in W.
Qed.
Lemma string_lines_app a b : whole_lines a -> lines_of_string (a ++ b) = lines_of_string a ++ lines_of_string b.
Proof. intros W. apply lines_of_string_iff. apply lines_app; [now apply lines_of_string_iff|exact W|now apply lines_of_string_iff]. Qed.

Lemma fgets_len n : forall s x y, fgets n s = (x, y) -> s = x ++ y.
Proof.
  induction n as [|n IH]; intros s x y; cbn [fgets]; [now intros [= <- <-]|]. destruct s as [|c t]; [now intros [= <- <-]|].
  destruct (Ascii.eqb c newline); [now intros [= <- <-]|]. destruct (fgets n t) as [u v] eqn:E. intros [= <- <-]. cbn. f_equal. now apply IH.
Qed.
Lemma fgets_app n : forall a b x y, a <> [] -> whole_lines a -> fgets n a = (x, y) -> fgets n (a ++ b) = (x, y ++ b) /\ whole_lines y.
Proof.
  induction n as [|n IH]; intros a b x y NE W; cbn [fgets]; [intros [= <- <-]; now split|]. destruct a as [|c t]; [congruence|]. cbn [app fgets].
  destruct (Ascii.eqb_spec c newline) as [E|E]; [intros [= <- <-]; split; [reflexivity|now apply whole_cons in W]|].
  destruct (fgets n t) as [u v] eqn:G. intros [= <- <-].
  assert (t <> []). { intros ->. destruct W as [W|[s W]]; [discriminate|]. destruct s as [|x s]; cbn in W; [injection W as ->; now apply E|]. injection W as _ W. now destruct s. }
  destruct (IH t b u v) as [-> W']; [assumption|now apply whole_cons in W|assumption|]. now split.
Qed.
Lemma get_line_file_shrinks s l rest : get_line_file s = Some (l, rest) -> (length rest < length s)%nat.
Proof.
  unfold get_line_file. destruct s as [|c t]; [discriminate|]. destruct (fgets 255 (c :: t)) as [x y] eqn:G. intros [= <- <-].
  assert (NE : x <> []). { change (fgets 255 (c :: t)) with (if Ascii.eqb c newline then ([c], t) else let '(a, b) := fgets 254 t in (c :: a, b)) in G.
    destruct (Ascii.eqb c newline); [now injection G as <- _|]. destruct (fgets 254 t). now injection G as <- _. }
  apply fgets_len in G. rewrite G, app_length. destruct x; [congruence|]. cbn. lia.
Qed.
Lemma file_fuel n : forall m s, (length s <= n)%nat -> (length s <= m)%nat -> all_lines get_line_file n s = all_lines get_line_file m s.
Proof.
  induction n as [|n IH]; intros m s L M.
  - destruct s; [|cbn in L; lia]. now destruct m.
  - destruct m as [|m]; [destruct s; [reflexivity|cbn in M; lia]|]. cbn [all_lines]. destruct (get_line_file s) as [[l rest]|] eqn:G; [|reflexivity].
    apply get_line_file_shrinks in G. f_equal. apply IH; lia.
Qed.
Lemma file_lines_app n : forall a b, (length a <= n)%nat -> whole_lines a -> lines_of_file (a ++ b) = lines_of_file a ++ lines_of_file b.
Proof.
  induction n as [|n IH]; intros a b L W; [destruct a; [reflexivity|cbn in L; lia]|]. destruct a as [|c a0]; [reflexivity|].
  set (a := c :: a0) in *. assert (NE : a <> []) by discriminate. unfold lines_of_file at 1 2.
  destruct (length (a ++ b)) as [|k] eqn:K; [rewrite app_length in K; cbn in K; lia|]. destruct (length a) as [|j] eqn:J; [cbn in J; lia|].
  cbn [all_lines]. destruct (fgets 255 a) as [x y] eqn:G. destruct (fgets_app 255 a b x y NE W G) as [G' W'].
  assert (E1 : get_line_file a = Some (c_string x, y)) by (unfold get_line_file; rewrite G; now destruct a).
  assert (E2 : get_line_file (a ++ b) = Some (c_string x, y ++ b)) by (unfold get_line_file; rewrite G'; now destruct a).
  rewrite E1, E2. pose proof (get_line_file_shrinks _ _ _ E1) as S1. pose proof (get_line_file_shrinks _ _ _ E2) as S2. cbn [app]. f_equal.
  rewrite (file_fuel k (length (y ++ b))), (file_fuel j (length y)) by lia. apply IH; [lia|exact W'].
Qed.

Definition grows (subs qs : list raw) : Prop := exists more, qs = subs ++ more.
Lemma grows_refl s : grows s s. Proof. exists []. now rewrite app_nil_r. Qed.
Lemma grows_trans a b c : grows a b -> grows b c -> grows a c.
Proof. intros [x ->] [y ->]. exists (x ++ y). now rewrite app_assoc. Qed.
Lemma grows_snoc a x : grows a (a ++ [x]). Proof. now exists [x]. Qed.

Lemma maybe_grows p subs q qs : maybe_content p subs = (q, qs) -> grows subs qs.
Proof. unfold maybe_content. destruct (r_text p); intros [= <- <-]; [apply grows_refl|apply grows_snoc]. Qed.

Lemma chars_grow fuel : forall ln ctx t p cs subs q qs, convert_chars fuel ln ctx t p cs subs = Ok (q, qs) -> grows subs qs.
Proof.
  induction fuel as [|k IH]; intros ln ctx t p cs subs q qs; destruct t as [|c t1]; cbn [convert_chars]; try discriminate; try (intros [= <- <-]; apply grows_refl).
  destruct (maybe_content p subs) as [p' subs'] eqn:M. apply maybe_grows in M.
  repeat (match goal with |- context[match has_either ?t ?a ?b with Some _ => _ | None => _ end] => destruct (has_either t a b) as [r|] end;
    [first [solve [intros H; apply IH in H; eapply grows_trans; eassumption] | idtac]|]).
  - destruct (until _ r) as [tag rest]. intros H. apply bind_ok in H. destruct H as (col & _ & H). apply IH in H. eapply grows_trans; eassumption.
  - destruct (has_next _ (lit "</font>")) as [rest|].
    + destruct cs as [|c0 [|c1 cs]]; [|discriminate|]; intros H; apply IH in H; eapply grows_trans; eassumption.
    + destruct (has_next _ _) as [r|].
      * destruct (until _ r) as [tag rest]. intros H. apply bind_ok in H. destruct H as (p2 & _ & H). now apply IH in H.
      * intros H. now apply IH in H.
Qed.
Lemma line_grows ln ctx t p subs q qs : convert_line ln ctx t p subs = Ok (q, qs) -> grows subs qs.
Proof.
  unfold convert_line. intros H. apply bind_ok in H. destruct H as ([p' subs'] & C & H). apply chars_grow in C. injection H as H.
  eapply grows_trans; [exact C|]. eapply maybe_grows. exact H.
Qed.
Lemma sub_lines_grow ln ctx l : forall rs subs q qs, convert_sub_lines ln ctx l rs subs = Ok (q, qs) -> grows subs qs.
Proof.
  induction l as [|s t IH]; intros rs subs q qs; cbn; [intros [= <- <-]; apply grows_refl|]. intros H. apply bind_ok in H.
  destruct H as ([rs' subs'] & C & H). apply line_grows in C. apply bind_ok in H. destruct H as (n & _ & H). apply IH in H. eapply grows_trans; eassumption.
Qed.
Lemma round_grows ln st ctx rs subs line rest st' rs' subs' : round ln st ctx rs subs line rest = Ok (st', rs', subs') -> grows subs subs'.
Proof.
  unfold round. destruct st.
  - destruct line; intros [= <- <- <-]; apply grows_refl.
  - cbv zeta. destruct (_ && _); [discriminate|]. intros H. apply bind_ok in H. destruct H as ([from|e] & _ & H); [|discriminate].
    apply bind_ok in H. destruct H as ([to|e] & _ & H); [|discriminate]. injection H as <- <- <-. apply grows_refl.
  - destruct line; [intros [= <- <- <-]; apply grows_refl|]. intros H. apply bind_ok in H. destruct H as ([q qs] & C & H). injection H as <- <- <-.
    now apply sub_lines_grow in C.
Qed.
Lemma round_rest ln st ctx rs subs line rest rest' x : round ln st ctx rs subs line rest = Ok x -> round ln st ctx rs subs line rest' = Ok x.
Proof. unfold round. destruct st; auto. cbv zeta. now destruct (_ && _). Qed.

Lemma loop_grows ls : forall ln st ctx rs subs r, subrip_loop ls ln st ctx rs subs = Ok r -> grows subs r.
Proof.
  induction ls as [|l ls IH]; intros ln st ctx rs subs r; [intros [= <-]; apply grows_refl|]. rewrite loop_round. intros H.
  apply bind_ok in H. destruct H as ([[st' rs'] subs'] & R & H). apply round_grows in R. apply IH in H. eapply grows_trans; eassumption.
Qed.
Lemma loop_goes_on l2 l1 : forall ln st ctx rs subs r, subrip_loop (l1 ++ l2) ln st ctx rs subs = Ok r ->
  exists first more, subrip_loop l1 ln st ctx rs subs = Ok first /\ r = first ++ more.
Proof.
  induction l1 as [|l l1 IH]; intros ln st ctx rs subs r H.
  - destruct (loop_grows _ _ _ _ _ _ _ H) as [more ->]. now exists subs, more.
  - cbn [app] in H. rewrite loop_round in H. apply bind_ok in H. destruct H as (x & R & H). apply (round_rest _ _ _ _ _ _ _ l1) in R.
    apply IH in H. destruct H as (first & more & H & ->). exists first, more. split; [|reflexivity]. now rewrite loop_round, R.
Qed.

Lemma vsub_lines_grow l : forall rs subs q qs, vtt_sub_lines l rs subs = Ok (q, qs) -> grows subs qs.
Proof.
  induction l as [|s t IH]; intros rs subs q qs; cbn [vtt_sub_lines]; [intros [= <- <-]; apply grows_refl|]. cbv zeta. intros H. apply bind_ok in H.
  destruct H as (n & _ & H). apply IH in H. eapply grows_trans; [apply grows_snoc|exact H].
Qed.
Lemma vround_grows st ctx rs subs line rest st' rs' subs' : vround st ctx rs subs line rest = Ok (st', rs', subs') -> grows subs subs'.
Proof.
  unfold vround. destruct st.
  - destruct (starts_with _ _); [intros [= <- <- <-]; apply grows_refl|discriminate].
  - destruct (starts_with _ _); [intros [= <- <- <-]; apply grows_refl|]. destruct (is_some _); [|intros [= <- <- <-]; apply grows_refl].
    intros H. apply bind_ok in H. destruct H as ([[[saw why] m]|[from to]] & _ & H); [discriminate|]. injection H as <- <- <-. apply grows_refl.
  - destruct line; [intros [= <- <- <-]; apply grows_refl|]. intros H. apply bind_ok in H. destruct H as ([q qs] & C & H). injection H as <- <- <-.
    now apply vsub_lines_grow in C.
  - destruct line; intros [= <- <- <-]; apply grows_refl.
Qed.
Lemma vround_rest st ctx rs subs line rest rest' x : vround st ctx rs subs line rest = Ok x -> vround st ctx rs subs line rest' = Ok x.
Proof.
  unfold vround. destruct st; auto. destruct (starts_with _ _); [auto|]. destruct (is_some _); [|auto].
  destruct (treads _ _) as [[[[saw why] m]|[from to]]| |]; cbn; auto. discriminate.
Qed.
Lemma vloop_grows ls : forall st ctx rs subs r, vtt_loop ls st ctx rs subs = Ok r -> grows subs r.
Proof.
  induction ls as [|l ls IH]; intros st ctx rs subs r; [intros [= <-]; apply grows_refl|]. rewrite vloop_round. intros H.
  apply bind_ok in H. destruct H as ([[st' rs'] subs'] & R & H). apply vround_grows in R. apply IH in H. eapply grows_trans; eassumption.
Qed.
Lemma vloop_goes_on l2 l1 : forall st ctx rs subs r, vtt_loop (l1 ++ l2) st ctx rs subs = Ok r ->
  exists first more, vtt_loop l1 st ctx rs subs = Ok first /\ r = first ++ more.
Proof.
  induction l1 as [|l l1 IH]; intros st ctx rs subs r H.
  - destruct (vloop_grows _ _ _ _ _ _ H) as [more ->]. now exists subs, more.
  - cbn [app] in H. rewrite vloop_round in H. apply bind_ok in H. destruct H as (x & R & H). apply (vround_rest _ _ _ _ _ _ l1) in R.
    apply IH in H. destruct H as (first & more & H & ->). exists first, more. split; [|reflexivity]. now rewrite vloop_round, R.
Qed.

Lemma ssa_line_grows f l f' : ssa_line f l = Ok f' -> grows (sr_subs f) (sr_subs f').
Proof.
  unfold ssa_line. destruct f as [part rx ry styles sf ef subs]. cbn [sr_subs].
  destruct (_ || _); [intros [= <-]; apply grows_refl|]. destruct (starts_with _ _).
  { destruct (str_eqb _ _); [intros [= <-]; apply grows_refl|]. destruct (_ || _); [intros [= <-]; apply grows_refl|].
    destruct (str_eqb _ _); intros [= <-]; apply grows_refl. }
  destruct (find_sub _ _) as [colon|]; [|discriminate]. cbv zeta. destruct part.
  - destruct (str_eqb _ _); [|destruct (str_eqb _ _); [|intros [= <-]; apply grows_refl]]; intros H; apply bind_ok in H; destruct H as (x & _ & H); injection H as <-; apply grows_refl.
  - destruct (str_eqb _ _); [intros [= <-]; apply grows_refl|]. destruct (str_eqb _ _); [|intros [= <-]; apply grows_refl].
    intros H. apply bind_ok in H. destruct H as (x & _ & H). apply bind_ok in H. destruct H as (y & _ & H). injection H as <-. apply grows_refl.
  - destruct (str_eqb _ _); [intros [= <-]; apply grows_refl|]. destruct (str_eqb _ _); [|intros [= <-]; apply grows_refl].
    intros H. apply bind_ok in H. destruct H as (x & _ & H). injection H as <-. cbn. now exists x.
Qed.
Lemma ssa_lines_grow ls : forall f f', ssa_lines f ls = Ok f' -> grows (sr_subs f) (sr_subs f').
Proof.
  induction ls as [|l ls IH]; intros f f'; cbn; [intros [= <-]; apply grows_refl|]. intros H. apply bind_ok in H. destruct H as (g & L & H).
  apply ssa_line_grows in L. apply IH in H. eapply grows_trans; eassumption.
Qed.
Lemma ssa_lines_app l1 l2 : forall f, ssa_lines f (l1 ++ l2) = let* g := ssa_lines f l1 in ssa_lines g l2.
Proof. induction l1 as [|l l1 IH]; intros f; [reflexivity|]. cbn. destruct (ssa_line f l); cbn; [apply IH|reflexivity..]. Qed.

Lemma stlt_push_grows sub subs q qs : stlt_push sub subs = (q, qs) -> grows subs qs.
Proof. unfold stlt_push. destruct (r_text sub); intros [= <- <-]; [apply grows_refl|apply grows_snoc]. Qed.
Lemma stlt_text_grows n : forall t sub subs q qs, (length t <= n)%nat -> stlt_text t sub subs = Ok (q, qs) -> grows subs qs.
Proof.
  induction n as [|n IH]; intros t sub subs q qs L; (destruct t as [|c t]; [cbn [stlt_text]; intros [= H]; now apply stlt_push_grows in H|]); cbn [length] in L; [lia|].
  cbn [stlt_text]. destruct (stlt_push sub subs) as [sub' subs'] eqn:P. apply stlt_push_grows in P. destruct (Ascii.eqb c "|").
  - intros H. apply bind_ok in H. destruct H as (k & _ & H). apply IH in H; [|lia]. eapply grows_trans; eassumption.
  - destruct (Ascii.eqb c "^").
    + destruct t as [|d t']; [intros [= H]; apply stlt_push_grows in H; eapply grows_trans; eassumption|]. cbn [length] in L. cbv zeta. intros H. apply IH in H; [|lia]. eapply grows_trans; eassumption.
    + intros H. apply IH in H; [exact H|lia].
Qed.
Lemma stlt_line_grows sub subs l q qs : stlt_line sub subs l = Ok (q, qs) -> grows subs qs.
Proof.
  unfold stlt_line. cbv zeta. destruct (starts_with _ _); [intros [= <- <-]; apply grows_refl|]. destruct (starts_with _ _).
  - destruct (split _ _) as [|name [|value [|x y]]]; try (intros [= <- <-]; apply grows_refl). intros H. apply bind_ok in H. destruct H as (s & _ & H). injection H as <- <-. apply grows_refl.
  - destruct (stlt_fields _) as [[[a b] text]|]; [|intros [= <- <-]; apply grows_refl]. intros H. apply bind_ok in H. destruct H as (from & _ & H).
    apply bind_ok in H. destruct H as (to & _ & H). destruct from, to; try (injection H as <- <-; apply grows_refl). now apply (stlt_text_grows (length text)) in H.
Qed.
Lemma stlt_lines_grow ls : forall sub subs r, stlt_lines sub subs ls = Ok r -> grows subs r.
Proof.
  induction ls as [|l ls IH]; intros sub subs r; cbn; [intros [= <-]; apply grows_refl|]. intros H. apply bind_ok in H. destruct H as ([q qs] & L & H).
  apply stlt_line_grows in L. apply IH in H. eapply grows_trans; eassumption.
Qed.
Lemma stlt_goes_on l2 l1 : forall sub subs r, stlt_lines sub subs (l1 ++ l2) = Ok r -> exists first more, stlt_lines sub subs l1 = Ok first /\ r = first ++ more.
Proof.
  induction l1 as [|l l1 IH]; intros sub subs r H.
  - destruct (stlt_lines_grow _ _ _ _ H) as [more ->]. now exists subs, more.
  - cbn in H. apply bind_ok in H. destruct H as ([q qs] & L & H). cbn. rewrite L. cbn. now apply IH.
Qed.
Lemma complete_app a la : complete_lines a la -> forall b lb, complete_lines (a ++ b) lb -> exists more, lb = la ++ more.
Proof.
  induction 1 as [l N|l rest ls N T IH]; intros b lb B; [now exists lb|]. rewrite <- app_assoc in B. cbn [app] in B. inversion B as [s N' E|l' rest' ls' N' T' E]; subst.
  - exfalso. apply N', in_app_iff. right. now left.
  - assert (X : l' = l /\ rest' = rest ++ b).
    { clear - N N' E. revert l' N' E. induction l as [|c l IH]; intros [|c' l'] N' E; cbn [app] in E.
      - injection E as ->. now split.
      - injection E as -> _. exfalso. apply N'. now left.
      - injection E as <- _. exfalso. apply N. now left.
      - injection E as <- E2. destruct (IH (fun I => N (or_intror I)) l' (fun I => N' (or_intror I)) E2) as [-> ->]. now split. }
    destruct X as [-> ->]. destruct (IH b ls' T') as [more ->]. now exists more.
Qed.

Lemma subrip_more a b : whole_lines a -> goes_on (subrip_reader_string a) (subrip_reader_string (a ++ b)).
Proof. intros W all. unfold subrip_reader_string. rewrite string_lines_app by exact W. apply loop_goes_on. Qed.
Lemma subrip_file_more a b : whole_lines a -> goes_on (subrip_reader_file a) (subrip_reader_file (a ++ b)).
Proof. intros W all. unfold subrip_reader_file. rewrite (file_lines_app (length a)) by auto. apply loop_goes_on. Qed.
Lemma vtt_more a b : whole_lines a -> goes_on (vtt_reader_string a) (vtt_reader_string (a ++ b)).
Proof. intros W all. unfold vtt_reader_string. rewrite string_lines_app by exact W. apply vloop_goes_on. Qed.
Lemma vtt_file_more a b : whole_lines a -> goes_on (vtt_reader_file a) (vtt_reader_file (a ++ b)).
Proof. intros W all. unfold vtt_reader_file. rewrite (file_lines_app (length a)) by auto. apply vloop_goes_on. Qed.
Lemma ssa_goes_on l1 l2 : goes_on (ssa_read l1) (ssa_read (l1 ++ l2)).
Proof.
  intros all. unfold ssa_read. rewrite ssa_lines_app. intros H. apply bind_ok in H. destruct H as (f & H & X). injection X as <-.
  apply bind_ok in H. destruct H as (g & -> & H). apply ssa_lines_grow in H. destruct H as [more E]. exists (sr_subs g), more. now split.
Qed.
Lemma ssa_more a b : whole_lines a -> goes_on (ssa_reader_string a) (ssa_reader_string (a ++ b)).
Proof. intros W. unfold ssa_reader_string. rewrite string_lines_app by exact W. apply ssa_goes_on. Qed.
Lemma ssa_file_more a b : whole_lines a -> goes_on (ssa_reader_file a) (ssa_reader_file (a ++ b)).
Proof. intros W. unfold ssa_reader_file. rewrite (file_lines_app (length a)) by auto. apply ssa_goes_on. Qed.
Lemma stlt_more good a b : goes_on (stl_text_read good a) (stl_text_read good (a ++ b)).
Proof.
  intros all. unfold stl_text_read. destruct good; [|intros [= <-]; now exists [], []].
  destruct (complete_app a (getlines (length a) a)) with (b := b) (lb := getlines (length (a ++ b)) (a ++ b)) as [more E].
  - now apply (getlines_iff (length a)).
  - now apply (getlines_iff (length (a ++ b))).
  - rewrite E. apply stlt_goes_on.
Qed.

(** * Any file, one buffer at a time *)

Lemma fgets_cases n : forall s b rest, fgets n s = (b, rest) ->
  (exists l, ~ In lf l /\ b = l ++ [lf] /\ (length l < n)%nat /\ s = l ++ lf :: rest) \/
  (~ In lf b /\ length b = n /\ s = b ++ rest) \/ (~ In lf b /\ (length b < n)%nat /\ s = b /\ rest = []).
Proof.
  induction n as [|n IH]; intros s b rest H.
  - cbn in H. injection H as <- <-. right. left. now split.
  - destruct s as [|c s]; [cbn in H; injection H as <- <-; right; right; cbn; repeat split; [intros []|lia]|]. cbn [fgets] in H.
    destruct (Ascii.eqb_spec c newline) as [->|N].
    + injection H as <- <-. left. exists []. cbn. repeat split; [intros []|lia].
    + destruct (fgets n s) as [a r] eqn:F. injection H as <- <-. assert (NC : forall x, ~ In lf x -> ~ In lf (c :: x)) by (intros x X [->|I]; [now apply N|contradiction]).
      destruct (IH _ _ _ F) as [(l & A & -> & B & ->)|[(A & B & ->)|(A & B & -> & ->)]].
      * left. exists (c :: l). cbn. repeat split; [now apply NC|lia].
      * right. left. cbn. repeat split; [now apply NC|lia].
      * right. right. cbn. repeat split; [now apply NC|lia].
Qed.
Lemma file_buffers fuel : forall s, (length s <= fuel)%nat -> exists bs, buffers s bs /\ all_lines get_line_file fuel s = map c_string bs.
Proof.
  induction fuel as [|k IH]; intros s L.
  - destruct s; [|cbn in L; lia]. exists []. split; [constructor|reflexivity].
  - cbn [all_lines]. destruct s as [|c s]; [exists []; split; [constructor|reflexivity]|]. unfold get_line_file at 1. destruct (fgets 255 (c :: s)) as [b rest] eqn:F.
    pose proof (fgets_len _ _ _ _ F) as E. assert (NB : b <> []) by (intros ->; destruct (fgets_cases _ _ _ _ F) as [(l & _ & X & _)|[(_ & X & _)|(_ & _ & X & _)]]; [now destruct l|discriminate|discriminate]).
    assert (LR : (length rest <= k)%nat). { apply (f_equal (@List.length ascii)) in E. rewrite app_length in E. destruct b; [congruence|]. cbn in E, L. lia. }
    destruct (IH rest LR) as (bs & B & A). exists (b :: bs). split; [|now rewrite A].
    destruct (fgets_cases _ _ _ _ F) as [(l & N & -> & LL & ->)|[(N & LL & ->)|(N & LL & -> & ->)]].
    + apply buffers_line; [exact N|lia|exact B].
    + now apply buffers_full.
    + inversion B as [|? ? ? ? ? ? X|? ? ? ? X ? Y|]; subst; [now apply buffers_last|now destruct l|destruct l; [discriminate|discriminate]|congruence].
Qed.
Lemma nul_code c : (code c =? 0) = true <-> c = ascii_of_nat 0.
Proof. rewrite Z.eqb_eq. split; [|now intros ->]. intros E. rewrite code_char in E. unfold char_code in E. rewrite <- (ascii_nat_embedding c). f_equal. lia. Qed.
Lemma c_string_cases b : ~ In (ascii_of_nat 0) (c_string b) /\ (b = c_string b \/ exists z, b = c_string b ++ ascii_of_nat 0 :: z).
Proof.
  unfold c_string. induction b as [|c b [N IH]]; [split; [intros []|now left]|]. cbn [take_while]. destruct (code c =? 0) eqn:E; cbn [negb].
  - apply nul_code in E. subst c. split; [intros []|]. right. now exists b.
  - split; [intros [->|I]; [now rewrite (proj2 (nul_code _) eq_refl) in E|contradiction]|]. destruct IH as [IH|(z & IH)]; [left|right; exists z]; cbn [app]; now rewrite <- IH.
Qed.
Lemma buffer_cut b : (~ In lf b \/ exists l, ~ In lf l /\ b = l ++ [lf]) -> exists l, buffer_line b l /\ (c_string b = l \/ c_string b = l ++ [lf]).
Proof.
  intros H. destruct (c_string_cases b) as [N C]. destruct H as [H|(l & NL & E)].
  - exists (c_string b). split; [|now left]. split; [exact N|]. split.
    + intros I. apply H. destruct C as [C|(z & C)]; rewrite C; [exact I|rewrite in_app_iff; now left].
    + destruct C as [C|C]; [now left|right; now right].
  - destruct C as [C|(z & C)].
    + exists l. rewrite <- C, E in N. split; [|right; now rewrite <- C]. split; [intros I; apply N; rewrite in_app_iff; now left|]. split; [exact NL|]. right. now left.
    + exists (c_string b). split; [|now left]. split; [exact N|]. split; [|right; right; now exists z]. rewrite E in C.
      destruct z as [|x z]; [apply app_inj_tail in C; destruct C as [_ C]; discriminate|]. destruct (exists_last (l := x :: z)) as (z' & y & E2); [discriminate|]. rewrite E2 in C.
      change (ascii_of_nat 0 :: z' ++ [y]) with ((ascii_of_nat 0 :: z') ++ [y]) in C. rewrite app_assoc in C. apply app_inj_tail in C. destruct C as [C _]. rewrite E. intros I.
      apply NL. rewrite C, in_app_iff. now left.
Qed.
Lemma buffers_lines s bs : buffers s bs -> exists ls, Forall2 buffer_line bs ls /\ Forall2 (fun a b => a = b \/ a = b ++ [lf]) (map c_string bs) ls.
Proof.
  assert (K : forall b bs, (~ In lf b \/ exists l, ~ In lf l /\ b = l ++ [lf]) -> (exists ls, Forall2 buffer_line bs ls /\ Forall2 (fun a b => a = b \/ a = b ++ [lf]) (map c_string bs) ls) ->
    exists ls, Forall2 buffer_line (b :: bs) ls /\ Forall2 (fun a b => a = b \/ a = b ++ [lf]) (map c_string (b :: bs)) ls).
  { intros b xs H (ls & A & B). destruct (buffer_cut b H) as (l & L1 & L2). exists (l :: ls). split; constructor; assumption. }
  induction 1 as [|l rest bs N L B IH|l rest bs N L B IH|l NE N L]; [exists []; split; constructor|apply K|apply K|apply K]; try assumption; try now left.
  - right. now exists l.
  - exists []. split; constructor.
Qed.
Lemma lines_text ls : Forall (fun l => ~ In lf l) ls -> text_lines (text_of_lines ls) ls.
Proof.
  induction 1 as [|l ls N F IH]; [constructor|]. unfold text_of_lines. cbn [map List.concat]. rewrite <- app_assoc. now apply lines_more.
Qed.
Lemma file_as_lines s : exists bs ls, buffers s bs /\ Forall2 buffer_line bs ls /\ lines_of_string (text_of_lines ls) = ls /\
  Forall2 (fun a b => a = b \/ a = b ++ [lf]) (lines_of_file s) ls.
Proof.
  destruct (file_buffers (length s) s (le_n _)) as (bs & B & A). destruct (buffers_lines s bs B) as (ls & L1 & L2). exists bs, ls.
  split; [exact B|]. split; [exact L1|]. split; [|unfold lines_of_file; now rewrite A]. apply lines_of_string_iff, lines_text. clear -L1. induction L1 as [|b l bs ls (_ & N & _) F IH]; constructor; assumption.
Qed.
Lemma Forall2_weaken {A B : Type} (R S : A -> B -> Prop) la lb : (forall a b, R a b -> S a b) -> Forall2 R la lb -> Forall2 S la lb.
Proof. intros H. induction 1; constructor; auto. Qed.
Theorem subrip_any_file s : exists bs ls, buffers s bs /\ Forall2 buffer_line bs ls /\ same_outcome (subrip_reader_file s) (subrip_reader_string (text_of_lines ls)).
Proof.
  destruct (file_as_lines s) as (bs & ls & B & L & E & F). exists bs, ls. split; [exact B|]. split; [exact L|]. unfold subrip_reader_file, subrip_reader_string. rewrite E.
  apply subrip_lines_same. eapply Forall2_weaken; [|exact F]. intros a b [->| ->]; [reflexivity|apply clean_lf].
Qed.
Theorem vtt_any_file s : exists bs ls, buffers s bs /\ Forall2 buffer_line bs ls /\ same_outcome (vtt_reader_file s) (vtt_reader_string (text_of_lines ls)).
Proof.
  destruct (file_as_lines s) as (bs & ls & B & L & E & F). exists bs, ls. split; [exact B|]. split; [exact L|]. unfold vtt_reader_file, vtt_reader_string. rewrite E.
  apply vtt_lines_same. eapply Forall2_weaken; [|exact F]. intros a b [->| ->]; [reflexivity|apply clean_lf].
Qed.
Theorem ssa_any_file s : exists bs ls, buffers s bs /\ Forall2 buffer_line bs ls /\ ssa_reader_file s = ssa_reader_string (text_of_lines ls).
Proof.
  destruct (file_as_lines s) as (bs & ls & B & L & E & F). exists bs, ls. split; [exact B|]. split; [exact L|]. unfold ssa_reader_file, ssa_reader_string. rewrite E.
  apply ssa_lines_same. eapply Forall2_weaken; [|exact F]. intros a b [->| ->]; [reflexivity|apply trim_lf].
Qed.
