(** What a byte order mark does to the first line of SSA and text STL files. *)
From Coq Require Import ZArith Lia List Bool Ascii String.
From Verif.Model Require Import Base Strings Float TimeModel Types Lines Ssa StlText.
From Verif.Spec Require Import Outcome TextSpec LinesSpec StlFileSpec SsaTagSpec SsaSpec StopSpec StlTextSpec TextFileSpec.
From Verif.Proofs Require Import StringProofs SsaTagProofs SsaTextProofs LinesProofs StlReadProofs SsaProofs SsaUseProofs SsaSafeProofs StlTextProofs TextFileProofs.
Import ListNotations.
Local Open Scope Z_scope.
Local Notation length := List.length.

(** * SSA *)

Lemma first_of_two l rest : ~ In lf l -> lines_of_string (bom ++ l ++ lf :: rest) = (bom ++ l) :: lines_of_string rest.
Proof.
  intros N. apply lines_of_string_iff. rewrite app_assoc. constructor; [|now apply lines_of_string_iff].
  intros I. apply in_app_iff in I. destruct I; [now apply bom_no_lf|now apply N].
Qed.
Lemma trim_right_white l : Forall white l <-> trim_right_if is_space l = [].
Proof.
  unfold trim_right_if. split.
  - intros F. assert (D : drop_while is_space (rev l) = []); [|now rewrite D].
    assert (F' : Forall white (rev l)) by now apply Forall_rev. clear F. induction F' as [|c s W F IH]; [reflexivity|]. cbn. now rewrite (proj2 (is_space_white c) W).
  - intros E. apply (f_equal (@rev ascii)) in E. rewrite rev_involutive in E. cbn in E.
    assert (F : Forall white (rev l)); [|apply Forall_rev in F; now rewrite rev_involutive in F].
    revert E. generalize (rev l). clear l. induction l as [|c s IH]; [constructor|]. cbn. destruct (is_space c) eqn:S; [|discriminate]. constructor; [now apply is_space_white|now apply IH].
Qed.
Lemma marked_body l : remove_unicode_bom (trim (bom ++ l)) = trim_right_if is_space l.
Proof.
  unfold trim. rewrite trim_right_bom by (vm_compute; reflexivity). change (trim_left_if is_space (bom ++ ?x)) with (bom ++ x). apply remove_bom.
Qed.
Lemma trim_right_split l : exists z, l = trim_right_if is_space l ++ z /\ Forall white z.
Proof.
  unfold trim_right_if. exists (rev (take_while is_space (rev l))). split.
  - rewrite <- rev_app_distr, take_drop. now rewrite rev_involutive.
  - apply Forall_rev. eapply Forall_impl; [|apply take_while_all]. intros c H. now apply is_space_white.
Qed.

Lemma ssa_bom_blank l rest : ~ In lf l -> Forall white l -> ssa_reader_string (bom ++ l ++ lf :: rest) = ssa_reader_string (l ++ lf :: rest).
Proof.
  intros N F. unfold ssa_reader_string, ssa_read. rewrite (first_of_two l rest N).
  assert (E : lines_of_string (l ++ lf :: rest) = l :: lines_of_string rest) by (apply lines_of_string_iff; constructor; [exact N|now apply lines_of_string_iff]).
  rewrite E. cbn [ssa_lines]. assert (L : ssa_line ssa_init (bom ++ l) = ssa_line ssa_init l); [|now rewrite L].
  unfold ssa_line. rewrite marked_body. apply trim_right_white in F. unfold trim. rewrite F. reflexivity.
Qed.

Lemma ssa_bom_white l rest : ~ In lf l -> begins white l -> ~ Forall white l ->
  (In ":"%char l -> ssa_reader_string (bom ++ l ++ lf :: rest) = ssa_reader_string rest) /\
  (~ In ":"%char l -> ssa_reader_string (bom ++ l ++ lf :: rest) = Throw EProgramming).
Proof.
  intros N B F. unfold ssa_reader_string, ssa_read. rewrite (first_of_two l rest N). cbn [ssa_lines]. rewrite ssa_line_eq. cbv zeta. rewrite marked_body.
  destruct (trim_right_split l) as (z & E & W). rewrite trim_right_white in F. set (b := trim_right_if is_space l) in *. clearbody b.
  assert (C : In ":"%char l <-> In ":"%char b).
  { rewrite E, in_app_iff. split; [|now left]. intros [I|I]; [exact I|]. rewrite Forall_forall in W. apply W in I. unfold white in I. vm_compute in I. intuition discriminate. }
  rewrite C. clear C. destruct b as [|w b]; [congruence|]. rewrite E in B. cbn in B. clear E N.
  assert (S1 : starts_with (w :: b) (lit ";") = false).
  { apply starts_false. intros [r E]. injection E as -> _. unfold white in B. vm_compute in B. intuition discriminate. }
  assert (S2 : starts_with (w :: b) (lit "[") = false).
  { apply starts_false. intros [r E]. injection E as -> _. unfold white in B. vm_compute in B. intuition discriminate. }
  rewrite S1, S2. cbn [is_nil orb]. pose proof (find_colon (w :: b)) as FC. destruct (find_sub (w :: b) (lit ":")) as [n|].
  - destruct FC as (r & E & _ & NC). split; [|intros NI; exfalso; apply NI; rewrite E; apply in_or_app; right; now left]. intros _.
    assert (K : forall body, keyed_step ssa_init (firstn n (w :: b)) body = Ok ssa_init); [|rewrite K; reflexivity].
    intros body. cbn [keyed_step ssa_init]. unfold ssa_init. cbn [keyed_step].
    assert (D : forall x t, ~ white x -> firstn n (w :: b) <> x :: t).
    { intros x t NW. destruct n as [|n]; [discriminate|]. cbn. intros [= -> _]. contradiction. }
    assert (D1 : str_eqb (firstn n (w :: b)) (lit "PlayResX") = false) by (apply str_eqb_false; apply D; unfold white; vm_compute; intuition discriminate).
    assert (D2 : str_eqb (firstn n (w :: b)) (lit "PlayResY") = false) by (apply str_eqb_false; apply D; unfold white; vm_compute; intuition discriminate).
    rewrite D1, D2. reflexivity.
  - split; [intros I; contradiction|reflexivity].
Qed.

(** * Text STL *)

Definition mark_start : ascii := ascii_of_nat 239.
Lemma not_integer s : begins (eq mark_start) s -> ~ is_integer s.
Proof.
  intros B (v & I). assert (D : forall t w, numeral t w -> ~ begins (eq mark_start) t).
  { intros t w Nt Bt. apply numeral_chars in Nt. destruct Nt as [Nt _]. destruct t as [|c t]; [contradiction|]. cbn in Bt. subst c. inversion Nt as [|? ? (d & H1 & H2) _]; subst. code_lia_in H2. }
  inversion I; subst; cbn in B; try discriminate. now apply (D s v).
Qed.
Lemma not_frame_time s t : begins (eq mark_start) s -> ~ frame_time s t.
Proof.
  intros B (a & b & c & d & h & m & sec & f & (_ & E & _) & I & _). apply (not_integer a); [|now exists h].
  destruct a as [|x a]; [|rewrite E in B; exact B]. rewrite E in B. cbn in B. discriminate.
Qed.
Lemma mark_no_setting m name v : ~ setting_line (bom ++ m) name v.
Proof. intros ((r & E) & _). discriminate. Qed.
Lemma mark_start_field m start finish text : subtitle_line (bom ++ m) start finish text -> begins (eq mark_start) start.
Proof.
  intros (_ & _ & _ & from & x & to & (E & _) & NE & (a & b & F & A & WB & NB & _) & _).
  assert (B : begins (eq mark_start) from).
  { destruct from as [|c from]; [congruence|]. cbn in E. injection E as E _. cbn. exact E. }
  rewrite F in B. destruct a as [|w a].
  - cbn in B. destruct start as [|c start]; [|exact B]. exfalso. rewrite F in NE. cbn in NE, B, F. destruct b as [|y b]; [contradiction|]. cbn in B.
    assert (W : white y) by now inversion WB. subst y. unfold white in W. vm_compute in W. intuition discriminate.
  - exfalso. cbn in B. subst w. inversion A as [|? ? W _]; subst. unfold white in W. vm_compute in W. intuition discriminate.
Qed.
Lemma mark_trimmed l : trim (bom ++ l) = bom ++ trim_right_if is_space l.
Proof. unfold trim. rewrite trim_right_bom by (vm_compute; reflexivity). reflexivity. Qed.

Lemma stlt_first l rest : ~ In lf l -> getlines (length (bom ++ l ++ lf :: rest)) (bom ++ l ++ lf :: rest) = (bom ++ l) :: getlines (length rest) rest.
Proof.
  intros N. apply getlines_iff; [lia|]. rewrite app_assoc. constructor; [|now apply (getlines_iff (length rest))].
  intros I. apply in_app_iff in I. destruct I; [now apply bom_no_lf|now apply N].
Qed.
Lemma stlt_bom_cases l rest : ~ In lf l ->
  stl_text_read true (bom ++ l ++ lf :: rest) = stl_text_read true rest \/
  exists l' o, trimmed (bom ++ l) l' /\ text_stops l' o /\ stl_text_read true (bom ++ l ++ lf :: rest) = o /\ (forall x, o <> Ok x).
Proof.
  intros N. unfold stl_text_read. rewrite (stlt_first l rest N), new_look_ok. cbn [stlt_lines]. rewrite (line_step_ok _ _ _ new_look_good).
  pose proof (line_total new_look (trim (bom ++ l)) new_look_good) as T.
  destruct (line_step new_look (trim (bom ++ l))) as [[r rs]|e|u]; cbn [bind fst snd line_case] in *.
  - left. rewrite mark_trimmed in T.
    inversion T as [? v S|? v b S B|? v b S B|? v b S B|? v n S I|? name v S NI|? start finish from to text ? ? S F1 F2 P|? start finish text S O|? N1 N2]; subst;
      try (now apply mark_no_setting in S).
    + exfalso. apply (not_frame_time start from); [|exact F1]. now apply mark_start_field in S.
    + reflexivity.
    + reflexivity.
  - right. exists (trim (bom ++ l)), (Throw e). split; [now apply trim_iff|]. split; [exact T|]. split; [reflexivity|discriminate].
  - right. exists (trim (bom ++ l)), (Undef u). split; [now apply trim_iff|]. split; [exact T|]. split; [reflexivity|discriminate].
Qed.

Theorem stlt_bom_hides l rest raws : ~ In lf l -> stl_text_read true (bom ++ l ++ lf :: rest) = Ok raws -> stl_text_read true rest = Ok raws.
Proof.
  intros N H. destruct (stlt_bom_cases l rest N) as [E|(l' & o & _ & _ & E & NO)]; [now rewrite <- E|]. rewrite E in H. now apply NO in H.
Qed.
Theorem stlt_bom_no_fields l rest : ~ In lf l -> (forall a b c, l <> a ++ comma :: b ++ comma :: c) ->
  stl_text_read true (bom ++ l ++ lf :: rest) = stl_text_read true rest.
Proof.
  intros N NC. destruct (stlt_bom_cases l rest N) as [E|(l' & o & T & S & E & NO)]; [exact E|]. exfalso. apply trim_iff in T. rewrite mark_trimmed in T. subst l'.
  destruct (trim_right_split l) as (z & EL & _). set (m := trim_right_if is_space l) in *. clearbody m.
  assert (X : forall start finish text, ~ subtitle_line (bom ++ m) start finish text).
  { intros start finish text (_ & _ & _ & from & x & to & (E3 & _) & _). assert (A : exists a, from ++ [x] = bom ++ a).
    { destruct (from ++ [x]) as [|p [|q [|r a]]]; cbn in E3; injection E3; intros; try discriminate. exists a. now subst. }
    destruct A as (a & A). rewrite A, <- app_assoc in E3. apply app_inv_head in E3. apply (NC a to (text ++ z)). rewrite EL, E3, <- !app_assoc. cbn [app]. now rewrite <- !app_assoc. }
  inversion S as [? v S' _| ? start finish text S' _|? start finish text S' _|? start finish text S' _ _|? start finish text S' _ _]; subst;
    first [now apply mark_no_setting in S'|now apply X in S'].
Qed.
Theorem stlt_bom_stops l l' start finish text from rest : ~ In lf l -> trimmed l l' -> subtitle_line l' start finish text -> frame_time start from ->
  stl_text_read true (bom ++ l ++ lf :: rest) = Throw EBadLexicalCast.
Proof.
  intros N (w & z & -> & W & Z0 & NB & NE) (NC & NS & NT & fr & x & to & (E3 & C1 & C2) & _ & (a & b & -> & A & B & NB' & NE') & TT) FT.
  destruct FT as (fa & fb & fc & fd & h & m & sec & f & (_ & P & FP) & FI).
  assert (SN : start <> []). { rewrite P. cbn. destruct fa; discriminate. }
  assert (LN : l' <> []) by (rewrite E3; destruct (a ++ start ++ b); discriminate).
  assert (WC : forall c : ascii, In c w \/ In c a -> white c) by (intros c [I|I]; [rewrite Forall_forall in W; now apply W|rewrite Forall_forall in A; now apply A]).
  assert (KC : forall c, white c -> c <> comma /\ c <> ":"%char) by (intros c WH; split; intros ->; unfold white in WH; vm_compute in WH; intuition discriminate).
  assert (EI : forall p q : str, q <> [] -> ~ ends_in white q -> ~ ends_in white (p ++ q)).
  { intros p q Q NQ (y & c & E & H). destruct (snoc_split q Q) as (i & k & Eq & _). rewrite Eq, app_assoc in E. apply app_inj_tail in E. destruct E as [_ ->]. apply NQ. now exists i, c. }
  assert (T : trimmed (bom ++ w ++ l' ++ z) (bom ++ w ++ l')).
  { exists [], z. split; [cbn [app]; now rewrite <- !app_assoc|]. split; [constructor|]. split; [exact Z0|]. split; [intros H; unfold white in H; vm_compute in H; intuition discriminate|].
    rewrite app_assoc. now apply EI. }
  set (start' := bom ++ w ++ a ++ start).
  assert (S : subtitle_line (bom ++ w ++ l') start' finish text).
  { split; [intros [r E]; discriminate|]. split; [intros [r E]; discriminate|]. split; [exact NT|]. exists (bom ++ w ++ a ++ start ++ b), x, to. split.
    - split; [rewrite E3; now rewrite <- !app_assoc|]. split; [|exact C2]. intros I. rewrite <- !app_assoc in I. apply in_app_iff in I. destruct I as [I|I]; [vm_compute in I; intuition discriminate|].
      apply in_app_iff in I. destruct I as [I|I]; [exact (proj1 (KC comma (WC comma (or_introl I))) eq_refl)|]. apply C1. now rewrite <- !app_assoc.
    - split; [discriminate|]. split; [|exact TT]. exists [], b. split; [unfold start'; cbn [app]; now rewrite <- !app_assoc|]. split; [constructor|]. split; [exact B|].
      split; [intros H; unfold white in H; vm_compute in H; intuition discriminate|]. unfold start'. rewrite !app_assoc. now apply EI. }
  apply text_stl_stop_iff; [discriminate|]. exists [], (bom ++ w ++ l' ++ z), (getlines (length rest) rest), (bom ++ w ++ l'), new_look, []. split.
  - apply (getlines_iff (length (bom ++ (w ++ l' ++ z) ++ lf :: rest))); [lia|]. apply (stlt_first (w ++ l' ++ z) rest N).
  - split; [constructor|]. split; [exact T|]. apply (stops_start _ start' finish text S).
    exists (bom ++ w ++ a ++ fa), fb, fc, fd. split.
    + split; [discriminate|]. split; [unfold start'; rewrite P; cbn [join]; now rewrite <- !app_assoc|]. inversion FP as [|? ? Fa Fr]; subst. constructor; [|exact Fr].
      rewrite contains_one in Fa |- *. intros I. apply in_app_iff in I. destruct I as [I|I]; [vm_compute in I; intuition discriminate|].
      apply in_app_iff in I. destruct I as [I|I]; [exact (proj2 (KC ":"%char (WC _ (or_introl I))) eq_refl)|]. apply in_app_iff in I. destruct I as [I|I]; [exact (proj2 (KC ":"%char (WC _ (or_intror I))) eq_refl)|contradiction].
    + intros (I & _). revert I. apply not_integer. reflexivity.
Qed.

Lemma subtitle_line_exists : exists start finish text from, subtitle_line (lit "00:00:01:00 , 00:00:02:00 , Hello") start finish text /\ frame_time start from.
Proof.
  exists (lit "00:00:01:00"), (lit "00:00:02:00"), (lit " Hello"). destruct (stlt_time (lit "00:00:01:00")) as [[t|]|e|u] eqn:E; try (vm_compute in E; discriminate).
  exists t. split; [|now apply (proj1 (time_iff _ _)) in E].
  split; [intros [r X]; discriminate|]. split; [intros [r X]; discriminate|]. split; [discriminate|].
  exists (lit "00:00:01:00"), " "%char, (lit " 00:00:02:00 "). split; [split; [reflexivity|]; split; vm_compute; intuition discriminate|]. split; [discriminate|].
  split; apply trim_iff; reflexivity.
Qed.
