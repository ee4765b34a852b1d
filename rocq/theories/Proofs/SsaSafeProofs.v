(** When the SSA reader has no undefined behaviour, and how it reads files. *)
From Coq Require Import ZArith Lia List Bool Ascii String.
From Verif.Model Require Import Base Strings Float TimeModel Types Lines RawConvert.
From Verif.Spec Require Import Outcome TextSpec LinesSpec StlFileSpec RawSpec SsaTagSpec SsaSpec SubripUseSpec SsaUseSpec.
From Verif.Model Require Import Ssa.
From Verif.Proofs Require Import StringProofs LinesProofs StlReadProofs SsaTagProofs SsaTextProofs SsaProofs SubripUseProofs SsaUseProofs.
Import ListNotations.
Local Open Scope Z_scope.
Local Notation length := List.length.

(** Defined, and [P] of the value if there is one. *)
Definition gives {A : Type} (P : A -> Prop) (x : res A) : Prop := match x with Ok a => P a | Throw _ => True | Undef _ => False end.
Lemma gives_bind {A B : Type} (P : A -> Prop) (Q : B -> Prop) x f : gives P x -> (forall a, P a -> gives Q (f a)) -> gives Q (bind x f).
Proof. destruct x; cbn; auto. Qed.
Lemma gives_weaken {A : Type} (P Q : A -> Prop) x : gives P x -> (forall a, P a -> Q a) -> gives Q x.
Proof. destruct x; cbn; auto. Qed.
Lemma gives_defined {A : Type} (P : A -> Prop) x : gives P x -> defined x.
Proof. destruct x; cbn; intros H w; try discriminate. contradiction. Qed.

(** * Texts *)

Lemma parse_tag_ready r t c r' : parse_tag r t c = Ok r' -> ready r -> ready r'.
Proof. intros P R. apply parse_tag_iff in P. now apply (override_ready _ _ _ _ P). Qed.
Lemma run_gives c size its : margins_fit c -> forall r, ready r -> gives (Forall ready) (run c size r its).
Proof.
  intros (M1 & M2). assert (W : forall tx r, ready r -> Forall ready (with_piece tx r)) by (intros [|x tx] r R; repeat constructor; exact R).
  induction its as [|i its IH]; intros r R; [cbn; now apply W|]. destruct i as [x| |t]; cbn [run].
  - apply IH. exact R.
  - destruct R as (ref & p & R & P). rewrite R, P. cbn [opt_get bind]. apply (gives_bind (Forall ready)).
    + apply IH. exists ref. eexists. split; [exact R|reflexivity].
    + intros ps F. cbn. apply Forall_app. split; [|exact F]. apply W. now exists ref, p.
  - apply (gives_bind ready).
    + pose proof (parse_tag_defined (set_text [] r) t c M1 M2) as D. destruct (parse_tag (set_text [] r) t c) as [r'|e|u] eqn:E; cbn; [|exact I|now apply (D u)].
      apply (parse_tag_ready _ _ _ _ E). exact R.
    + intros r' R'. apply (gives_bind (Forall ready)); [now apply IH|]. intros ps F. cbn. apply Forall_app. split; [now apply W|exact F].
Qed.
Lemma parse_line_defined base s c : margins_fit c -> gives (fun _ => True) (parse_line base s c).
Proof.
  intros M. rewrite parse_line_eq. apply (gives_bind ready).
  - destruct (margin_offset_total c (h_ref (r_hpos base)) M) as (x & MO).
    assert (F : exists r, first_look c base r) by (eexists; exists x; split; [exact MO|reflexivity]). destruct F as (r & F).
    assert (S : start_of c base = Ok (with_text (r_text base) r)).
    { apply start_iff. assert (E : with_text [] (with_text (r_text base) r) = r) by (destruct F as (y & _ & ->); reflexivity). rewrite E. now split. }
    rewrite S. cbn. now apply first_look_ready in F.
  - intros r R. apply (gives_bind (Forall ready)); [now apply run_gives|]. intros ps F. destruct (finish_total base (count_line_breaks s) (row_size c base) ps F) as (raws & D).
    assert (E : mapM (ssa_finish base (count_line_breaks s) (row_size c base)) ps = Ok raws).
    { apply mapM_iff. revert D. apply Forall2_iff. intros a b. apply finish_iff. }
    now rewrite E.
Qed.

(** * Numbers *)

(** A part of [l] that does not start within a number or right after a letter. *)
Definition alnum (c : ascii) : Prop := is_digit_char c \/ letter c.
Definition part (l s : str) : Prop := exists before after, l = before ++ s ++ after /\ ~ ends_in alnum before.
Lemma no_end_nil P : ~ ends_in P []. Proof. intros (a & c & E & _). now destruct a. Qed.
Lemma no_end_snoc (P : ascii -> Prop) a c : ~ P c -> ~ ends_in P (a ++ [c]).
Proof. intros N (b & d & E & H). apply app_inj_tail in E. destruct E as [_ ->]. contradiction. Qed.
Lemma white_no_alnum c : white c -> ~ alnum c.
Proof. unfold white, alnum, letter. intros W [(d & H1 & H2)|H]; lia. Qed.
Lemma part_refl l : part l l.
Proof. exists [], []. split; [now rewrite app_nil_r|apply no_end_nil]. Qed.
Lemma snoc_case (s : str) : s = [] \/ exists i l, s = i ++ [l].
Proof. destruct s as [|c s]; [now left|right]. destruct (snoc_split (c :: s)) as (i & l & E & _); [discriminate|]. now exists i, l. Qed.
Lemma no_end_app (P : ascii -> Prop) a b : ~ ends_in P a -> ~ ends_in P b -> ~ ends_in P (a ++ b).
Proof.
  intros A B (x & c & E & H). destruct (snoc_case b) as [->|(b' & d & ->)]; [rewrite app_nil_r in E; apply A; now exists x, c|].
  rewrite app_assoc in E. apply app_inj_tail in E. destruct E as [_ ->]. apply B. now exists b', c.
Qed.
Lemma part_trans l s t : part l s -> part s t -> part l t.
Proof.
  intros (a & b & -> & N) (u & v & -> & N'). exists (a ++ u), (v ++ b). split; [now rewrite <- !app_assoc|]. now apply no_end_app.
Qed.
Lemma no_end_all (P : ascii -> Prop) s : Forall (fun c => ~ P c) s -> ~ ends_in P s.
Proof. intros F (a & c & -> & H). apply Forall_app in F. destruct F as [_ F]. inversion F; subst. contradiction. Qed.
Lemma part_trimmed s t : trimmed s t -> part s t.
Proof. intros (a & b & -> & A & _). exists a, b. split; [reflexivity|]. apply no_end_all. revert A. apply Forall_impl. exact white_no_alnum. Qed.
Lemma part_join x ps p : ~ alnum x -> In p ps -> part (join [x] ps) p.
Proof.
  intros N. induction ps as [|q ps IH]; intros I; [destruct I|]. destruct ps as [|q' ps].
  - destruct I as [->|[]]. apply part_refl.
  - cbn [join]. destruct I as [->|I].
    + exists [], ([x] ++ join [x] (q' :: ps)). split; [reflexivity|apply no_end_nil].
    + apply (part_trans _ (join [x] (q' :: ps))); [|now apply IH]. exists (q ++ [x]), []. split; [now rewrite app_nil_r, <- app_assoc|now apply no_end_snoc].
Qed.
Lemma part_number n l s v : numbers_within n l -> part l s -> c_number s v -> Z.abs v < 10 ^ Z.of_nat n.
Proof.
  intros W (a & b & -> & N) C. assert (P : 0 < 10 ^ Z.of_nat n) by (apply Z.pow_pos_nonneg; lia).
  assert (K : forall sp d v rest, Forall (fun c => ~ alnum c) sp -> numeral d v -> a ++ s ++ b = (a ++ sp) ++ d ++ rest -> 0 <= v < 10 ^ Z.of_nat n).
  { intros sp d w rest SP D E. pose proof (no_end_app _ _ _ N (no_end_all _ _ SP)) as NE. pose proof (numeral_nonneg _ _ D). pose proof (numeral_bound _ _ D) as B.
    destruct (W (a ++ sp) d rest E) as [L|L].
    - now apply numeral_chars in D.
    - intros (x & c & X & H1). apply NE. exists x, c. split; [exact X|now left].
    - assert (10 ^ Z.of_nat (length d) <= 10 ^ Z.of_nat n) by (apply Z.pow_le_mono_r; lia). lia.
    - exfalso. apply NE. destruct L as (x & c & X & H1). exists x, c. split; [exact X|now right]. }
  assert (SG : forall c, c = "+"%char \/ c = "-"%char -> ~ alnum c).
  { intros c [->| ->] [(d & H1 & H2)|H]; [code_lia_in H2|unfold letter in H; code_lia_in H|code_lia_in H2|unfold letter in H; code_lia_in H]. }
  assert (WS : forall sp, Forall white sp -> Forall (fun c => ~ alnum c) sp) by (intros sp; apply Forall_impl; exact white_no_alnum).
  destruct C as [sp d v rest SP D NB|sp d v rest SP D NB|sp d v rest SP D NB|sp rest SP N1 N2 N3|sp c rest SP SI N1]; try lia.
  - specialize (K sp d v (rest ++ b) (WS _ SP) D). rewrite <- !app_assoc in K. specialize (K eq_refl). lia.
  - specialize (K (sp ++ ["+"%char]) d v (rest ++ b)). assert (0 <= v < 10 ^ Z.of_nat n); [|lia]. apply K; [|exact D|rewrite <- !app_assoc; cbn [app]; now rewrite <- !app_assoc].
    apply Forall_app. split; [now apply WS|]. repeat constructor. apply SG. now left.
  - specialize (K (sp ++ ["-"%char]) d v (rest ++ b)). assert (0 <= v < 10 ^ Z.of_nat n); [|lia]. apply K; [|exact D|rewrite <- !app_assoc; cbn [app]; now rewrite <- !app_assoc].
    apply Forall_app. split; [now apply WS|]. repeat constructor. apply SG. now right.
Qed.
Lemma convert_gives n l s : (n <= 9)%nat -> numbers_within n l -> part l s -> gives (fun v => Z.abs v < 10 ^ Z.of_nat n) (raw_convert_int s).
Proof.
  intros N W P. pose proof (part_number n l s (cval s) W P (c_number_total s)) as B. rewrite convert_int_cval. unfold chk.
  assert (10 ^ Z.of_nat n <= 10 ^ 9) by (apply Z.pow_le_mono_r; lia). change (10 ^ 9) with 1000000000 in *.
  destruct (in_int (cval s)) eqn:E; [exact B|]. apply Bool.not_true_iff_false in E. elim E. apply in_int_iff. unfold is_int. lia.
Qed.

(** * Styles, dialogues and lines *)

Definition small (v : Z) : Prop := Z.abs v < 1000000000.
Definition style_ok (st : style) : Prop := small (st_left_margin st) /\ small (st_right_margin st).
Lemma convert_small n l s : (n <= 9)%nat -> numbers_within n l -> part l s -> gives small (raw_convert_int s).
Proof.
  intros N W P. eapply gives_weaken; [apply (convert_gives n l s N W P)|]. intros v B. unfold small. cbv beta in B.
  assert (10 ^ Z.of_nat n <= 10 ^ 9) by (apply Z.pow_le_mono_r; lia). change (10 ^ 9) with 1000000000 in *. lia.
Qed.
Lemma trim_part l s : part l s -> part l (trim s).
Proof. intros P. apply (part_trans l s); [exact P|]. apply part_trimmed. now apply trim_iff. Qed.
Lemma colour_gives l s : numbers_within 9 l -> part l s -> gives (fun _ => True) (style_colour s).
Proof.
  intros W P. unfold style_colour.
  assert (D : gives (fun _ : colour => True) (let* i := raw_convert_int s in Ok (bgr_colour i))) by (apply (gives_bind small); [now apply (convert_small 9 l)|intros; exact I]).
  destruct s as [|a s]; [exact D|]. destruct (Ascii.eqb a "&"); [|exact D].
  unfold h_colour. destruct s as [|b t]; [exact I|]. destruct (_ && _); exact I.
Qed.
Lemma style_field_gives l st key val : numbers_within 9 l -> part l val -> style_ok st -> gives style_ok (style_field st key val).
Proof.
  intros W P S. apply trim_part in P. unfold style_field. cbv zeta. set (v := trim val) in *. destruct st as [n fn fz pc bc b i u e h vr vm lm rm].
  assert (C : forall f : Z -> style, (forall x, small x -> style_ok (f x)) -> gives style_ok (let* x := raw_convert_int v in Ok (f x))).
  { intros f F. apply (gives_bind small); [now apply (convert_small 9 l)|exact F]. }
  assert (K : forall f : colour -> style, (forall x, style_ok (f x)) -> gives style_ok (let* x := style_colour v in Ok (f x))).
  { intros f F. apply (gives_bind (fun _ => True)); [now apply (colour_gives l)|]. intros x _. apply F. }
  destruct S as [S1 S2]. unfold style_ok in *. cbn [st_left_margin st_right_margin] in *.
  repeat match goal with |- gives _ (if str_eqb ?k ?x then _ else _) => destruct (str_eqb k x) end; try (cbn; tauto); try (apply K; cbn; tauto); apply C; cbn; tauto.
Qed.
Lemma style_fields_gives l kv : numbers_within 9 l -> Forall (fun p => part l (snd p)) kv -> forall st, style_ok st -> gives style_ok (style_fields st kv).
Proof.
  intros W. induction 1 as [|[k v] kv P F IH]; intros st S; [exact S|]. cbn [style_fields]. apply (gives_bind style_ok); [now apply (style_field_gives l)|exact IH].
Qed.
Lemma combine_parts {A : Type} l (ks : list A) vs : Forall (part l) vs -> Forall (fun p => part l (snd p)) (combine ks vs).
Proof. intros F. revert ks. induction F as [|v vs P F IH]; intros [|k ks]; constructor; [exact P|apply IH]. Qed.
Lemma comma_no_alnum : ~ alnum comma.
Proof. unfold comma. intros [(d & H1 & H2)|H]; [code_lia_in H2|unfold letter in H; code_lia_in H]. Qed.
Lemma style_parse_gives l format line : numbers_within 9 l -> part l line -> gives style_ok (style_parse format line).
Proof.
  intros W P. rewrite style_parse_eq. destruct (Nat.eqb _ _); [|exact I]. apply (style_fields_gives l); [exact W| |split; now vm_compute].
  apply combine_parts. apply Forall_forall. intros p I. apply (part_trans l line); [exact P|].
  destruct (proj1 (parts_iff comma line _) eq_refl) as (_ & E & _). rewrite E at 1. apply part_join; [apply comma_no_alnum|exact I].
Qed.

Lemma time_gives l s : numbers_within 5 l -> part l s -> gives (fun _ => True) (ssa_parse_time s).
Proof.
  intros W P. unfold ssa_parse_time. destruct (split (is_any_of (lit ":.")) s) as [|a [|b [|c [|d [|e r]]]]] eqn:E; try exact I.
  apply four_parts_iff in E. destruct E as (x & y & z & -> & X & Y & Z & _).
  assert (TS : forall c, time_sign c -> ~ alnum c).
  { intros k [->| ->] [(dd & H1 & H2)|H]; [code_lia_in H2|unfold letter in H; code_lia_in H|code_lia_in H2|unfold letter in H; code_lia_in H]. }
  assert (G : forall t, part (a ++ x :: b ++ y :: c ++ z :: d) t -> gives (fun v => Z.abs v < 100000) (raw_convert_int t)).
  { intros t Q. apply (convert_gives 5 l); [lia|exact W|]. now apply (part_trans _ _ _ P). }
  apply (gives_bind (fun v => Z.abs v < 100000)). { apply G. exists [], (x :: b ++ y :: c ++ z :: d). split; [reflexivity|apply no_end_nil]. }
  intros h H. apply (gives_bind (fun v => Z.abs v < 100000)).
  { apply G. exists (a ++ [x]), (y :: c ++ z :: d). split; [now rewrite <- app_assoc|]. apply no_end_snoc. now apply TS. }
  intros m M. apply (gives_bind (fun v => Z.abs v < 100000)).
  { apply G. exists ((a ++ x :: b) ++ [y]), (z :: d). split; [rewrite <- !app_assoc; reflexivity|]. apply no_end_snoc. now apply TS. }
  intros sec S. apply (gives_bind (fun v => Z.abs v < 100000)).
  { apply G. exists ((a ++ x :: b ++ y :: c) ++ [z]), []. split; [|apply no_end_snoc; now apply TS]. rewrite app_nil_r, <- !app_assoc. cbn [app]. rewrite <- app_assoc. reflexivity. }
  intros cs C. cbv beta in *. unfold imul, chk. assert (I1 : in_int (cs * 10) = true) by (apply in_int_iff; unfold is_int; lia). rewrite I1. cbn [bind].
  assert (F : from_hms h m sec (cs * 10) = Ok (mkT (h * 3600 + m * 60 + sec) (cs * 10) (Some (mkR 1000 1)))).
  { apply from_hms_iff. split; [unfold time_fits, is_int; lia|reflexivity]. }
  now rewrite F.
Qed.

Definition reader_ok (f : ssa_reader) : Prop := small (sr_res_x f) /\ Forall (fun p => style_ok (snd p)) (sr_styles f).
Definition event_ok (ev : ssa_event) : Prop := small (ev_left ev) /\ small (ev_right ev).
Lemma style_find_ok name l st : Forall (fun p => style_ok (snd p)) l -> style_find name l = Some st -> style_ok st.
Proof.
  induction 1 as [|[n s] l S F IH]; [discriminate|]. cbn [style_find]. destruct (str_eqb n name); [intros [= <-]; exact S|exact IH].
Qed.
Lemma event_field_gives l f ev key val : numbers_within 5 l -> part l val -> reader_ok f -> event_ok ev -> gives event_ok (event_field f ev key val).
Proof.
  intros W P (R1 & R2) E. apply trim_part in P. unfold event_field. cbv zeta. set (v := trim val) in *. destruct ev as [sub st lm rm out]. destruct E as [E1 E2]. cbn in E1, E2.
  assert (T : forall g : time -> ssa_event, (forall t, event_ok (g t)) -> gives event_ok (let* t := ssa_parse_time v in Ok (g t))).
  { intros g G. apply (gives_bind (fun _ => True)); [now apply (time_gives l)|]. intros t _. apply G. }
  destruct (str_eqb key (lit "Start")); [now apply T|]. destruct (str_eqb key (lit "End")); [now apply T|].
  destruct (str_eqb key (lit "Style")).
  { set (o := match style_find _ _ with Some s => Some s | None => _ end). assert (O : forall s, o = Some s -> style_ok s).
    { intros s. unfold o. destruct (style_find (trim_left_if _ v) (sr_styles f)) as [s'|] eqn:F; [intros [= <-]; now apply (style_find_ok _ _ _ R2 F)|]. now apply style_find_ok. }
    destruct o as [s|]; [|now split]. specialize (O s eq_refl). exact O. }
  destruct (str_eqb key (lit "MarginV")); [destruct (_ && _); now split|].
  destruct (str_eqb key (lit "MarginL")). { destruct (negb _); [|now split]. apply (gives_bind small); [apply (convert_small 5 l); [lia|assumption..]|]. intros x X. now split. }
  destruct (str_eqb key (lit "MarginR")). { destruct (negb _); [|now split]. apply (gives_bind small); [apply (convert_small 5 l); [lia|assumption..]|]. intros x X. now split. }
  destruct (str_eqb key (lit "Text")); [|now split]. apply (gives_bind (fun _ => True)).
  - apply parse_line_defined. unfold margins_fit, small, is_int in *. cbn [left_margin right_margin play_res_x]. lia.
  - intros raws _. now split.
Qed.
Lemma event_fields_gives l f kv : numbers_within 5 l -> Forall (fun p => part l (snd p)) kv -> reader_ok f -> forall ev, event_ok ev -> gives event_ok (event_fields f ev kv).
Proof.
  intros W F R. induction F as [|[k v] kv P F IH]; intros ev E; [exact E|]. cbn [event_fields]. apply (gives_bind event_ok); [now apply (event_field_gives l)|exact IH].
Qed.
Lemma dialogue_gives l f body : numbers_within 5 l -> part l body -> reader_ok f -> gives (fun _ => True) (dialogue f body).
Proof.
  intros W P R. destruct (sr_event_format f) as [|k ks] eqn:EF; [unfold dialogue; rewrite EF; exact I|].
  destruct (dialogue_cases f body) as [(vs & (L & B & N) & ->)|(N & ->)]; [rewrite EF; discriminate| |exact I].
  apply (gives_bind event_ok); [|intros; exact I]. apply (event_fields_gives l); [exact W| |exact R|split; now vm_compute].
  apply combine_parts. apply Forall_forall. intros p I. apply (part_trans l body); [exact P|]. rewrite B. apply part_join; [apply comma_no_alnum|exact I].
Qed.

Definition line_ok (l : str) : Prop := numbers_within 9 l /\ (contains (lit "Dialogue") l -> numbers_within 5 l).
Lemma keyed_step_gives l f type body : line_ok l -> part l body -> (type = lit "Dialogue" -> contains (lit "Dialogue") l) -> reader_ok f -> gives reader_ok (keyed_step f type body).
Proof.
  intros (W1 & W2) P D R. pose proof R as R'. destruct f as [part rx ry styles sf ef subs]. destruct R as [R1 R2]. cbn in R1, R2. cbn [keyed_step]. destruct part.
  - destruct (str_eqb type (lit "PlayResX")). { apply (gives_bind small); [now apply (convert_small 9 l)|]. intros x X. now split. }
    destruct (str_eqb type (lit "PlayResY")); [|exact R']. apply (gives_bind small); [now apply (convert_small 9 l)|]. intros x X. now split.
  - destruct (str_eqb type (lit "Format")); [now split|]. destruct (str_eqb type (lit "Style")); [|exact R'].
    destruct (is_nil sf); [exact I|]. cbn [negb sub_assert bind]. apply (gives_bind style_ok); [now apply (style_parse_gives l)|]. intros s S. split; [exact R1|]. constructor; [exact S|exact R2].
  - destruct (str_eqb type (lit "Format")); [now split|]. destruct (str_eqb type (lit "Dialogue")) eqn:E; [|exact R']. apply str_eqb_iff in E.
    apply (gives_bind (fun _ => True)); [apply (dialogue_gives l); [apply W2, D, E|exact P|exact R']|]. intros out _. now split.
Qed.
Lemma bom_part u l : u = bom ++ l -> part u l.
Proof.
  intros ->. exists bom, []. split; [now rewrite app_nil_r|]. apply no_end_all. repeat constructor; intros [(d & H1 & H2)|H]; (code_lia_in H2 || (unfold letter in H; code_lia_in H)).
Qed.
Lemma part_contains l s t : part l s -> contains t s -> contains t l.
Proof. intros (a & b & -> & _) (u & v & ->). exists (a ++ u), (v ++ b). now rewrite <- !app_assoc. Qed.
Lemma ssa_line_gives f line : line_ok line -> reader_ok f -> gives reader_ok (ssa_line f line).
Proof.
  intros L R. rewrite ssa_line_eq. cbv zeta. set (l := remove_unicode_bom (trim line)).
  assert (P : part line l).
  { destruct (proj1 (line_body_iff line l) eq_refl) as (u & T & B). apply (part_trans line u); [now apply part_trimmed|]. destruct B as [B|(_ & ->)]; [now apply bom_part|apply part_refl]. }
  assert (WP : forall p, reader_ok (with_part p f)) by (intros p; exact R).
  destruct (_ || _); [exact R|]. destruct (starts_with l (lit "[")). { repeat destruct (_ || _); repeat destruct (str_eqb l _); cbn; try apply WP; exact R. }
  pose proof (find_colon l) as FC. destruct (find_sub l (lit ":")) as [n|]; [|exact I]. destruct FC as (rest & E & S & _). rewrite S.
  apply (keyed_step_gives line); [exact L| | |exact R].
  - apply trim_part. apply (part_trans line l); [exact P|]. exists (firstn n l ++ [":"%char]), []. split; [now rewrite app_nil_r, <- app_assoc|].
    apply no_end_snoc. intros [(d & H1 & H2)|H]; [code_lia_in H2|unfold letter in H; code_lia_in H].
  - intros D. apply (part_contains line l); [exact P|]. rewrite D in E. rewrite E. exists [], (":"%char :: rest). reflexivity.
Qed.
Theorem moderate_defined s : moderate_numbers s -> defined (ssa_reader_string s).
Proof.
  intros (ls & T & F). unfold ssa_reader_string, ssa_read. rewrite (proj2 (lines_of_string_iff s ls) T). apply (gives_defined (fun _ => True)). apply (gives_bind reader_ok); [|intros; exact I].
  assert (R : reader_ok ssa_init) by (split; [now vm_compute|constructor]). revert R. generalize ssa_init. clear T. induction F as [|l ls L F IH]; intros f R; [exact R|].
  cbn [ssa_lines]. apply (gives_bind reader_ok); [now apply ssa_line_gives|]. exact IH.
Qed.

(** * Files *)

Lemma trim_lf l : trim (l ++ [lf]) = trim l.
Proof.
  apply trim_iff. destruct (proj1 (trim_iff l (trim l)) eq_refl) as (a & b & E & A & B & N). exists a, (b ++ [lf]). split; [rewrite E at 1; now rewrite <- !app_assoc|].
  split; [exact A|]. split; [|exact N]. apply Forall_app. split; [exact B|]. constructor; [|constructor]. unfold white. code_lia.
Qed.
Theorem ssa_file_same s : short_lines s -> ssa_reader_file s = ssa_reader_string s.
Proof.
  intros (NN & ls & T & F). unfold ssa_reader_file, ssa_reader_string. pose proof (proj2 (lines_of_string_iff s ls) T) as E. rewrite E.
  pose proof (file_string_lines (length s) s ls (le_n _) T NN F) as G. unfold lines_of_file, ssa_read. f_equal. clear -G. generalize ssa_init.
  induction G as [|a b x y H G IH]; intros f; [reflexivity|]. cbn [ssa_lines].
  assert (L : ssa_line f a = ssa_line f b) by (destruct H as [->| ->]; [reflexivity|]; unfold ssa_line; now rewrite trim_lf). rewrite L.
  apply bind_ext. exact IH.
Qed.

(** * Checking that numbers are short *)

Definition letterb (c : ascii) : bool := ((65 <=? char_code c) && (char_code c <=? 90)) || ((97 <=? char_code c) && (char_code c <=? 122)).
Lemma letterb_iff c : letterb c = true <-> letter c.
Proof. unfold letterb, letter. rewrite orb_true_iff, !andb_true_iff, !Z.leb_le. reflexivity. Qed.
Definition digitb (c : ascii) : bool := (48 <=? char_code c) && (char_code c <=? 57).
Lemma digitb_iff c : digitb c = true <-> is_digit_char c.
Proof.
  unfold digitb. rewrite andb_true_iff, !Z.leb_le. split.
  - intros [A B]. exists (char_code c - 48). split; lia.
  - intros (d & A & B). lia.
Qed.
Fixpoint within_check (n k : nat) (exempt : bool) (s : str) : bool :=
  match s with
  | [] => true
  | c :: t => if digitb c then (Nat.leb (S k) n || exempt) && within_check n (S k) exempt t else within_check n 0 (letterb c) t
  end.
Lemma within_run n d : forall k ex rest, Forall is_digit_char d -> within_check n k ex (d ++ rest) = true -> d = [] \/ (k + length d <= n)%nat \/ ex = true.
Proof.
  induction d as [|c d IH]; intros k ex rest F W; [now left|right]. inversion F as [|? ? D F']; subst. apply digitb_iff in D. cbn [app within_check] in W. rewrite D in W.
  apply andb_true_iff in W. destruct W as [W1 W2]. apply orb_true_iff in W1. destruct W1 as [W1|W1]; [|now right]. apply Nat.leb_le in W1.
  destruct (IH _ _ _ F' W2) as [->|[L|L]]; [left; cbn; lia|left; cbn; lia|now right].
Qed.
Lemma within_before n b : forall k ex c rest, ~ is_digit_char c -> within_check n k ex (b ++ c :: rest) = true -> within_check n 0 (letterb c) rest = true.
Proof.
  induction b as [|x b IH]; intros k ex c rest N W; cbn [app within_check] in W.
  - destruct (digitb c) eqn:D; [now apply digitb_iff in D|exact W].
  - destruct (digitb x); [apply andb_true_iff in W; destruct W as [_ W]|]; now apply (IH _ _ _ _ N W).
Qed.
Lemma within_check_ok n s : within_check n 0 false s = true -> numbers_within n s.
Proof.
  intros W before d after -> F NE. destruct (snoc_case before) as [->|(b & c & ->)].
  - destruct (within_run n d 0 false after F W) as [->|[L|L]]; [left; cbn; lia|left; exact L|discriminate].
  - rewrite <- app_assoc in W. apply within_before in W; [|intros D; apply NE; now exists b, c].
    destruct (within_run n d 0 _ after F W) as [->|[L|L]]; [left; cbn; lia|left; exact L|]. right. exists b, c. split; [reflexivity|now apply letterb_iff].
Qed.
Definition moderate_check (s : str) : bool :=
  forallb (fun l => within_check 9 0 false l && (within_check 5 0 false l || match find_sub l (lit "Dialogue") with Some _ => false | None => true end)) (lines_of_string s).
Lemma moderate_check_ok s : moderate_check s = true -> moderate_numbers s.
Proof.
  intros C. exists (lines_of_string s). split; [now apply lines_of_string_iff|]. unfold moderate_check in C. rewrite forallb_forall in C. apply Forall_forall. intros l I. specialize (C l I).
  apply andb_true_iff in C. destruct C as [C1 C2]. split; [now apply within_check_ok|]. intros D. apply orb_true_iff in C2. destruct C2 as [C2|C2]; [now apply within_check_ok|].
  destruct (find_sub l (lit "Dialogue")) eqn:E; [discriminate|]. apply find_sub_none in E. contradiction.
Qed.
