(** The order of the fields of styles and dialogues. *)
From Coq Require Import ZArith List Bool Permutation Ascii String Lia.
From Verif.Model Require Import Base Strings Float TimeModel Types Lines RawConvert.
From Verif.Spec Require Import Outcome TextSpec LinesSpec StlFileSpec RawSpec SsaTagSpec SsaSpec TextFileSpec CommentSpec SsaStyleSpec FieldOrderSpec.
From Verif.Proofs Require Import StringProofs LinesProofs SsaTextProofs SsaTagProofs SsaProofs SsaUseProofs TextFileProofs CommentProofs TakeOutProofs SsaStyleProofs.
From Verif.Model Require Import Ssa.
Import ListNotations.
Local Notation length := List.length.

(** * Steps in another order *)

Definition swaps {A B : Type} (step : A -> B -> A -> Prop) (b1 b2 : B) : Prop :=
  forall a a1 a2, step a b1 a1 -> step a1 b2 a2 -> exists a1', step a b2 a1' /\ step a1' b1 a2.
Lemma turn_front {A B : Type} (step : A -> B -> A -> Prop) b q : forall p a c, Forall (fun x => swaps step x b) p -> in_turn step a (p ++ b :: q) c -> in_turn step a (b :: p ++ q) c.
Proof.
  induction p as [|x p IH]; intros a c F T; [exact T|]. inversion F as [|? ? F1 F2]; subst. cbn [app] in T. inversion T as [|? ? a1 ? ? S1 T1]; subst.
  apply IH in T1; [|exact F2]. inversion T1 as [|? ? a2 ? ? S2 T2]; subst. destruct (F1 _ _ _ S1 S2) as (a1' & Q1 & Q2). econstructor; [exact Q1|]. cbn. econstructor; eassumption.
Qed.
Lemma turn_permuted {A B : Type} (step : A -> B -> A -> Prop) (ok : B -> B -> Prop) : (forall x y, ok x y -> swaps step x y) ->
  forall l l', Permutation l l' -> NoDup l -> (forall x y, In x l -> In y l -> x <> y -> ok x y) -> forall a c, in_turn step a l' c -> in_turn step a l c.
Proof.
  intros SW. induction l as [|b l IH]; intros l' P ND F a c T; [apply Permutation_nil in P; now subst|]. inversion ND as [|? ? NI ND']; subst.
  destruct (in_split b l') as (p & q & ->); [now apply (Permutation_in _ P); left|]. apply Permutation_cons_app_inv in P.
  apply turn_front in T.
  - inversion T as [|? ? a1 ? ? S1 T1]; subst. econstructor; [exact S1|]. apply (IH _ P); auto. intros x y I1 I2. apply F; now right.
  - apply Forall_forall. intros x I. apply SW. assert (In x l) by (apply (Permutation_in _ (Permutation_sym P)), in_or_app; now left). apply F; [now right|now left|]. now intros ->.
Qed.
Lemma once_nodup kvs : once kvs -> NoDup kvs.
Proof. apply NoDup_map_inv. Qed.
Lemma once_keys kvs (x y : str * str) : once kvs -> In x kvs -> In y kvs -> fst x = fst y -> x = y.
Proof.
  unfold once. induction kvs as [|a kvs IH]; cbn; intros N I J E; [destruct I|]. inversion N as [|? ? NI N']; subst.
  destruct I as [->|I], J as [->|J]; auto; exfalso; apply NI; [rewrite E|rewrite <- E]; now apply in_map.
Qed.
Lemma reordered_sym a b : reordered a b -> reordered b a.
Proof. intros [O P]. split; [|now apply Permutation_sym]. unfold once in *. apply (Permutation_NoDup (Permutation_map fst P) O). Qed.

(** * Fields that are trimmed *)

Definition style_pair (st : style) (kv : str * str) (st' : style) : Prop := style_entry st (fst kv) (snd kv) st'.
Definition event_pair (f : ssa_reader) (ev : ssa_event) (kv : str * str) (ev' : ssa_event) : Prop := event_entry f ev (fst kv) (snd kv) ev'.
Lemma trimmed_unique s a b : trimmed s a -> trimmed s b -> a = b.
Proof. intros A B. apply trim_iff in A, B. congruence. Qed.
Lemma style_pairs ks vs kvs : fields ks vs kvs -> forall st st', in_turn style_step st (combine ks vs) st' <-> in_turn style_pair st kvs st'.
Proof.
  induction 1 as [|k v ks vs k' v' kvs TK TV F IH]; intros st st'; cbn [combine]; [split; intros H; inversion H; constructor|].
  split; intros H; inversion H as [|? ? a1 ? ? S T]; subst.
  - destruct S as (k2 & v2 & K2 & V2 & E). cbn [fst snd] in *. rewrite (trimmed_unique _ _ _ K2 TK), (trimmed_unique _ _ _ V2 TV) in E. econstructor; [exact E|now apply IH].
  - econstructor; [|apply IH; exact T]. exists k', v'. auto.
Qed.
Lemma event_pairs f ks vs kvs : fields ks vs kvs -> forall ev ev', in_turn (event_step f) ev (combine (map trim ks) vs) ev' <-> in_turn (event_pair f) ev kvs ev'.
Proof.
  induction 1 as [|k v ks vs k' v' kvs TK TV F IH]; intros ev ev'; cbn [map combine]; [split; intros H; inversion H; constructor|].
  apply trim_iff in TK. rewrite TK.
  split; intros H; inversion H as [|? ? a1 ? ? S T]; subst.
  - destruct S as (v2 & V2 & E). cbn [fst snd] in *. rewrite (trimmed_unique _ _ _ V2 TV) in E. econstructor; [exact E|now apply IH].
  - econstructor; [|apply IH; exact T]. exists v'. auto.
Qed.
Lemma fields_keys ks vs kvs : fields ks vs kvs -> map fst kvs = map trim ks.
Proof. induction 1 as [|k v ks vs k' v' kvs TK TV F IH]; [reflexivity|]. cbn. apply trim_iff in TK. now rewrite TK, IH. Qed.
Lemma fields_length ks vs kvs : fields ks vs kvs -> length ks = length vs.
Proof. induction 1; cbn; congruence. Qed.

(** * Fields of styles *)

Lemma style_swaps b1 b2 : fst b1 <> fst b2 -> swaps style_pair b1 b2.
Proof.
  destruct b1 as [k1 v1], b2 as [k2 v2]. unfold swaps, style_pair. cbn [fst snd]. intros N a a1 a2 E1 E2.
  inversion E1; subst; inversion E2; subst; try congruence; eexists; (split; [solve [econstructor; eauto]|solve [econstructor; eauto]]).
Qed.
Lemma style_reordered kvs kvs' st st' : reordered kvs kvs' -> in_turn style_pair st kvs' st' -> in_turn style_pair st kvs st'.
Proof.
  intros [O P]. apply (turn_permuted _ (fun x y => fst x <> fst y)); auto.
  - intros x y. apply style_swaps.
  - now apply once_nodup.
  - intros x y I J N E. apply N. now apply (once_keys kvs).
Qed.

(** * Fields of dialogues *)

Definition margin (k : str) : Prop := In k [lit "MarginL"; lit "MarginR"; lit "MarginV"].
Definition free (b1 b2 : str * str) : Prop :=
  fst b1 <> fst b2 /\ fst b1 <> lit "Text" /\ fst b2 <> lit "Text" /\ ~ (fst b1 = lit "Style" /\ margin (fst b2)) /\ ~ (fst b2 = lit "Style" /\ margin (fst b1)).
Lemma entry_eq f a k v b b' : event_entry f a k v b -> b = b' -> event_entry f a k v b'.
Proof. now intros H <-. Qed.
Lemma event_swaps f b1 b2 : free b1 b2 -> swaps (event_pair f) b1 b2.
Proof.
  destruct b1 as [k1 v1], b2 as [k2 v2]. unfold swaps, event_pair, free, margin. cbn [fst snd In]. intros (N & N1 & N2 & N3 & N4) a a1 a2 E1 E2.
  inversion E1; subst; inversion E2; subst; try congruence; try (exfalso; tauto).
  all: eexists; (split; [solve [econstructor; eauto]|]).
  all: try solve [econstructor; eauto].
  all: eapply entry_eq; [solve [econstructor; eauto]|]; first [reflexivity|destruct r; reflexivity|idtac].
  all: match goal with |- ?g => idtac g end.
Qed.
Lemma turn_app {A B : Type} (step : A -> B -> A -> Prop) l1 l2 : forall a c, in_turn step a (l1 ++ l2) c <-> exists b, in_turn step a l1 b /\ in_turn step b l2 c.
Proof.
  induction l1 as [|x l1 IH]; intros a c; cbn [app].
  - split; [intros H; exists a; split; [constructor|exact H]|]. intros (b & H1 & H2). inversion H1; subst. exact H2.
  - split; [intros H; inversion H as [|? ? a1 ? ? S T]; subst; apply IH in T; destruct T as (b & T1 & T2); exists b; split; [econstructor; eassumption|exact T2]|].
    intros (b & H1 & H2). inversion H1 as [|? ? a1 ? ? S T]; subst. econstructor; [exact S|]. apply IH. now exists b.
Qed.
Lemma once_app_l a b : once (a ++ b) -> once a.
Proof. unfold once. rewrite map_app. induction (map fst a) as [|x l IH]; intros N; [constructor|]. cbn in N. inversion N as [|? ? NI N']; subst. constructor; [|auto]. intros I. apply NI, in_or_app. now left. Qed.
Lemma style_first_app_l a b : style_first (a ++ b) -> style_first a.
Proof. intros S p v q kv E I. apply (S p v (q ++ b) kv); [rewrite E, <- app_assoc; reflexivity|exact I]. Qed.
Definition str_dec : forall a b : str, {a = b} + {a <> b} := list_eq_dec ascii_dec.
Lemma fields_before_text f p p' ev ev' : once p -> Permutation p p' -> (forall kv, In kv p -> fst kv <> lit "Text") -> style_first p -> style_first p' ->
  in_turn (event_pair f) ev p' ev' -> in_turn (event_pair f) ev p ev'.
Proof.
  intros O P NT S S' T.
  assert (R : forall p, once p -> style_first p -> (forall kv, In kv p -> fst kv <> lit "Text") -> forall a v q, p = a ++ (lit "Style", v) :: q -> Forall (fun x => swaps (event_pair f) x (lit "Style", v) /\ swaps (event_pair f) (lit "Style", v) x) a).
  { clear. intros p O S NT a v q E. apply Forall_forall. intros x I.
    assert (NM : ~ margin (fst x)) by exact (S _ _ _ _ E I).
    assert (NK : fst x <> lit "Style").
    { unfold once in O. rewrite E, map_app in O. cbn [map] in O. apply NoDup_remove_2 in O. intros K. apply O, in_or_app. left. cbn [fst]. rewrite <- K. now apply in_map. }
    assert (XT : fst x <> lit "Text") by (apply NT; rewrite E; apply in_or_app; now left).
    split; apply event_swaps; repeat split; cbn [fst]; auto; try discriminate; tauto. }
  destruct (in_dec str_dec (lit "Style") (map fst p)) as [I|I].
  - apply in_map_iff in I. destruct I as ([k v] & K & I). cbn [fst] in K. subst k.
    destruct (in_split _ _ I) as (a & q & E). destruct (in_split (lit "Style", v) p') as (a' & q' & E'); [now apply (Permutation_in _ P)|].
    assert (O' : once p') by (apply (reordered_sym p p'); now split).
    assert (NT' : forall kv, In kv p' -> fst kv <> lit "Text") by (intros kv J; apply NT; now apply (Permutation_in _ (Permutation_sym P))).
    pose proof (R p O S NT _ _ _ E) as F. pose proof (R p' O' S' NT' _ _ _ E') as F'. subst p p'.
    apply turn_front in T; [|eapply Forall_impl; [|exact F']; now intros x [? _]]. inversion T as [|? ? a1 ? ? S1 T1]; subst.
    assert (P' : Permutation (a ++ q) (a' ++ q')) by exact (Permutation_app_inv _ _ _ _ _ P).
    assert (OQ : once (a ++ q)) by (unfold once in *; rewrite map_app in *; cbn [map] in O; now apply NoDup_remove_1 in O).
    assert (NS : forall kv, In kv (a ++ q) -> fst kv <> lit "Style").
    { intros kv J K. unfold once in O. rewrite map_app in O. cbn [map] in O. apply NoDup_remove_2 in O. apply O. rewrite <- map_app. cbn [fst]. rewrite <- K. now apply in_map. }
    assert (T2 : in_turn (event_pair f) a1 (a ++ q) ev').
    { apply (turn_permuted _ free (event_swaps f) _ _ P'); [now apply once_nodup| |exact T1]. intros x y X Y N. repeat split.
      - intros K. apply N. now apply (once_keys (a ++ q)).
      - apply NT. apply in_app_or in X. apply in_or_app. destruct X; [now left|now right; right].
      - apply NT. apply in_app_or in Y. apply in_or_app. destruct Y; [now left|now right; right].
      - intros [K _]. now apply (NS x).
      - intros [K _]. now apply (NS y). }
    assert (T3 : in_turn (event_pair f) ev ((lit "Style", v) :: a ++ q) ev') by (econstructor; eassumption).
    clear - F T3. revert ev T3. induction a as [|x a IH]; intros ev T3; [exact T3|]. inversion F as [|? ? [F1 F2] F3]; subst. cbn [app] in *.
    inversion T3 as [|? ? b1 ? ? S1 T4]; subst. inversion T4 as [|? ? b2 ? ? S2 T5]; subst. destruct (F2 _ _ _ S1 S2) as (b1' & Q1 & Q2).
    econstructor; [exact Q1|]. apply IH; [exact F3|]. econstructor; eassumption.
  - apply (turn_permuted _ free (event_swaps f) _ _ P); [now apply once_nodup| |exact T]. intros x y X Y N.
    assert (NS : forall kv, In kv p -> fst kv <> lit "Style") by (intros kv J K; apply I; rewrite <- K; now apply in_map). repeat split; auto.
    + intros K. apply N. now apply (once_keys p).
    + intros [K _]. now apply (NS x).
    + intros [K _]. now apply (NS y).
Qed.
Lemma event_reordered f kvs kvs' ev ev' : reordered kvs kvs' -> text_last kvs -> text_last kvs' -> style_first kvs -> style_first kvs' ->
  in_turn (event_pair f) ev kvs' ev' -> in_turn (event_pair f) ev kvs ev'.
Proof.
  intros R (p & t & E) (p' & t' & E') S S' T. pose proof (reordered_sym _ _ R) as R'. destruct R as [O P], R' as [O' _].
  assert (X : (lit "Text", t) = (lit "Text", t')).
  { apply (once_keys kvs); auto; [rewrite E; apply in_or_app; right; now left|]. apply (Permutation_in _ (Permutation_sym P)). rewrite E'. apply in_or_app. right. now left. }
  injection X as <-. subst kvs kvs'. apply Permutation_app_inv_r in P. apply turn_app in T. destruct T as (b & T1 & T2). apply turn_app. exists b. split; [|exact T2].
  apply (fields_before_text f p p'); auto; [now apply once_app_l in O| |now apply style_first_app_l in S|now apply style_first_app_l in S'].
  intros kv I K. unfold once in O. rewrite map_app in O. cbn [map] in O. apply NoDup_remove_2 in O. apply O. rewrite app_nil_r. cbn [fst]. rewrite <- K. now apply in_map.
Qed.

(** * Lines *)

Lemma trim_again_s s : trim (trim s) = trim s.
Proof. apply trim_iff. pose proof (proj1 (trim_iff s _) eq_refl) as (a & b & _ & _ & _ & B & E). exists [], []. rewrite app_nil_r. repeat split; auto. Qed.

Lemma word_line word l body f : In word [lit "Format"; lit "Style"; lit "Dialogue"] -> line_with word l body -> ssa_line f l = keyed_step f word body.
Proof.
  intros W (_ & u & B & K). apply (keyed_line _ u); auto. destruct K as (r & -> & _). cbn [In] in W. destruct W as [<-|[<-|[<-|[]]]]; intros [H|H]; discriminate H.
Qed.
Definition with_format (sf : str) (f : ssa_reader) : ssa_reader :=
  mkSsa (sr_part f) (sr_res_x f) (sr_res_y f) (sr_styles f) sf (sr_event_format f) (sr_subs f).
Definition with_events (ef : list str) (f : ssa_reader) : ssa_reader :=
  mkSsa (sr_part f) (sr_res_x f) (sr_res_y f) (sr_styles f) (sr_style_format f) ef (sr_subs f).
Lemma parts_one s v : parts_of [comma] s [v] -> v = s.
Proof. intros (_ & -> & _). reflexivity. Qed.
Lemma keyed_trimmed u k body : keyed u k body -> trim body = body.
Proof. intros (r & _ & _ & T). apply trim_iff in T. subst body. apply trim_again_s. Qed.
Lemma format_not_empty sf sf' ks ks' vs vs' kvs kvs' : parts_of [comma] sf ks -> parts_of [comma] sf' ks' -> trim sf = sf -> fields ks vs kvs -> fields ks' vs' kvs' -> Permutation kvs kvs' ->
  sf <> [] -> sf' <> [].
Proof.
  intros P P' T F F' PE N ->. apply N. assert (K : ks' = [[]]) by (apply parts_iff in P'; now rewrite <- P'). subst ks'. inversion F' as [|? ? ? ? k' v' ? TK TV F2]; subst. inversion F2; subst.
  apply trim_iff in TK. cbn in TK. subst k'. apply Permutation_sym, Permutation_length_1_inv in PE. subst kvs. inversion F as [|? ? ? ? k2 v2 ? TK2 TV2 F3]; subst. inversion F3; subst.
  apply parts_one in P. subst k. apply trim_iff in TK2. congruence.
Qed.
Lemma style_lines_reordered sf sf' ks ks' : parts_of [comma] sf ks -> parts_of [comma] sf' ks' -> trim sf = sf -> forall ls styles, 
  Forall2 (fun l kvs => exists body vs, line_with (lit "Style") l body /\ parts_of [comma] body vs /\ fields ks vs kvs) ls styles ->
  forall ls' styles', Forall2 (fun l kvs => exists body vs, line_with (lit "Style") l body /\ parts_of [comma] body vs /\ fields ks' vs kvs) ls' styles' ->
  Forall2 reordered styles styles' -> forall f g, sr_part f = STYLES -> sr_style_format f = sf -> ssa_lines f ls = Ok g ->
    sr_part g = STYLES /\ ssa_lines (with_format sf' f) ls' = Ok (with_format sf' g).
Proof.
  intros P P' TS ls styles F. induction F as [|l kvs ls styles (body & vs & W & PV & FI) F IH]; intros ls' styles' F' R f g SP SF.
  - inversion R; subst. inversion F'; subst. cbn [ssa_lines]. intros [= <-]. now split.
  - inversion R as [|? kvs' ? ? R1 R2]; subst. inversion F' as [|l2 ? ls2 ? (body' & vs' & W' & PV' & FI') F2]; subst. cbn [ssa_lines]. intros H.
    apply TakeOutProofs.bind_ok in H. destruct H as (f1 & H1 & H). rewrite (word_line _ _ _ _ (or_intror (or_introl eq_refl)) W) in H1. rewrite (word_line _ _ _ _ (or_intror (or_introl eq_refl)) W').
    destruct f as [p rx ry ss sf0 ef subs]. cbn [sr_part sr_style_format] in *. subst p. cbn [keyed_step with_format sr_part sr_res_x sr_res_y sr_styles sr_style_format sr_event_format sr_subs] in *.
    change (str_eqb (lit "Style") (lit "Format")) with false in *. change (str_eqb (lit "Style") (lit "Style")) with true in *. cbv iota in *.
    apply TakeOutProofs.bind_ok in H1. destruct H1 as (x & HA & H1). apply TakeOutProofs.bind_ok in H1. destruct H1 as (st & HS & [= <-]).
    assert (NE : sf' <> []). { apply (format_not_empty _ _ _ _ _ _ _ _ P P' TS FI FI' (proj2 R1)). intros ->. discriminate HA. }
    assert (S' : style_parse sf' body' = Ok st).
    { apply style_parse_iff in HS. destruct HS as (ks2 & vs2 & K2 & V2 & _ & T). rewrite (parts_unique _ _ _ _ K2 P), (parts_unique _ _ _ _ V2 PV) in T.
      apply style_parse_iff. exists ks', vs'. split; [exact P'|]. split; [exact PV'|]. split; [exact (fields_length _ _ _ FI')|]. apply (style_pairs _ _ _ FI').
      apply (style_reordered _ kvs); [now apply reordered_sym|]. now apply (style_pairs _ _ _ FI). }
    replace (sub_assert (negb (is_nil sf'))) with (Ok tt) by (destruct sf'; [congruence|reflexivity]). cbn [bind]. rewrite S'. cbn [bind].
    apply (IH _ _ F2 R2) in H; [|reflexivity..]. exact H.
Qed.

(** Without styles sections the keys of styles are not used. *)
Definition other_part (f : ssa_reader) : Prop := sr_part f <> STYLES.
Lemma dialogue_format sf f body : dialogue (with_format sf f) body = dialogue f body.
Proof.
  assert (E : forall kvs ev, event_fields (with_format sf f) ev kvs = event_fields f ev kvs).
  { induction kvs as [|[k v] kvs IH]; intros ev; [reflexivity|]. cbn [event_fields]. change (event_field (with_format sf f) ev k v) with (event_field f ev k v). destruct (event_field f ev k v); cbn [bind]; auto. }
  unfold dialogue. cbn [with_format sr_event_format]. destruct (sub_assert _); cbn [bind]; auto. destruct (reassemble _ _ _); cbn [bind]; auto. destruct (sub_assert _); cbn [bind]; auto. destruct (sub_assert _); cbn [bind]; auto.
  now rewrite E.
Qed.
Lemma line_format sf f l : other_part f -> (forall u, line_body l u -> ~ In u [lit "[V4 Styles]"; lit "[V4+ Styles]"]) ->
  ssa_line (with_format sf f) l = map_res (with_format sf) (ssa_line f l) /\ forall g, ssa_line f l = Ok g -> other_part g.
Proof.
  intros O N. rewrite !ssa_line_eq. cbv zeta. set (b := remove_unicode_bom (trim l)). specialize (N b (proj1 (line_body_iff l b) eq_refl)).
  destruct (starts_with b (lit ";") || is_nil b); [split; [reflexivity|now intros g [= <-]]|]. destruct (starts_with b (lit "[")).
  { destruct (str_eqb b (lit "[Script Info]")); [split; [reflexivity|now intros g [= <-]]|].
    rewrite (str_eqb_neq b (lit "[V4 Styles]")), (str_eqb_neq b (lit "[V4+ Styles]")) by (intros E; apply N; rewrite E; cbn; auto). cbn [orb].
    destruct (str_eqb b (lit "[Events]")); (split; [reflexivity|now intros g [= <-]]). }
  destruct (find_sub b (lit ":")) as [n|]; [|split; [reflexivity|discriminate]]. destruct f as [p rx ry ss sf0 ef subs]. unfold other_part in *. cbn [sr_part] in O.
  cbn [keyed_step with_format sr_part sr_res_x sr_res_y sr_styles sr_style_format sr_event_format sr_subs]. set (k := firstn n b). set (body := trim (skipn (n + 1) b)). destruct p; [|congruence|].
  - destruct (str_eqb k (lit "PlayResX")); [destruct (raw_convert_int body); cbn [bind map_res]; (split; [reflexivity|now intros g [= <-]])|].
    destruct (str_eqb k (lit "PlayResY")); [destruct (raw_convert_int body); cbn [bind map_res]; (split; [reflexivity|now intros g [= <-]])|]. split; [reflexivity|now intros g [= <-]].
  - destruct (str_eqb k (lit "Format")); [split; [reflexivity|now intros g [= <-]]|]. destruct (str_eqb k (lit "Dialogue")); [|split; [reflexivity|now intros g [= <-]]].
    rewrite dialogue_format.
    destruct (dialogue _ body); cbn [bind map_res]; (split; [reflexivity|now intros g [= <-]]).
Qed.
Lemma lines_format sf ls : Forall (fun l => forall u, line_body l u -> ~ In u [lit "[V4 Styles]"; lit "[V4+ Styles]"]) ls -> forall f, other_part f ->
  ssa_lines (with_format sf f) ls = map_res (with_format sf) (ssa_lines f ls).
Proof.
  induction 1 as [|l ls N F IH]; intros f O; [reflexivity|]. cbn [ssa_lines]. destruct (line_format sf f l O N) as [E G]. rewrite E. destruct (ssa_line f l) as [g| |]; cbn [map_res bind]; auto.
Qed.

(** * Files *)

Lemma section_lines ls : Forall (fun l => ~ In lf l) ls -> whole_lines (text_of_lines ls) /\ lines_of_string (text_of_lines ls) = ls.
Proof.
  intros F. split; [|now apply FileUseProofs.text_lines_of]. destruct ls as [|l ls]; [now left|]. right. destruct (FileUseProofs.text_last (l :: ls)) as (t & T); [discriminate|]. now exists t.
Qed.
Lemma rows_lf {A : Type} (Q : str -> A -> Prop) ls rows : (forall l r, Q l r -> ~ In lf l) -> Forall2 Q ls rows -> Forall (fun l => ~ In lf l) ls.
Proof. intros N F. induction F; constructor; eauto. Qed.
Lemma styles_in_order h styles styles' ls ls' a c r : whole_lines a -> styles_section h styles ls -> styles_section h styles' ls' -> Forall2 reordered styles styles' -> no_styles c ->
  ssa_reader_string (a ++ text_of_lines ls ++ lit "[Events]" ++ [lf] ++ c) = Ok r -> ssa_reader_string (a ++ text_of_lines ls' ++ lit "[Events]" ++ [lf] ++ c) = Ok r.
Proof.
  intros W (l & ks & rest & E & H & (sf & FW & P) & F) (l' & ks' & rest' & E' & _ & (sf' & FW' & P') & F') R NS.
  assert (NH : ~ In lf (lit h)) by (destruct H as [<-|[<-|[]]]; intros I; cbn in I; intuition discriminate).
  destruct (section_lines ls) as [W1 L1]. { subst ls. constructor; [exact NH|]. constructor; [apply FW|]. apply (rows_lf _ _ _) with (2 := F). intros x y (? & ? & [? _] & _). assumption. }
  destruct (section_lines ls') as [W2 L2]. { subst ls'. constructor; [exact NH|]. constructor; [apply FW'|]. apply (rows_lf _ _ _) with (2 := F'). intros x y (? & ? & [? _] & _). assumption. }
  unfold ssa_reader_string, ssa_read. rewrite !(string_lines_app a) by exact W. rewrite (string_lines_app (text_of_lines ls)) by exact W1. rewrite (string_lines_app (text_of_lines ls')) by exact W2. rewrite L1, L2.
  rewrite (app_assoc (lit "[Events]") [lf] c). rewrite (string_lines_app (lit "[Events]" ++ [lf])) by (right; now eexists).
  rewrite (one_line (lit "[Events]")) by (intros I; cbn in I; intuition discriminate). rewrite !ssa_lines_app.
  destruct (ssa_lines ssa_init (lines_of_string a)) as [f0| |]; cbn [bind]; [|discriminate..]. rewrite (ssa_lines_app ls), (ssa_lines_app ls'), E, E'. cbn [ssa_lines].
  assert (HL : ssa_line f0 (lit h) = Ok (with_part STYLES f0)) by (destruct H as [<-|[<-|[]]]; destruct f0; reflexivity). rewrite HL. cbn [bind].
  rewrite (word_line _ _ _ _ (or_introl eq_refl) FW), (word_line _ _ _ _ (or_introl eq_refl) FW').
  destruct f0 as [p rx ry ss sf0 ef subs]. cbn [with_part keyed_step sr_part sr_res_x sr_res_y sr_styles sr_style_format sr_event_format sr_subs].
  change (str_eqb (lit "Format") (lit "Format")) with true. cbv iota. cbn [bind].
  destruct (ssa_lines (mkSsa STYLES rx ry ss sf ef subs) rest) as [g| |] eqn:G; cbn [bind]; [|discriminate..].
  destruct FW as (_ & u & _ & K). pose proof (keyed_trimmed _ _ _ K) as TS.
  destruct (style_lines_reordered sf sf' ks ks' P P' TS rest styles F rest' styles' F' R (mkSsa STYLES rx ry ss sf ef subs) g eq_refl eq_refl G) as [SG G'].
  change (with_format sf' (mkSsa STYLES rx ry ss sf ef subs)) with (mkSsa STYLES rx ry ss sf' ef subs) in G'. rewrite G'. cbn [bind].
  assert (EV : forall g, ssa_line g (lit "[Events]") = Ok (with_part EVENTS g)) by (intros x; destruct x; reflexivity). cbn [app ssa_lines]. rewrite !EV. cbn [bind].
  change (with_part EVENTS (with_format sf' g)) with (with_format sf' (with_part EVENTS g)). rewrite lines_format.
  - destruct (ssa_lines (with_part EVENTS g) (lines_of_string c)) as [q| |]; cbn [bind map_res]; auto.
  - apply Forall_forall. intros x I u' B. apply (NS (lines_of_string c) x u'); auto. now apply lines_of_string_iff.
  - unfold other_part. cbn. discriminate.
Qed.
Lemma ssa_styles_order h styles styles' ls ls' a c : whole_lines a -> styles_section h styles ls -> styles_section h styles' ls' -> Forall2 reordered styles styles' -> no_styles c ->
  forall r, ssa_reader_string (a ++ text_of_lines ls ++ lit "[Events]" ++ [lf] ++ c) = Ok r <-> ssa_reader_string (a ++ text_of_lines ls' ++ lit "[Events]" ++ [lf] ++ c) = Ok r.
Proof.
  intros W S S' R N r. split; [now apply (styles_in_order h styles styles')|]. apply (styles_in_order h styles' styles); auto.
  clear - R. induction R; constructor; auto. now apply reordered_sym.
Qed.

Lemma event_lines_reordered ks ks' : forall ls events,
  Forall2 (fun l kvs => exists body vs, line_with (lit "Dialogue") l body /\ field_values (length ks) body vs /\ fields ks vs kvs) ls events ->
  forall ls' events', Forall2 (fun l kvs => exists body vs, line_with (lit "Dialogue") l body /\ field_values (length ks') body vs /\ fields ks' vs kvs) ls' events' ->
  Forall2 reordered events events' -> Forall text_last events -> Forall text_last events' -> Forall style_first events -> Forall style_first events' ->
  forall f g, sr_part f = EVENTS -> sr_event_format f = map trim ks -> ssa_lines f ls = Ok g -> ssa_lines (with_events (map trim ks') f) ls' = Ok (with_events (map trim ks') g).
Proof.
  intros ls events F. induction F as [|l kvs ls events (body & vs & W & PV & FI) F IH]; intros ls' events' F' R T T' S S' f g SP SF.
  - inversion R; subst. inversion F'; subst. cbn [ssa_lines]. now intros [= <-].
  - inversion R as [|? kvs' ? ? R1 R2]; subst. inversion F' as [|l2 ? ls2 ? (body' & vs' & W' & PV' & FI') F2]; subst.
    inversion T as [|? ? T1 T2]; subst. inversion T' as [|? ? T1' T2']; subst. inversion S as [|? ? S1 S2]; subst. inversion S' as [|? ? S1' S2']; subst. cbn [ssa_lines]. intros H.
    apply TakeOutProofs.bind_ok in H. destruct H as (f1 & H1 & H). rewrite (word_line _ _ _ _ (or_intror (or_intror (or_introl eq_refl))) W) in H1. rewrite (word_line _ _ _ _ (or_intror (or_intror (or_introl eq_refl))) W').
    destruct f as [p rx ry ss sf0 ef subs]. cbn [sr_part sr_event_format] in *. subst p ef. cbn [keyed_step with_events sr_part sr_res_x sr_res_y sr_styles sr_style_format sr_event_format sr_subs] in *.
    change (str_eqb (lit "Dialogue") (lit "Format")) with false in *. change (str_eqb (lit "Dialogue") (lit "Dialogue")) with true in *. cbv iota in *.
    apply TakeOutProofs.bind_ok in H1. destruct H1 as (raws & HD & [= <-]).
    assert (D' : dialogue (mkSsa EVENTS rx ry ss sf0 (map trim ks') subs) body' = Ok raws).
    { apply dialogue_iff in HD. destruct HD as (NE & vs2 & ev & V2 & TU & ->). cbn [sr_event_format] in *. rewrite map_length in V2.
      assert (vs2 = vs) by exact (field_values_unique _ _ _ _ V2 PV). subst vs2.
      apply dialogue_iff. split.
      - cbn [sr_event_format]. pose proof (fields_keys _ _ _ FI') as K. destruct T1' as (p & t & ->). rewrite <- K, map_app. now destruct (map fst p).
      - exists vs', ev. cbn [sr_event_format]. rewrite map_length. split; [exact PV'|]. split; [|reflexivity]. apply (event_pairs _ _ _ _ FI').
        apply (event_reordered _ _ kvs); auto; [now apply reordered_sym|]. apply (event_pairs (mkSsa EVENTS rx ry ss sf0 (map trim ks) subs) _ _ _ FI) in TU. 
        clear - TU. revert TU. generalize new_event. induction kvs as [|kv kvs IH]; intros e0 TU; inversion TU as [|? ? a1 ? ? E T]; subst; [constructor|].
        econstructor; [|apply IH; exact T]. clear - E. unfold event_pair in *. revert E. generalize (fst kv) (snd kv). intros k v E. destruct E; try (constructor; assumption); try (econstructor; eassumption). all: eapply entry_eq; [econstructor; eassumption|reflexivity]. }
    change (dialogue (with_events (map trim ks') _) body') with (dialogue (mkSsa EVENTS rx ry ss sf0 (map trim ks') subs) body'). rewrite D'. cbn [bind]. apply (IH _ _ F2 R2 T2 T2' S2 S2') in H; [|reflexivity..]. exact H.
Qed.
Lemma events_in_order events events' ls ls' a r : whole_lines a -> events_section events ls -> events_section events' ls' -> Forall2 reordered events events' ->
  Forall text_last events -> Forall text_last events' -> Forall style_first events -> Forall style_first events' ->
  ssa_reader_string (a ++ text_of_lines ls) = Ok r -> ssa_reader_string (a ++ text_of_lines ls') = Ok r.
Proof.
  intros W (l & ks & rest & E & (sf & FW & P) & F) (l' & ks' & rest' & E' & (sf' & FW' & P') & F') R T T' S S'.
  assert (NH : ~ In lf (lit "[Events]")) by (intros I; cbn in I; intuition discriminate).
  destruct (section_lines ls) as [W1 L1]. { subst ls. constructor; [exact NH|]. constructor; [apply FW|]. apply (rows_lf _ _ _) with (2 := F). intros x y (? & ? & [? _] & _). assumption. }
  destruct (section_lines ls') as [W2 L2]. { subst ls'. constructor; [exact NH|]. constructor; [apply FW'|]. apply (rows_lf _ _ _) with (2 := F'). intros x y (? & ? & [? _] & _). assumption. }
  unfold ssa_reader_string, ssa_read. rewrite !(string_lines_app a) by exact W. rewrite L1, L2. rewrite !ssa_lines_app.
  destruct (ssa_lines ssa_init (lines_of_string a)) as [f0| |]; cbn [bind]; [|discriminate..]. rewrite E, E'. cbn [ssa_lines].
  assert (HL : ssa_line f0 (lit "[Events]") = Ok (with_part EVENTS f0)) by (destruct f0; reflexivity). rewrite HL. cbn [bind].
  rewrite (word_line _ _ _ _ (or_introl eq_refl) FW), (word_line _ _ _ _ (or_introl eq_refl) FW').
  destruct f0 as [p rx ry ss sf0 ef subs]. cbn [with_part keyed_step sr_part sr_res_x sr_res_y sr_styles sr_style_format sr_event_format sr_subs].
  change (str_eqb (lit "Format") (lit "Format")) with true. cbv iota. cbn [bind]. apply parts_iff in P, P'. change (lit ",") with [comma]. rewrite P, P'.
  destruct (ssa_lines (mkSsa EVENTS rx ry ss sf0 (map trim ks) subs) rest) as [g| |] eqn:G; cbn [bind]; [|discriminate..]. intros [= <-].
  pose proof (event_lines_reordered ks ks' rest events F rest' events' F' R T T' S S' (mkSsa EVENTS rx ry ss sf0 (map trim ks) subs) g eq_refl eq_refl G) as G'.
  change (with_events (map trim ks') (mkSsa EVENTS rx ry ss sf0 (map trim ks) subs)) with (mkSsa EVENTS rx ry ss sf0 (map trim ks') subs) in G'. rewrite G'. reflexivity.
Qed.
Lemma ssa_events_order events events' ls ls' a : whole_lines a -> events_section events ls -> events_section events' ls' -> Forall2 reordered events events' ->
  Forall text_last events -> Forall text_last events' -> Forall style_first events -> Forall style_first events' ->
  forall r, ssa_reader_string (a ++ text_of_lines ls) = Ok r <-> ssa_reader_string (a ++ text_of_lines ls') = Ok r.
Proof.
  intros W E E' R T T' S S' r. split; [now apply (events_in_order events events')|]. apply (events_in_order events' events); auto.
  clear - R. induction R; constructor; auto. now apply reordered_sym.
Qed.

(** * Examples *)

Lemma line_of word l r body : existsb (Ascii.eqb lf) l = false -> remove_unicode_bom (trim l) = word ++ ":"%char :: r -> existsb (Ascii.eqb ":"%char) word = false -> trim r = body -> line_with word l body.
Proof.
  assert (N : forall c s, existsb (Ascii.eqb c) s = false -> ~ In c s).
  { intros c s E I. assert (X : existsb (Ascii.eqb c) s = true) by (apply existsb_exists; exists c; split; [exact I|apply Ascii.eqb_refl]). congruence. }
  intros A B C D. split; [now apply N|]. exists (word ++ ":"%char :: r). split; [now apply line_body_iff|]. exists r. split; [reflexivity|]. split; [now apply N|now apply trim_iff].
Qed.
Lemma fields_of ks : forall vs kvs, length ks = length vs -> combine (map trim ks) (map trim vs) = kvs -> fields ks vs kvs.
Proof.
  induction ks as [|k ks IH]; intros [|v vs] kvs L; cbn; try discriminate; intros <-; constructor; try now apply trim_iff. apply IH; [cbn in L; congruence|reflexivity].
Qed.
Lemma values_of n vs body : length vs = n -> join [comma] vs = body -> forallb (fun v => negb (existsb (Ascii.eqb comma) v)) (removelast vs) = true -> field_values n body vs.
Proof.
  intros L E F. split; [exact L|]. split; [now symmetry|]. apply Forall_forall. intros v I J. rewrite forallb_forall in F. specialize (F v I). apply negb_true_iff in F.
  assert (X : existsb (Ascii.eqb comma) v = true) by (apply existsb_exists; exists comma; split; [exact J|apply Ascii.eqb_refl]). congruence.
Qed.
Fixpoint no_repeats (l : list str) : bool := match l with [] => true | a :: t => negb (existsb (str_eqb a) t) && no_repeats t end.
Lemma once_of kvs : no_repeats (map fst kvs) = true -> once kvs.
Proof.
  unfold once. induction (map fst kvs) as [|a l IH]; intros H; constructor; cbn in H; apply andb_true_iff in H; destruct H as [H1 H2]; auto.
  intros I. apply negb_true_iff in H1. assert (X : existsb (str_eqb a) l = true) by (apply existsb_exists; exists a; split; [exact I|now apply str_eqb_iff]). congruence.
Qed.
