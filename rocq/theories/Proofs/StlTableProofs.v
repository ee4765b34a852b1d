(** Proofs about the STL code tables. *)
From Coq Require Import ZArith List Bool Ascii String Lia.
From Verif.Model Require Import Base Strings Compose StlTables.
From Verif.Spec Require Import Outcome TextSpec ComposeSpec StlTableSpec.
From Verif.Proofs Require Import StringProofs ComposeProofs.
Import ListNotations.
Local Open Scope Z_scope.
Local Notation length := List.length.

(** * Equality of enumerators *)

Definition good_eqb {E : Type} (eqb : E -> E -> bool) : Prop := forall a b, eqb a b = true <-> a = b.
Lemma eqb_by_index {E : Type} (eqb : E -> E -> bool) (index : E -> nat) (back : nat -> E) :
  (forall a b, eqb a b = Nat.eqb (index a) (index b)) -> (forall a, back (index a) = a) -> good_eqb eqb.
Proof.
  intros H B a b. rewrite H, Nat.eqb_eq. split; [|congruence]. intros E0. rewrite <- (B a), <- (B b). now rewrite E0.
Qed.

Lemma language_eqb_ok : good_eqb language_eqb.
Proof.
  set (all := [LANGUAGE_UNKNOWN; LANGUAGE_ALBANIAN; LANGUAGE_BRETON; LANGUAGE_CATALAN; LANGUAGE_CROATIAN; LANGUAGE_WELSH;
    LANGUAGE_CZECH; LANGUAGE_DANISH; LANGUAGE_GERMAN; LANGUAGE_ENGLISH; LANGUAGE_SPANISH; LANGUAGE_ESPERANTO;
    LANGUAGE_ESTONIAN; LANGUAGE_BASQUE; LANGUAGE_FAROESE; LANGUAGE_FRENCH; LANGUAGE_FRISIAN; LANGUAGE_IRISH; LANGUAGE_GAELIC;
    LANGUAGE_GALACIAN; LANGUAGE_ICELANDIC; LANGUAGE_ITALIAN; LANGUAGE_LAPPISH; LANGUAGE_LATIN; LANGUAGE_LATVIAN;
    LANGUAGE_LUXEMBORGIAN; LANGUAGE_LITHUANIAN; LANGUAGE_HUNGARIAN; LANGUAGE_MALTESE; LANGUAGE_DUTCH; LANGUAGE_NORWEGIAN;
    LANGUAGE_OCCITAN; LANGUAGE_POLISH; LANGUAGE_PORTUGESE; LANGUAGE_ROMANIAN; LANGUAGE_ROMANSH; LANGUAGE_SERBIAN;
    LANGUAGE_SLOVAK; LANGUAGE_SLOVENIAN; LANGUAGE_FINNISH; LANGUAGE_SWEDISH; LANGUAGE_TURKISH; LANGUAGE_FLEMISH;
    LANGUAGE_WALLON; LANGUAGE_AMHARIC; LANGUAGE_ARABIC; LANGUAGE_ARMENIAN; LANGUAGE_ASSAMESE; LANGUAGE_AZERBAIJANI;
    LANGUAGE_BAMBORA; LANGUAGE_BIELORUSSIAN; LANGUAGE_BENGALI; LANGUAGE_BULGARIAN; LANGUAGE_BURMESE; LANGUAGE_CHINESE;
    LANGUAGE_CHURASH; LANGUAGE_DARI; LANGUAGE_FULANI; LANGUAGE_GEORGIAN; LANGUAGE_GREEK; LANGUAGE_GUJURATI; LANGUAGE_GURANI;
    LANGUAGE_HAUSA; LANGUAGE_HEBREW; LANGUAGE_HINDI; LANGUAGE_INDONESIAN; LANGUAGE_JAPANESE; LANGUAGE_KANNADA;
    LANGUAGE_KAZAKH; LANGUAGE_KHMER; LANGUAGE_KOREAN; LANGUAGE_LAOTIAN; LANGUAGE_MACEDONIAN; LANGUAGE_MALAGASAY;
    LANGUAGE_MALAYSIAN; LANGUAGE_MOLDAVIAN; LANGUAGE_MARATHI; LANGUAGE_NDEBELE; LANGUAGE_NEPALI; LANGUAGE_ORIYA;
    LANGUAGE_PAPAMIENTO; LANGUAGE_PERSIAN; LANGUAGE_PUNJABI; LANGUAGE_PUSHTU; LANGUAGE_QUECHUA; LANGUAGE_RUSSIAN;
    LANGUAGE_RUTHENIAN; LANGUAGE_SERBO_CROAT; LANGUAGE_SHONA; LANGUAGE_SINHALESE; LANGUAGE_SOMALI; LANGUAGE_SRANAN_TONGO;
    LANGUAGE_SWAHILI; LANGUAGE_TADZHIK; LANGUAGE_TAMIL; LANGUAGE_TATAR; LANGUAGE_TELUGU; LANGUAGE_THAI; LANGUAGE_UKRANIAN;
    LANGUAGE_URDU; LANGUAGE_UZBEK; LANGUAGE_VIETNAMESE; LANGUAGE_ZULU]).
  unfold language_eqb.
  match goal with |- good_eqb (fun a b => Nat.eqb (@?i a) _) =>
    apply (eqb_by_index _ i (fun n => nth n all LANGUAGE_UNKNOWN)) end.
  - reflexivity.
  - intros a. destruct a; reflexivity.
Qed.
Ltac small_eqb := intros a b; destruct a, b; vm_compute; split; congruence.
Lemma display_standard_eqb_ok : good_eqb display_standard_eqb. Proof. small_eqb. Qed.
Lemma language_group_eqb_ok : good_eqb language_group_eqb. Proof. small_eqb. Qed.
Lemma timecode_status_eqb_ok : good_eqb timecode_status_eqb. Proof. small_eqb. Qed.
Lemma cumulative_status_eqb_ok : good_eqb cumulative_status_eqb. Proof. small_eqb. Qed.
Lemma justification_eqb_ok : good_eqb justification_eqb. Proof. small_eqb. Qed.
Lemma stl_comment_eqb_ok : good_eqb stl_comment_eqb. Proof. small_eqb. Qed.

(** * Tables without repetition *)

Fixpoint nodup_b {A : Type} (eqb : A -> A -> bool) (l : list A) : bool :=
  match l with [] => true | a :: t => negb (existsb (eqb a) t) && nodup_b eqb t end.
Lemma nodup_b_ok {A : Type} (eqb : A -> A -> bool) l : good_eqb eqb -> nodup_b eqb l = true -> NoDup l.
Proof.
  intros G. induction l as [|a t IH]; cbn; intros H; constructor; apply andb_true_iff in H; destruct H as [H1 H2].
  - intros I. apply negb_true_iff in H1. rewrite <- not_true_iff_false in H1. apply H1. apply existsb_exists. exists a.
    split; [exact I|now apply G].
  - now apply IH.
Qed.

Definition rows_ok {F E : Type} (feqb : F -> F -> bool) (eeqb : E -> E -> bool) (t : list (F * E * str)) : bool :=
  nodup_b feqb (map (fun r => fst (fst r)) t) && nodup_b eeqb (map (fun r => snd (fst r)) t) && nodup_b str_eqb (map snd t).

Lemma nodup_map {A B : Type} (f : A -> B) l a b : NoDup (map f l) -> In a l -> In b l -> f a = f b -> a = b.
Proof.
  induction l as [|x l IH]; cbn; [tauto|]. intros N. inversion N as [|y z N1 N2]; subst. intros [->|A1] [->|B1] E; auto.
  - exfalso. apply N1. rewrite E. now apply in_map.
  - exfalso. apply N1. rewrite <- E. now apply in_map.
Qed.

Lemma rows_one_to_one {F E : Type} (feqb : F -> F -> bool) (eeqb : E -> E -> bool) (t : list (F * E * str)) :
  good_eqb feqb -> good_eqb eeqb -> rows_ok feqb eeqb t = true -> (forall e, exists c d, In (c, e, d) t) -> one_to_one t.
Proof.
  intros GF GE R T. split; [exact T|]. unfold rows_ok in R. apply andb_true_iff in R. destruct R as [R R3].
  apply andb_true_iff in R. destruct R as [R1 R2].
  apply (nodup_b_ok feqb) in R1; [|exact GF]. apply (nodup_b_ok eeqb) in R2; [|exact GE].
  apply (nodup_b_ok str_eqb) in R3; [|exact str_eqb_iff].
  intros c1 e1 d1 c2 e2 d2 I1 I2 H.
  assert (E0 : (c1, e1, d1) = (c2, e2, d2)); [|injection E0 as -> -> ->; auto].
  destruct H as [H|[H|H]]; [eapply (nodup_map _ _ _ _ R1)|eapply (nodup_map _ _ _ _ R2)|eapply (nodup_map _ _ _ _ R3)]; eauto.
Qed.

(** * Table look up *)

Definition str_rows {E : Type} (m : stl_table string E) : list (str * E * str) :=
  map (fun r => (lit (fst r), fst (snd r), lit (snd (snd r)))) m.
Definition int_rows {E : Type} (m : stl_table Z E) : list (Z * E * str) :=
  map (fun r => (fst r, fst (snd r), lit (snd (snd r)))) m.

Lemma file_to_enum_some {E : Type} (m : stl_table string E) k e :
  NoDup (map (fun r => fst (fst r)) (str_rows m)) ->
  (file_to_enum k m = Some e <-> exists d, In (k, e, d) (str_rows m)).
Proof.
  intros N. induction m as [|[f [e' d]] m IH]; cbn in *; [split; [discriminate|intros [d []]]|].
  inversion N as [|x y N1 N2]; subst. specialize (IH N2). destruct (str_eqb (lit f) k) eqn:Q.
  - apply str_eqb_iff in Q. subst k. split.
    + intros [= ->]. exists (lit d). now left.
    + intros [d' [X|I]]; [congruence|]. exfalso. apply N1. apply in_map_iff. now exists (lit f, e, d').
  - rewrite IH. split; intros [d' I]; exists d'; [now right|]. destruct I as [X|I]; [|exact I].
    assert (X1 : lit f = k) by exact (f_equal (fun r => fst (fst r)) X). rewrite X1, str_eqb_refl in Q. discriminate.
Qed.

Lemma file_to_enum_int_some {E : Type} (m : stl_table Z E) k e :
  NoDup (map (fun r => fst (fst r)) (int_rows m)) ->
  (file_to_enum_int k m = Some e <-> exists d, In (k, e, d) (int_rows m)).
Proof.
  intros N. induction m as [|[f [e' d]] m IH]; cbn in *; [split; [discriminate|intros [d []]]|].
  inversion N as [|x y N1 N2]; subst. specialize (IH N2). destruct (f =? k) eqn:Q.
  - apply Z.eqb_eq in Q. subst k. split.
    + intros [= ->]. exists (lit d). now left.
    + intros [d' [X|I]]; [congruence|]. exfalso. apply N1. apply in_map_iff. now exists (f, e, d').
  - rewrite IH. split; intros [d' I]; exists d'; [now right|]. destruct I as [X|I]; [|exact I].
    injection X as X _ _. rewrite X, Z.eqb_refl in Q. discriminate.
Qed.

Lemma unknown_message name k : name <> [] ->
  compose (lit "Unknown %1 %2 in binary STL file") [name; k] =
  lit "Unknown " ++ name ++ lit " " ++ k ++ lit " in binary STL file".
Proof.
  intros N. unfold compose.
  assert (A : numbered_args [name; k] = name :: match k with [] => [] | _ => [k] end).
  { destruct name; [congruence|]. destruct k; reflexivity. }
  set (p := compose_parse _ _). vm_compute in p. subst p. cbn [flat_map compose_piece]. rewrite A. cbn [Z.leb].
  destruct k; cbn; rewrite <- ?app_assoc; reflexivity.
Qed.

Lemma str_table {E : Type} (eeqb : E -> E -> bool) (m : stl_table string E) name t :
  t = str_rows m -> rows_ok str_eqb eeqb t = true -> lit name <> [] ->
  reads_table (fun s => file_to_enum_or_throw s m name) (fun s => s) name t.
Proof.
  intros -> R NN. unfold rows_ok in R. apply andb_true_iff in R. destruct R as [R _].
  apply andb_true_iff in R. destruct R as [R _]. apply (nodup_b_ok str_eqb) in R; [|exact str_eqb_iff].
  unfold reads_table, file_to_enum_or_throw. split; [|split].
  - intros c e. rewrite <- (file_to_enum_some m c e R). destruct (file_to_enum c m); split; congruence.
  - intros c N. destruct (file_to_enum c m) as [e|] eqn:Q.
    + apply (file_to_enum_some m c e R) in Q. destruct Q as [d I]. now destruct (N e d).
    + now rewrite unknown_message.
  - intros c. destruct (file_to_enum c m); eauto.
Qed.

Lemma int_table {E : Type} (eeqb : E -> E -> bool) (m : stl_table Z E) name t :
  t = int_rows m -> rows_ok Z.eqb eeqb t = true -> lit name <> [] ->
  reads_table (fun s => file_to_enum_int_or_throw s m name) print_int name t.
Proof.
  intros -> R NN. unfold rows_ok in R. apply andb_true_iff in R. destruct R as [R _].
  apply andb_true_iff in R. destruct R as [R _]. apply (nodup_b_ok Z.eqb) in R; [|exact Z.eqb_eq].
  unfold reads_table, file_to_enum_int_or_throw. split; [|split].
  - intros c e. rewrite <- (file_to_enum_int_some m c e R). destruct (file_to_enum_int c m); split; congruence.
  - intros c N. destruct (file_to_enum_int c m) as [e|] eqn:Q.
    + apply (file_to_enum_int_some m c e R) in Q. destruct Q as [d I]. now destruct (N e d).
    + now rewrite unknown_message.
  - intros c. destruct (file_to_enum_int c m); eauto.
Qed.

Lemma enum_to_file_ok {F E : Type} (eeqb : E -> E -> bool) (m : stl_table F E) e c : good_eqb eeqb ->
  NoDup (map (fun r => fst (snd r)) m) ->
  (enum_to_file eeqb e m = Ok c <-> exists d, In (c, (e, d)) m).
Proof.
  intros G N. induction m as [|[f [e' d]] m IH]; cbn in *; [split; [discriminate|intros [d []]]|].
  inversion N as [|x y N1 N2]; subst. specialize (IH N2). destruct (eeqb e' e) eqn:Q.
  - apply G in Q. subst e'. split.
    + intros [= ->]. exists d. now left.
    + intros [d' [X|I]]; [congruence|]. exfalso. apply N1. apply in_map_iff. now exists (c, (e, d')).
  - rewrite IH. split; intros [d' I]; exists d'; [now right|]. destruct I as [X|I]; [|exact I].
    injection X as _ X _. apply G in X. congruence.
Qed.

Lemma enum_to_description_ok {F E : Type} (eeqb : E -> E -> bool) (m : stl_table F E) e d : good_eqb eeqb ->
  NoDup (map (fun r => fst (snd r)) m) -> (exists c d0, In (c, (e, d0)) m) ->
  (enum_to_description eeqb e m = d <-> exists c d0, In (c, (e, d0)) m /\ lit d0 = d).
Proof.
  intros G N T. induction m as [|[f [e' d']] m IH]; cbn in *; [destruct T as (c & d0 & [])|].
  inversion N as [|x y N1 N2]; subst. destruct (eeqb e' e) eqn:Q.
  - apply G in Q. subst e'. split.
    + intros <-. exists f, d'. auto.
    + intros (c & d0 & [X|I] & <-); [congruence|]. exfalso. apply N1. apply in_map_iff. now exists (c, (e, d0)).
  - assert (T' : exists c d0, In (c, (e, d0)) m).
    { destruct T as (c & d0 & [X|I]); [|eauto]. injection X as _ X _. apply G in X. congruence. }
    rewrite (IH N2 T'). split.
    + intros (c & d0 & I & X). exists c, d0. auto.
    + intros (c & d0 & [X|I] & Y); [|eauto]. injection X as _ X _. apply G in X. congruence.
Qed.

Lemma str_rows_in {E : Type} (m : stl_table string E) c e d :
  In (c, e, d) (str_rows m) <-> exists f x, In (f, (e, x)) m /\ lit f = c /\ lit x = d.
Proof.
  unfold str_rows. rewrite in_map_iff. split.
  - intros [[f [e' x]] [X I]]. cbn in X. injection X as <- <- <-. eauto.
  - intros (f & x & I & <- & <-). now exists (f, (e, x)).
Qed.
Lemma int_rows_in {E : Type} (m : stl_table Z E) c e d :
  In (c, e, d) (int_rows m) <-> exists x, In (c, (e, x)) m /\ lit x = d.
Proof.
  unfold int_rows. rewrite in_map_iff. split.
  - intros [[f [e' x]] [X I]]. cbn in X. injection X as <- <- <-. eauto.
  - intros (x & I & <-). now exists (c, (e, x)).
Qed.

Lemma rows_enum_nodup {F E : Type} (feqb : F -> F -> bool) (eeqb : E -> E -> bool) (t : list (F * E * str)) :
  good_eqb eeqb -> rows_ok feqb eeqb t = true -> NoDup (map (fun r => snd (fst r)) t).
Proof.
  intros G R. unfold rows_ok in R. apply andb_true_iff in R. destruct R as [R _]. apply andb_true_iff in R. destruct R as [_ R].
  now apply (nodup_b_ok eeqb).
Qed.

Lemma str_describes {E : Type} (eeqb : E -> E -> bool) (m : stl_table string E) t :
  good_eqb eeqb -> t = str_rows m -> rows_ok str_eqb eeqb t = true -> (forall e, exists c d, In (c, e, d) t) ->
  describes_table (fun e => enum_to_description eeqb e m) t.
Proof.
  intros G -> R T e d. pose proof (rows_enum_nodup str_eqb eeqb _ G R) as N. unfold str_rows in N. rewrite map_map in N.
  destruct (T e) as (c0 & d0 & I0). apply str_rows_in in I0. destruct I0 as (f & x & I0 & _).
  rewrite (enum_to_description_ok eeqb m e d G N) by eauto. split.
  - intros (c & x' & I & X). exists (lit c). apply str_rows_in. eauto.
  - intros (c & I). apply str_rows_in in I. destruct I as (f' & x' & I & _ & X). eauto.
Qed.
Lemma int_describes {E : Type} (eeqb : E -> E -> bool) (m : stl_table Z E) t :
  good_eqb eeqb -> t = int_rows m -> rows_ok Z.eqb eeqb t = true -> (forall e, exists c d, In (c, e, d) t) ->
  describes_table (fun e => enum_to_description eeqb e m) t.
Proof.
  intros G -> R T e d. pose proof (rows_enum_nodup Z.eqb eeqb _ G R) as N. unfold int_rows in N. rewrite map_map in N.
  destruct (T e) as (c0 & d0 & I0). apply int_rows_in in I0. destruct I0 as (x & I0 & _).
  rewrite (enum_to_description_ok eeqb m e d G N) by eauto. split.
  - intros (c & x' & I & X). exists c. apply int_rows_in. eauto.
  - intros (c & I). apply int_rows_in in I. destruct I as (x' & I & X). eauto.
Qed.

Lemma int_writes {E : Type} (eeqb : E -> E -> bool) (m : stl_table Z E) t :
  good_eqb eeqb -> t = int_rows m -> rows_ok Z.eqb eeqb t = true -> writes_table (fun e => enum_to_file eeqb e m) t.
Proof.
  intros G -> R c e. pose proof (rows_enum_nodup Z.eqb eeqb _ G R) as N. unfold int_rows in N. rewrite map_map in N.
  rewrite (enum_to_file_ok eeqb m e c G N). split.
  - intros [d I]. exists (lit d). apply int_rows_in. eauto.
  - intros [d I]. apply int_rows_in in I. destruct I as (x & I & _). eauto.
Qed.

Lemma lit_inj a b : lit a = lit b -> a = b.
Proof. unfold lit. intros H. rewrite <- (string_of_list_ascii_of_string a), <- (string_of_list_ascii_of_string b). now rewrite H. Qed.

Lemma str_writes {E : Type} (eeqb : E -> E -> bool) (m : stl_table string E) t :
  good_eqb eeqb -> t = str_rows m -> rows_ok str_eqb eeqb t = true ->
  writes_table (fun e => let* c := enum_to_file eeqb e m in Ok (lit c)) t.
Proof.
  intros G -> R c e. pose proof (rows_enum_nodup str_eqb eeqb _ G R) as N. unfold str_rows in N. rewrite map_map in N.
  split.
  - destruct (enum_to_file eeqb e m) as [f| |] eqn:Q; cbn; try discriminate. intros [= <-].
    apply (enum_to_file_ok eeqb m e f G N) in Q. destruct Q as [d I]. exists (lit d). apply str_rows_in. eauto.
  - intros [d I]. apply str_rows_in in I. destruct I as (f & x & I & <- & _).
    assert (Q : enum_to_file eeqb e m = Ok f) by (apply (enum_to_file_ok eeqb m e f G N); eauto). now rewrite Q.
Qed.

(** * The tables *)

Lemma languages_rows : ebu_languages = str_rows language_map. Proof. vm_compute. reflexivity. Qed.
Lemma display_rows : ebu_display_standards = str_rows display_standard_map. Proof. vm_compute. reflexivity. Qed.
Lemma timecode_rows : ebu_timecode_statuses = str_rows timecode_status_map. Proof. vm_compute. reflexivity. Qed.
Lemma cumulative_rows : ebu_cumulative_statuses = int_rows cumulative_status_map. Proof. vm_compute. reflexivity. Qed.
Lemma justification_rows : ebu_justifications = int_rows justification_map. Proof. vm_compute. reflexivity. Qed.
Lemma comment_rows : ebu_comments = int_rows comment_map. Proof. vm_compute. reflexivity. Qed.

Lemma languages_ok : rows_ok str_eqb language_eqb ebu_languages = true. Proof. vm_compute. reflexivity. Qed.
Lemma display_ok : rows_ok str_eqb display_standard_eqb ebu_display_standards = true. Proof. vm_compute. reflexivity. Qed.
Lemma timecode_ok : rows_ok str_eqb timecode_status_eqb ebu_timecode_statuses = true. Proof. vm_compute. reflexivity. Qed.
Lemma cumulative_ok : rows_ok Z.eqb cumulative_status_eqb ebu_cumulative_statuses = true. Proof. vm_compute. reflexivity. Qed.
Lemma justification_ok : rows_ok Z.eqb justification_eqb ebu_justifications = true. Proof. vm_compute. reflexivity. Qed.
Lemma comment_ok : rows_ok Z.eqb stl_comment_eqb ebu_comments = true. Proof. vm_compute. reflexivity. Qed.

(** Every enumerator has a row: look for it. *)
Lemma row_found {F E : Type} (eeqb : E -> E -> bool) (t : list (F * E * str)) e : good_eqb eeqb ->
  existsb (fun r => eeqb (snd (fst r)) e) t = true -> exists c d, In (c, e, d) t.
Proof.
  intros G H. apply existsb_exists in H. destruct H as [[[c e'] d] [I Q]]. cbn in Q. apply G in Q. subst. eauto.
Qed.
Ltac found G := let e := fresh in intros e; apply (row_found _ _ _ G); destruct e; vm_compute; reflexivity.
Lemma languages_total e : exists c d, In (c, e, d) ebu_languages. Proof. revert e. found language_eqb_ok. Qed.
Lemma display_total e : exists c d, In (c, e, d) ebu_display_standards. Proof. revert e. found display_standard_eqb_ok. Qed.
Lemma timecode_total e : exists c d, In (c, e, d) ebu_timecode_statuses. Proof. revert e. found timecode_status_eqb_ok. Qed.
Lemma cumulative_total e : exists c d, In (c, e, d) ebu_cumulative_statuses. Proof. revert e. found cumulative_status_eqb_ok. Qed.
Lemma justification_total e : exists c d, In (c, e, d) ebu_justifications. Proof. revert e. found justification_eqb_ok. Qed.
Lemma comment_total e : exists c d, In (c, e, d) ebu_comments. Proof. revert e. found stl_comment_eqb_ok. Qed.

Lemma languages_table : one_to_one ebu_languages /\
  reads_table language_file_to_enum (fun s => s) "language code" ebu_languages /\
  writes_table (fun l => let* c := language_enum_to_file l in Ok (lit c)) ebu_languages /\
  describes_table language_enum_to_description ebu_languages.
Proof.
  split; [|split; [|split]].
  - apply (rows_one_to_one str_eqb language_eqb); [exact str_eqb_iff|exact language_eqb_ok|exact languages_ok|exact languages_total].
  - apply (str_table language_eqb language_map); [exact languages_rows|exact languages_ok|discriminate].
  - apply (str_writes language_eqb language_map); [exact language_eqb_ok|exact languages_rows|exact languages_ok].
  - apply (str_describes language_eqb language_map);
      [exact language_eqb_ok|exact languages_rows|exact languages_ok|exact languages_total].
Qed.

Lemma description_back d l : language_description_to_enum d = Some l <-> exists c, In (c, l, d) ebu_languages.
Proof.
  unfold language_description_to_enum. rewrite languages_rows.
  assert (N : NoDup (map (fun r => snd (snd r)) language_map)).
  { apply (nodup_b_ok String.eqb); [intros a b; apply String.eqb_eq|vm_compute; reflexivity]. }
  revert N. generalize language_map. intros m N. induction m as [|[f [e x]] m IH]; cbn in *; [split; [discriminate|intros [c []]]|].
  inversion N as [|y z N1 N2]; subst. specialize (IH N2). destruct (str_eqb (lit x) d) eqn:Q.
  - apply str_eqb_iff in Q. subst d. split.
    + intros [= ->]. exists (lit f). now left.
    + intros [c [X|I]]; [congruence|]. exfalso. apply N1. apply str_rows_in in I. destruct I as (f' & x' & I & _ & X).
      apply lit_inj in X. subst. apply in_map_iff. now exists (f', (l, x)).
  - rewrite IH. split; intros [c I]; exists c; [now right|]. destruct I as [X|I]; [|exact I].
    assert (X1 : lit x = d) by exact (f_equal snd X). rewrite X1, str_eqb_refl in Q. discriminate.
Qed.

Lemma display_table : one_to_one ebu_display_standards /\
  reads_table display_standard_file_to_enum (fun s => s) "display standard code" ebu_display_standards /\
  describes_table display_standard_enum_to_description ebu_display_standards.
Proof.
  split; [|split].
  - apply (rows_one_to_one str_eqb display_standard_eqb); [exact str_eqb_iff|exact display_standard_eqb_ok|exact display_ok|exact display_total].
  - apply (str_table display_standard_eqb display_standard_map); [exact display_rows|exact display_ok|discriminate].
  - apply (str_describes display_standard_eqb display_standard_map);
      [exact display_standard_eqb_ok|exact display_rows|exact display_ok|exact display_total].
Qed.
Lemma timecode_table : one_to_one ebu_timecode_statuses /\
  reads_table timecode_status_file_to_enum (fun s => s) "timecode status code" ebu_timecode_statuses /\
  describes_table timecode_status_enum_to_description ebu_timecode_statuses.
Proof.
  split; [|split].
  - apply (rows_one_to_one str_eqb timecode_status_eqb); [exact str_eqb_iff|exact timecode_status_eqb_ok|exact timecode_ok|exact timecode_total].
  - apply (str_table timecode_status_eqb timecode_status_map); [exact timecode_rows|exact timecode_ok|discriminate].
  - apply (str_describes timecode_status_eqb timecode_status_map);
      [exact timecode_status_eqb_ok|exact timecode_rows|exact timecode_ok|exact timecode_total].
Qed.
Lemma cumulative_table : one_to_one ebu_cumulative_statuses /\
  reads_table cumulative_status_file_to_enum print_int "cumulative status code" ebu_cumulative_statuses /\
  writes_table cumulative_status_enum_to_file ebu_cumulative_statuses /\
  describes_table cumulative_status_enum_to_description ebu_cumulative_statuses.
Proof.
  split; [|split; [|split]].
  - apply (rows_one_to_one Z.eqb cumulative_status_eqb); [exact Z.eqb_eq|exact cumulative_status_eqb_ok|exact cumulative_ok|exact cumulative_total].
  - apply (int_table cumulative_status_eqb cumulative_status_map); [exact cumulative_rows|exact cumulative_ok|discriminate].
  - apply (int_writes cumulative_status_eqb cumulative_status_map); [exact cumulative_status_eqb_ok|exact cumulative_rows|exact cumulative_ok].
  - apply (int_describes cumulative_status_eqb cumulative_status_map);
      [exact cumulative_status_eqb_ok|exact cumulative_rows|exact cumulative_ok|exact cumulative_total].
Qed.
Lemma justification_table : one_to_one ebu_justifications /\
  reads_table justification_file_to_enum print_int "justification code" ebu_justifications /\
  writes_table justification_enum_to_file ebu_justifications /\
  describes_table justification_enum_to_description ebu_justifications.
Proof.
  split; [|split; [|split]].
  - apply (rows_one_to_one Z.eqb justification_eqb); [exact Z.eqb_eq|exact justification_eqb_ok|exact justification_ok|exact justification_total].
  - apply (int_table justification_eqb justification_map); [exact justification_rows|exact justification_ok|discriminate].
  - apply (int_writes justification_eqb justification_map); [exact justification_eqb_ok|exact justification_rows|exact justification_ok].
  - apply (int_describes justification_eqb justification_map);
      [exact justification_eqb_ok|exact justification_rows|exact justification_ok|exact justification_total].
Qed.
Lemma comment_table : one_to_one ebu_comments /\
  reads_table comment_file_to_enum print_int "comment code" ebu_comments /\
  writes_table comment_enum_to_file ebu_comments /\
  describes_table comment_enum_to_description ebu_comments.
Proof.
  split; [|split; [|split]].
  - apply (rows_one_to_one Z.eqb stl_comment_eqb); [exact Z.eqb_eq|exact stl_comment_eqb_ok|exact comment_ok|exact comment_total].
  - apply (int_table stl_comment_eqb comment_map); [exact comment_rows|exact comment_ok|discriminate].
  - apply (int_writes stl_comment_eqb comment_map); [exact stl_comment_eqb_ok|exact comment_rows|exact comment_ok].
  - apply (int_describes stl_comment_eqb comment_map);
      [exact stl_comment_eqb_ok|exact comment_rows|exact comment_ok|exact comment_total].
Qed.

(** The language group table: U8 is wrong. *)
Lemma language_group_codes c e : c <> lit "U8" ->
  (language_group_file_to_enum c = Ok e <-> exists d, In (c, e, d) ebu_language_groups).
Proof.
  intros N. unfold language_group_file_to_enum, file_to_enum_or_throw.
  assert (R : NoDup (map (fun r => fst (fst r)) (str_rows language_group_map))).
  { apply (nodup_b_ok str_eqb); [exact str_eqb_iff|vm_compute; reflexivity]. }
  assert (X : str_rows language_group_map = ebu_language_groups ++ [(lit "U8", LANGUAGE_GROUP_LATIN_HEBREW, lit "UTF-8")])
    by (vm_compute; reflexivity).
  assert (Y : file_to_enum c language_group_map = Some e <-> exists d, In (c, e, d) ebu_language_groups).
  { rewrite (file_to_enum_some _ c e R), X. split.
    - intros [d I]. apply in_app_or in I. destruct I as [I|[I|[]]]; [eauto|].
      apply (f_equal (fun r => fst (fst r))) in I. cbn [fst] in I. congruence.
    - intros [d I]. exists d. apply in_or_app. now left. }
  rewrite <- Y. destruct (file_to_enum c language_group_map); split; congruence.
Qed.
Lemma language_group_unknown c : c <> lit "U8" -> (forall e d, ~ In (c, e, d) ebu_language_groups) ->
  language_group_file_to_enum c =
  Throw (EStl (lit "Unknown " ++ lit "language group code" ++ lit " " ++ c ++ lit " in binary STL file")).
Proof.
  intros N H. pose proof (language_group_codes c) as K. unfold language_group_file_to_enum, file_to_enum_or_throw in *.
  destruct (file_to_enum c language_group_map) as [e|].
  - destruct (proj1 (K e N) eq_refl) as [d I]. now destruct (H e d).
  - now rewrite unknown_message.
Qed.
Lemma language_group_describes e d : e <> LANGUAGE_GROUP_UTF8 ->
  (language_group_enum_to_description e = d <-> exists c, In (c, e, d) ebu_language_groups).
Proof.
  intros N. split.
  - intros <-. destruct e; try congruence; eexists; vm_compute; tauto.
  - intros [c I]. repeat (destruct I as [I|I];
      [pose proof (f_equal (fun r => snd (fst r)) I) as E1; pose proof (f_equal snd I) as E2; cbn [fst snd] in E1, E2;
       rewrite <- E1, <- E2; reflexivity|]). destruct I.
Qed.
Lemma language_group_one_to_one : one_to_one (ebu_language_groups ++ [utf8_language_group]).
Proof.
  apply (rows_one_to_one str_eqb language_group_eqb); [exact str_eqb_iff|exact language_group_eqb_ok|vm_compute; reflexivity|].
  found language_group_eqb_ok.
Qed.
Lemma u8_wrong : language_group_file_to_enum (lit "U8") <> Ok LANGUAGE_GROUP_UTF8.
Proof. vm_compute. discriminate. Qed.
Lemma utf8_never : forall c, language_group_file_to_enum c <> Ok LANGUAGE_GROUP_UTF8.
Proof.
  intros c H. destruct (str_eqb c (lit "U8")) eqn:Q.
  - apply str_eqb_iff in Q. subst. vm_compute in H. discriminate.
  - apply language_group_codes in H.
    + destruct H as [d I]. repeat (destruct I as [I|I]; [discriminate I|]). destruct I.
    + intros ->. vm_compute in Q. discriminate.
Qed.
Lemma utf8_description_empty : language_group_enum_to_description LANGUAGE_GROUP_UTF8 = [].
Proof. reflexivity. Qed.
