(** Proofs about ISO 6937 conversion. *)
From Coq Require Import ZArith List Bool Ascii Lia Sorting.Sorted.
From Verif.Model Require Import Base Strings Iso6937Tables Utf Iso6937.
From Verif.Spec Require Import Outcome TextSpec UnicodeSpec Iso6937Spec.
Import ListNotations.
Local Open Scope Z_scope.

(** * The glyphs as one list *)

Definition zrange (a : Z) (n : nat) : list Z := map (fun k => a + Z.of_nat k) (seq 0 n).
Lemma zrange_in a n x : In x (zrange a n) <-> a <= x < a + Z.of_nat n.
Proof.
  unfold zrange. rewrite in_map_iff. split.
  - intros [k [E I]]. apply in_seq in I. lia.
  - intros I. exists (Z.to_nat (x - a)). split; [lia|]. apply in_seq. lia.
Qed.

Definition memb (x : Z) (l : list Z) : bool := existsb (Z.eqb x) l.
Lemma memb_in x l : memb x l = true <-> In x l.
Proof.
  unfold memb. rewrite existsb_exists. split.
  - intros [y [I E]]. apply Z.eqb_eq in E. now subst.
  - intros I. exists x. split; [exact I|apply Z.eqb_refl].
Qed.

Definition glyph_list : list (list Z * Z) :=
  ([10], 10) :: map (fun b => ([b], b)) (zrange 32 95) ++ map (fun e => ([fst e], snd e)) right_half
  ++ flat_map (fun am => flat_map (fun e => if (snd (fst e) =? snd am) && negb (memb (snd e) not_in_repertoire)
                                           then [([fst am; fst (fst e)], snd e)] else []) compositions) accents.

Lemma glyph_in bs c : glyph bs c <-> In (bs, c) glyph_list.
Proof.
  unfold glyph_list. cbn [In]. rewrite !in_app_iff, !in_map_iff, in_flat_map. split.
  - intros G. destruct G as [|b R|b c I|a m b c Ia Ic N].
    + now left.
    + right. left. exists b. split; [reflexivity|]. apply zrange_in. lia.
    + right. right. left. exists (b, c). now split.
    + right. right. right. exists (a, m). split; [exact Ia|]. apply in_flat_map. exists (b, m, c). split; [exact Ic|].
      cbn [fst snd]. rewrite Z.eqb_refl. destruct (memb c not_in_repertoire) eqn:E.
      * exfalso. apply N. now apply memb_in.
      * now left.
  - intros [E|[[b [E I]]|[[[b d] [E I]]|[[a m] [Ia I]]]]].
    + injection E as <- <-. constructor.
    + injection E as <- <-. apply zrange_in in I. constructor. lia.
    + cbn in E. injection E as <- <-. now constructor.
    + apply in_flat_map in I. destruct I as [[[b m'] d] [Ic I]]. cbn [fst snd] in I.
      destruct (m' =? m) eqn:Em; [|destruct I]. apply Z.eqb_eq in Em. subst m'.
      destruct (memb d not_in_repertoire) eqn:E; [destruct I|]. destruct I as [E'|[]].
      injection E' as <- <-. apply (glyph_accented a m b d Ia Ic). intros N. apply memb_in in N. congruence.
Qed.

Definition blist_eqb (a b : list Z) : bool := if list_eq_dec Z.eq_dec a b then true else false.
Lemma blist_eqb_eq a b : blist_eqb a b = true <-> a = b.
Proof. unfold blist_eqb. destruct (list_eq_dec Z.eq_dec a b); split; congruence. Qed.

(** The value of a byte sequence. *)
Definition glyph_value (bs : list Z) : option Z := option_map snd (find (fun e => blist_eqb (fst e) bs) glyph_list).

Lemma glyph_list_functional :
  forallb (fun e => match glyph_value (fst e) with Some c => c =? snd e | None => false end) glyph_list = true.
Proof. vm_compute. reflexivity. Qed.

Lemma glyph_value_some bs c : glyph_value bs = Some c <-> glyph bs c.
Proof.
  rewrite glyph_in. split.
  - unfold glyph_value. destruct (find _ glyph_list) as [[bs' c']|] eqn:E; cbn; [|discriminate].
    intros [= ->]. apply find_some in E. destruct E as [I E]. cbn in E. apply blist_eqb_eq in E. now subst.
  - intros I. pose proof glyph_list_functional as F. rewrite forallb_forall in F. specialize (F _ I). cbn [fst snd] in F.
    destruct (glyph_value bs) as [d|]; [|discriminate]. apply Z.eqb_eq in F. now subst.
Qed.

Lemma glyph_functional bs c d : glyph bs c -> glyph bs d -> c = d.
Proof. rewrite <- !glyph_value_some. congruence. Qed.

Lemma glyph_value_none bs : glyph_value bs = None <-> forall c, ~ glyph bs c.
Proof.
  split.
  - intros E c G. apply glyph_value_some in G. congruence.
  - intros N. destruct (glyph_value bs) as [c|] eqn:E; [|reflexivity]. apply glyph_value_some in E. now destruct (N c).
Qed.

(** * Tables that grew by entries of value 0 *)

Definition slt (a b : Z * Z) : Prop := signed_char (fst a) < signed_char (fst b).
Definition sorted (m : cmap) : Prop := StronglySorted slt m.
Definition byte_keys (m : cmap) : Prop := Forall (fun e => 0 <= fst e <= 255) m.
Definition nonzero (e : Z * Z) : bool := negb (snd e =? 0).
Definition nz (m : cmap) : cmap := filter nonzero m.
Definition grown (m0 m : cmap) : Prop := byte_keys m /\ sorted m /\ nz m = m0.

Fixpoint assoc (m : cmap) (k : Z) : Z :=
  match m with [] => 0 | (k', v) :: t => if k' =? k then v else assoc t k end.

Lemma signed_char_inj a b : 0 <= a <= 255 -> 0 <= b <= 255 -> signed_char a = signed_char b -> a = b.
Proof. unfold signed_char. destruct (a <? 128) eqn:A, (b <? 128) eqn:B; intros; lia. Qed.

Lemma assoc_absent m k : Forall (fun e => fst e <> k) m -> assoc m k = 0.
Proof.
  induction m as [|[k' v] t IH]; cbn; intros F; [reflexivity|]. inversion F as [|x y N F']; subst. cbn in N.
  destruct (k' =? k) eqn:E; [lia|]. auto.
Qed.

Lemma assoc_nz m k : sorted m -> assoc (nz m) k = assoc m k.
Proof.
  induction m as [|[k' v] t IH]; cbn; intros S; [reflexivity|].
  inversion S as [|x y S' F]; subst. destruct (nonzero (k', v)) eqn:Z0; cbn.
  - destruct (k' =? k); auto.
  - destruct (k' =? k) eqn:E; [|auto]. apply Z.eqb_eq in E. subst. unfold nonzero in Z0. cbn in Z0.
    apply negb_false_iff, Z.eqb_eq in Z0. subst. fold (nz t). rewrite IH by exact S'.
    apply assoc_absent. eapply Forall_impl; [|exact F]. intros [a b]. unfold slt. cbn. intros L E. subst. lia.
Qed.

Lemma cmap_index_spec m k : byte_keys m -> sorted m -> 0 <= k <= 255 ->
  fst (cmap_index m k) = assoc m k /\ byte_keys (snd (cmap_index m k)) /\ sorted (snd (cmap_index m k)) /\
  nz (snd (cmap_index m k)) = nz m /\
  (forall e, In e (snd (cmap_index m k)) -> In e m \/ fst e = k).
Proof.
  intros B S K. revert B S. induction m as [|[k' v] t IH]; intros B S.
  - cbn. split; [reflexivity|]. split; [constructor; [cbn; lia|constructor]|]. split; [repeat constructor|]. split; [reflexivity|].
    intros e [<-|[]]. now right.
  - inversion B as [|x y B1 B2]; subst. inversion S as [|x y S1 S2]; subst. cbn in B1.
    cbn [cmap_index assoc]. destruct (k' =? k) eqn:E.
    { cbn. split; [reflexivity|]. split; [exact B|]. split; [exact S|]. split; [reflexivity|]. intros e I. now left. }
    destruct (signed_char k <? signed_char k') eqn:L.
    { cbn [fst snd]. split; [|split; [|split; [|split]]].
      - symmetry. apply assoc_absent. eapply Forall_impl; [|exact S2]. intros [a b]. unfold slt. cbn. intros L' ->.
        apply Z.ltb_lt in L. lia.
      - constructor; [cbn; lia|exact B].
      - constructor; [exact S|]. apply Z.ltb_lt in L. constructor; [exact L|]. eapply Forall_impl; [|exact S2].
        intros [a b]. unfold slt. cbn. lia.
      - reflexivity.
      - intros e [<-|I]; [now right|now left]. }
    destruct (IH B2 S1) as (H1 & H2 & H3 & H4 & H5). destruct (cmap_index t k) as [r t'] eqn:R. cbn [fst snd] in *.
    split; [exact H1|]. split; [constructor; [cbn; lia|exact H2]|]. split.
    + constructor; [exact H3|]. apply Forall_forall. intros e I. destruct (H5 e I) as [I'|Ek].
      * rewrite Forall_forall in S2. now apply S2.
      * unfold slt. cbn. rewrite Ek. apply Z.ltb_ge in L. apply Z.eqb_neq in E.
        assert (signed_char k <> signed_char k') by (intros Q; apply E; symmetry; now apply signed_char_inj). lia.
    + split.
      * cbn. destruct (nonzero (k', v)); [f_equal|]; exact H4.
      * intros e [<-|I]; [now left; left|]. destruct (H5 e I) as [I'|Ek]; [left; now right|now right].
Qed.

Lemma grown_index m0 m k : grown m0 m -> 0 <= k <= 255 ->
  fst (cmap_index m k) = assoc m0 k /\ grown m0 (snd (cmap_index m k)).
Proof.
  intros (B & S & N) K. destruct (cmap_index_spec m k B S K) as (H1 & H2 & H3 & H4 & _).
  split; [rewrite H1, <- N; symmetry; now apply assoc_nz|]. repeat split; congruence.
Qed.

Lemma cmap_find_nz m c : c <> 0 -> cmap_find (nz m) c = cmap_find m c.
Proof.
  intros C. induction m as [|[k v] t IH]; cbn; [reflexivity|]. unfold nonzero. cbn.
  destruct (v =? 0) eqn:Z0; cbn.
  - destruct (v =? c) eqn:E; [lia|exact IH].
  - destruct (v =? c); [reflexivity|exact IH].
Qed.

Definition grown_tables (t : tables) : Prop :=
  grown iso_main (t_main t) /\
  Forall2 (fun e0 e => fst e = fst e0 /\ grown (snd e0) (snd e)) iso_diacriticals (t_diacriticals t).

Fixpoint sorted_b (m : cmap) : bool :=
  match m with
  | [] => true
  | a :: t => forallb (fun b => signed_char (fst a) <? signed_char (fst b)) t && sorted_b t
  end.
Lemma sorted_b_ok m : sorted_b m = true -> sorted m.
Proof.
  induction m as [|a t IH]; cbn; intros H; [constructor|]. apply andb_true_iff in H. destruct H as [H1 H2].
  constructor; [now apply IH|]. apply Forall_forall. intros b I. rewrite forallb_forall in H1. apply Z.ltb_lt. now apply H1.
Qed.
Definition grown_self_b (m : cmap) : bool :=
  forallb (fun e => (0 <=? fst e) && (fst e <=? 255) && nonzero e) m && sorted_b m.
Lemma grown_self_ok m : grown_self_b m = true -> grown m m.
Proof.
  unfold grown_self_b. intros H. apply andb_true_iff in H. destruct H as [H1 H2]. rewrite forallb_forall in H1.
  split; [|split; [now apply sorted_b_ok|]].
  - apply Forall_forall. intros e I. specialize (H1 e I). lia.
  - unfold nz. clear H2. induction m as [|e t IH]; cbn; [reflexivity|].
    assert (E : nonzero e = true) by (specialize (H1 e (or_introl eq_refl)); now apply andb_true_iff in H1).
    rewrite E. f_equal. apply IH. intros x I. apply H1. now right.
Qed.

Lemma made_grown : grown_tables tables_made.
Proof.
  split; [apply grown_self_ok; vm_compute; reflexivity|].
  assert (A : forallb (fun e => grown_self_b (snd e)) iso_diacriticals = true) by (vm_compute; reflexivity).
  cbn [tables_made t_diacriticals]. revert A. generalize iso_diacriticals.
  induction l as [|e t IH]; cbn; intros A; [constructor|]. apply andb_true_iff in A. destruct A as [A1 A2].
  constructor; [split; [reflexivity|now apply grown_self_ok]|now apply IH].
Qed.

Lemma ensure_grown t : t = tables_empty \/ grown_tables t -> grown_tables (ensure t).
Proof.
  intros [->|G]; unfold ensure; [exact made_grown|].
  destruct (is_nil (t_diacriticals t)); [exact made_grown|exact G].
Qed.

(** * Decoding without tables *)

Fixpoint pure_decode (s : str) (d : option Z) : res wstr :=
  match s with
  | [] => Ok []
  | c :: t =>
      let u := code c in
      if u =? 0 then Ok []
      else if (193 <=? u) && (u <=? 207) then pure_decode t (Some u)
      else match d with
      | Some d => match diacritical_find iso_diacriticals d with
                  | None => Undef UbNullDeref
                  | Some m => let* w := pure_decode t None in Ok (assoc m u :: w)
                  end
      | None => let* w := pure_decode t None in Ok (assoc iso_main u :: w)
      end
  end.

Lemma code_range c : 0 <= code c <= 255.
Proof. unfold code. pose proof (N_ascii_bounded c). lia. Qed.

Lemma diacriticals_step l0 l d m0 :
  Forall2 (fun e0 e : Z * cmap => fst e = fst e0 /\ grown (snd e0) (snd e)) l0 l ->
  (diacritical_find l0 d = None -> diacritical_find l d = None) /\
  (diacritical_find l0 d = Some m0 -> exists m, diacritical_find l d = Some m /\ grown m0 m /\
     forall m', grown m0 m' ->
     Forall2 (fun e0 e : Z * cmap => fst e = fst e0 /\ grown (snd e0) (snd e)) l0 (diacritical_update l d m')).
Proof.
  induction 1 as [|[k0 n0] [k n] t0 t [E G] F IH]; cbn in *; [split; [reflexivity|discriminate]|]. subst k0.
  destruct (k =? d) eqn:D.
  - split; [discriminate|]. intros [= ->]. exists n. split; [reflexivity|]. split; [exact G|]. intros m' G'.
    constructor; [now split|exact F].
  - destruct IH as [IH1 IH2]. split; [exact IH1|]. intros S. destruct (IH2 S) as (m & E1 & G1 & U).
    exists m. split; [exact E1|]. split; [exact G1|]. intros m' G'. constructor; [now split|]. now apply U.
Qed.

Lemma decode_loop_pure s : forall tab d, grown_tables tab ->
  snd (iso_decode_loop tab s d) = pure_decode s d /\ grown_tables (fst (iso_decode_loop tab s d)).
Proof.
  induction s as [|c t IH]; intros tab d G; cbn [iso_decode_loop pure_decode]; [now split|].
  destruct (code c =? 0); [now split|].
  destruct ((193 <=? code c) && (code c <=? 207)); [now apply IH|].
  destruct d as [d|].
  - destruct G as [GM GD]. destruct (diacritical_find iso_diacriticals d) as [m0|] eqn:E.
    + destruct (proj2 (diacriticals_step _ _ d m0 GD) E) as (m & E1 & G1 & U). rewrite E1.
      destruct (grown_index m0 m (code c) G1 (code_range c)) as [V G2].
      destruct (cmap_index m (code c)) as [v m'] eqn:CI. cbn [fst snd] in V, G2.
      specialize (IH (mkTab (t_main tab) (diacritical_update (t_diacriticals tab) d m')) None).
      destruct IH as [IH1 IH2]; [split; [exact GM|now apply U]|].
      destruct (iso_decode_loop _ t None) as [tab' r]. cbn [fst snd] in *. subst. now split.
    + rewrite (proj1 (diacriticals_step _ _ d [] GD) E). split; [reflexivity|now split].
  - destruct G as [GM GD]. destruct (grown_index _ _ (code c) GM (code_range c)) as [V G2].
    destruct (cmap_index (t_main tab) (code c)) as [v m'] eqn:CI. cbn [fst snd] in V, G2.
    specialize (IH (mkTab m' (t_diacriticals tab)) None). destruct IH as [IH1 IH2]; [now split|].
    destruct (iso_decode_loop _ t None) as [tab' r]. cbn [fst snd] in *. subst. now split.
Qed.

Definition reached (t : tables) : Prop := t = tables_empty \/ grown_tables t.

Lemma decode_pure t s : reached t -> snd (iso6937_to_utf16 t s) = pure_decode s None /\ reached (fst (iso6937_to_utf16 t s)).
Proof.
  intros R. unfold iso6937_to_utf16. destruct (decode_loop_pure s (ensure t) None (ensure_grown t R)) as [A B].
  split; [exact A|now right].
Qed.

Lemma after_reached h : reached (after h).
Proof.
  unfold after. assert (G : forall t, reached t -> reached (fold_left after_call h t)).
  { induction h as [|c h IH]; cbn; intros t R; [exact R|]. apply IH. destruct c; cbn.
    - now apply decode_pure.
    - right. now apply ensure_grown. }
  apply G. now left.
Qed.

(** * Decoding and the standard *)

Definition all_bytes : list Z := zrange 0 256.
Definition accent_b (b : Z) : bool := (193 <=? b) && (b <=? 207).

Lemma main_table_checked :
  forallb (fun b => accent_b b || (b =? 0) || (assoc iso_main b =? match glyph_value [b] with Some c => c | None => 0 end)) all_bytes = true.
Proof. vm_compute. reflexivity. Qed.

Lemma accent_tables_checked :
  forallb (fun a => match diacritical_find iso_diacriticals a with
                    | Some m => memb a (map fst accents) &&
                                forallb (fun b => accent_b b || (b =? 0) ||
                                   (assoc m b =? match glyph_value [a; b] with Some c => c | None => 0 end)) all_bytes
                    | None => negb (memb a (map fst accents)) && ((a =? 201) || (a =? 204))
                    end) (zrange 193 15) = true.
Proof. vm_compute. reflexivity. Qed.

Lemma accent_b_ok b : accent_b b = true <-> is_accent_byte b.
Proof. unfold accent_b, is_accent_byte. lia. Qed.

Lemma glyphs_nonzero : forallb (fun e => negb (snd e =? 0)) glyph_list = true.
Proof. vm_compute. reflexivity. Qed.
Lemma glyph_nonzero bs c : glyph bs c -> c <> 0.
Proof.
  rewrite glyph_in. intros I. pose proof glyphs_nonzero as F. rewrite forallb_forall in F. specialize (F _ I). cbn in F. lia.
Qed.

Lemma main_table b : 0 < b <= 255 -> ~ is_accent_byte b ->
  assoc iso_main b = match glyph_value [b] with Some c => c | None => 0 end.
Proof.
  intros B N. pose proof main_table_checked as F. rewrite forallb_forall in F.
  specialize (F b). unfold all_bytes in F. rewrite zrange_in in F. specialize (F ltac:(lia)).
  assert (A : accent_b b = false) by (rewrite <- not_true_iff_false, accent_b_ok; exact N). rewrite A in F.
  apply orb_true_iff in F. destruct F as [F|F]; [lia|]. now apply Z.eqb_eq in F.
Qed.

Lemma accent_table a : is_accent_byte a ->
  match diacritical_find iso_diacriticals a with
  | Some m => In a (map fst accents) /\
              (forall b, 0 < b <= 255 -> ~ is_accent_byte b -> assoc m b = match glyph_value [a; b] with Some c => c | None => 0 end)
  | None => ~ In a (map fst accents) /\ (a = 0xC9 \/ a = 0xCC)
  end.
Proof.
  intros A. pose proof accent_tables_checked as F. rewrite forallb_forall in F.
  specialize (F a). rewrite zrange_in in F. unfold is_accent_byte in A. specialize (F ltac:(lia)).
  destruct (diacritical_find iso_diacriticals a) as [m|].
  - apply andb_true_iff in F. destruct F as [F1 F2]. split; [now apply memb_in|]. intros b B N.
    rewrite forallb_forall in F2. specialize (F2 b). unfold all_bytes in F2. rewrite zrange_in in F2. specialize (F2 ltac:(lia)).
    assert (Ab : accent_b b = false) by (rewrite <- not_true_iff_false, accent_b_ok; exact N). rewrite Ab in F2.
    apply orb_true_iff in F2. destruct F2 as [F2|F2]; [lia|]. now apply Z.eqb_eq in F2.
  - apply andb_true_iff in F. destruct F as [F1 F2]. split; [|lia]. intros I. apply memb_in in I. rewrite I in F1. discriminate.
Qed.

Lemma char_code_is_code c : char_code c = code c.
Proof. unfold char_code, code. unfold nat_of_ascii. lia. Qed.

Definition accent_ok (d : option Z) : Prop := match d with Some a => is_accent_byte a | None => True end.

Lemma Ok_inj {A} (a b : A) : Ok a = Ok b -> a = b.
Proof. congruence. Qed.

Lemma pure_decode_sound s : forall d w, accent_ok d -> pure_decode s d = Ok w -> decodes d (bytes s) w.
Proof.
  induction s as [|c t IH]; intros d w D; cbn [pure_decode bytes map].
  - intros [= <-]. constructor.
  - rewrite char_code_is_code. pose proof (code_range c) as R. set (u := code c) in *.
    destruct (u =? 0) eqn:Z0.
    { intros [= <-]. apply Z.eqb_eq in Z0. rewrite Z0. constructor. }
    assert (NZ : u <> 0) by lia. destruct ((193 <=? u) && (u <=? 207)) eqn:A.
    { intros E. assert (A' : is_accent_byte u) by (now apply accent_b_ok). apply decodes_accent; [exact A'|]. now apply IH. }
    assert (NA : ~ is_accent_byte u) by (rewrite <- accent_b_ok; unfold accent_b; congruence).
    destruct d as [a|].
    + pose proof (accent_table a D) as T. destruct (diacritical_find iso_diacriticals a) as [m|]; [|discriminate].
      destruct T as [IA T]. destruct (pure_decode t None) as [w'| |] eqn:P; cbn [bind]; try discriminate.
      intros EW. apply Ok_inj in EW. rewrite <- EW. specialize (IH None w' I P). rewrite (T u ltac:(lia) NA).
      destruct (glyph_value [a; u]) as [v|] eqn:G.
      * apply decodes_pair; auto. now apply glyph_value_some.
      * apply decodes_unknown_pair; auto. now apply glyph_value_none.
    + destruct (pure_decode t None) as [w'| |] eqn:P; cbn [bind]; try discriminate.
      intros EW. apply Ok_inj in EW. rewrite <- EW. specialize (IH None w' I P). rewrite (main_table u ltac:(lia) NA).
      destruct (glyph_value [u]) as [v|] eqn:G.
      * apply decodes_single; auto. now apply glyph_value_some.
      * apply decodes_unknown; auto. now apply glyph_value_none.
Qed.


Lemma glyph_pair_accent a b c : glyph [a; b] c -> In a (map fst accents).
Proof. intros G. inversion G as [| | |a' m b' c' I1 I2 N]; subst. apply in_map_iff. now exists (a, m). Qed.

Lemma pure_decode_complete s : forall d w, accent_ok d -> decodes d (bytes s) w -> pure_decode s d = Ok w.
Proof.
  induction s as [|c t IH]; intros d w D H; cbn [pure_decode bytes map] in *.
  - inversion H; reflexivity.
  - rewrite char_code_is_code in H. pose proof (code_range c) as R.
    inversion H as [|d' rest E|d' a rest w' A H' E|b v rest w' NZ NA G H' E|b rest w' NZ NA G H' E|a b v rest w' NZ NA G H' E
                   |a b rest w' NZ NA IA G H' E]; subst; clear H.
    + reflexivity.
    + assert (Z0 : (code c) =? 0 = false) by (unfold is_accent_byte in A; lia). rewrite Z0.
      assert (Ab : accent_b (code c) = true) by (now apply accent_b_ok). unfold accent_b in Ab. rewrite Ab. now apply IH.
    + assert (Z0 : (code c) =? 0 = false) by lia. rewrite Z0.
      assert (Ab : accent_b (code c) = false) by (rewrite <- not_true_iff_false, accent_b_ok; exact NA). unfold accent_b in Ab. rewrite Ab.
      rewrite (IH None w' I H'). cbn [bind]. rewrite (main_table (code c) ltac:(lia) NA). apply glyph_value_some in G. now rewrite G.
    + assert (Z0 : (code c) =? 0 = false) by lia. rewrite Z0.
      assert (Ab : accent_b (code c) = false) by (rewrite <- not_true_iff_false, accent_b_ok; exact NA). unfold accent_b in Ab. rewrite Ab.
      rewrite (IH None w' I H'). cbn [bind]. rewrite (main_table (code c) ltac:(lia) NA). apply glyph_value_none in G. now rewrite G.
    + assert (Z0 : (code c) =? 0 = false) by lia. rewrite Z0.
      assert (Ab : accent_b (code c) = false) by (rewrite <- not_true_iff_false, accent_b_ok; exact NA). unfold accent_b in Ab. rewrite Ab.
      pose proof (accent_table a D) as T. destruct (diacritical_find iso_diacriticals a) as [m|].
      * destruct T as [IA T]. rewrite (IH None w' I H'). cbn [bind]. rewrite (T (code c) ltac:(lia) NA). apply glyph_value_some in G. now rewrite G.
      * exfalso. apply (proj1 T). now apply (glyph_pair_accent a (code c) v).
    + assert (Z0 : (code c) =? 0 = false) by lia. rewrite Z0.
      assert (Ab : accent_b (code c) = false) by (rewrite <- not_true_iff_false, accent_b_ok; exact NA). unfold accent_b in Ab. rewrite Ab.
      pose proof (accent_table a D) as T. destruct (diacritical_find iso_diacriticals a) as [m|].
      * destruct T as [IA' T]. rewrite (IH None w' I H'). cbn [bind]. rewrite (T (code c) ltac:(lia) NA). apply glyph_value_none in G. now rewrite G.
      * exfalso. now apply (proj1 T).
Qed.

Lemma decode_is_standard h s w : snd (iso6937_to_utf16 (after h) s) = Ok w <-> decodes None (bytes s) w.
Proof.
  rewrite (proj1 (decode_pure (after h) s (after_reached h))). split.
  - now apply pure_decode_sound.
  - now apply pure_decode_complete.
Qed.

(** * Undefined behaviour *)

Definition unassigned_used (d : option Z) (bs : list Z) : Prop :=
  (exists a b q, d = Some a /\ bs = b :: q /\ (a = 0xC9 \/ a = 0xCC) /\ b <> 0 /\ ~ is_accent_byte b) \/ unassigned_accent_used bs.

Lemma unassigned_cons d b q : b <> 0 -> unassigned_accent_used q -> unassigned_used d (b :: q).
Proof.
  intros NZ (p & a & x & r & -> & N & A). right. exists (b :: p), a, x, r. split; [reflexivity|]. split; [|exact A].
  intros [E|I]; [congruence|now apply N].
Qed.

Lemma pure_decode_cases s : forall d, accent_ok d ->
  (pure_decode s d = Undef UbNullDeref /\ unassigned_used d (bytes s)) \/
  ((exists w, pure_decode s d = Ok w) /\ ~ unassigned_used d (bytes s)).
Proof.
  induction s as [|c t IH]; intros d D; cbn [pure_decode bytes map].
  - right. split; [eauto|]. intros [(a & b & q & _ & E & _)|(p & a & b & q & E & _)]; [discriminate|].
    destruct p; discriminate.
  - rewrite char_code_is_code. pose proof (code_range c) as R. set (u := code c) in *. fold (bytes t).
    destruct (u =? 0) eqn:Z0.
    { right. split; [eauto|]. apply Z.eqb_eq in Z0.
      intros [(a & b & q & _ & E & _ & N & _)|(p & a & b & q & E & N & A & _)].
      - injection E as <- _. congruence.
      - destruct p as [|p0 p]; injection E as E1 E2; [lia|]. apply N. left. lia. }
    assert (NZ : u <> 0) by lia. destruct ((193 <=? u) && (u <=? 207)) eqn:A.
    { assert (A' : is_accent_byte u) by (now apply accent_b_ok).
      destruct (IH (Some u) A') as [[P U]|[P U]]; [left|right]; (split; [exact P|]).
      - destruct U as [(a & b & q & E & E' & H)|U].
        + injection E as <-. right. exists [], u, b, q. rewrite E'. split; [reflexivity|]. split; [intros []|]. exact H.
        + now apply unassigned_cons.
      - intros [(a & b & q & _ & E & _ & _ & N)|(p & a & b & q & E & N & H)].
        + injection E as <- _. contradiction.
        + apply U. destruct p as [|p0 p]; injection E as E1 E2.
          * left. exists a, b, q. rewrite E1. split; [reflexivity|]. split; [exact E2|]. exact H.
          * right. exists p, a, b, q. split; [exact E2|]. split; [|exact H]. intros I. apply N. now right. }
    assert (NA : ~ is_accent_byte u) by (rewrite <- accent_b_ok; unfold accent_b; congruence).
    assert (TAIL : forall q, unassigned_accent_used (u :: q) -> unassigned_accent_used q).
    { intros q (p & a & b & r & E & N & Ha & H). destruct p as [|p0 p]; injection E as E1 E2.
      - exfalso. apply NA. unfold is_accent_byte. lia.
      - exists p, a, b, r. split; [exact E2|]. split; [|now split]. intros I. apply N. now right. }
    destruct (IH None I) as [[P U]|[[w P] U]].
    + assert (U' : unassigned_accent_used (bytes t)) by (destruct U as [(a & b & q & E & _)|U]; [discriminate|exact U]).
      left. rewrite P. cbn [bind]. destruct d as [a|].
      * split; [destruct (diacritical_find iso_diacriticals a); reflexivity|]. now apply unassigned_cons.
      * split; [reflexivity|]. now apply unassigned_cons.
    + rewrite P. cbn [bind]. destruct d as [a|].
      * pose proof (accent_table a D) as T. destruct (diacritical_find iso_diacriticals a) as [m|].
        -- right. split; [eauto|]. intros [(a' & b & q & E & _ & H & _)|H].
           ++ injection E as <-. destruct T as [T _]. revert T. cbn. lia.
           ++ apply U. right. now apply TAIL.
        -- left. split; [reflexivity|]. left. exists a, u, (bytes t). repeat split; try assumption. apply T.
      * right. split; [eauto|]. intros [(a' & b & q & E & _)|H]; [discriminate|]. apply U. right. now apply TAIL.
Qed.

Lemma decode_undefined_iff h s :
  ~ defined (snd (iso6937_to_utf16 (after h) s)) <-> unassigned_accent_used (bytes s).
Proof.
  rewrite (proj1 (decode_pure (after h) s (after_reached h))).
  destruct (pure_decode_cases s None I) as [[P U]|[[w P] U]]; rewrite P; cbn; split.
  - intros _. destruct U as [(a & b & q & E & _)|U]; [discriminate|exact U].
  - intros _ D. now apply (D UbNullDeref).
  - intros N. exfalso. apply N. discriminate.
  - intros H. exfalso. apply U. now right.
Qed.

(** * Encoding *)

Lemma diacriticals_find_grown l0 l c : c <> 0 ->
  Forall2 (fun e0 e : Z * cmap => fst e = fst e0 /\ grown (snd e0) (snd e)) l0 l ->
  diacriticals_find l c = diacriticals_find l0 c.
Proof.
  intros C. induction 1 as [|[k0 n0] [k n] t0 t [E G] F IH]; cbn in *; [reflexivity|]. subst k0.
  destruct G as (_ & _ & N). rewrite <- N, cmap_find_nz by exact C. now rewrite IH.
Qed.

Lemma encode_char_grown t c : grown_tables t -> c <> 0 -> iso_encode_char t c = iso_encode_char tables_made c.
Proof.
  intros [(_ & _ & N) GD] C. unfold iso_encode_char. rewrite (diacriticals_find_grown _ _ c C GD).
  rewrite <- (cmap_find_nz (t_main t) c C), N. reflexivity.
Qed.

Lemma encode_pure t w : reached t -> Forall (fun c => c <> 0) w ->
  snd (utf16_to_iso6937 t w) = flat_map (iso_encode_char tables_made) w.
Proof.
  intros R F. unfold utf16_to_iso6937. cbn [snd]. pose proof (ensure_grown t R) as G. generalize dependent (ensure t).
  intros t' G. induction F as [|c w C F IH]; cbn; [reflexivity|]. now rewrite IH, (encode_char_grown t' c G C).
Qed.

Lemma encode_fresh w : snd (utf16_to_iso6937 tables_empty w) = flat_map (iso_encode_char tables_made) w.
Proof. reflexivity. Qed.

Definition substituted : list Z := [0x201E; 0x2013; 0x2014; 0x2010; 0x2011; 0x2012; 0x2032].
Definition known : list Z := map snd glyph_list ++ map snd lone_marks ++ substituted.
Definition glyph_b (bs : list Z) (c : Z) : bool := existsb (fun e => blist_eqb (fst e) bs && (snd e =? c)) glyph_list.
Definition written_b (c : Z) (bs : list Z) : bool :=
  (glyph_b bs c && (negb (c =? 36) || blist_eqb bs [0xA4]))
  || existsb (fun e => (snd e =? c) && blist_eqb bs [fst e]) lone_marks
  || match substitute c with Some d => glyph_b bs d | None => false end.

Lemma glyph_b_ok bs c : glyph_b bs c = true -> glyph bs c.
Proof.
  unfold glyph_b. rewrite existsb_exists. intros [[b d] [I E]]. apply andb_true_iff in E. destruct E as [E1 E2]. cbn in *.
  apply blist_eqb_eq in E1. apply Z.eqb_eq in E2. subst. now apply glyph_in.
Qed.

Lemma written_b_ok c bs : written_b c bs = true -> written c bs.
Proof.
  unfold written_b. intros H. apply orb_true_iff in H. destruct H as [H|H]; [apply orb_true_iff in H; destruct H as [H|H]|].
  - apply andb_true_iff in H. destruct H as [H1 H2]. apply written_glyph; [now apply glyph_b_ok|]. intros ->.
    cbn in H2. now apply blist_eqb_eq.
  - apply existsb_exists in H. destruct H as [[a d] [I E]]. apply andb_true_iff in E. destruct E as [E1 E2]. cbn in *.
    apply Z.eqb_eq in E1. apply blist_eqb_eq in E2. subst. now constructor.
  - destruct (substitute c) as [d|] eqn:E; [|discriminate]. apply (written_substitute c d); [exact E|now apply glyph_b_ok].
Qed.

Lemma known_checked : forallb (fun c => written_b c (bytes (iso_encode_char tables_made c))) known = true.
Proof. vm_compute. reflexivity. Qed.
Lemma main_known : forallb (fun e => memb (snd e) known) iso_main = true.
Proof. vm_compute. reflexivity. Qed.
Lemma diacriticals_known : forallb (fun d => forallb (fun e => memb (snd e) known) (snd d)) iso_diacriticals = true.
Proof. vm_compute. reflexivity. Qed.

Lemma cmap_find_some m c k : cmap_find m c = Some k -> In (k, c) m.
Proof.
  induction m as [|[k' v] t IH]; cbn; [discriminate|]. destruct (v =? c) eqn:E.
  - intros [= ->]. apply Z.eqb_eq in E. subst. now left.
  - intros F. right. now apply IH.
Qed.
Lemma diacriticals_find_some l c d k : diacriticals_find l c = Some (d, k) -> exists m, In (d, m) l /\ In (k, c) m.
Proof.
  induction l as [|[d' m] t IH]; cbn; [discriminate|]. destruct (cmap_find m c) as [k'|] eqn:E.
  - intros [= -> ->]. exists m. split; [now left|now apply cmap_find_some].
  - intros F. destruct (IH F) as (m' & I1 & I2). exists m'. split; [now right|exact I2].
Qed.

Lemma encode_char_unknown c : ~ In c known -> iso_encode_char tables_made c = [].
Proof.
  intros N. unfold iso_encode_char. cbn [tables_made t_main t_diacriticals].
  destruct (cmap_find iso_main c) as [k|] eqn:E.
  { exfalso. apply N. apply cmap_find_some in E. pose proof main_known as F. rewrite forallb_forall in F.
    specialize (F _ E). now apply memb_in. }
  destruct (diacriticals_find iso_diacriticals c) as [[d k]|] eqn:E2.
  { exfalso. apply N. apply diacriticals_find_some in E2. destruct E2 as (m & I1 & I2).
    pose proof diacriticals_known as F. rewrite forallb_forall in F. specialize (F _ I1). cbn in F.
    rewrite forallb_forall in F. specialize (F _ I2). now apply memb_in. }
  assert (S : ~ In c substituted) by (intros I; apply N; unfold known; rewrite !in_app_iff; auto).
  unfold substituted in S. cbn [In] in S.
  destruct (c =? 8222) eqn:E3; [lia|]. destruct (c =? 8211) eqn:E4; [lia|]. destruct (c =? 8212) eqn:E5; [lia|].
  destruct (c =? 8208) eqn:E6; [lia|]. destruct (c =? 8209) eqn:E7; [lia|]. destruct (c =? 8210) eqn:E8; [lia|].
  destruct (c =? 8242) eqn:E9; [lia|]. reflexivity.
Qed.

Lemma encode_char_written c : written c (bytes (iso_encode_char tables_made c)).
Proof.
  destruct (memb c known) eqn:K.
  - apply memb_in in K. apply written_b_ok. pose proof known_checked as F. rewrite forallb_forall in F. now apply F.
  - assert (N : ~ In c known) by (intros I; apply memb_in in I; congruence).
    rewrite encode_char_unknown by exact N. unfold known in N. rewrite !in_app_iff in N. apply written_nothing.
    + intros [bs G]. apply glyph_in in G. apply N. left. now apply (in_map snd) in G.
    + intros L. apply N. auto.
    + unfold substitute. cbn [In substituted] in N. unfold substituted in N. cbn [In] in N.
      repeat match goal with |- context [Z.eqb c ?k] => destruct (Z.eqb c k) eqn:?; [exfalso; lia|] end. reflexivity.
Qed.

Lemma bytes_flat_map f (w : wstr) : bytes (flat_map f w) = concat (map (fun c => bytes (f c)) w).
Proof. unfold bytes. induction w as [|c w IH]; cbn; [reflexivity|]. now rewrite map_app, IH. Qed.

Lemma encode_written h w : Forall (fun c => c <> 0) w ->
  exists bss, Forall2 written w bss /\ bytes (snd (utf16_to_iso6937 (after h) w)) = concat bss.
Proof.
  intros F. exists (map (fun c => bytes (iso_encode_char tables_made c)) w). split.
  - clear F. induction w as [|c w IH]; cbn; constructor; [apply encode_char_written|exact IH].
  - rewrite (encode_pure _ w (after_reached h) F). apply bytes_flat_map.
Qed.

Lemma encode_written_fresh w :
  exists bss, Forall2 written w bss /\ bytes (snd (utf16_to_iso6937 (after []) w)) = concat bss.
Proof.
  exists (map (fun c => bytes (iso_encode_char tables_made c)) w). split.
  - induction w as [|c w IH]; cbn; constructor; [apply encode_char_written|exact IH].
  - change (after []) with tables_empty. rewrite encode_fresh. apply bytes_flat_map.
Qed.

Lemma encode_app h u v : snd (utf16_to_iso6937 (after h) (u ++ v)) =
  snd (utf16_to_iso6937 (after h) u) ++ snd (utf16_to_iso6937 (after h) v).
Proof. unfold utf16_to_iso6937. cbn [snd]. apply flat_map_app. Qed.

(** * Bytes that are written *)

Definition plain_byte (b : Z) : bool := (b =? 10) || ((32 <=? b) && (b <=? 126)) || ((160 <=? b) && (b <=? 255)).
Lemma glyph_bytes_checked :
  forallb (fun e => forallb plain_byte (fst e) && (1 <=? Z.of_nat (length (fst e))) && (Z.of_nat (length (fst e)) <=? 2)) glyph_list
  && forallb (fun e => plain_byte (fst e)) lone_marks = true.
Proof. vm_compute. reflexivity. Qed.

Lemma glyph_bytes bs c : glyph bs c -> Forall (fun b => plain_byte b = true) bs /\ (1 <= length bs <= 2)%nat.
Proof.
  intros G. apply glyph_in in G. pose proof glyph_bytes_checked as F. apply andb_true_iff in F. destruct F as [F _].
  rewrite forallb_forall in F. specialize (F _ G). cbn [fst] in F. apply andb_true_iff in F. destruct F as [F F3].
  apply andb_true_iff in F. destruct F as [F1 F2]. rewrite forallb_forall in F1. split; [now apply Forall_forall|lia].
Qed.

Lemma written_bytes c bs : written c bs -> Forall (fun b => plain_byte b = true) bs /\ (length bs <= 2)%nat.
Proof.
  intros [c' bs' G _|a c' I|c' d bs' _ G|c' _ _ _].
  - apply glyph_bytes in G. split; [apply G|lia].
  - pose proof glyph_bytes_checked as F. apply andb_true_iff in F. destruct F as [_ F]. rewrite forallb_forall in F.
    specialize (F _ I). cbn in F. split; [constructor; [exact F|constructor]|cbn; lia].
  - apply glyph_bytes in G. split; [apply G|lia].
  - split; [constructor|cbn; lia].
Qed.

Lemma written_concat_plain w bss : Forall2 written w bss -> Forall (fun b => plain_byte b = true) (concat bss).
Proof.
  induction 1 as [|c bs w bss W F IH]; cbn; [constructor|]. apply Forall_app. split; [now apply (written_bytes c)|exact IH].
Qed.

Lemma written_concat_length w bss : Forall2 written w bss -> (length (concat bss) <= 2 * length w)%nat.
Proof.
  induction 1 as [|c bs w bss W F IH]; cbn [concat length]; [lia|]. rewrite app_length. apply written_bytes in W. lia.
Qed.

Lemma bytes_length s : length (bytes s) = length s.
Proof. apply map_length. Qed.

(** * Round trip *)

Lemma single_checked :
  forallb (fun e => match fst e with
                    | [b] => negb (b =? 0) && negb (accent_b b)
                    | [a; b] => accent_b a && negb (b =? 0) && negb (accent_b b)
                    | _ => false
                    end) glyph_list = true.
Proof. vm_compute. reflexivity. Qed.

Lemma decodes_glyph bs c rest w : glyph bs c -> decodes None rest w -> decodes None (bs ++ rest) (c :: w).
Proof.
  intros G D. pose proof single_checked as F. rewrite forallb_forall in F.
  specialize (F _ (proj1 (glyph_in bs c) G)). cbn [fst] in F.
  destruct bs as [|a [|b [|x y]]]; try discriminate.
  - apply andb_true_iff in F. destruct F as [F1 F2]. cbn. apply decodes_single; auto; [lia|].
    rewrite <- accent_b_ok. now apply negb_true_iff in F2; rewrite F2.
  - apply andb_true_iff in F. destruct F as [F F3]. apply andb_true_iff in F. destruct F as [F1 F2]. cbn.
    apply decodes_accent; [now apply accent_b_ok|]. apply decodes_pair; auto; [lia|].
    rewrite <- accent_b_ok. now apply negb_true_iff in F3; rewrite F3.
Qed.

Lemma written_survives c bs : written c bs -> ~ lone_mark c ->
  exists s, survives c s /\ forall rest w, decodes None rest w -> decodes None (bs ++ rest) (s ++ w).
Proof.
  intros [c' bs' G _|a c' I|c' d bs' S G|c' N L S] M.
  - exists [c']. split; [apply survives_same; now exists bs'|]. intros rest w D. now apply decodes_glyph.
  - exfalso. apply M. unfold lone_mark. now apply (in_map snd) in I.
  - exists [d]. split; [now apply survives_substitute|]. intros rest w D. now apply decodes_glyph.
  - exists []. split; [now apply survives_dropped|]. intros rest w D. exact D.
Qed.

Lemma round_trip h1 h2 w : Forall (fun c => c <> 0 /\ ~ lone_mark c) w ->
  exists parts, Forall2 survives w parts /\
  snd (iso6937_to_utf16 (after h2) (snd (utf16_to_iso6937 (after h1) w))) = Ok (concat parts).
Proof.
  intros F.
  destruct (encode_written h1 w) as (bss & W & E).
  { eapply Forall_impl; [|exact F]. intros c [A _]. exact A. }
  assert (P : exists parts, Forall2 survives w parts /\ decodes None (concat bss) (concat parts)).
  { clear E. revert F. induction W as [|c bs w bss Wc W IH]; intros F.
    - exists []. split; constructor.
    - inversion F as [|x y [_ M] F']; subst. destruct (IH F') as (ps & S & D).
      destruct (written_survives c bs Wc M) as (s & Sc & H). exists (s :: ps). split; [now constructor|]. cbn. now apply H. }
  destruct P as (parts & S & D). exists parts. split; [exact S|]. apply decode_is_standard. now rewrite E.
Qed.

Lemma not_substituted_checked : forallb (fun e => match substitute (snd e) with None => true | _ => false end) glyph_list = true.
Proof. vm_compute. reflexivity. Qed.

Lemma lone_mark_checked : forallb (fun e => negb (memb (snd e) (map snd lone_marks))) glyph_list = true.
Proof. vm_compute. reflexivity. Qed.

Lemma representable_not_mark c : representable c -> ~ lone_mark c.
Proof.
  intros [bs G] L. apply glyph_in in G. pose proof lone_mark_checked as F. rewrite forallb_forall in F. specialize (F _ G).
  cbn [snd] in F. apply memb_in in L. rewrite L in F. discriminate.
Qed.

Lemma round_trip_representable h1 h2 w : Forall representable w ->
  snd (iso6937_to_utf16 (after h2) (snd (utf16_to_iso6937 (after h1) w))) = Ok w.
Proof.
  intros F. destruct (round_trip h1 h2 w) as (parts & S & E).
  - eapply Forall_impl; [|exact F]. intros c R. split; [|now apply representable_not_mark].
    destruct R as [bs G]. now apply (glyph_nonzero bs).
  - rewrite E. f_equal. clear E. induction S as [|c p w ps Sc S IH]; cbn; [reflexivity|].
    inversion F as [|x y R F']; subst. rewrite (IH F'). inversion Sc as [c' R'|c' d Sd|c' N Sd]; subst.
    + reflexivity.
    + exfalso. destruct R as [bs G]. apply glyph_in in G. pose proof not_substituted_checked as C.
      rewrite forallb_forall in C. specialize (C _ G). cbn in C. unfold substitute in *. rewrite Sd in C. discriminate.
    + contradiction.
Qed.

(** * Histories *)

Lemma decode_any_history h s : snd (iso6937_to_utf16 (after h) s) = snd (iso6937_to_utf16 (after []) s).
Proof. now rewrite (proj1 (decode_pure _ s (after_reached h))), (proj1 (decode_pure _ s (after_reached []))). Qed.

Lemma encode_any_history h w : ~ In 0 w -> snd (utf16_to_iso6937 (after h) w) = snd (utf16_to_iso6937 (after []) w).
Proof.
  intros N. assert (F : Forall (fun c => c <> 0) w) by (apply Forall_forall; intros c I E; now subst).
  now rewrite (encode_pure _ w (after_reached h) F), (encode_pure _ w (after_reached []) F).
Qed.

(** A library table entry for each standard byte: what the standard says is what is read. *)
Lemma decode_glyphs h bss w : Forall2 glyph bss w ->
  forall s, bytes s = concat bss -> snd (iso6937_to_utf16 (after h) s) = Ok w.
Proof.
  intros F s E. apply decode_is_standard. rewrite E. clear E. induction F as [|bs c bss w G F IH]; cbn; [constructor|].
  now apply decodes_glyph.
Qed.

Lemma plain_not_control b : plain_byte b = true -> ~ control_code b.
Proof. unfold plain_byte, control_code. lia. Qed.

Lemma encode_no_control h w : ~ In 0 w -> Forall (fun b => ~ control_code b) (bytes (snd (utf16_to_iso6937 (after h) w))).
Proof.
  intros N. destruct (encode_written h w) as (bss & W & E).
  - apply Forall_forall. intros c I Z0. now subst.
  - rewrite E. eapply Forall_impl; [|exact (written_concat_plain w bss W)]. intros b. apply plain_not_control.
Qed.

Lemma encode_no_control_fresh w : Forall (fun b => ~ control_code b) (bytes (snd (utf16_to_iso6937 (after []) w))).
Proof.
  destruct (encode_written_fresh w) as (bss & W & E). rewrite E.
  eapply Forall_impl; [|exact (written_concat_plain w bss W)]. intros b. apply plain_not_control.
Qed.

Lemma stray_byte_injection : exists h w b, In b (bytes (snd (utf16_to_iso6937 (after h) w))) /\ control_code b.
Proof.
  exists [Decode [chr 0x8F]], [0], 0x8F. split; [vm_compute; now left|unfold control_code; lia].
Qed.

Lemma nul_history : exists h, snd (utf16_to_iso6937 (after h) [0]) <> snd (utf16_to_iso6937 (after []) [0]).
Proof. exists [Decode [chr 0x8F]]. vm_compute. discriminate. Qed.

Lemma decode_undefined : exists s, ~ defined (snd (iso6937_to_utf16 (after []) s)).
Proof. exists [chr 0xC9; "a"%char]. intros D. now apply (D UbNullDeref). Qed.

Lemma encode_length h w : ~ In 0 w -> (length (snd (utf16_to_iso6937 (after h) w)) <= 2 * length w)%nat.
Proof.
  intros N. destruct (encode_written h w) as (bss & W & E).
  - apply Forall_forall. intros c I Z0. now subst.
  - rewrite <- bytes_length, E. now apply written_concat_length.
Qed.

Lemma encode_dropped h c : c <> 0 ->
  (snd (utf16_to_iso6937 (after h) [c]) = [] <-> ~ representable c /\ ~ lone_mark c /\ substitute c = None).
Proof.
  intros N. destruct (encode_written h [c]) as (bss & W & E); [now repeat constructor|].
  inversion W as [|x bs y l Wc W0]; subst. inversion W0; subst. cbn [concat] in E. rewrite app_nil_r in E. split.
  - intros Z0. rewrite Z0 in E. cbn [bytes map] in E. subst bs. inversion Wc as [c' bs' G D|a c' I|c' d bs' S G|c' A B C]; subst.
    + apply glyph_bytes in G. cbn in G. lia.
    + apply glyph_bytes in G. cbn in G. lia.
    + now repeat split.
  - intros (A & B & C). destruct (snd (utf16_to_iso6937 (after h) [c])) as [|x t] eqn:S; [reflexivity|exfalso].
    inversion Wc as [c' bs' G D|a c' I|c' d bs' Sd G|c' A' B' C']; subst.
    + apply A. now exists (bytes (x :: t)).
    + apply B. unfold lone_mark. now apply (in_map snd) in I.
    + congruence.
    + discriminate.
Qed.

Lemma decodes_deterministic d bs w : decodes d bs w -> forall w', decodes d bs w' -> w = w'.
Proof.
  induction 1; intros w' D; inversion D; subst; try reflexivity; try contradiction;
    try (match goal with H : is_accent_byte 0 |- _ => unfold is_accent_byte in H; lia end).
  - now apply IHdecodes.
  - f_equal; [eapply glyph_functional; eauto|auto].
  - exfalso. match goal with H : forall c, ~ glyph [b] c |- _ => eapply H; eauto end.
  - exfalso. match goal with H : forall c, ~ glyph [b] c |- _ => eapply H; eauto end.
  - f_equal. auto.
  - f_equal; [eapply glyph_functional; eauto|auto].
  - exfalso. match goal with H : forall c, ~ glyph [a; b] c |- _ => eapply H; eauto end.
  - exfalso. match goal with H : forall c, ~ glyph [a; b] c |- _ => eapply H; eauto end.
  - f_equal. auto.
Qed.
