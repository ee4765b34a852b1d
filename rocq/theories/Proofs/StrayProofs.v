(** What decoding leaves behind in the tables, and what U+0000 is therefore written as. *)
From Coq Require Import ZArith List Bool Ascii Lia Sorted.
From Verif.Model Require Import Base Utf Iso6937Tables Iso6937.
From Verif.Spec Require Import Outcome TextSpec UnicodeSpec Iso6937Spec.
From Verif.Proofs Require Import Iso6937Proofs.
Import ListNotations.
Local Open Scope Z_scope.

Lemma index_zeros m k : byte_keys m -> sorted m -> 0 <= k <= 255 ->
  forall k', In (k', 0) (snd (cmap_index m k)) <-> In (k', 0) m \/ (k' = k /\ assoc m k = 0).
Proof.
  intros B S K k'. revert B S. induction m as [|[a v] t IH]; intros B S.
  - cbn. split; [intros [[= <-]|[]]; now right|]. intros [[]|[-> _]]. now left.
  - inversion B as [|x y B1 B2]; subst. inversion S as [|x y S1 S2]; subst. cbn in B1. cbn [cmap_index assoc].
    destruct (Z.eqb_spec a k) as [E|E].
    { cbn [snd]. split; [now left|]. intros [I|[-> ->]]; [exact I|]. left. now subst. }
    destruct (Z.ltb_spec (signed_char k) (signed_char a)) as [L|L].
    { cbn [snd]. assert (AB : assoc t k = 0).
      { apply assoc_absent. eapply Forall_impl; [|exact S2]. intros [c d]. unfold slt. cbn. intros L' ->. lia. }
      rewrite AB. split; [intros [[= <-]|I]; [now right|now left]|]. intros [I|[-> _]]; [now right|now left]. }
    specialize (IH B2 S1). destruct (cmap_index t k) as [r t']. cbn [snd] in *. cbn [In]. rewrite IH. tauto.
Qed.

Definition zero_in (t : tables) (d : option Z) (k : Z) : Prop :=
  match d with
  | None => In (k, 0) (t_main t)
  | Some a => exists m, diacritical_find (t_diacriticals t) a = Some m /\ In (k, 0) m
  end.

Lemma find_update l d m d' : diacritical_find (diacritical_update l d m) d' =
  if d' =? d then (match diacritical_find l d with Some _ => Some m | None => None end) else diacritical_find l d'.
Proof.
  induction l as [|[k n] l IH]; cbn [diacritical_update diacritical_find]; [now destruct (_ =? _)|].
  destruct (Z.eqb_spec k d) as [E|E].
  - cbn [diacritical_find]. destruct (Z.eqb_spec k d') as [E'|E'], (Z.eqb_spec d' d) as [E2|E2]; try reflexivity; congruence.
  - cbn [diacritical_find]. rewrite IH. destruct (Z.eqb_spec k d') as [E'|E'], (Z.eqb_spec d' d) as [E2|E2]; try reflexivity; congruence.
Qed.

Lemma table_value d b : accent_ok d -> 0 < b <= 255 -> ~ is_accent_byte b ->
  match d with
  | None => assoc iso_main b = 0 <-> meaningless None b
  | Some a => match diacritical_find iso_diacriticals a with
              | Some m => In a (map fst accents) /\ (assoc m b = 0 <-> meaningless (Some a) b)
              | None => ~ In a (map fst accents)
              end
  end.
Proof.
  intros A B N. destruct d as [a|].
  - pose proof (accent_table a A) as T. destruct (diacritical_find iso_diacriticals a) as [m|]; [|exact (proj1 T)].
    destruct T as [I T]. split; [exact I|]. rewrite (T b B N). cbn [meaningless]. destruct (glyph_value [a; b]) as [c|] eqn:G.
    + apply glyph_value_some in G. pose proof (glyph_nonzero _ _ G) as NZ. split; [contradiction|]. intros [_ H]. destruct (H c G).
    + pose proof (proj1 (glyph_value_none _) G) as G2. now split.
  - rewrite (main_table b B N). cbn [meaningless]. destruct (glyph_value [b]) as [c|] eqn:G.
    + apply glyph_value_some in G. pose proof (glyph_nonzero _ _ G) as NZ. split; [contradiction|]. intros H. destruct (H c G).
    + pose proof (proj1 (glyph_value_none _) G) as G2. now split.
Qed.

Lemma comes_nil d x b : ~ comes_to d [] x b.
Proof. intros H. inversion H. Qed.
Lemma comes_nul d rest x b : ~ comes_to d (0 :: rest) x b.
Proof. intros H. inversion H; subst; try contradiction. unfold is_accent_byte in *. lia. Qed.
Lemma comes_to_accent d a rest x b : is_accent_byte a -> (comes_to d (a :: rest) x b <-> comes_to (Some a) rest x b).
Proof. intros A. split; [|now apply comes_accent]. intros H. inversion H; subst; try contradiction. assumption. Qed.
Lemma comes_to_other d c rest x b : c <> 0 -> ~ is_accent_byte c ->
  (comes_to d (c :: rest) x b <-> (x = d /\ b = c /\ meaningless d c) \/ ((forall a, d = Some a -> In a (map fst accents)) /\ comes_to None rest x b)).
Proof.
  intros Z0 N. split.
  - intros H. inversion H; subst; [now left|contradiction|now right].
  - intros [(-> & -> & M)|[A H]]; [now apply comes_here|now apply comes_later].
Qed.

Lemma loop_zeros s : forall tab d, grown_tables tab -> accent_ok d -> forall x k,
  zero_in (fst (iso_decode_loop tab s d)) x k <-> zero_in tab x k \/ comes_to d (bytes s) x k.
Proof.
  induction s as [|c s IH]; intros tab d G A x k; cbn [iso_decode_loop bytes map].
  - cbn [fst]. pose proof (comes_nil d x k). unfold bytes in *. tauto.
  - fold (bytes s). rewrite char_code_is_code. pose proof (code_range c) as R. destruct (Z.eqb_spec (code c) 0) as [E0|E0].
    { rewrite E0. cbn [fst]. pose proof (comes_nul d (bytes s) x k). tauto. }
    destruct ((193 <=? code c) && (code c <=? 207)) eqn:AC.
    { assert (AB : is_accent_byte (code c)) by (unfold is_accent_byte; lia). rewrite comes_to_accent by exact AB. now apply IH. }
    assert (NA : ~ is_accent_byte (code c)) by (unfold is_accent_byte; lia).
    rewrite comes_to_other by assumption. pose proof (table_value d (code c) A ltac:(lia) NA) as TV. destruct d as [d|].
    + destruct G as [GM GD]. destruct (diacritical_find iso_diacriticals d) as [m0|] eqn:E.
      * destruct (proj2 (diacriticals_step _ _ d m0 GD) E) as (m & E1 & G1 & U). rewrite E1.
        destruct (grown_index m0 m (code c) G1 (code_range c)) as [V G2].
        pose proof G1 as (B1 & S1 & N1). pose proof (index_zeros m (code c) B1 S1 R) as IZ.
        rewrite <- (assoc_nz m (code c) S1), N1 in IZ.
        destruct (cmap_index m (code c)) as [v m'] eqn:CI. cbn [fst snd] in V, G2, IZ.
        assert (GG : grown_tables (mkTab (t_main tab) (diacritical_update (t_diacriticals tab) d m'))) by (split; [exact GM|now apply U]).
        specialize (IH _ None GG I x k). destruct (iso_decode_loop _ s None) as [tab' r]. cbn [fst] in *. rewrite IH.
        destruct TV as [ID TV]. rewrite <- TV.
        assert (X : zero_in (mkTab (t_main tab) (diacritical_update (t_diacriticals tab) d m')) x k <-> zero_in tab x k \/ (x = Some d /\ k = code c /\ assoc m0 (code c) = 0)).
        { destruct x as [a|]; cbn [zero_in t_main t_diacriticals].
          - rewrite find_update, E1. destruct (Z.eqb_spec a d) as [EA|EA].
            + subst a. rewrite E1. split.
              * intros (m2 & [= <-] & I2). apply IZ in I2 as [I2|I2]; [left; now exists m|right; now split].
              * intros [(m2 & [= <-] & I2)|(_ & I2)]; exists m'; (split; [reflexivity|]); apply IZ; [now left|now right].
            + split; [now left|]. intros [H|([= H] & _)]; [exact H|contradiction].
          - split; [now left|]. intros [H|(H & _)]; [exact H|discriminate H]. }
        rewrite X. split; [intros [[H|H]|H]; [now left|right; now left|right; right; split; [|exact H]]|intros [H|[H|[_ H]]]; auto].
        intros a [= <-]. exact ID.
      * rewrite (proj1 (diacriticals_step _ _ d [] GD) E). cbn [fst]. split; [now left|]. intros [H|[(_ & _ & M & _)|[H _]]]; [exact H|contradiction|].
        destruct TV. now apply H.
    + destruct G as [GM GD]. destruct (grown_index _ _ (code c) GM (code_range c)) as [V G2].
      pose proof GM as (B1 & S1 & N1). pose proof (index_zeros _ (code c) B1 S1 R) as IZ.
      rewrite <- (assoc_nz _ (code c) S1), N1 in IZ.
      destruct (cmap_index (t_main tab) (code c)) as [v m'] eqn:CI. cbn [fst snd] in V, G2, IZ.
      assert (GG : grown_tables (mkTab m' (t_diacriticals tab))) by now split.
      specialize (IH _ None GG I x k). destruct (iso_decode_loop _ s None) as [tab' r]. cbn [fst] in *. rewrite IH, <- TV.
      assert (X : zero_in (mkTab m' (t_diacriticals tab)) x k <-> zero_in tab x k \/ (x = None /\ k = code c /\ assoc iso_main (code c) = 0)).
      { destruct x as [a|]; cbn [zero_in t_main t_diacriticals].
        - split; [now left|]. intros [H|(H & _)]; [exact H|discriminate H].
        - rewrite IZ. split; [intros [H|H]; [now left|right; now split]|intros [H|(_ & H)]; [now left|now right]]. }
      rewrite X. split; [intros [[H|H]|H]; [now left|right; now left|right; right; split; [|exact H]]|intros [H|[H|[_ H]]]; auto].
      intros a [=].
Qed.

Lemma grown_ensure t : grown_tables t -> ensure t = t.
Proof. intros [_ F]. unfold ensure. destruct (t_diacriticals t); [|reflexivity]. inversion F. Qed.
Lemma made_zeros d k : ~ zero_in tables_made d k.
Proof.
  destruct d as [a|]; cbn [zero_in tables_made t_main t_diacriticals].
  - intros (m & F & I). assert (X : forallb (fun e => forallb nonzero (snd e)) iso_diacriticals = true) by (vm_compute; reflexivity).
    rewrite forallb_forall in X. assert (Y : exists e, In e iso_diacriticals /\ snd e = m).
    { revert F. generalize iso_diacriticals as l. induction l as [|[k' n] l IH]; [discriminate|]. cbn [diacritical_find].
      destruct (k' =? a); [intros [= ->]; exists (k', m); split; [now left|reflexivity]|]. intros F. destruct (IH F) as (e & J & E). exists e. split; [now right|exact E]. }
    destruct Y as (e & J & <-). specialize (X e J). rewrite forallb_forall in X. specialize (X _ I). discriminate X.
  - intros I. assert (X : forallb nonzero iso_main = true) by (vm_compute; reflexivity).
    rewrite forallb_forall in X. specialize (X _ I). discriminate X.
Qed.

Lemma strays_kept h : grown_tables (ensure (after h)) /\ forall d k, zero_in (ensure (after h)) d k <-> stray h d k.
Proof.
  split; [apply ensure_grown, after_reached|]. unfold stray, after.
  assert (X : forall t, reached t -> forall d k, zero_in (ensure (fold_left after_call h t)) d k <->
    zero_in (ensure t) d k \/ exists s, In (Decode s) h /\ comes_to None (bytes s) d k).
  { induction h as [|c h IH]; intros t R d k; cbn [fold_left].
    - split; [now left|]. intros [H|(s & [] & _)]. exact H.
    - pose proof (ensure_grown t R) as G. destruct c as [s|w]; cbn [after_call].
      + destruct (decode_pure t s R) as [_ R']. rewrite (IH _ R'). unfold iso6937_to_utf16.
        rewrite (grown_ensure (fst (iso_decode_loop (ensure t) s None))) by now apply decode_loop_pure.
        rewrite (loop_zeros s (ensure t) None G I). split.
        * intros [[H|H]|(s' & J & H)]; [now left|right; exists s; split; [now left|exact H]|right; exists s'; split; [now right|exact H]].
        * intros [H|(s' & [EQ|J] & H)]; [left; now left|injection EQ as <-; left; now right|right; now exists s'].
      + cbn [utf16_to_iso6937 fst]. rewrite (IH (ensure t)) by now right. rewrite (grown_ensure _ G). split.
        * intros [H|(s' & J & H)]; [now left|right; exists s'; split; [now right|exact H]].
        * intros [H|(s' & [EQ|J] & H)]; [now left|discriminate EQ|right; now exists s']. }
  intros d k. rewrite (X tables_empty) by now left. split; [|now right]. intros [H|H]; [|exact H]. destruct (made_zeros d k H).
Qed.

Lemma find_zero m : sorted m -> match cmap_find m 0 with
  | Some k => In (k, 0) m /\ forall k', In (k', 0) m -> signed_char k <= signed_char k'
  | None => forall k', ~ In (k', 0) m
  end.
Proof.
  induction m as [|[k v] m IH]; intros S; cbn [cmap_find]; [intros k' []|]. inversion S as [|x y S1 S2]; subst.
  destruct (Z.eqb_spec v 0) as [->|N].
  - split; [now left|]. intros k' [[= <-]|I]; [lia|]. rewrite Forall_forall in S2. specialize (S2 _ I). unfold slt in S2. cbn in S2. lia.
  - specialize (IH S1). destruct (cmap_find m 0) as [k0|].
    + destruct IH as [I L]. split; [now right|]. intros k' [[= _ E]|J]; [contradiction|now apply L].
    + intros k' [[= _ E]|J]; [contradiction|now apply (IH k')].
Qed.
Lemma find_zero_pair l : Forall (fun e => sorted (snd e)) l -> StronglySorted Z.lt (map fst l) -> match diacriticals_find l 0 with
  | Some (d, k) => (exists m, diacritical_find l d = Some m /\ In (k, 0) m) /\
      forall d' k' m', diacritical_find l d' = Some m' -> In (k', 0) m' -> d < d' \/ d' = d /\ signed_char k <= signed_char k'
  | None => forall d' k' m', diacritical_find l d' = Some m' -> ~ In (k', 0) m'
  end.
Proof.
  induction l as [|[d m] l IH]; intros F S; cbn [diacriticals_find diacritical_find]; [intros d' k' m' [=]|].
  inversion F as [|x y F1 F2]; subst. cbn [snd map fst] in *. inversion S as [|x y S1 S2]; subst.
  assert (LT : forall d' m', diacritical_find l d' = Some m' -> d < d').
  { intros d' m' H. rewrite Forall_forall in S2. apply S2. clear - H. induction l as [|[k n] l IH]; [discriminate|]. cbn in *.
    destruct (Z.eqb_spec k d'); [now left|right; now apply IH]. }
  pose proof (find_zero m F1) as FZ. destruct (cmap_find m 0) as [k|].
  - destruct FZ as [I L]. split; [exists m; rewrite Z.eqb_refl; now split|]. intros d' k' m'. destruct (Z.eqb_spec d d') as [E|E].
    + intros [= <-] J. right. split; [now symmetry|now apply L].
    + intros H _. left. now apply (LT d' m').
  - specialize (IH F2 S1). destruct (diacriticals_find l 0) as [[d0 k0]|].
    + destruct IH as [(m0 & H0 & I0) L]. split.
      * exists m0. pose proof (LT _ _ H0). destruct (Z.eqb_spec d d0); [lia|]. now split.
      * intros d' k' m'. destruct (Z.eqb_spec d d') as [E|E]; [intros [= <-] J; destruct (FZ k' J)|]. apply L.
    + intros d' k' m'. destruct (Z.eqb_spec d d') as [E|E]; [intros [= <-]; apply FZ|apply IH].
Qed.

Lemma table_keys t : grown_tables t -> map fst (t_diacriticals t) = map fst iso_diacriticals /\ Forall (fun e => sorted (snd e)) (t_diacriticals t) /\
  Forall (fun e => byte_keys (snd e)) (t_diacriticals t).
Proof.
  intros [_ F]. induction F as [|e0 e l0 l (E & B & S & _) F (IH1 & IH2 & IH3)]; [repeat split; constructor|].
  cbn [map]. rewrite E, IH1. split; [reflexivity|]. split; constructor; assumption.
Qed.
Lemma key_order : StronglySorted Z.lt (map fst iso_diacriticals).
Proof.
  assert (X : forall l, (fix f (l : list Z) := match l with [] => true | a :: t => forallb (Z.ltb a) t && f t end) l = true -> StronglySorted Z.lt l).
  { induction l as [|a l IH]; intros H; [constructor|]. apply andb_true_iff in H as [H1 H2]. constructor; [now apply IH|].
    apply Forall_forall. intros b I. rewrite forallb_forall in H1. apply Z.ltb_lt. now apply H1. }
  apply X. vm_compute. reflexivity.
Qed.
Lemma key_bytes : Forall (fun a => 0 <= a <= 255) (map fst iso_diacriticals).
Proof.
  apply Forall_forall. intros a I. assert (X : forallb (fun a => (0 <=? a) && (a <=? 255)) (map fst iso_diacriticals) = true) by (vm_compute; reflexivity).
  rewrite forallb_forall in X. specialize (X a I). lia.
Qed.
Lemma char_code_chr b : 0 <= b <= 255 -> char_code (chr b) = b.
Proof. intros B. rewrite char_code_is_code. unfold code, chr. rewrite N_ascii_embedding; [|]; rewrite Z.mod_small by lia; lia. Qed.

Lemma nul_as_is h : nul_written h (bytes (iso_encode_char (ensure (after h)) 0)).
Proof.
  destruct (strays_kept h) as [G K]. set (t := ensure (after h)) in *. destruct (table_keys t G) as (MK & SD & BD).
  pose proof (proj1 G) as (BM & SM & _). unfold iso_encode_char. cbn [Z.eqb orb]. rewrite app_nil_r.
  pose proof (find_zero (t_main t) SM) as FZ. destruct (cmap_find (t_main t) 0) as [k|].
  - destruct FZ as [I L]. cbn [bytes map]. assert (KB : 0 <= k <= 255) by (unfold byte_keys in BM; rewrite Forall_forall in BM; exact (BM _ I)).
    rewrite char_code_chr by exact KB. apply nul_byte; [now apply (K None)|]. intros b' H. apply (L b'). now apply (K None).
  - assert (NS : forall b', ~ stray h None b') by (intros b' H; apply (FZ b'); now apply (K None)).
    pose proof key_order as KO. rewrite <- MK in KO. pose proof (find_zero_pair (t_diacriticals t) SD KO) as FP.
    destruct (diacriticals_find (t_diacriticals t) 0) as [[d k]|].
    + destruct FP as [(m & F & I) L]. cbn [bytes map].
      assert (DI : In (d, m) (t_diacriticals t)).
      { clear - F. revert F. generalize (t_diacriticals t) as l. induction l as [|[k' n] l IH]; [discriminate|]. cbn [diacritical_find].
        destruct (Z.eqb_spec k' d); [intros [= ->]; left; congruence|]. intros F. right. now apply IH. }
      assert (DB : 0 <= d <= 255) by (pose proof key_bytes as X; rewrite <- MK, Forall_forall in X; apply X; apply in_map_iff; now exists (d, m)).
      assert (KB : 0 <= k <= 255) by (rewrite Forall_forall in BD; specialize (BD _ DI); unfold byte_keys in BD; rewrite Forall_forall in BD; exact (BD _ I)).
      rewrite !char_code_chr by assumption. apply nul_pair; [exact NS|apply (K (Some d)); now exists m|].
      intros a' b' H. apply (K (Some a')) in H as (m' & F' & I'). exact (L a' b' m' F' I').
    + apply nul_nothing. intros [a|] b; [|apply NS]. intros H. apply (K (Some a)) in H as (m' & F' & I'). exact (FP a b m' F' I').
Qed.

Lemma encode_as_is h w : exists bss, Forall2 (fun c bs => (c <> 0 -> written c bs) /\ (c = 0 -> nul_written h bs)) w bss /\
  bytes (snd (utf16_to_iso6937 (after h) w)) = List.concat bss.
Proof.
  exists (map (fun c => bytes (iso_encode_char (ensure (after h)) c)) w). split; [|cbn [utf16_to_iso6937 snd]; apply bytes_flat_map].
  induction w as [|c w IH]; [constructor|]. cbn [map]. constructor; [|exact IH]. split.
  - intros N. rewrite encode_char_grown; [apply encode_char_written|apply (proj1 (strays_kept h))|exact N].
  - intros ->. apply nul_as_is.
Qed.

Lemma accent_not_control a : is_accent_byte a -> ~ control_code a.
Proof. unfold is_accent_byte, control_code. lia. Qed.
Lemma comes_accented d bs x b : accent_ok d -> comes_to d bs x b -> accent_ok x.
Proof. intros A H. revert A. induction H; intros A; [exact A|now apply IHcomes_to|apply IHcomes_to; exact I]. Qed.
Lemma control_as_is h w b : In b (bytes (snd (utf16_to_iso6937 (after h) w))) -> control_code b -> In 0 w /\ exists d, stray h d b.
Proof.
  intros I C. destruct (encode_as_is h w) as (bss & F & E). rewrite E in I. clear E. induction F as [|c bs w bss (W & N) F IH]; [destruct I|].
  cbn [List.concat] in I. apply in_app_or in I as [I|I]; [|destruct (IH I) as [J S]; split; [now right|exact S]].
  destruct (Z.eq_dec c 0) as [->|Z0].
  - split; [now left|]. specialize (N eq_refl). destruct N as [b' S _|a b' _ S _|_].
    + destruct I as [<-|[]]. now exists None.
    + destruct I as [<-|[<-|[]]]; [|now exists (Some a)]. exfalso. destruct S as (s & _ & M). apply (accent_not_control a); [|exact C].
      exact (comes_accented None _ (Some a) _ Logic.I M).
    + destruct I.
  - exfalso. destruct (written_bytes c bs (W Z0)) as [P _]. rewrite Forall_forall in P. exact (plain_not_control b (P b I) C).
Qed.
