(** Proofs about TimeModel: comparisons, conversions. *)
From Coq Require Import ZArith QArith Lia Bool List.
From Verif.Model Require Import Base Float TimeModel.
From Verif.Spec Require Import Outcome TimeSpec.
From Verif.Proofs Require Import FloatProofs.
Import ListNotations.
Local Open Scope Z_scope.

Lemma in_int_iff z : in_int z = true <-> is_int z.
Proof. unfold in_int, is_int, int_min, int_max. rewrite andb_true_iff, !Z.leb_le. reflexivity. Qed.
Lemma in_int_false z : in_int z = false <-> ~ is_int z.
Proof. rewrite <- in_int_iff. destruct (in_int z); split; congruence. Qed.
Lemma chk_ok z : is_int z -> chk z = Ok z.
Proof. intros H. unfold chk. apply in_int_iff in H. now rewrite H. Qed.
Lemma chk_undef z : ~ is_int z -> chk z = Undef UbIntOverflow.
Proof. intros H. unfold chk. apply in_int_false in H. now rewrite H. Qed.

Lemma imul3_ok a b c : is_int (a * b) -> is_int (a * b * c) -> imul3 a b c = Ok (a * b * c).
Proof. intros H1 H2. unfold imul3, imul. rewrite chk_ok by exact H1. simpl. now apply chk_ok. Qed.
Lemma imul3_cases a b c :
  (is_int (a * b) /\ is_int (a * b * c) /\ imul3 a b c = Ok (a * b * c)) \/
  (~ (is_int (a * b) /\ is_int (a * b * c)) /\ imul3 a b c = Undef UbIntOverflow).
Proof.
  unfold imul3, imul, chk. destruct (in_int (a * b)) eqn:E1; simpl.
  - destruct (in_int (a * b * c)) eqn:E2; [left|right].
    + rewrite !in_int_iff in *. auto.
    + rewrite in_int_false in E2. split; [tauto | reflexivity].
  - right. rewrite in_int_false in E1. split; [tauto | reflexivity].
Qed.

(** Orders on instants as orders on integers. *)
Lemma instant_cross r a b : positive_rate r ->
  ((instant_at r a < instant_at r b)%Q <->
   t_seconds a * num r + t_frames a * den r < t_seconds b * num r + t_frames b * den r) /\
  ((instant_at r a == instant_at r b)%Q <->
   t_seconds a * num r + t_frames a * den r = t_seconds b * num r + t_frames b * den r).
Proof.
  intros [Hn Hd].
  assert (K : forall t, (instant_at r t == inject_Z (t_seconds t * num r + t_frames t * den r) / inject_Z (num r))%Q).
  { intros t. unfold instant_at, frames_duration. rewrite inject_Z_plus, !inject_Z_mult. field.
    intros E. unfold Qeq in E. simpl in E. lia. }
  assert (P : (0 < / inject_Z (num r))%Q) by (apply Qinv_lt_0_compat; change 0%Q with (inject_Z 0); now rewrite <- Zlt_Qlt).
  rewrite !K. unfold Qdiv. split.
  - rewrite Zlt_Qlt. apply Qmult_lt_r. exact P.
  - rewrite <- inject_Z_injective. split; intros H.
    + apply Qmult_inj_r in H; [exact H|]. intros E. rewrite E in P. discriminate P.
    + now rewrite H.
Qed.

Lemma normalised_cross r t : positive_rate r -> normalised_at r t -> 0 <= t_frames t /\ t_frames t * den r < num r.
Proof.
  intros [Hn Hd] [H1 H2]. split; [exact H1|].
  unfold frames_duration in H2.
  assert (P : (0 < inject_Z (num r))%Q) by (change 0%Q with (inject_Z 0); now rewrite <- Zlt_Qlt).
  rewrite Zlt_Qlt. apply (Qmult_lt_r _ _ (inject_Z (num r))) in H2; [|exact P].
  rewrite Qmult_1_l in H2. unfold Qdiv in H2.
  rewrite <- Qmult_assoc, (Qmult_comm (/ _)), Qmult_inv_r, Qmult_1_r in H2; [exact H2|].
  intros E. rewrite E in P. discriminate P.
Qed.

(** ** Same rate *)
Lemma lt_same_rate r a b : positive_rate r -> t_rate a = Some r -> t_rate b = Some r ->
  normalised_at r a -> normalised_at r b -> product_fits r a -> product_fits r b ->
  decides (time_lt a b) (instant_at r a < instant_at r b)%Q.
Proof.
  intros P Ha Hb Na Nb [Fa1 Fa2] [Fb1 Fb2].
  destruct (normalised_cross _ _ P Na) as [Na1 Na2]. destruct (normalised_cross _ _ P Nb) as [Nb1 Nb2].
  destruct (instant_cross r a b P) as [L _]. unfold decides. rewrite L. destruct P as [Pn Pd].
  unfold time_lt. rewrite Ha, Hb.
  destruct (Z.eqb_spec (t_seconds a) (t_seconds b)) as [E|E]; cbn [negb].
  - rewrite !imul3_ok by assumption. cbn [bind]. rewrite E.
    destruct (Z.ltb_spec (t_frames a * num r * den r) (t_frames b * num r * den r)); [left|right]; (split; [reflexivity|]); nia.
  - destruct (Z.ltb_spec (t_seconds a) (t_seconds b)); [left|right]; (split; [reflexivity|]); nia.
Qed.

Lemma gt_is_lt a b : time_gt a b = time_lt b a.
Proof.
  unfold time_gt, time_lt. rewrite (Z.eqb_sym (t_seconds b)).
  destruct (Z.eqb (t_seconds a) (t_seconds b)); cbn [negb]; [|reflexivity].
  destruct (t_rate a) as [ra|], (t_rate b) as [rb|]; try reflexivity.
  destruct (imul3_cases (t_frames a) (num ra) (den rb)) as [(_ & _ & ->)|(_ & ->)];
  destruct (imul3_cases (t_frames b) (num rb) (den ra)) as [(_ & _ & ->)|(_ & ->)]; reflexivity.
Qed.

Lemma eq_same_rate r a b : positive_rate r -> t_rate a = Some r -> t_rate b = Some r ->
  normalised_at r a -> normalised_at r b -> product_fits r a -> product_fits r b ->
  decides (time_eq a b) (instant_at r a == instant_at r b)%Q.
Proof.
  intros P Ha Hb Na Nb [Fa1 Fa2] [Fb1 Fb2].
  destruct (normalised_cross _ _ P Na) as [Na1 Na2]. destruct (normalised_cross _ _ P Nb) as [Nb1 Nb2].
  destruct (instant_cross r a b P) as [_ L]. unfold decides. rewrite L. destruct P as [Pn Pd].
  unfold time_eq. rewrite Ha, Hb.
  destruct (Z.eqb_spec (t_seconds a) (t_seconds b)) as [E|E]; cbn [negb].
  - rewrite !imul3_ok by assumption. cbn [bind]. rewrite E.
    destruct (Z.eqb_spec (t_frames a * num r * den r) (t_frames b * num r * den r)); [left|right]; (split; [reflexivity|]); nia.
  - right. split; [reflexivity|]. nia.
Qed.


(** ** No rate *)
Lemma lt_no_rate r a b : positive_rate r -> t_rate a = None -> t_rate b = None ->
  normalised_at r a -> normalised_at r b ->
  decides (time_lt a b) (instant_at r a < instant_at r b)%Q /\
  decides (time_eq a b) (instant_at r a == instant_at r b)%Q.
Proof.
  intros P Ha Hb Na Nb.
  destruct (normalised_cross _ _ P Na) as [Na1 Na2]. destruct (normalised_cross _ _ P Nb) as [Nb1 Nb2].
  destruct (instant_cross r a b P) as [L1 L2]. unfold decides. rewrite L1, L2. destruct P as [Pn Pd].
  unfold time_lt, time_eq. rewrite Ha, Hb. split.
  - destruct (Z.eqb_spec (t_seconds a) (t_seconds b)) as [E|E]; cbn [negb].
    + rewrite E. destruct (Z.ltb_spec (t_frames a) (t_frames b)); [left|right]; (split; [reflexivity|]); nia.
    + destruct (Z.ltb_spec (t_seconds a) (t_seconds b)); [left|right]; (split; [reflexivity|]); nia.
  - destruct (Z.eqb_spec (t_seconds a) (t_seconds b)) as [E|E]; cbn [negb].
    + rewrite E. destruct (Z.eqb_spec (t_frames a) (t_frames b)); [left|right]; (split; [reflexivity|]); nia.
    + right. split; [reflexivity|]. nia.
Qed.

(** ** Different rates *)
Lemma instant_cross2 ra rb a b : positive_rate ra -> positive_rate rb ->
  ((instant_at ra a < instant_at rb b)%Q <->
   (t_seconds a * num ra + t_frames a * den ra) * num rb < (t_seconds b * num rb + t_frames b * den rb) * num ra) /\
  ((instant_at ra a == instant_at rb b)%Q <->
   (t_seconds a * num ra + t_frames a * den ra) * num rb = (t_seconds b * num rb + t_frames b * den rb) * num ra).
Proof.
  intros [Hn Hd] [Hn' Hd'].
  assert (K : forall r t, 0 < num r -> (instant_at r t == (t_seconds t * num r + t_frames t * den r) # (Z.to_pos (num r)))%Q).
  { intros r t P. unfold instant_at, frames_duration.
    rewrite (Qmake_Qdiv _ (Z.to_pos (num r))), Z2Pos.id by exact P.
    rewrite inject_Z_plus, !inject_Z_mult. field.
    intros E. unfold Qeq in E. simpl in E. lia. }
  rewrite !K by assumption. unfold Qlt, Qeq. cbn [Qnum Qden]. rewrite !Z2Pos.id by assumption. split; reflexivity.
Qed.

Lemma lt_other_rate ra rb a b : positive_rate ra -> positive_rate rb -> t_rate a = Some ra -> t_rate b = Some rb ->
  normalised_at ra a -> normalised_at rb b ->
  (t_seconds a <> t_seconds b \/
   equivalent_rates ra rb /\ is_int (t_frames a * num ra) /\ is_int (t_frames a * num ra * den rb) /\
   is_int (t_frames b * num rb) /\ is_int (t_frames b * num rb * den ra)) ->
  decides (time_lt a b) (instant_at ra a < instant_at rb b)%Q /\
  decides (time_eq a b) (instant_at ra a == instant_at rb b)%Q.
Proof.
  intros Pa Pb Ha Hb Na Nb C.
  destruct (normalised_cross _ _ Pa Na) as [Na1 Na2]. destruct (normalised_cross _ _ Pb Nb) as [Nb1 Nb2].
  destruct (instant_cross2 ra rb a b Pa Pb) as [L1 L2]. unfold decides. rewrite L1, L2.
  destruct Pa as [Pn Pd], Pb as [Qn Qd].
  unfold time_lt, time_eq. rewrite Ha, Hb.
  assert (S : t_seconds a < t_seconds b ->
    (t_seconds a * num ra + t_frames a * den ra) * num rb < (t_seconds b * num rb + t_frames b * den rb) * num ra).
  { intros E. assert (t_seconds a * num ra + t_frames a * den ra < (t_seconds a + 1) * num ra) by lia.
    assert ((t_seconds a + 1) * num rb <= t_seconds b * num rb + t_frames b * den rb) by nia. nia. }
  assert (S' : t_seconds b < t_seconds a ->
    (t_seconds b * num rb + t_frames b * den rb) * num ra < (t_seconds a * num ra + t_frames a * den ra) * num rb).
  { intros E. assert (t_seconds b * num rb + t_frames b * den rb < (t_seconds b + 1) * num rb) by lia.
    assert ((t_seconds b + 1) * num ra <= t_seconds a * num ra + t_frames a * den ra) by nia. nia. }
  destruct (Z.eqb_spec (t_seconds a) (t_seconds b)) as [E|E]; cbn [negb].
  - destruct C as [C|(C & I1 & I2 & I3 & I4)]; [contradiction|].
    rewrite !imul3_ok by assumption. cbn [bind].
    rewrite <- E. unfold equivalent_rates in C.
    (* both sides are the frame counts times one positive constant *)
    set (k := num ra * den rb) in *.
    assert (kp : 0 < k) by (unfold k; nia).
    replace (t_frames a * num ra * den rb) with (t_frames a * k) by (unfold k; ring).
    replace (t_frames b * num rb * den ra) with (t_frames b * k) by (rewrite C; ring).
    replace ((t_seconds a * num ra + t_frames a * den ra) * num rb) with (t_seconds a * num ra * num rb + t_frames a * k)
      by (rewrite C; ring).
    replace ((t_seconds a * num rb + t_frames b * den rb) * num ra) with (t_seconds a * num ra * num rb + t_frames b * k)
      by (unfold k; ring).
    split.
    + destruct (Z.ltb_spec (t_frames a * k) (t_frames b * k)); [left|right]; (split; [reflexivity|]); lia.
    + destruct (Z.eqb_spec (t_frames a * k) (t_frames b * k)); [left|right]; (split; [reflexivity|]); lia.
  - split.
    + destruct (Z.ltb_spec (t_seconds a) (t_seconds b)); [left|right]; (split; [reflexivity|]).
      * auto.
      * assert (t_seconds b < t_seconds a) as H1 by lia. apply S' in H1. lia.
    + right. split; [reflexivity|]. destruct (Z.lt_trichotomy (t_seconds a) (t_seconds b)) as [H1|[H1|H1]];
        [apply S in H1; lia | contradiction | apply S' in H1; lia].
Qed.

(** ** Outcomes *)
Lemma lt_outcome a b :
  (time_lt a b = Throw EUnknownFrameRate <-> t_seconds a = t_seconds b /\ mixed_rates a b) /\
  (forall e, time_lt a b = Throw e -> e = EUnknownFrameRate).
Proof.
  unfold time_lt, mixed_rates, has_rate. destruct (Z.eqb_spec (t_seconds a) (t_seconds b)) as [E|E]; cbn [negb].
  - destruct (t_rate a) as [ra|], (t_rate b) as [rb|]; try (split; [split|]; intros; intuition congruence).
    destruct (imul3_cases (t_frames a) (num ra) (den rb)) as [(_ & _ & ->)|(_ & ->)];
    destruct (imul3_cases (t_frames b) (num rb) (den ra)) as [(_ & _ & ->)|(_ & ->)]; cbn [bind];
    (split; [split|]; intros; intuition congruence).
  - split; [split|]; intros; intuition congruence.
Qed.
Lemma eq_outcome a b :
  (time_eq a b = Throw EUnknownFrameRate <-> mixed_rates a b) /\
  (forall e, time_eq a b = Throw e -> e = EUnknownFrameRate).
Proof.
  unfold time_eq, mixed_rates, has_rate.
  destruct (t_rate a) as [ra|], (t_rate b) as [rb|]; try (split; [split|]; intros; intuition congruence).
  destruct (Z.eqb_spec (t_seconds a) (t_seconds b)) as [E|E]; cbn [negb].
  - destruct (imul3_cases (t_frames a) (num ra) (den rb)) as [(_ & _ & ->)|(_ & ->)];
    destruct (imul3_cases (t_frames b) (num rb) (den ra)) as [(_ & _ & ->)|(_ & ->)]; cbn [bind];
    (split; [split|]; intros; intuition congruence).
  - split; [split|]; intros; intuition congruence.
Qed.

Lemma lt_undef a b :
  (exists u, time_lt a b = Undef u) <-> t_seconds a = t_seconds b /\ ~ cross_fits a b.
Proof.
  unfold time_lt, cross_fits. destruct (Z.eqb_spec (t_seconds a) (t_seconds b)) as [E|E]; cbn [negb].
  - destruct (t_rate a) as [ra|], (t_rate b) as [rb|];
      try (split; [intros [u [=]] | intros [_ N]; exfalso; apply N; congruence]).
    destruct (imul3_cases (t_frames a) (num ra) (den rb)) as [(I1 & I2 & ->)|(N1 & ->)];
    destruct (imul3_cases (t_frames b) (num rb) (den ra)) as [(I3 & I4 & ->)|(N2 & ->)]; cbn [bind].
    + split; [intros [u [=]]|]. intros [_ N]. exfalso. apply N. intros ? ? [= <-] [= <-]. auto.
    + split; [intros _ | eauto]. split; [exact E|]. intros C. destruct (C _ _ eq_refl eq_refl). tauto.
    + split; [intros _ | eauto]. split; [exact E|]. intros C. destruct (C _ _ eq_refl eq_refl). tauto.
    + split; [intros _ | eauto]. split; [exact E|]. intros C. destruct (C _ _ eq_refl eq_refl). tauto.
  - split; [intros [u [=]] | intros [E' _]; contradiction].
Qed.
Lemma eq_undef a b :
  (exists u, time_eq a b = Undef u) <-> t_seconds a = t_seconds b /\ ~ cross_fits a b.
Proof.
  unfold time_eq, cross_fits.
  destruct (t_rate a) as [ra|], (t_rate b) as [rb|];
    try (split; [intros [u [=]] | intros [_ N]; exfalso; apply N; congruence]).
  destruct (Z.eqb_spec (t_seconds a) (t_seconds b)) as [E|E]; cbn [negb].
  - destruct (imul3_cases (t_frames a) (num ra) (den rb)) as [(I1 & I2 & ->)|(N1 & ->)];
    destruct (imul3_cases (t_frames b) (num rb) (den ra)) as [(I3 & I4 & ->)|(N2 & ->)]; cbn [bind].
    + split; [intros [u [=]]|]. intros [_ N]. exfalso. apply N. intros ? ? [= <-] [= <-]. auto.
    + split; [intros _ | eauto]. split; [exact E|]. intros C. destruct (C _ _ eq_refl eq_refl). tauto.
    + split; [intros _ | eauto]. split; [exact E|]. intros C. destruct (C _ _ eq_refl eq_refl). tauto.
    + split; [intros _ | eauto]. split; [exact E|]. intros C. destruct (C _ _ eq_refl eq_refl). tauto.
  - split; [intros [u [=]] | intros [E' _]; contradiction].
Qed.

(** ** Order *)
Lemma lt_irrefl a x : time_lt a a = Ok x -> x = false.
Proof.
  unfold time_lt. rewrite Z.eqb_refl. cbn [negb]. destruct (t_rate a) as [r|].
  - destruct (imul3 (t_frames a) (num r) (den r)) as [v|e|u]; cbn [bind]; try discriminate.
    rewrite Z.ltb_irrefl. congruence.
  - rewrite Z.ltb_irrefl. congruence.
Qed.

(** The meaning of a comparison that returns: lexicographic in seconds, then in frames times rate. *)
Lemma lt_key a b x : time_lt a b = Ok x ->
  (x = true <-> t_seconds a < t_seconds b \/ t_seconds a = t_seconds b /\
     match t_rate a, t_rate b with
     | None, None => t_frames a < t_frames b
     | Some ra, Some rb => t_frames a * num ra * den rb < t_frames b * num rb * den ra
     | _, _ => False
     end).
Proof.
  unfold time_lt. destruct (Z.eqb_spec (t_seconds a) (t_seconds b)) as [E|E]; cbn [negb].
  - destruct (t_rate a) as [ra|], (t_rate b) as [rb|]; try discriminate.
    + destruct (imul3_cases (t_frames a) (num ra) (den rb)) as [(_ & _ & ->)|(_ & ->)]; [|discriminate].
      destruct (imul3_cases (t_frames b) (num rb) (den ra)) as [(_ & _ & ->)|(_ & ->)]; cbn [bind]; [|discriminate].
      intros [= <-]. rewrite Z.ltb_lt. intuition lia.
    + intros [= <-]. rewrite Z.ltb_lt. intuition lia.
  - intros [= <-]. rewrite Z.ltb_lt. intuition lia.
Qed.
Lemma eq_key a b x : time_eq a b = Ok x ->
  (x = true <-> t_seconds a = t_seconds b /\
     match t_rate a, t_rate b with
     | None, None => t_frames a = t_frames b
     | Some ra, Some rb => t_frames a * num ra * den rb = t_frames b * num rb * den ra
     | _, _ => False
     end).
Proof.
  unfold time_eq. destruct (t_rate a) as [ra|], (t_rate b) as [rb|]; try discriminate.
  - destruct (Z.eqb_spec (t_seconds a) (t_seconds b)) as [E|E]; cbn [negb].
    + destruct (imul3_cases (t_frames a) (num ra) (den rb)) as [(_ & _ & ->)|(_ & ->)]; [|discriminate].
      destruct (imul3_cases (t_frames b) (num rb) (den ra)) as [(_ & _ & ->)|(_ & ->)]; cbn [bind]; [|discriminate].
      intros [= <-]. rewrite Z.eqb_eq. intuition lia.
    + intros [= <-]. intuition congruence.
  - intros [= <-]. rewrite andb_true_iff, !Z.eqb_eq. reflexivity.
Qed.

Lemma cross_trans a b c p q r : 0 < p -> 0 < q -> 0 < r -> a * q < b * p -> b * r < c * q -> a * r < c * p.
Proof. intros. apply (Z.mul_lt_mono_pos_r q); [assumption|].
  assert (a * q * r < b * p * r) by (apply Z.mul_lt_mono_pos_r; assumption).
  assert (b * r * p < c * q * p) by (apply Z.mul_lt_mono_pos_r; assumption). lia. Qed.
Lemma cross_le_trans a b c p q r : 0 < p -> 0 < q -> 0 < r -> a * q <= b * p -> b * r <= c * q -> a * r <= c * p.
Proof. intros. apply (Z.mul_le_mono_pos_r _ _ q); [assumption|].
  assert (a * q * r <= b * p * r) by (apply Z.mul_le_mono_pos_r; assumption).
  assert (b * r * p <= c * q * p) by (apply Z.mul_le_mono_pos_r; assumption). lia. Qed.

Lemma lt_trans a b c x : rate_ok a -> rate_ok b -> rate_ok c ->
  time_lt a b = Ok true -> time_lt b c = Ok true -> time_lt a c = Ok x -> x = true.
Proof.
  intros Ra Rb Rc H1 H2 H3. apply (lt_key _ _ _ H3).
  apply lt_key in H1 as [H1 _]; apply lt_key in H2 as [H2 _].
  specialize (H1 eq_refl). specialize (H2 eq_refl). unfold rate_ok in *.
  destruct H1 as [H1|[E1 H1]], H2 as [H2|[E2 H2]]; try (left; lia).
  right. split; [lia|].
  destruct (t_rate a) as [ra|], (t_rate b) as [rb|], (t_rate c) as [rc|]; try contradiction; [|lia].
  specialize (Ra _ eq_refl). specialize (Rb _ eq_refl). specialize (Rc _ eq_refl).
  eapply (cross_trans _ (t_frames b * num rb)); [.. | exact H1 | exact H2]; assumption.
Qed.

Lemma not_lt_key a b x : time_lt a b = Ok x -> x = false ->
  t_seconds b < t_seconds a \/ t_seconds a = t_seconds b /\
     match t_rate a, t_rate b with
     | None, None => t_frames b <= t_frames a
     | Some ra, Some rb => t_frames b * num rb * den ra <= t_frames a * num ra * den rb
     | _, _ => False
     end.
Proof.
  unfold time_lt. destruct (Z.eqb_spec (t_seconds a) (t_seconds b)) as [E|E]; cbn [negb].
  - destruct (t_rate a) as [ra|], (t_rate b) as [rb|]; try discriminate.
    + destruct (imul3_cases (t_frames a) (num ra) (den rb)) as [(_ & _ & ->)|(_ & ->)]; [|discriminate].
      destruct (imul3_cases (t_frames b) (num rb) (den ra)) as [(_ & _ & ->)|(_ & ->)]; cbn [bind]; [|discriminate].
      intros [= <-]. rewrite Z.ltb_ge. intuition lia.
    + intros [= <-]. rewrite Z.ltb_ge. intuition lia.
  - intros [= <-]. rewrite Z.ltb_ge. intuition lia.
Qed.

Lemma lt_negtrans a b c x : rate_ok a -> rate_ok b -> rate_ok c ->
  time_lt a b = Ok false -> time_lt b c = Ok false -> time_lt a c = Ok x -> x = false.
Proof.
  intros Ra Rb Rc H1 H2 H3. destruct x; [exfalso|reflexivity].
  apply lt_key in H3 as [H3 _]. specialize (H3 eq_refl).
  apply not_lt_key in H1; [|reflexivity]. apply not_lt_key in H2; [|reflexivity]. unfold rate_ok in *.
  destruct H1 as [H1|[E1 H1]], H2 as [H2|[E2 H2]]; try lia.
  destruct H3 as [H3|[_ H3]]; [lia|].
  destruct (t_rate a) as [ra|], (t_rate b) as [rb|], (t_rate c) as [rc|]; try contradiction; [|lia].
  specialize (Ra _ eq_refl). specialize (Rb _ eq_refl). specialize (Rc _ eq_refl).
  assert (t_frames c * num rc * den ra <= t_frames a * num ra * den rc); [|lia].
  eapply (cross_le_trans _ (t_frames b * num rb)); [.. | exact H2 | exact H1]; assumption.
Qed.

Lemma trichotomy a b l e g : time_lt a b = Ok l -> time_eq a b = Ok e -> time_gt a b = Ok g ->
  (l = true /\ e = false /\ g = false) \/ (l = false /\ e = true /\ g = false) \/ (l = false /\ e = false /\ g = true).
Proof.
  rewrite gt_is_lt. intros Hl He Hg.
  assert (M : is_some (t_rate a) = is_some (t_rate b)).
  { unfold time_eq in He. destruct (t_rate a), (t_rate b); try reflexivity; discriminate He. }
  apply lt_key in Hl. apply eq_key in He. apply lt_key in Hg.
  assert (B : forall (x : bool), (x = false <-> x <> true)) by (intros []; split; congruence).
  rewrite !B, Hl, He, Hg. clear B Hl He Hg l e g.
  destruct (t_rate a) as [ra|], (t_rate b) as [rb|]; try discriminate M.
  - generalize (t_frames a * num ra * den rb) (t_frames b * num rb * den ra). intros. lia.
  - lia.
Qed.
