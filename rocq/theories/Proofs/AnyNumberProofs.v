(** Any text as a float. *)
From Coq Require Import ZArith Reals Lra Lia Bool List Ascii String.
From Coq.Floats Require Import SpecFloat.
From Flocq Require Import Core BinarySingleNaN.
From Verif.Model Require Import Base Strings Float RawConvert.
From Verif.Spec Require Import Outcome TextSpec LinesSpec StlFileSpec SubripSpec SsaTagSpec PositionSpec NumberSpec AnyNumberSpec.
From Verif.Proofs Require Import FloatProofs PositionProofs StringProofs StlReadProofs SsaTagProofs LinesProofs ComposeProofs SubripTokenProofs NumberProofs.
Import ListNotations.
Local Notation length := List.length.
Local Open Scope R_scope.

(** * Rounding *)

Lemma overflow_inf s : binary_overflow 24 128 mode_NE s = S754_infinity s.
Proof. reflexivity. Qed.
Lemma normalize_any m e neg : (0 < m)%Z ->
  float_for neg (Value (IZR m * bpow radix2 e)) (SpecFloat.binary_normalize 24 128 (cond_Zopp neg m) e neg).
Proof.
  intros P. cbn [float_for]. rewrite nearest_is. pose proof (bpow_gt_0 radix2 e) as BP. assert (MP : 0 < IZR m) by now apply (IZR_lt 0).
  assert (XP : 0 < IZR m * bpow radix2 e) by now apply Rmult_lt_0_compat.
  set (x := if neg then - (IZR m * bpow radix2 e) else IZR m * bpow radix2 e).
  assert (X : F2R (Float radix2 (cond_Zopp neg m) e) = x).
  { unfold F2R, x. cbn [Fnum Fexp]. destruct neg; cbn [cond_Zopp]; [rewrite opp_IZR; lra|reflexivity]. }
  rewrite (binary_normalize_equiv 24 128 p24 e24).
  generalize (binary_normalize_correct 24 128 p24 e24 mode_NE (cond_Zopp neg m) e neg). cbv zeta. rewrite X. cbn [round_mode].
  fold (rnd32 x). destruct (Rlt_bool_spec (Rabs (rnd32 x)) (bpow radix2 128)) as [L|L].
  - intros (R & F & S). left. split; [exact L|]. set (b := BinarySingleNaN.binary_normalize 24 128 p24 e24 mode_NE (cond_Zopp neg m) e neg) in *. split.
    + exact (is_flt_of_b 24 128 b _ F R).
    + change (sign_of (B2SF b) = neg). replace (sign_of (B2SF b)) with (Bsign b) by (destruct b; [reflexivity|reflexivity|discriminate|reflexivity]). rewrite S. unfold x. destruct neg.
      * rewrite Rcompare_Lt by lra. reflexivity.
      * rewrite Rcompare_Gt by lra. reflexivity.
  - intros O. right. split; [exact L|]. refine (eq_trans O _). rewrite overflow_inf. f_equal. unfold x. destruct neg.
    + apply Rlt_bool_true. lra.
    + apply Rlt_bool_false. lra.
Qed.
Lemma divide_any m q neg : float_for neg (Value (IZR (Z.pos m) * / IZR (Z.pos q))) (SFdiv 24 128 (S754_finite neg m 0) (S754_finite false q 0)).
Proof.
  cbn [float_for]. rewrite nearest_is.
  set (x := if neg then - (IZR (Z.pos m) * / IZR (Z.pos q)) else IZR (Z.pos m) * / IZR (Z.pos q)).
  pose proof (Bdiv_correct_aux 24 128 p24 e24 mode_NE neg m 0 false q 0) as C. cbv zeta in C.
  assert (X : F2R (Float radix2 (cond_Zopp neg (Z.pos m)) 0) / F2R (Float radix2 (cond_Zopp false (Z.pos q)) 0) = x).
  { unfold F2R, x. cbn [Fnum Fexp bpow cond_Zopp]. rewrite !Rmult_1_r. unfold Rdiv. destruct neg; cbn [cond_Zopp]; [|reflexivity].
    rewrite opp_IZR. now rewrite Ropp_mult_distr_l. }
  assert (SF : SFdiv 24 128 (S754_finite neg m 0) (S754_finite false q 0) = (let '(mz, ez, lz) := SFdiv_core_binary 24 128 (Z.pos m) 0 (Z.pos q) 0 in
                 BinarySingleNaN.binary_round_aux 24 128 mode_NE (xorb neg false) mz ez lz)).
  { unfold SFdiv. destruct (SFdiv_core_binary _ _ _ _ _ _) as [[mz ez] lz]. apply binary_round_aux_equiv. }
  rewrite SF. destruct C as [V C]. rewrite X in C. cbn [round_mode] in C. fold (rnd32 x) in C.
  set (z := let '(mz, ez, lz) := SFdiv_core_binary 24 128 (Z.pos m) 0 (Z.pos q) 0 in BinarySingleNaN.binary_round_aux 24 128 mode_NE (xorb neg false) mz ez lz) in *.
  rewrite Bool.xorb_false_r in C. destruct (Rlt_bool_spec (Rabs (rnd32 x)) (bpow radix2 128)) as [L|L].
  - destruct C as (C1 & C2 & C3). left. split; [exact L|]. split; [now split|]. rewrite <- C3. now destruct z.
  - right. split; [exact L|]. rewrite C. apply overflow_inf.
Qed.
Lemma zero_any neg e : float_for neg (Value (IZR 0 * e)) (S754_zero neg).
Proof.
  cbn [float_for]. rewrite Rmult_0_l, Ropp_0. replace (if neg then 0 else 0) with 0 by now destruct neg. rewrite nearest_is, round_0 by apply valid_rnd_N.
  left. rewrite Rabs_R0. split; [apply bpow_gt_0|]. now repeat split.
Qed.
Lemma decimal_any neg v e : (0 <= v)%Z -> float_for neg (Value (IZR v * powerRZ 10 e)) (f_of_decimal neg v e).
Proof.
  intros P. unfold f_of_decimal. destruct v as [|m|m]; [apply zero_any| |lia]. destruct (Z.leb_spec 0 e) as [E|E].
  - rewrite (powerRZ_pos e E), <- mult_IZR. replace (IZR (Z.pos m * 10 ^ e)) with (IZR (Z.pos m * 10 ^ e) * bpow radix2 0) by (cbn; lra).
    apply normalize_any. apply Z.mul_pos_pos; [lia|]. now apply Z.pow_pos_nonneg.
  - rewrite (powerRZ_neg e E). destruct (10 ^ (- e))%Z as [|q|q] eqn:Q; [exfalso; pose proof (Z.pow_pos_nonneg 10 (- e) ltac:(lia) ltac:(lia)); lia| |exfalso; pose proof (Z.pow_pos_nonneg 10 (- e) ltac:(lia) ltac:(lia)); lia].
    apply divide_any.
Qed.

(** * Words *)

Lemma word_iff w s : to_lower (lit w) = lit w -> (begins_word w s <-> starts_with (to_lower s) (lit w) = true).
Proof.
  intros L. rewrite starts_with_iff. unfold begins_word. split.
  - intros (p & rest & S & ->). apply lower_all in S. rewrite L in S. exists (to_lower rest). unfold to_lower in *. now rewrite map_app, S.
  - intros (rest & E). exists (firstn (length (lit w)) s), (skipn (length (lit w)) s). split; [|now rewrite firstn_skipn].
    apply lower_all. rewrite L. unfold to_lower in *. rewrite <- firstn_map, E. rewrite firstn_app, Nat.sub_diag, firstn_all. cbn [firstn]. apply app_nil_r.
Qed.
Lemma words_apart v w s : apart (lit v) (lit w) = true -> begins_word v s -> ~ begins_word w s.
Proof.
  intros A (p & r & P & E) (q & t & Q & F). apply (f_equal to_lower) in E, F. rewrite E in F. unfold to_lower in F. rewrite !map_app in F.
  apply lower_all in P, Q. change (map lower) with to_lower in F. rewrite P, Q in F. apply prefix_app in F. unfold apart in A.
  apply andb_true_iff in A. destruct A as [A B]. apply negb_true_iff in A, B. destruct F; congruence.
Qed.
Lemma word_longer v w u s : lit w = lit v ++ u -> begins_word w s -> begins_word v s.
Proof.
  intros E (p & r & S & ->). rewrite E in S. unfold same_letters in S. apply Forall2_app_inv_r in S. destruct S as (p1 & p2 & S1 & _ & ->).
  exists p1, (p2 ++ r). split; [exact S1|]. now rewrite app_assoc.
Qed.

(** * Mantissas and exponents *)

Definition split_mantissa (p : ascii -> bool) (r : str) : str * str * str :=
  let ip := take_while p r in
  let rest := drop_while p r in
  match rest with
  | c :: t => if Ascii.eqb c "."%char then (ip, take_while p t, drop_while p t) else (ip, [], rest)
  | [] => (ip, [], rest)
  end.
Section Mantissa.
Variables (digit : ascii -> Prop) (p : ascii -> bool).
Hypothesis D : forall c, digit c <-> p c = true.
Hypothesis DOT : p "."%char = false.
Lemma all_digits s : Forall digit s <-> Forall (fun c => p c = true) s.
Proof. rewrite !Forall_forall. split; intros H c I; apply D; auto. Qed.
Lemma not_begins_digit s : ~ begins digit s <-> starts_not p s.
Proof. destruct s as [|c s]; cbn; [tauto|]. rewrite D. destruct (p c); split; congruence. Qed.
Lemma mantissa_split r ds n rest : mantissa digit r ds n rest -> exists ip fp, split_mantissa p r = (ip, fp, rest) /\ ds = ip ++ fp /\ n = length fp.
Proof.
  unfold split_mantissa. intros [d rest' F N P|d f rest' F G N].
  - apply all_digits in F. apply not_begins_digit in N. rewrite take_while_app, drop_while_app by assumption. exists d, []. rewrite app_nil_r.
    destruct rest' as [|c t]; [now split|]. destruct (Ascii.eqb_spec c ".") as [->|]; [now destruct P|]. now split.
  - apply all_digits in F, G. apply not_begins_digit in N. assert (S : starts_not p ("."%char :: f ++ rest')) by exact DOT.
    rewrite take_while_app, drop_while_app by assumption. change (Ascii.eqb "." ".") with true. cbv iota beta.
    rewrite take_while_app, drop_while_app by assumption. exists d, f. now split.
Qed.
Lemma split_mantissa_is r ip fp rest : split_mantissa p r = (ip, fp, rest) -> mantissa digit r (ip ++ fp) (length fp) rest.
Proof.
  unfold split_mantissa. pose proof (take_drop p r) as E. pose proof (take_while_all p r) as F. pose proof (drop_while_starts p r) as N.
  remember (take_while p r) as d eqn:HD. remember (drop_while p r) as t eqn:HT. clear HD HT. subst r.
  apply all_digits in F. destruct t as [|c t].
  - intros [= <- <- <-]. rewrite app_nil_r at 2. apply mantissa_whole; [exact F|now apply not_begins_digit|intros []].
  - destruct (Ascii.eqb_spec c ".") as [->|NC].
    + intros [= <- <- <-]. rewrite <- (take_drop p t) at 1. apply mantissa_point; [exact F|apply all_digits, take_while_all|apply not_begins_digit, drop_while_starts].
    + intros [= <- <- <-]. rewrite app_nil_r at 1. apply mantissa_whole; [exact F|now apply not_begins_digit|]. cbn. congruence.
Qed.
End Mantissa.

Lemma mantissa_digits digit r ds n rest : mantissa digit r ds n rest -> Forall digit ds.
Proof. intros [d r' F _ _|d f r' F G _]; [exact F|]. apply Forall_app. now split. Qed.

Lemma digit_iff c : is_digit_char c <-> is_digit c = true.
Proof. split; [intros (d & H); now apply dec_digit_is in H|intros H; exists (digit_val c); now apply is_digit_dec]. Qed.

Lemma letter_iff c e : lower e = e -> (same_letter c e <-> Ascii.eqb (lower c) e = true).
Proof. intros L. rewrite <- lower_same, L, Ascii.eqb_eq. reflexivity. Qed.
Lemma signed_scan k v rest : signed k v -> ~ begins is_digit_char rest ->
  exists ds, take_while is_digit (snd (take_sign (k ++ rest))) = ds /\ ds <> [] /\ (if fst (take_sign (k ++ rest)) then - dec_val ds else dec_val ds)%Z = v.
Proof.
  intros S N. apply (not_begins_digit _ _ digit_iff) in N. destruct S as [d v D|d v D|d v D]; destruct (numeral_digits d v D) as (F & V & NE & P); exists d.
  - destruct d as [|x d]; [congruence|]. cbn [app]. pose proof (numeral_head x d v D) as [H1 H2]. unfold take_sign. rewrite H1, H2. cbn [fst snd].
    change (x :: d ++ rest) with ((x :: d) ++ rest). rewrite take_while_app by assumption. now split.
  - cbn [app take_sign]. change (Ascii.eqb "+" cminus) with false. change (Ascii.eqb "+" cplus) with true. cbn [fst snd].
    rewrite take_while_app by assumption. now split.
  - cbn [app take_sign]. change (Ascii.eqb "-" cminus) with true. cbn [fst snd]. rewrite take_while_app by assumption. split; [reflexivity|]. split; [exact NE|]. now rewrite V.
Qed.
Lemma signed_found s : match take_while is_digit (snd (take_sign s)) with
  | [] => forall k v rest, signed k v -> s <> k ++ rest
  | ds => exists k rest, s = k ++ rest /\ signed k (if fst (take_sign s) then - dec_val ds else dec_val ds)%Z /\ ~ begins is_digit_char rest
  end.
Proof.
  destruct (take_while is_digit (snd (take_sign s))) as [|x ds] eqn:T.
  - intros k v rest S E. 
    assert (A : forall d w t, numeral d w -> take_while is_digit (d ++ t) <> []).
    { intros d w t D. destruct (numeral_digits d w D) as (F & _ & NE & _). destruct d as [|y d]; [congruence|]. inversion F; subst. cbn. 
      match goal with H : is_digit y = true |- _ => rewrite H end. discriminate. }
    subst s. destruct S as [d v D|d v D|d v D].
    + destruct d as [|y d]; [destruct (numeral_digits _ _ D) as (_ & _ & NE & _); congruence|]. cbn [app] in T. pose proof (numeral_head y d v D) as [H1 H2].
      unfold take_sign in T. rewrite H1, H2 in T. cbn [snd] in T. exact (A (y :: d) v rest D T).
    + cbn [app take_sign] in T. change (Ascii.eqb "+" cminus) with false in T. change (Ascii.eqb "+" cplus) with true in T. exact (A d v rest D T).
    + cbn [app take_sign] in T. change (Ascii.eqb "-" cminus) with true in T. exact (A d v rest D T).
  - assert (N : numeral (x :: ds) (dec_val (x :: ds))). { apply digits_numeral; [discriminate|]. rewrite <- T. apply take_while_all. }
    assert (R : ~ begins is_digit_char (drop_while is_digit (snd (take_sign s)))) by apply (not_begins_digit _ _ digit_iff), drop_while_starts.
    pose proof (take_drop is_digit (snd (take_sign s))) as E. rewrite T in E.
    unfold take_sign in *. destruct s as [|c s]; [discriminate|].
    destruct (Ascii.eqb_spec c cminus) as [->|]; [|destruct (Ascii.eqb_spec c cplus) as [->|]]; cbn [fst snd] in *.
    + exists ("-"%char :: x :: ds), (drop_while is_digit s). split; [now rewrite <- E at 1|]. split; [now constructor|exact R].
    + exists ("+"%char :: x :: ds), (drop_while is_digit s). split; [now rewrite <- E at 1|]. split; [now constructor|exact R].
    + exists (x :: ds), (drop_while is_digit (c :: s)). split; [now rewrite <- E at 1|]. split; [now constructor|exact R].
Qed.
Lemma power_scan e s k : lower e = e -> power e s k -> scan_exponent e s = k.
Proof.
  intros L [s' N|c kk v rest C S R|c s' C N]; unfold scan_exponent.
  - destruct s' as [|c t]; [reflexivity|]. cbn in N. rewrite (letter_iff c e L) in N. now destruct (Ascii.eqb (lower c) e).
  - apply (letter_iff c e L) in C. rewrite C. destruct (signed_scan kk v rest S R) as (ds & T & NE & V).
    destruct (take_sign (kk ++ rest)) as [neg d]. cbn [fst snd] in *. rewrite T. destruct ds; [congruence|exact V].
  - apply (letter_iff c e L) in C. rewrite C. pose proof (signed_found s') as F. destruct (take_sign s') as [neg d]. cbn [fst snd] in *.
    destruct (take_while is_digit d) as [|x ds]; [reflexivity|]. destruct F as (k2 & rest & E & S & _). now destruct (N _ _ rest S).
Qed.
Lemma power_exists e s : lower e = e -> exists k, power e s k.
Proof.
  intros L. destruct s as [|c s]; [exists 0%Z; apply power_none; intros []|]. destruct (Ascii.eqb (lower c) e) eqn:C.
  - apply (letter_iff c e L) in C. pose proof (signed_found s) as F. destruct (take_while is_digit (snd (take_sign s))) as [|x ds].
    + exists 0%Z. now apply power_empty.
    + destruct F as (k & rest & -> & S & R). eexists. apply power_some; eassumption.
  - exists 0%Z. apply power_none. cbn. rewrite (letter_iff c e L). congruence.
Qed.

(** * The whole *)

Definition scan_unsigned (neg : bool) (r : str) : flt :=
  let l := to_lower r in
  if starts_with l (lit "nan") then S754_nan
  else if starts_with l (lit "inf") then
    (match skipn 3 l with
     | c :: _ => if Ascii.eqb c "i"%char then
                   if starts_with l (lit "infinity") then S754_infinity neg else S754_zero false
                 else S754_infinity neg
     | [] => S754_infinity neg
     end)
  else if starts_with l (lit "0x") then
    let '(ip, fp, rest) := split_mantissa is_xdigit (skipn 2 r) in
    match ip ++ fp with
    | [] => S754_zero false
    | ds => match hex_val ds with
            | Zpos m => SpecFloat.binary_normalize p32 e32 (cond_Zopp neg (Zpos m)) (scan_exponent "p"%char rest - 4 * Z.of_nat (length fp)) neg
            | _ => S754_zero neg
            end
    end
  else
    let '(ip, fp, rest) := split_mantissa is_digit r in
    match ip ++ fp with
    | [] => S754_zero false
    | ds => f_of_decimal neg (dec_val ds) (scan_exponent "e"%char rest - Z.of_nat (length fp))
    end.
Lemma scan_float_is s : scan_float "."%char s = scan_unsigned (fst (take_sign (drop_while is_space s))) (snd (take_sign (drop_while is_space s))).
Proof.
  unfold scan_float, scan_unsigned, split_mantissa. destruct (take_sign (drop_while is_space s)) as [neg r]. cbn [fst snd]. cbv zeta.
  destruct (starts_with (to_lower r) (lit "nan")); [reflexivity|]. destruct (starts_with (to_lower r) (lit "inf")); [reflexivity|].
  destruct (starts_with (to_lower r) (lit "0x")).
  - destruct (drop_while is_xdigit (skipn 2 r)) as [|c t]; [reflexivity|]. now destruct (Ascii.eqb c ".").
  - destruct (drop_while is_digit r) as [|c t]; [reflexivity|]. now destruct (Ascii.eqb c ".").
Qed.

Lemma no_word w s : to_lower (lit w) = lit w -> ~ begins_word w s -> starts_with (to_lower s) (lit w) = false.
Proof. intros L N. rewrite (word_iff w s L) in N. now apply Bool.not_true_iff_false. Qed.
Lemma yes_word w s : to_lower (lit w) = lit w -> begins_word w s -> starts_with (to_lower s) (lit w) = true.
Proof. intros L. apply (word_iff w s L). Qed.
Lemma infi_iff l : starts_with l (lit "inf") = true ->
  starts_with l (lit "infi") = match skipn 3 l with c :: _ => Ascii.eqb c "i"%char | [] => false end.
Proof.
  intros H. apply starts_with_iff in H. destruct H as (rest & ->). destruct rest as [|c rest]; [reflexivity|]. cbn [app lit list_ascii_of_string skipn starts_with].
  rewrite !Ascii.eqb_refl. cbn [andb]. rewrite (Ascii.eqb_sym c). replace (starts_with rest []) with true by now destruct rest. apply andb_true_r.
Qed.
Lemma digits_or_dot r ds n rest : mantissa is_digit_char r ds n rest -> ds <> [] -> match r with c :: _ => is_digit c = true \/ c = "."%char | [] => False end.
Proof.
  intros [d rest' F N P|d f rest' F G N] NE.
  - destruct d as [|c d]; [congruence|]. cbn [app]. left. apply digit_iff. now inversion F.
  - destruct d as [|c d]; cbn [app]; [now right|]. left. apply digit_iff. now inversion F.
Qed.
Lemma first_letter w c l s : lit w = c :: l -> lower c = c -> (is_digit c = false /\ c <> "."%char) ->
  (match s with x :: _ => is_digit x = true \/ x = "."%char | [] => False end) -> ~ begins_word w s.
Proof.
  intros E L [ND NP] H (p & rest & S & ->). rewrite E in S. inversion S as [|x ? p' ? SL _]; subst. cbn [app] in H. apply lower_same in SL. rewrite L in SL.
  destruct H as [D| ->]; [|cbn in SL; congruence]. rewrite (lower_digit _ D) in SL. congruence.
Qed.
Lemma hex_val_nonneg s v : hex_numeral s v -> (0 <= v)%Z.
Proof. induction 1 as [|s v c d H IH D]; [lia|]. unfold hex_digit in D. lia. Qed.

Lemma unsigned_sound neg s r : unsigned_reads s r -> float_for neg r (scan_unsigned neg s).
Proof.
  assert (LN : to_lower (lit "nan") = lit "nan") by reflexivity. assert (LI : to_lower (lit "inf") = lit "inf") by reflexivity.
  assert (LJ : to_lower (lit "infi") = lit "infi") by reflexivity. assert (LK : to_lower (lit "infinity") = lit "infinity") by reflexivity.
  assert (LX : to_lower (lit "0x") = lit "0x") by reflexivity.
  intros H. unfold scan_unsigned. cbv zeta.
  destruct H as [s W|s W N|s W|s W N|p s ds places rest v k S M NE V P|p s places rest S M|s ds places rest v k NX M V P|s places rest N1 N2 M].
  - rewrite (yes_word _ _ LN W). reflexivity.
  - rewrite (no_word _ _ LN (words_apart "inf" "nan" s eq_refl W)), (yes_word _ _ LI W).
    pose proof (infi_iff _ (yes_word _ _ LI W)) as E. rewrite (no_word _ _ LJ N) in E. destruct (skipn 3 (to_lower s)) as [|c t]; [reflexivity|].
    rewrite <- E. reflexivity.
  - assert (W1 : begins_word "inf" s) by now apply (word_longer "inf" "infinity" (lit "inity")).
    assert (W2 : begins_word "infi" s) by now apply (word_longer "infi" "infinity" (lit "nity")).
    rewrite (no_word _ _ LN (words_apart "inf" "nan" s eq_refl W1)), (yes_word _ _ LI W1), (yes_word _ _ LK W).
    destruct (skipn 3 (to_lower s)) as [|c t]; [reflexivity|]. now destruct (Ascii.eqb c "i").
  - assert (W1 : begins_word "inf" s) by now apply (word_longer "inf" "infi" (lit "i")).
    rewrite (no_word _ _ LN (words_apart "inf" "nan" s eq_refl W1)), (yes_word _ _ LI W1), (no_word _ _ LK N).
    pose proof (infi_iff _ (yes_word _ _ LI W1)) as E. rewrite (yes_word _ _ LJ W) in E. destruct (skipn 3 (to_lower s)) as [|c t]; [discriminate|].
    rewrite <- E. reflexivity.
  - assert (W : begins_word "0x" (p ++ s)) by now exists p, s.
    rewrite (no_word _ _ LN (words_apart "0x" "nan" _ eq_refl W)), (no_word _ _ LI (words_apart "0x" "inf" _ eq_refl W)), (yes_word _ _ LX W).
    assert (SK : skipn 2 (p ++ s) = s). { inversion S as [|? ? ? ? _ S2]; subst. inversion S2 as [|? ? ? ? _ S3]; subst. inversion S3. reflexivity. }
    rewrite SK. destruct (mantissa_split _ _ is_hex_char_iff eq_refl _ _ _ _ M) as (ip & fp & -> & -> & ->).
    pose proof (hex_val_nonneg _ _ V) as NN. apply hex_numeral_iff in V. destruct V as [_ V]. rewrite (power_scan "p" _ _ eq_refl P).
    destruct (ip ++ fp) as [|x l]; [congruence|]. rewrite V. destruct v as [|m|m]; [apply zero_any| |lia].
    rewrite <- bpow_powerRZ with (r := radix2). now apply normalize_any.
  - assert (W : begins_word "0x" (p ++ s)) by now exists p, s.
    rewrite (no_word _ _ LN (words_apart "0x" "nan" _ eq_refl W)), (no_word _ _ LI (words_apart "0x" "inf" _ eq_refl W)), (yes_word _ _ LX W).
    assert (SK : skipn 2 (p ++ s) = s). { inversion S as [|? ? ? ? _ S2]; subst. inversion S2 as [|? ? ? ? _ S3]; subst. inversion S3. reflexivity. }
    rewrite SK. destruct (mantissa_split _ _ is_hex_char_iff eq_refl _ _ _ _ M) as (ip & fp & -> & <- & ->). reflexivity.
  - destruct (numeral_digits _ _ V) as (_ & DV & NE & PV). pose proof (digits_or_dot _ _ _ _ M NE) as H.
    rewrite (no_word _ _ LN), (no_word _ _ LI), (no_word _ _ LX NX).
    2:{ now apply (first_letter "inf" "i"%char (lit "nf")). }
    2:{ now apply (first_letter "nan" "n"%char (lit "an")). }
    destruct (mantissa_split _ _ digit_iff eq_refl _ _ _ _ M) as (ip & fp & -> & -> & ->). rewrite (power_scan "e" _ _ eq_refl P).
    destruct (ip ++ fp) as [|x l]; [congruence|]. rewrite DV. now apply decimal_any.
  - rewrite (no_word _ _ LN N1), (no_word _ _ LI N2).
    assert (NX : ~ begins_word "0x" s).
    { intros (p & t & S & ->). inversion S as [|x ? p' ? SL _]; subst. apply lower_same in SL. assert (x = "0"%char).
      { apply code_inj. apply (f_equal code) in SL. unfold lower in SL. change (code "0"%char) with 48%Z in *. cbn in SL.
        destruct ((65 <=? code x) && (code x <=? 90))%Z eqn:U; [|exact SL]. pose proof (code_bounds x). rewrite code_chr in SL by lia. lia. }
      subst x. destruct (mantissa_split _ _ digit_iff eq_refl _ _ _ _ M) as (ip & fp & E & E2 & _).
      unfold split_mantissa in E. cbn [app take_while] in E. change (is_digit "0") with true in E. cbv iota in E.
      destruct (drop_while is_digit _) as [|c u]; [|destruct (Ascii.eqb c ".")]; injection E as <- <- <-; discriminate. }
    rewrite (no_word _ _ LX NX). destruct (mantissa_split _ _ digit_iff eq_refl _ _ _ _ M) as (ip & fp & -> & <- & ->). reflexivity.
Qed.
Lemma unsigned_exists s : exists r, unsigned_reads s r.
Proof.
  assert (DEC : forall w, to_lower (lit w) = lit w -> begins_word w s \/ ~ begins_word w s).
  { intros w L. rewrite (word_iff w s L). destruct (starts_with _ _); [now left|right; discriminate]. }
  destruct (DEC "nan"%string eq_refl) as [W|N1]; [exists NotNumber; now apply reads_nan|].
  destruct (DEC "infinity"%string eq_refl) as [W|N2]; [exists Infinity; now apply reads_infinity|].
  destruct (DEC "infi"%string eq_refl) as [W|N3]; [exists Nothing; now apply reads_bad_inf|].
  destruct (DEC "inf"%string eq_refl) as [W|N4]; [exists Infinity; now apply reads_inf|].
  destruct (DEC "0x"%string eq_refl) as [(p & t & S & ->)|N5].
  - destruct (split_mantissa is_xdigit t) as [[ip fp] rest] eqn:E. apply (split_mantissa_is _ _ is_hex_char_iff) in E.
    destruct (ip ++ fp) as [|x l] eqn:X.
    + exists Nothing. apply (reads_no_hex p t _ _ S E).
    + destruct (power_exists "p" rest eq_refl) as (k & P). exists (Value (IZR (hex_val (x :: l)) * powerRZ 2 (k - 4 * Z.of_nat (length fp)))).
      apply (reads_hex p t (x :: l) (length fp) rest); try assumption; [discriminate|]. apply hex_numeral_iff. split; [|reflexivity].
      apply (all_digits _ _ is_hex_char_iff). exact (mantissa_digits _ _ _ _ _ E).
  - destruct (split_mantissa is_digit s) as [[ip fp] rest] eqn:E. apply (split_mantissa_is _ _ digit_iff) in E.
    destruct (ip ++ fp) as [|x l] eqn:X.
    + exists Nothing. apply (reads_nothing s _ _ N1 N4 E).
    + destruct (power_exists "e" rest eq_refl) as (k & P). exists (Value (IZR (dec_val (x :: l)) * powerRZ 10 (k - Z.of_nat (length fp)))).
      apply (reads_decimal s (x :: l) (length fp) rest); try assumption. apply digits_numeral; [discriminate|].
      apply (all_digits _ _ digit_iff). exact (mantissa_digits _ _ _ _ _ E).
Qed.

Theorem any_read s neg r : float_reads s neg r -> float_for neg r (raw_convert_float s).
Proof.
  intros H. unfold raw_convert_float, raw_convert_float_in. rewrite c_local. cbn [decimal_point c_locale]. rewrite scan_float_is.
  destruct H as [sp s r W NW NS U|sp s r W U|sp s r W U].
  - rewrite (skip_white sp s W). 2:{ destruct s as [|c s]; [exact I|]. cbn in *. destruct (is_space c) eqn:E; [|reflexivity]. apply is_space_white in E. contradiction. }
    assert (T : take_sign s = (false, s)).
    { destruct s as [|c s]; [reflexivity|]. unfold take_sign. cbn in NS. unfold is_sign in NS.
      destruct (Ascii.eqb_spec c cminus) as [->|]; [now destruct NS; right|]. destruct (Ascii.eqb_spec c cplus) as [->|]; [now destruct NS; left|]. reflexivity. }
    rewrite T. cbn [fst snd]. now apply unsigned_sound.
  - rewrite (skip_white sp ("+"%char :: s) W) by reflexivity. cbn [take_sign]. change (Ascii.eqb "+" cminus) with false. change (Ascii.eqb "+" cplus) with true.
    cbn [fst snd]. now apply unsigned_sound.
  - rewrite (skip_white sp ("-"%char :: s) W) by reflexivity. cbn [take_sign]. change (Ascii.eqb "-" cminus) with true.
    cbn [fst snd]. now apply unsigned_sound.
Qed.
Theorem any_exists s : exists neg r, float_reads s neg r.
Proof.
  pose proof (take_drop is_space s) as E. pose proof (take_while_all is_space s) as F. pose proof (drop_while_starts is_space s) as N.
  remember (take_while is_space s) as sp eqn:HS. remember (drop_while is_space s) as t eqn:HT. clear HS HT. subst s. apply white_all in F.
  destruct t as [|c t].
  - destruct (unsigned_exists []) as (r & R). exists false, r. apply float_plain; try assumption; intros [].
  - destruct (ascii_dec c "+") as [->|NP]; [|destruct (ascii_dec c "-") as [->|NM]].
    + destruct (unsigned_exists t) as (r & R). exists false, r. now apply float_plus.
    + destruct (unsigned_exists t) as (r & R). exists true, r. now apply float_minus.
    + destruct (unsigned_exists (c :: t)) as (r & R). exists false, r. apply float_plain; try assumption.
      * cbn in *. intros W. apply is_space_white in W. congruence.
      * cbn. intros [->| ->]; contradiction.
Qed.
