(** Decimal numbers are read as the nearest float. *)
From Coq Require Import ZArith Reals Lra Lia Psatz Bool List Ascii String.
From Coq.Floats Require Import SpecFloat.
From Flocq Require Import Core BinarySingleNaN.
From Verif.Model Require Import Base Strings Float RawConvert.
From Verif.Spec Require Import Outcome TextSpec LinesSpec StlFileSpec PositionSpec NumberSpec.
From Verif.Proofs Require Import FloatProofs PositionProofs StringProofs StlReadProofs SsaTagProofs LinesProofs ComposeProofs.
Import ListNotations.
Local Notation length := List.length.
Local Open Scope R_scope.

Lemma nearest_is x : nearest_float x = rnd32 x.
Proof. reflexivity. Qed.

Lemma lt_128 x : Rabs x <= bpow radix2 127 -> Rabs (rnd32 x) < bpow radix2 128.
Proof.
  intros B. apply Rle_lt_trans with (bpow radix2 127); [|apply bpow_lt; lia].
  apply abs_round_le_generic; [apply (@FLT_exp_valid (-149) 24 p24)|apply valid_rnd_N| |exact B].
  change (SpecFloat.fexp 24 128) with (FLT_exp (-149) 24). apply generic_format_bpow. unfold FLT_exp. lia.
Qed.

Lemma powerRZ_pos k : (0 <= k)%Z -> powerRZ 10 k = IZR (10 ^ k).
Proof.
  intros P. destruct k as [|p|p]; [reflexivity| |lia]. cbn [powerRZ]. rewrite pow_IZR. f_equal. now rewrite positive_nat_Z.
Qed.
Lemma powerRZ_neg k : (k < 0)%Z -> powerRZ 10 k = / IZR (10 ^ (- k)).
Proof.
  intros P. destruct k as [|p|p]; [lia|lia|]. cbn [powerRZ Z.opp]. f_equal. rewrite pow_IZR. f_equal. now rewrite positive_nat_Z.
Qed.

Lemma f_of_decimal_ok neg v e : (0 <= v)%Z -> Rabs (IZR v * powerRZ 10 e) <= bpow radix2 127 ->
  is_f (f_of_decimal neg v e) (rnd32 (if neg then - (IZR v * powerRZ 10 e) else IZR v * powerRZ 10 e)).
Proof.
  intros P B. unfold f_of_decimal. destruct v as [|m|m]; [|clear P|lia].
  - rewrite Rmult_0_l, Ropp_0. replace (if neg then 0 else 0) with 0 by now destruct neg. rewrite round_0 by apply valid_rnd_N. now repeat split.
  - assert (S : forall z, IZR (cond_Zopp neg z) = if neg then - IZR z else IZR z) by (intros z; destruct neg; [apply opp_IZR|reflexivity]).
    assert (BN : Rabs (if neg then - (IZR (Z.pos m) * powerRZ 10 e) else IZR (Z.pos m) * powerRZ 10 e) <= bpow radix2 127) by (destruct neg; [rewrite Rabs_Ropp|]; exact B).
    destruct (0 <=? e)%Z eqn:E.
    + apply Z.leb_le in E. rewrite (powerRZ_pos e E) in *. rewrite <- mult_IZR in *.
      assert (X : F2R (Float radix2 (cond_Zopp neg (Z.pos m * 10 ^ e)) 0) = (if neg then - IZR (Z.pos m * 10 ^ e) else IZR (Z.pos m * 10 ^ e))).
      { unfold F2R. cbn [Fnum Fexp bpow]. rewrite Rmult_1_r. apply S. }
      rewrite <- X in *. apply (normalize_flt 24 128 p24 e24). now apply lt_128.
    + apply Z.leb_gt in E. destruct (10 ^ (- e))%Z as [|q|q] eqn:Q; [exfalso; pose proof (Z.pow_pos_nonneg 10 (- e) ltac:(lia) ltac:(lia)); lia| |exfalso; pose proof (Z.pow_pos_nonneg 10 (- e) ltac:(lia) ltac:(lia)); lia].
      rewrite (powerRZ_neg e E), Q in *.
      pose proof (Bdiv_correct_aux 24 128 p24 e24 mode_NE neg m 0 false q 0) as C. cbv zeta in C.
      assert (X : F2R (Float radix2 (cond_Zopp neg (Z.pos m)) 0) / F2R (Float radix2 (cond_Zopp false (Z.pos q)) 0) =
                  (if neg then - (IZR (Z.pos m) * / IZR (Z.pos q)) else IZR (Z.pos m) * / IZR (Z.pos q))).
      { unfold F2R. cbn [Fnum Fexp bpow cond_Zopp]. rewrite !Rmult_1_r, S. unfold Rdiv. destruct neg; [now rewrite Ropp_mult_distr_l|reflexivity]. }
      assert (SF : SFdiv p32 e32 (S754_finite neg m 0) (S754_finite false q 0) = (let '(mz, ez, lz) := SFdiv_core_binary 24 128 (Z.pos m) 0 (Z.pos q) 0 in
                     BinarySingleNaN.binary_round_aux 24 128 mode_NE (xorb neg false) mz ez lz)).
      { unfold SFdiv, p32, e32. destruct (SFdiv_core_binary _ _ _ _ _ _) as [[mz ez] lz]. apply binary_round_aux_equiv. }
      rewrite SF. destruct C as [V C]. rewrite X in C. cbn [round_mode] in C. rewrite Rlt_bool_true in C by (now apply lt_128). destruct C as (C1 & C2 & _).
      split; [exact V|]. split; [exact C2|exact C1].
Qed.

(** * Scanning *)

Definition scan_number (neg : bool) (r : str) : flt :=
  let ip := take_while is_digit r in
  let rest := drop_while is_digit r in
  let '(fp, rest') :=
    match rest with
    | c :: t => if Ascii.eqb c "."%char then (take_while is_digit t, drop_while is_digit t) else ([], rest)
    | [] => ([], rest)
    end in
  match ip ++ fp with
  | [] => S754_zero false
  | ds => f_of_decimal neg (dec_val ds) (scan_exponent "e"%char rest' - Z.of_nat (List.length fp))
  end.
(** The first two characters of a decimal number. *)
Definition starts_number (r : str) : Prop :=
  match r with
  | c :: t => (is_digit c = true \/ c = "."%char) /\ (c = "0"%char -> match t with x :: _ => x <> "x"%char /\ x <> "X"%char | [] => True end)
  | [] => False
  end.
Lemma lower_digit c : is_digit c = true -> lower c = c.
Proof. unfold is_digit, lower. intros H. replace ((65 <=? code c) && (code c <=? 90))%Z with false by lia. reflexivity. Qed.
Lemma starts_other a pat c s : a <> c -> starts_with (c :: s) (a :: pat) = false.
Proof. intros N. cbn [starts_with]. destruct (Ascii.eqb_spec a c); [contradiction|reflexivity]. Qed.
Lemma scan_is dp_s : starts_number (snd (take_sign (drop_while is_space dp_s))) ->
  scan_float "."%char dp_s = scan_number (fst (take_sign (drop_while is_space dp_s))) (snd (take_sign (drop_while is_space dp_s))).
Proof.
  intros S. unfold scan_float. destruct (take_sign (drop_while is_space dp_s)) as [neg r]. cbn [fst snd] in *. destruct r as [|c t]; [contradiction|]. destruct S as [D X].
  assert (L : lower c = c) by (destruct D as [D| ->]; [now apply lower_digit|reflexivity]).
  assert (N1 : starts_with (to_lower (c :: t)) (lit "nan") = false).
  { cbn [to_lower map]. rewrite L. apply starts_other. intros <-. destruct D as [D|D]; discriminate. }
  assert (N2 : starts_with (to_lower (c :: t)) (lit "inf") = false).
  { cbn [to_lower map]. rewrite L. apply starts_other. intros <-. destruct D as [D|D]; discriminate. }
  assert (N3 : starts_with (to_lower (c :: t)) (lit "0x") = false).
  { cbn [to_lower map]. rewrite L. destruct (ascii_dec "0" c) as [<-|]; [|now apply starts_other]. specialize (X eq_refl). destruct t as [|x t]; [reflexivity|]. cbn [map].
    change (starts_with ("0"%char :: lower x :: map lower t) (lit "0x")) with (starts_with (lower x :: map lower t) (lit "x")). 
    apply starts_other. intros E. assert (XX : x = "x"%char \/ x = "X"%char) by (apply SsaTagProofs.lower_x; rewrite <- E; reflexivity). tauto. }
  cbv zeta. rewrite N1, N2, N3. reflexivity.
Qed.

Lemma exponent_scan e k rest : exponent e k -> ~ begins goes_on rest ->
  scan_exponent "e"%char (e ++ rest) = k /\ starts_not is_digit (e ++ rest) /\ ~ begins (eq "."%char) (e ++ rest).
Proof.
  intros E N. assert (NR : starts_not is_digit rest).
  { destruct rest as [|c rest]; [exact I|]. cbn in *. destruct (is_digit c) eqn:D; [|reflexivity]. exfalso. apply N. left. apply is_digit_dec in D. now exists (digit_val c). }
  destruct E as [|c d v C D|c d v C D|c d v C D].
  - cbn [app]. destruct rest as [|c rest]; [repeat split; cbn; tauto|]. cbn [begins] in *. split; [|split; [exact NR|intros <-; apply N; unfold goes_on; tauto]]. cbn [scan_exponent].
    destruct (Ascii.eqb_spec (lower c) "e") as [L|]; [|reflexivity]. exfalso. apply N. unfold goes_on.
    assert (C : c = "e"%char \/ c = "E"%char); [|tauto]. apply (f_equal code) in L. unfold lower in L. change (code "e"%char) with 101%Z in L.
    destruct ((65 <=? code c) && (code c <=? 90))%Z eqn:U.
    + right. apply code_inj. change (code "E"%char) with 69%Z. rewrite code_chr in L by lia. lia.
    + left. apply code_inj. exact L.
  - destruct (numeral_digits d v D) as (F & V & NE & P). cbn [app]. split; [|split; [destruct C as [->| ->]; reflexivity|destruct C as [->| ->]; discriminate]].
    cbn [scan_exponent]. replace (Ascii.eqb (lower c) "e") with true by (destruct C as [->| ->]; reflexivity).
    destruct d as [|x d]; [congruence|]. cbn [app]. pose proof (numeral_head x d v D) as [H1 H2]. unfold take_sign. rewrite H1, H2.
    change (x :: d ++ rest) with ((x :: d) ++ rest). rewrite take_while_app by assumption. exact V.
  - destruct (numeral_digits d v D) as (F & V & NE & P). cbn [app]. split; [|split; [destruct C as [->| ->]; reflexivity|destruct C as [->| ->]; discriminate]].
    cbn [scan_exponent]. replace (Ascii.eqb (lower c) "e") with true by (destruct C as [->| ->]; reflexivity).
    cbn [app take_sign]. change (Ascii.eqb "+" cminus) with false. change (Ascii.eqb "+" cplus) with true. cbn iota.
    rewrite take_while_app by assumption. destruct d as [|x d]; [congruence|]. exact V.
  - destruct (numeral_digits d v D) as (F & V & NE & P). cbn [app]. split; [|split; [destruct C as [->| ->]; reflexivity|destruct C as [->| ->]; discriminate]].
    cbn [scan_exponent]. replace (Ascii.eqb (lower c) "e") with true by (destruct C as [->| ->]; reflexivity).
    cbn [app take_sign]. change (Ascii.eqb "-" cminus) with true. cbn iota.
    rewrite take_while_app by assumption. destruct d as [|x d]; [congruence|]. now rewrite V.
Qed.

Lemma scientific_scan neg s x rest : scientific s x -> ~ begins goes_on rest ->
  starts_number (s ++ rest) /\ exists v e, (0 <= v)%Z /\ IZR v * powerRZ 10 e = x /\ scan_number neg (s ++ rest) = f_of_decimal neg v e.
Proof.
  intros S N. destruct S as [d x e k D E]. destruct (exponent_scan e k rest E N) as (SE & SD & SP). rewrite <- app_assoc.
  set (r := e ++ rest) in *. destruct D as [d v D|ip fp v D].
  - destruct (numeral_digits d v D) as (F & V & NE & P). split.
    + destruct d as [|c d]; [congruence|]. cbn [app starts_number]. inversion F as [|? ? DC F']; subst. split; [now left|]. intros _.
      destruct d as [|c' d]; cbn [app].
      * unfold r. destruct E as [|c' d' v' C' D'|c' d' v' C' D'|c' d' v' C' D']; cbn [app]; try (destruct C' as [->| ->]; split; discriminate).
        destruct rest as [|y rest]; [exact I|]. cbn in N. unfold goes_on in N. split; intros ->; tauto.
      * inversion F' as [|? ? DC' F'']; subst. split; intros ->; discriminate.
    + exists v, k. split; [exact P|]. split; [reflexivity|]. unfold scan_number. cbv zeta. rewrite take_while_app, drop_while_app by assumption.
      assert (VV : forall y, match d ++ [] with [] => S754_zero false | ds => f_of_decimal neg (dec_val ds) y end = f_of_decimal neg v y) by (intros y; rewrite app_nil_r; destruct d; [congruence|now rewrite V]).
      clearbody r. destruct r as [|c t].
      * unfold str in *. rewrite VV, SE. cbn [length]. now rewrite Z.sub_0_r.
      * replace (Ascii.eqb c ".") with false by (symmetry; apply Ascii.eqb_neq; intros ->; now apply SP). unfold str in *. rewrite VV, SE. cbn [length]. now rewrite Z.sub_0_r.
  - destruct (numeral_digits (ip ++ fp) v D) as (F & V & NE & P). apply Forall_app in F. destruct F as [F1 F2]. rewrite <- app_assoc. cbn [app]. split.
    + destruct ip as [|c ip]; cbn [app starts_number]; [split; [now right|discriminate]|]. inversion F1 as [|? ? DC F']; subst. split; [now left|]. intros _.
      destruct ip as [|c' ip]; cbn [app]; [split; discriminate|]. inversion F' as [|? ? DC' F'']; subst. split; intros ->; discriminate.
    + exists v, (k - Z.of_nat (length fp))%Z. split; [exact P|]. split.
      * unfold Z.sub. rewrite powerRZ_add by lra. unfold Rdiv. rewrite Rmult_assoc. f_equal. rewrite Rmult_comm. f_equal.
        destruct (length fp) as [|n] eqn:L; [cbn; lra|]. rewrite powerRZ_neg by lia. rewrite Z.opp_involutive. f_equal. rewrite pow_IZR. reflexivity.
      * unfold scan_number. cbv zeta. rewrite take_while_app, drop_while_app by (assumption || reflexivity). change (Ascii.eqb "." ".") with true. cbn iota.
        rewrite take_while_app, drop_while_app by assumption. rewrite <- SE. revert V NE. unfold str in *. destruct (ip ++ fp) as [|z l]; [congruence|]. now intros -> _.
Qed.

Lemma skip_white sp s : Forall white sp -> starts_not is_space s -> drop_while is_space (sp ++ s) = s.
Proof. intros W S. apply drop_while_app; [|exact S]. now apply white_all. Qed.
Lemma starts_number_space s : starts_number s -> starts_not is_space s /\ take_sign s = (false, s).
Proof.
  destruct s as [|c s]; [contradiction|]. intros [[D| ->] _]; [|split; reflexivity]. split; [now apply digit_not_space|].
  unfold take_sign. destruct (Ascii.eqb_spec c cminus) as [->|]; [discriminate|]. destruct (Ascii.eqb_spec c cplus) as [->|]; [discriminate|]. reflexivity.
Qed.

Theorem number_read s x rest : number s x -> ~ begins goes_on rest -> Rabs x <= bpow radix2 127 -> float_value (raw_convert_float (s ++ rest)) (nearest_float x).
Proof.
  intros S N B. rewrite nearest_is. unfold raw_convert_float, raw_convert_float_in. rewrite c_local. cbn [decimal_point c_locale]. destruct S as [sp s x W S|sp s x W S|sp s x W S].
  - destruct (scientific_scan false s x rest S N) as (ST & v & e & P & E & SC). destruct (starts_number_space _ ST) as [S1 S2]. rewrite <- app_assoc.
    rewrite scan_is; rewrite (skip_white sp _ W S1), S2; cbn [fst snd]; [|exact ST]. rewrite SC, <- E. apply (f_of_decimal_ok false); [exact P|]. now rewrite E.
  - destruct (scientific_scan false s x rest S N) as (ST & v & e & P & E & SC). rewrite <- app_assoc. cbn [app].
    rewrite scan_is; rewrite (skip_white sp _ W) by reflexivity; cbn [take_sign]; change (Ascii.eqb "+" cminus) with false; change (Ascii.eqb "+" cplus) with true; cbn [fst snd]; [|exact ST].
    rewrite SC, <- E. apply (f_of_decimal_ok false); [exact P|]. now rewrite E.
  - destruct (scientific_scan true s x rest S N) as (ST & v & e & P & E & SC). rewrite <- app_assoc. cbn [app].
    rewrite scan_is; rewrite (skip_white sp _ W) by reflexivity; cbn [take_sign]; change (Ascii.eqb "-" cminus) with true; cbn [fst snd]; [|exact ST].
    rewrite SC, <- E. apply (f_of_decimal_ok true); [exact P|]. rewrite E. rewrite Rabs_Ropp in B. exact B.
Qed.
