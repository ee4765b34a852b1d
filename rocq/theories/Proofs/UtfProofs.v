(** Proofs about the UTF-8 conversions. *)
From Coq Require Import ZArith List Bool Ascii Lia.
From Verif.Model Require Import Base Utf.
From Verif.Spec Require Import Outcome TextSpec Utf8Spec.
From Verif.Proofs Require Import StringProofs.
Import ListNotations.
Local Open Scope Z_scope.
Ltac Zify.zify_post_hook ::= Z.to_euclidean_division_equations.

Ltac ifs := repeat match goal with |- context [if ?b then _ else _] => destruct b eqn:? end; lia.

Lemma utf8_char_scalar v bs : utf8_char v bs -> scalar v.
Proof. destruct 1; unfold scalar, six in *; lia. Qed.

Lemma valid_codepoint_scalar v : valid_codepoint v = true <-> scalar v.
Proof. unfold valid_codepoint, scalar. lia. Qed.

(** Decoding one character. *)
Lemma utf8_decode_char v bs s : utf8_char v bs -> exists b t, bs = b :: t /\
  forall lead, code lead = b -> forall s', map char_code s' = t -> utf8_decode lead (s' ++ s) = (Some v, s).
Proof.
  intros U.
  assert (T : forall c, code c = char_code c) by exact code_char.
  destruct U as [v B|a b S R|a b c S1 S2 R SC|a b c d S1 S2 S3 R]; unfold six in *.
  - exists v, []. split; [reflexivity|]. intros lead L s' M. destruct s'; [|discriminate]. cbn [app].
    unfold utf8_decode, trail_length. rewrite L. replace (v <? 128) with true by lia. reflexivity.
  - exists (0xC0 + a), [0x80 + b]. split; [reflexivity|]. intros lead L s' M.
    destruct s' as [|x [|? ?]]; try discriminate. cbn [map] in M. pose proof (f_equal (fun l => nth 0 l 0) M) as M1; cbn [nth] in M1. clear M. rewrite <- T in M1.
    assert (TL : trail_length (code lead) = 1) by (unfold trail_length; ifs).
    unfold utf8_decode. rewrite TL. change (1 <? 0) with false. change (1 =? 0) with false. change (Z.to_nat 1) with 1%nat.
    cbn [utf8_trail app]. rewrite M1, L.
    replace (is_trail (128 + b)) with true by (unfold is_trail; lia).
    replace ((192 + a) mod 2 ^ (6 - 1) * 64 + (128 + b - 128)) with (a * 64 + b).
    2:{ change (2 ^ (6 - 1)) with 32. replace (192 + a) with (a + 6 * 32) by lia. rewrite Z.mod_add by lia.
        rewrite Z.mod_small by lia. lia. }
    replace (valid_codepoint (a * 64 + b)) with true by (unfold valid_codepoint; lia).
    replace (utf8_width (a * 64 + b) =? 1 + 1) with true by (unfold utf8_width; ifs). reflexivity.
  - exists (0xE0 + a), [0x80 + b; 0x80 + c]. split; [reflexivity|]. intros lead L s' M.
    destruct s' as [|x [|y [|? ?]]]; try discriminate. cbn [map] in M. pose proof (f_equal (fun l => nth 0 l 0) M) as M1; cbn [nth] in M1. pose proof (f_equal (fun l => nth 1 l 0) M) as M2; cbn [nth] in M2. clear M. rewrite <- T in M1, M2.
    assert (TL : trail_length (code lead) = 2) by (unfold trail_length; ifs).
    unfold utf8_decode. rewrite TL. change (2 <? 0) with false. change (2 =? 0) with false. change (Z.to_nat 2) with 2%nat.
    cbn [utf8_trail app]. rewrite M1, M2, L.
    replace (is_trail (128 + b)) with true by (unfold is_trail; lia).
    replace (is_trail (128 + c)) with true by (unfold is_trail; lia).
    replace (((224 + a) mod 2 ^ (6 - 2) * 64 + (128 + b - 128)) * 64 + (128 + c - 128)) with (a * 4096 + b * 64 + c).
    2:{ change (2 ^ (6 - 2)) with 16. replace (224 + a) with (a + 14 * 16) by lia. rewrite Z.mod_add by lia.
        rewrite Z.mod_small by lia. lia. }
    replace (valid_codepoint (a * 4096 + b * 64 + c)) with true by (symmetry; now apply valid_codepoint_scalar).
    replace (utf8_width (a * 4096 + b * 64 + c) =? 2 + 1) with true by (unfold utf8_width; ifs). reflexivity.
  - exists (0xF0 + a), [0x80 + b; 0x80 + c; 0x80 + d]. split; [reflexivity|]. intros lead L s' M.
    destruct s' as [|x [|y [|z [|? ?]]]]; try discriminate. cbn [map] in M. pose proof (f_equal (fun l => nth 0 l 0) M) as M1; cbn [nth] in M1. pose proof (f_equal (fun l => nth 1 l 0) M) as M2; cbn [nth] in M2. pose proof (f_equal (fun l => nth 2 l 0) M) as M3; cbn [nth] in M3. clear M. rewrite <- T in M1, M2, M3.
    assert (TL : trail_length (code lead) = 3) by (unfold trail_length; ifs).
    unfold utf8_decode. rewrite TL. change (3 <? 0) with false. change (3 =? 0) with false. change (Z.to_nat 3) with 3%nat.
    cbn [utf8_trail app]. rewrite M1, M2, M3, L.
    replace (is_trail (128 + b)) with true by (unfold is_trail; lia).
    replace (is_trail (128 + c)) with true by (unfold is_trail; lia).
    replace (is_trail (128 + d)) with true by (unfold is_trail; lia).
    replace ((((240 + a) mod 2 ^ (6 - 3) * 64 + (128 + b - 128)) * 64 + (128 + c - 128)) * 64 + (128 + d - 128))
      with (a * 262144 + b * 4096 + c * 64 + d).
    2:{ change (2 ^ (6 - 3)) with 8. replace (240 + a) with (a + 30 * 8) by lia. rewrite Z.mod_add by lia.
        rewrite Z.mod_small by lia. lia. }
    replace (valid_codepoint (a * 262144 + b * 4096 + c * 64 + d)) with true by (unfold valid_codepoint; lia).
    replace (utf8_width (a * 262144 + b * 4096 + c * 64 + d) =? 3 + 1) with true by (unfold utf8_width; ifs). reflexivity.
Qed.

Lemma utf8_to_wide_fuel_ok parts w : Forall2 utf8_char w parts -> forall s fuel, map char_code s = concat parts ->
  (length s <= fuel)%nat -> utf8_to_wide_fuel fuel s = w.
Proof.
  induction 1 as [|v bs w parts U F IH]; intros s fuel M L.
  - destruct s; [|discriminate]. now destruct fuel.
  - cbn [concat] in M. destruct (utf8_decode_char v bs (skipn (length bs) s) U) as (b & t & -> & D).
    destruct s as [|c s]; [discriminate|]. cbn [map app] in M. injection M as M1 M2. cbn [length] in L.
    destruct fuel as [|k]; [lia|]. cbn [utf8_to_wide_fuel].
    cbn [length skipn] in D. specialize (D c). rewrite code_char in D. specialize (D M1).
    assert (M3 : map char_code (firstn (length t) s) = t).
    { rewrite <- firstn_map, M2, firstn_app, firstn_all, Nat.sub_diag. cbn. apply app_nil_r. }
    specialize (D _ M3). rewrite firstn_skipn in D. rewrite D. f_equal. apply IH.
    + rewrite <- skipn_map, M2, skipn_app, skipn_all, Nat.sub_diag. reflexivity.
    + rewrite skipn_length. lia.
Qed.

Lemma utf8_to_wide_ok s w : utf8 s w -> utf8_to_wide s = w.
Proof. intros (parts & F & M). unfold utf8_to_wide. now apply (utf8_to_wide_fuel_ok parts w F). Qed.

Lemma char_code_chr z : 0 <= z < 256 -> char_code (chr z) = z.
Proof. intros B. rewrite <- code_char. apply code_chr. lia. Qed.

Lemma utf8_encode_ok v : scalar v -> utf8_char v (map char_code (utf8_encode v)).
Proof.
  intros S. unfold utf8_encode, scalar in *.
  destruct (v <=? 127) eqn:A; [|destruct (v <=? 2047) eqn:B; [|destruct (v <=? 65535) eqn:C]]; cbn [map];
    repeat rewrite char_code_chr by lia.
  - apply utf8_one. lia.
  - replace v with (v / 64 * 64 + v mod 64) at 1 by lia. apply utf8_two; unfold six; lia.
  - replace v with (v / 4096 * 4096 + v / 64 mod 64 * 64 + v mod 64) at 1 by lia. apply utf8_three; unfold six, scalar; lia.
  - replace v with (v / 262144 * 262144 + v / 4096 mod 64 * 4096 + v / 64 mod 64 * 64 + v mod 64) at 1 by lia.
    apply utf8_four; unfold six; lia.
Qed.

Lemma wide_to_utf8_ok w : Forall scalar w -> utf8 (wide_to_utf8 w) w.
Proof.
  intros F. exists (map (fun v => map char_code (utf8_encode v)) w). split.
  - induction F as [|v w S F IH]; cbn; constructor; [now apply utf8_encode_ok|exact IH].
  - unfold wide_to_utf8. induction F as [|v w S F IH]; cbn; [reflexivity|].
    apply valid_codepoint_scalar in S. rewrite S, map_app, IH. reflexivity.
Qed.

Lemma utf8_char_unique v bs bs' : utf8_char v bs -> utf8_char v bs' -> bs = bs'.
Proof.
  intros A B. destruct A; inversion B; subst; unfold six, scalar in *; try lia; repeat f_equal; lia.
Qed.

Lemma map_char_inj s s' : map char_code s = map char_code s' -> s = s'.
Proof.
  revert s'. induction s as [|c s IH]; intros [|c' s']; cbn; try discriminate; [reflexivity|].
  intros [= A B]. f_equal; [|now apply IH]. apply code_inj. now rewrite !code_char.
Qed.

Lemma utf8_unique s s' w : utf8 s w -> utf8 s' w -> s = s'.
Proof.
  intros (p & F & M) (p' & F' & M'). apply map_char_inj. rewrite M, M'. f_equal. clear M M'. revert p' F'.
  induction F as [|v bs w p U F IH]; intros p' F'; inversion F'; subst; [reflexivity|]. f_equal; [|now apply IH].
  eapply utf8_char_unique; eassumption.
Qed.

Lemma utf8_scalars s w : utf8 s w -> Forall scalar w.
Proof. intros (p & F & _). induction F; constructor; [eapply utf8_char_scalar; eassumption|assumption]. Qed.

Lemma utf8_round_trip s w : utf8 s w -> wide_to_utf8 (utf8_to_wide s) = s.
Proof.
  intros U. rewrite (utf8_to_wide_ok s w U). apply (utf8_unique _ _ w); [|exact U]. apply wide_to_utf8_ok.
  now apply (utf8_scalars s).
Qed.


(** Code points that are not scalar values are left out. *)

Lemma wide_to_utf8_invalid p c q : ~ scalar c -> wide_to_utf8 (p ++ c :: q) = wide_to_utf8 (p ++ q).
Proof.
  intros N. unfold wide_to_utf8. rewrite !flat_map_app. cbn [flat_map]. destruct (valid_codepoint c) eqn:V; [|reflexivity].
  apply valid_codepoint_scalar in V. contradiction.
Qed.

Lemma utf8_decode_valid b t c rest : utf8_decode b t = (Some c, rest) -> scalar c.
Proof.
  unfold utf8_decode. destruct (trail_length (code b) <? 0); [discriminate|]. destruct (trail_length (code b) =? 0).
  - intros H. injection H as <- _. pose proof (N_ascii_bounded b). unfold scalar, code. lia.
  - destruct (utf8_trail _ _ t) as [[v|] r]; [|discriminate]. destruct (valid_codepoint v) eqn:V; [|discriminate].
    destruct (utf8_width v =? _); [|discriminate]. intros H. injection H as <- _. now apply valid_codepoint_scalar.
Qed.
Lemma utf8_to_wide_scalars s : Forall scalar (utf8_to_wide s).
Proof.
  unfold utf8_to_wide. generalize (List.length s) as fuel. intros fuel. revert s. induction fuel as [|k IH]; intros s; [constructor|].
  destruct s as [|b t]; [constructor|]. cbn [utf8_to_wide_fuel]. destruct (utf8_decode b t) as [[c|] rest] eqn:D.
  - constructor; [eapply utf8_decode_valid; exact D|apply IH].
  - apply IH.
Qed.

(** * Any bytes *)

Definition value (acc : Z) (ts : list Z) : Z := fold_left (fun c b => c * 64 + (b - 128)) ts acc.

Lemma trailing_b b : is_trail b = true <-> trailing b.
Proof. unfold is_trail, trailing. lia. Qed.

Lemma trail_run s' : forall k acc s, Forall trailing (map char_code s') -> utf8_trail (length s' + k) acc (s' ++ s) = utf8_trail k (value acc (map char_code s')) s.
Proof.
  induction s' as [|c s' IH]; intros k acc s F; [reflexivity|]. cbn [map] in F. inversion F as [|? ? F1 F2]; subst. cbn [length Nat.add app utf8_trail map value fold_left].
  rewrite code_char. apply trailing_b in F1. rewrite F1. rewrite IH by assumption. reflexivity.
Qed.

Lemma followers_length b n : 0 <= b < 256 -> followers b n -> trail_length b = Z.of_nat n.
Proof. intros B F. unfold followers, trail_length in *. ifs. Qed.
Lemma no_followers_length b : 0 <= b < 256 -> (forall n, ~ followers b n) -> trail_length b = -1.
Proof.
  intros B F. pose proof (F 0%nat). pose proof (F 1%nat). pose proof (F 2%nat). pose proof (F 3%nat). unfold followers in *. unfold trail_length. ifs.
Qed.
Lemma length_followers b : 0 <= b < 256 -> 0 <= trail_length b -> followers b (Z.to_nat (trail_length b)).
Proof. intros B F. unfold followers, trail_length in *. repeat match goal with |- context [if ?b then _ else _] => destruct b eqn:? end; lia. Qed.
Lemma negative_followers b n : 0 <= b < 256 -> trail_length b < 0 -> ~ followers b n.
Proof. intros B F G. pose proof (followers_length b n B G). lia. Qed.

Lemma char_range c : 0 <= char_code c < 256.
Proof. rewrite <- code_char. pose proof (N_ascii_bounded c). unfold code. lia. Qed.

(** The right number of bytes with a good value is a character. *)
Lemma good_char b n ts c : 0 <= b < 256 -> followers b n -> length ts = n -> Forall trailing ts -> n <> 0%nat ->
  c = value (b mod 2 ^ (6 - Z.of_nat n)) ts -> scalar c -> utf8_width c = Z.of_nat n + 1 -> utf8_char c (b :: ts).
Proof.
  intros B F L T N E S W. unfold utf8_width in W. unfold followers in F. unfold scalar in S.
  destruct F as [[F ->]|[[F ->]|[[F ->]|[F ->]]]]; [congruence|..].
  - destruct ts as [|x [|]]; try discriminate L. inversion T as [|? ? X _]; subst. unfold trailing in X. cbn [value fold_left].
    change (2 ^ (6 - Z.of_nat 1)) with 32. replace b with (0xC0 + (b - 0xC0)) by lia. replace x with (0x80 + (x - 0x80)) by lia.
    replace ((192 + (b - 192)) mod 32 * 64 + (128 + (x - 128) - 128)) with ((b - 192) * 64 + (x - 128)) by lia.
    apply utf8_two; [unfold six; lia|]. cbn [value fold_left] in *. change (2 ^ (6 - Z.of_nat 1)) with 32 in *. repeat match type of W with context [if ?b then _ else _] => destruct b eqn:? in W end; lia.
  - destruct ts as [|x [|y [|]]]; try discriminate L. inversion T as [|? ? X T']; subst. inversion T' as [|? ? Y _]; subst. unfold trailing in X, Y. cbn [value fold_left] in *.
    change (2 ^ (6 - Z.of_nat 2)) with 16 in *. set (q := ((b - 224) * 4096 + (x - 128) * 64 + (y - 128))).
    assert (EQ : (b mod 16 * 64 + (x - 128)) * 64 + (y - 128) = q) by (unfold q; lia). rewrite EQ in *.
    replace b with (0xE0 + (b - 0xE0)) by lia. replace x with (0x80 + (x - 0x80)) by lia. replace y with (0x80 + (y - 0x80)) by lia.
    apply utf8_three; fold q; unfold six, scalar; try lia. repeat match type of W with context [if ?b then _ else _] => destruct b eqn:? in W end; lia.
  - destruct ts as [|x [|y [|z [|]]]]; try discriminate L. inversion T as [|? ? X T']; subst. inversion T' as [|? ? Y T'']; subst. inversion T'' as [|? ? Z0 _]; subst. unfold trailing in X, Y, Z0. cbn [value fold_left] in *.
    change (2 ^ (6 - Z.of_nat 3)) with 8 in *. set (q := ((b - 240) * 262144 + (x - 128) * 4096 + (y - 128) * 64 + (z - 128))).
    assert (EQ : ((b mod 8 * 64 + (x - 128)) * 64 + (y - 128)) * 64 + (z - 128) = q) by (unfold q; lia). rewrite EQ in *.
    replace b with (0xF0 + (b - 0xF0)) by lia. replace x with (0x80 + (x - 0x80)) by lia. replace y with (0x80 + (y - 0x80)) by lia. replace z with (0x80 + (z - 0x80)) by lia.
    apply utf8_four; fold q; unfold six; try lia. repeat match type of W with context [if ?b then _ else _] => destruct b eqn:? in W end; lia.
Qed.

Lemma reads_wide bs w : utf8_reads bs w -> forall s fuel, map char_code s = bs -> (length s <= fuel)%nat -> utf8_to_wide_fuel fuel s = w.
Proof.
  induction 1 as [|v bs rest w U _ IH|b rest w N _ IH|b n ts x rest w F L T X _ IH|b n ts F L T|b n ts rest w F L T N _ IH]; intros s fuel M LF.
  - destruct s; [|discriminate]. now destruct fuel.
  - destruct (utf8_decode_char v bs (skipn (length bs) s) U) as (b & t & -> & D).
    destruct s as [|c s]; [discriminate|]. cbn [map app] in M. injection M as M1 M2. cbn [length] in LF.
    destruct fuel as [|k]; [lia|]. cbn [utf8_to_wide_fuel].
    cbn [length skipn] in D. specialize (D c). rewrite code_char in D. specialize (D M1).
    assert (M3 : map char_code (firstn (length t) s) = t).
    { rewrite <- firstn_map, M2, firstn_app, firstn_all, Nat.sub_diag. cbn. apply app_nil_r. }
    specialize (D _ M3). rewrite firstn_skipn in D. rewrite D. f_equal. apply IH.
    + rewrite <- skipn_map, M2, skipn_app, skipn_all, Nat.sub_diag. reflexivity.
    + rewrite skipn_length. lia.
  - destruct s as [|c s]; [discriminate|]. cbn [map] in M. injection M as M1 M2. cbn [length] in LF. destruct fuel as [|k]; [lia|]. cbn [utf8_to_wide_fuel].
    unfold utf8_decode. rewrite code_char, (no_followers_length (char_code c) (char_range c) ltac:(now rewrite M1)). change (-1 <? 0) with true. cbv iota. apply IH; [exact M2|lia].
  - destruct s as [|c s]; [discriminate|]. cbn [map] in M. injection M as M1 M2. cbn [length] in LF. destruct fuel as [|k]; [lia|]. cbn [utf8_to_wide_fuel].
    unfold utf8_decode. rewrite code_char, (followers_length (char_code c) n (char_range c) ltac:(now rewrite M1)). replace (Z.of_nat n <? 0) with false by lia. replace (Z.of_nat n =? 0) with false by lia. rewrite Nat2Z.id.
    apply map_eq_app in M2. destruct M2 as (s1 & s2 & -> & E1 & E2). destruct s2 as [|d s2]; [discriminate|]. cbn [map] in E2. injection E2 as E2 E3.
    assert (LS : length s1 = length ts) by (now rewrite <- E1, map_length).
    replace n with (length s1 + (n - length s1))%nat by lia. rewrite trail_run by now rewrite E1. destruct (n - length s1)%nat as [|m] eqn:EM; [lia|]. cbn [utf8_trail].
    rewrite code_char, E2. destruct (is_trail x) eqn:IT; [apply trailing_b in IT; contradiction|]. cbv iota beta. apply IH; [exact E3|]. rewrite app_length in LF. cbn [length] in LF. lia.
  - destruct s as [|c s]; [discriminate|]. cbn [map] in M. injection M as M1 M2. cbn [length] in LF. destruct fuel as [|k]; [lia|]. cbn [utf8_to_wide_fuel].
    unfold utf8_decode. rewrite code_char, (followers_length (char_code c) n (char_range c) ltac:(now rewrite M1)). replace (Z.of_nat n <? 0) with false by lia. replace (Z.of_nat n =? 0) with false by lia. rewrite Nat2Z.id.
    assert (LS : length s = length ts) by (now rewrite <- M2, map_length).
    pose proof (trail_run s (n - length s) (char_code c mod 2 ^ (6 - Z.of_nat n)) [] ltac:(now rewrite M2)) as TR. rewrite app_nil_r in TR. replace (length s + (n - length s))%nat with n in TR by lia. rewrite TR. clear TR. destruct (n - length s)%nat as [|m] eqn:EM; [lia|]. cbn [utf8_trail]. now destruct k.
  - destruct s as [|c s]; [discriminate|]. cbn [map] in M. injection M as M1 M2. cbn [length] in LF. destruct fuel as [|k]; [lia|]. cbn [utf8_to_wide_fuel].
    assert (NN : n <> 0%nat).
    { intros ->. destruct ts; [|discriminate L]. unfold followers in F. pose proof (char_range c). apply (N b). apply utf8_one. lia. }
    unfold utf8_decode. rewrite code_char, (followers_length (char_code c) n (char_range c) ltac:(now rewrite M1)). replace (Z.of_nat n <? 0) with false by lia. replace (Z.of_nat n =? 0) with false by lia. rewrite Nat2Z.id.
    apply map_eq_app in M2. destruct M2 as (s1 & s2 & -> & E1 & E2). assert (LS : length s1 = length ts) by (now rewrite <- E1, map_length).
    replace n with (length s1 + 0)%nat at 1 by lia. rewrite trail_run by now rewrite E1. cbn [utf8_trail]. rewrite E1, M1.
    destruct (valid_codepoint (value (b mod 2 ^ (6 - Z.of_nat n)) ts)) eqn:V.
    2:{ cbn [andb]. cbv iota beta. apply IH; [exact E2|]. rewrite app_length in LF. lia. }
    destruct (utf8_width (value (b mod 2 ^ (6 - Z.of_nat n)) ts) =? Z.of_nat n + 1) eqn:W.
    2:{ cbn [andb]. cbv iota beta. apply IH; [exact E2|]. rewrite app_length in LF. lia. }
    exfalso. eapply N. apply (good_char b n ts _ ltac:(rewrite <- M1; apply char_range) F L T NN eq_refl); [now apply valid_codepoint_scalar|lia].
Qed.

Lemma trail_cases n : forall (acc : Z) (s : str),
  (exists s1 s2, s = s1 ++ s2 /\ length s1 = n /\ Forall trailing (map char_code s1)) \/
  (exists s1 x s2, s = s1 ++ x :: s2 /\ (length s1 < n)%nat /\ Forall trailing (map char_code s1) /\ ~ trailing (char_code x)) \/
  ((length s < n)%nat /\ Forall trailing (map char_code s) /\ acc = acc).
Proof.
  induction n as [|n IH]; intros acc s; [left; exists [], s; split; [reflexivity|]; split; [reflexivity|constructor]|].
  destruct s as [|c s]; [right; right; cbn; repeat split; [lia|constructor]|].
  destruct (is_trail (char_code c)) eqn:T.
  - apply trailing_b in T. destruct (IH acc s) as [(s1 & s2 & -> & L & F)|[(s1 & x & s2 & -> & L & F & X)|(L & F & _)]].
    + left. exists (c :: s1), s2. cbn. repeat split; [lia|now constructor].
    + right. left. exists (c :: s1), x, s2. cbn. repeat split; [lia|now constructor|exact X].
    + right. right. cbn. repeat split; [lia|now constructor].
  - right. left. exists [], c, s. cbn. repeat split; [lia|constructor|]. rewrite <- trailing_b. congruence.
Qed.

Lemma reads_total n : forall s, (length s <= n)%nat -> exists w, utf8_reads (map char_code s) w.
Proof.
  induction n as [|n IH]; intros s L.
  - destruct s; [|cbn in L; lia]. exists []. constructor.
  - destruct s as [|c s]; [exists []; constructor|]. cbn [length] in L. cbn [map]. set (b := char_code c). pose proof (char_range c) as B. fold b in B.
    destruct (trail_length b <? 0) eqn:T.
    { destruct (IH s ltac:(lia)) as (w & R). exists w. apply reads_stray; [|exact R]. intros m. apply negative_followers; lia. }
    pose proof (length_followers b B ltac:(lia)) as F. set (m := Z.to_nat (trail_length b)) in *.
    destruct (trail_cases m 0 s) as [(s1 & s2 & -> & LS & FT)|[(s1 & x & s2 & -> & LS & FT & X)|(LS & FT & _)]].
    + rewrite app_length in L. destruct (IH s2 ltac:(lia)) as (w & R). rewrite map_app.
      assert (LM : length (map char_code s1) = m) by (now rewrite map_length).
      destruct (Nat.eq_dec m 0) as [M0|M0].
      { destruct s1; [|cbn in LS; lia]. cbn [map app]. exists (b :: w). apply (reads_char b [b]); [|exact R]. apply utf8_one. unfold followers in F. lia. }
      destruct (valid_codepoint (value (b mod 2 ^ (6 - Z.of_nat m)) (map char_code s1)) && (utf8_width (value (b mod 2 ^ (6 - Z.of_nat m)) (map char_code s1)) =? Z.of_nat m + 1)) eqn:V.
      * apply andb_true_iff in V. destruct V as [V W]. eexists (_ :: w). apply (reads_char _ (b :: map char_code s1)); [|exact R].
        apply (good_char b m (map char_code s1) _ B F LM FT M0 eq_refl); [now apply valid_codepoint_scalar|lia].
      * exists w. eapply reads_bad; try eassumption. intros v U. destruct (utf8_decode_char v _ [] U) as (b' & t' & E & D). injection E as <- <-.
        specialize (D c (code_char c) s1 eq_refl). rewrite app_nil_r in D. unfold utf8_decode in D. rewrite code_char in D. fold b in D.
        rewrite T in D. replace (trail_length b =? 0) with false in D by lia. replace (Z.to_nat (trail_length b)) with (length s1 + 0)%nat in D by lia.
        pose proof (trail_run s1 0 (b mod 2 ^ (6 - trail_length b)) [] FT) as TR. rewrite app_nil_r in TR. rewrite TR in D. cbn [utf8_trail] in D. replace (trail_length b) with (Z.of_nat m) in D by lia. rewrite V in D. discriminate D.
    + rewrite app_length in L. cbn [length] in L. destruct (IH s2 ltac:(lia)) as (w & R). exists w. rewrite map_app. cbn [map]. eapply reads_broken; try eassumption. now rewrite map_length.
    + exists []. eapply reads_cut; [exact F|now rewrite map_length|exact FT].
Qed.

Lemma wide_iff s w : utf8_to_wide s = w <-> utf8_reads (map char_code s) w.
Proof.
  split.
  - intros <-. destruct (reads_total (length s) s (le_n _)) as (w & R). unfold utf8_to_wide. now rewrite (reads_wide _ _ R s (length s) eq_refl (le_n _)).
  - intros R. unfold utf8_to_wide. exact (reads_wide _ _ R s (length s) eq_refl (le_n _)).
Qed.
