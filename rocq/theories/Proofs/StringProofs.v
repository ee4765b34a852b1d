(** Facts about the string functions that several readers use. *)
From Coq Require Import ZArith List Bool Ascii Lia.
From Verif.Model Require Import Base Strings.
From Verif.Spec Require Import Outcome TextSpec.
From Verif.Proofs Require Import TimeProofs.
Import ListNotations.
Local Open Scope Z_scope.

Lemma code_char c : code c = char_code c.
Proof. unfold char_code, code, nat_of_ascii. lia. Qed.

Lemma code_bounds c : 0 <= code c <= 255.
Proof. unfold code. pose proof (N_ascii_bounded c). lia. Qed.

Lemma code_inj a b : code a = code b -> a = b.
Proof.
  unfold code. intros E. apply N2Z.inj in E. rewrite <- (ascii_N_embedding a), <- (ascii_N_embedding b). now rewrite E.
Qed.

Lemma code_chr z : 0 <= z <= 255 -> code (chr z) = z.
Proof. intros B. unfold code, chr. rewrite Z.mod_small by lia. rewrite N_ascii_embedding; lia. Qed.

Lemma chr_code c : chr (code c) = c.
Proof. apply code_inj. apply code_chr. apply code_bounds. Qed.

Lemma eqb_iff a b : Ascii.eqb a b = true <-> a = b.
Proof. destruct (Ascii.eqb_spec a b); split; congruence. Qed.

Lemma str_eqb_iff a b : str_eqb a b = true <-> a = b.
Proof.
  revert b. induction a as [|x a IH]; intros [|y b]; cbn; split; try congruence; try discriminate.
  - intros H. apply andb_true_iff in H. destruct H as [H1 H2]. apply eqb_iff in H1. apply IH in H2. congruence.
  - intros [= -> ->]. apply andb_true_iff. split; [now apply eqb_iff|now apply IH].
Qed.
Lemma str_eqb_refl a : str_eqb a a = true.
Proof. now apply str_eqb_iff. Qed.
Lemma str_eqb_neq a b : a <> b -> str_eqb a b = false.
Proof. intros N. destruct (str_eqb a b) eqn:E; [apply str_eqb_iff in E; contradiction|reflexivity]. Qed.

(** * take_while and drop_while *)

Lemma take_drop p s : take_while p s ++ drop_while p s = s.
Proof. induction s as [|c t IH]; cbn; [reflexivity|]. destruct (p c); cbn; congruence. Qed.

Definition starts_not (p : ascii -> bool) (s : str) : Prop := match s with c :: _ => p c = false | [] => True end.

Lemma take_while_app p a b : Forall (fun c => p c = true) a -> starts_not p b -> take_while p (a ++ b) = a.
Proof.
  intros F N. induction F as [|c a H F IH]; cbn; [|now rewrite H, IH].
  destruct b as [|c b]; cbn in *; [reflexivity|]. now rewrite N.
Qed.
Lemma drop_while_app p a b : Forall (fun c => p c = true) a -> starts_not p b -> drop_while p (a ++ b) = b.
Proof.
  intros F N. induction F as [|c a H F IH]; cbn; [|now rewrite H, IH].
  destruct b as [|c b]; cbn in *; [reflexivity|]. now rewrite N.
Qed.
Lemma take_while_all p a : Forall (fun c => p c = true) (take_while p a).
Proof. induction a as [|c a IH]; cbn; [constructor|]. destruct (p c) eqn:E; constructor; auto. Qed.
Lemma drop_while_starts p a : starts_not p (drop_while p a).
Proof. induction a as [|c a IH]; cbn; [exact I|]. destruct (p c) eqn:E; [exact IH|exact E]. Qed.
Lemma drop_while_id p s : starts_not p s -> drop_while p s = s.
Proof. destruct s as [|c s]; cbn; [reflexivity|]. intros ->. reflexivity. Qed.
Lemma take_while_nil p s : starts_not p s -> take_while p s = [].
Proof. destruct s as [|c s]; cbn; [reflexivity|]. intros ->. reflexivity. Qed.

(** * Numerals *)

Lemma dec_digit_is c d : dec_digit c d -> is_digit c = true /\ digit_val c = d.
Proof. unfold dec_digit, is_digit, digit_val. rewrite code_char. intros [B E]. lia. Qed.
Lemma is_digit_dec c : is_digit c = true -> dec_digit c (digit_val c).
Proof. unfold dec_digit, is_digit, digit_val. rewrite code_char. lia. Qed.

Lemma dec_val_snoc s c : dec_val (s ++ [c]) = dec_val s * 10 + digit_val c.
Proof. unfold dec_val. now rewrite fold_left_app. Qed.

Lemma numeral_digits s v : numeral s v -> Forall (fun c => is_digit c = true) s /\ dec_val s = v /\ s <> [] /\ 0 <= v.
Proof.
  induction 1 as [c d D|s v c d N [IH1 [IH2 [IH3 IH4]]] D].
  - destruct (dec_digit_is c d D) as [A B]. repeat split.
    + now constructor.
    + unfold dec_val. cbn [fold_left]. lia.
    + discriminate.
    + destruct D. lia.
  - destruct (dec_digit_is c d D) as [A B]. repeat split.
    + apply Forall_app. split; [exact IH1|now constructor].
    + rewrite dec_val_snoc, IH2, B. lia.
    + now destruct s.
    + destruct D. lia.
Qed.

Lemma digits_numeral s : s <> [] -> Forall (fun c => is_digit c = true) s -> numeral s (dec_val s).
Proof.
  induction s as [|c s IH] using rev_ind; [congruence|]. intros _ F. apply Forall_app in F. destruct F as [F1 F2].
  inversion F2 as [|x y D _]; subst. apply is_digit_dec in D. rewrite dec_val_snoc. destruct s as [|a s].
  - cbn. constructor. exact D.
  - rewrite Z.mul_comm. apply numeral_more; [|exact D]. apply IH; [discriminate|exact F1].
Qed.

Lemma numeral_unique s v w : numeral s v -> numeral s w -> v = w.
Proof. intros A B. apply numeral_digits in A, B. destruct A as (_ & A & _), B as (_ & B & _). congruence. Qed.

Lemma numeral_bound s v : numeral s v -> v < 10 ^ Z.of_nat (length s).
Proof.
  induction 1 as [c d [B _]|s v c d N IH [B _]].
  - cbn. lia.
  - rewrite app_length. cbn [length]. replace (Z.of_nat (length s + 1)) with (Z.succ (Z.of_nat (length s))) by lia.
    rewrite Z.pow_succ_r by lia. lia.
Qed.


Lemma digit_not_space c : is_digit c = true -> is_space c = false.
Proof. unfold is_digit, is_space. lia. Qed.

Lemma numeral_scan s v rest : numeral s v -> is_int v -> starts_not is_digit rest -> scan_int (s ++ rest) = Ok v.
Proof.
  intros N I R. destruct (numeral_digits s v N) as (F & V & NE & P). destruct s as [|c s]; [congruence|].
  inversion F as [|x y D F']; subst x y. unfold scan_int.
  assert (E : drop_while is_space ((c :: s) ++ rest) = (c :: s) ++ rest).
  { apply drop_while_id. cbn. now apply digit_not_space. }
  rewrite E. unfold take_sign. cbn [app].
  assert (A : Ascii.eqb c cminus = false).
  { destruct (Ascii.eqb_spec c cminus) as [->|]; [discriminate D|reflexivity]. }
  assert (B : Ascii.eqb c cplus = false).
  { destruct (Ascii.eqb_spec c cplus) as [->|]; [discriminate D|reflexivity]. }
  rewrite A, B. change (c :: s ++ rest) with ((c :: s) ++ rest). rewrite take_while_app by assumption.
  rewrite V. now apply chk_ok.
Qed.

(** * Printing *)

Lemma digit_chr d : 0 <= d <= 9 -> dec_digit (chr (48 + d)) d.
Proof. intros B. unfold dec_digit. rewrite <- code_char, code_chr by lia. lia. Qed.

Lemma digits_aux_app fuel n acc : digits_aux fuel n acc = digits_aux fuel n [] ++ acc.
Proof.
  revert n acc. induction fuel as [|f IH]; intros n acc; cbn [digits_aux]; [reflexivity|].
  destruct (n <? 10); [reflexivity|]. rewrite IH, (IH _ [_]). now rewrite <- app_assoc.
Qed.

Lemma digits_aux_numeral fuel n : 0 <= n -> n < 2 ^ Z.of_nat fuel -> (0 < fuel)%nat -> numeral (digits_aux fuel n []) n.
Proof.
  revert n. induction fuel as [|f IH]; intros n P L G; [lia|]. cbn [digits_aux].
  destruct (n <? 10) eqn:E.
  - rewrite Z.mod_small by lia. constructor. apply digit_chr. lia.
  - rewrite digits_aux_app. replace n with (10 * (n / 10) + n mod 10) at 3 by (symmetry; apply Z.div_mod; lia).
    apply numeral_more; [|apply digit_chr; pose proof (Z.mod_pos_bound n 10); lia].
    apply IH.
    + apply Z.div_pos; lia.
    + rewrite Nat2Z.inj_succ, Z.pow_succ_r in L by lia. apply Z.div_lt_upper_bound; lia.
    + destruct f; [|lia]. cbn in L. lia.
Qed.

Lemma digits_is_numeral n : 0 <= n -> numeral (digits n) n.
Proof.
  intros P. unfold digits. apply digits_aux_numeral; [exact P| |lia].
  rewrite Nat2Z.inj_succ, Z2Nat.id by apply Z.log2_nonneg.
  destruct (Z.eq_dec n 0) as [->|N]; [reflexivity|]. apply Z.log2_spec. lia.
Qed.

Lemma numeral_zeros k s v : numeral s v -> numeral (repeat "0"%char k ++ s) v.
Proof.
  intros N. induction k as [|k IH]; [exact N|]. cbn [repeat app]. revert IH. generalize (repeat "0"%char k ++ s). clear.
  intros t N. induction N as [c d D|t v c d N IH D].
  - change ["0"%char; c] with (["0"%char] ++ [c]). replace d with (10 * 0 + d) by lia. apply numeral_more; [|exact D].
    constructor. split; [lia|reflexivity].
  - change ("0"%char :: t ++ [c]) with (("0"%char :: t) ++ [c]). now apply numeral_more.
Qed.

Lemma print_pad_numeral w n : 0 <= n -> numeral (print_int_pad w n) n.
Proof.
  intros P. unfold print_int_pad. destruct (n <? 0) eqn:E; [lia|]. apply numeral_zeros. now apply digits_is_numeral.
Qed.

Lemma digits_aux_length fuel n k : 0 <= n -> (0 < k)%nat -> n < 10 ^ Z.of_nat k -> (length (digits_aux fuel n []) <= k)%nat.
Proof.
  revert n k. induction fuel as [|f IH]; intros n k P K L; cbn [digits_aux]; [cbn; lia|].
  destruct (n <? 10) eqn:E; [cbn; lia|]. rewrite digits_aux_app, app_length. cbn [length].
  destruct k as [|[|k]]; [lia|cbn in L; lia|].
  specialize (IH (n / 10) (S k)). rewrite Nat2Z.inj_succ, Z.pow_succ_r in L by lia.
  assert (n / 10 < 10 ^ Z.of_nat (S k)) by (apply Z.div_lt_upper_bound; lia).
  assert (0 <= n / 10) by (apply Z.div_pos; lia). specialize (IH ltac:(assumption) ltac:(lia) ltac:(assumption)). lia.
Qed.


(** * Splitting and joining *)

Definition free (p : ascii -> bool) (s : str) : Prop := Forall (fun c => p c = false) s.

Lemma split_free p s : free p s -> split p s = [s].
Proof. induction 1 as [|c s H F IH]; cbn; [reflexivity|]. now rewrite H, IH. Qed.

Lemma split_piece p s c rest : free p s -> p c = true -> split p (s ++ c :: rest) = s :: split p rest.
Proof. intros F C. induction F as [|x s H F IH]; cbn; [now rewrite C|]. now rewrite H, IH. Qed.

Lemma split_join p c l : p c = true -> l <> [] -> Forall (free p) l -> split p (join [c] l) = l.
Proof.
  intros C NE F. induction F as [|s l H F IH]; [congruence|]. destruct l as [|s' l].
  - cbn [join]. now apply split_free.
  - change (join [c] (s :: s' :: l)) with (s ++ c :: join [c] (s' :: l)). rewrite split_piece by assumption.
    now rewrite IH by discriminate.
Qed.

Lemma split_not_nil p s : split p s <> [].
Proof.
  induction s as [|c s IH]; cbn; [discriminate|]. destruct (p c); [discriminate|].
  destruct (split p s); [congruence|discriminate].
Qed.

Lemma is_any_one x c : is_any_of [x] c = true <-> c = x.
Proof. unfold is_any_of. cbn. rewrite orb_false_r. apply eqb_iff. Qed.
Lemma is_any_one_false x c : is_any_of [x] c = false <-> c <> x.
Proof. rewrite <- not_true_iff_false, is_any_one. tauto. Qed.

Lemma split_inv x s : join [x] (split (is_any_of [x]) s) = s /\ Forall (free (is_any_of [x])) (split (is_any_of [x]) s).
Proof.
  induction s as [|c s [IH1 IH2]]; cbn [split]; [split; [reflexivity|repeat constructor]|].
  pose proof (split_not_nil (is_any_of [x]) s) as NE.
  destruct (is_any_of [x] c) eqn:E.
  - apply is_any_one in E. subst c. destruct (split (is_any_of [x]) s) as [|w ws]; [congruence|].
    split; [cbn [join app]; now rewrite <- IH1|]. constructor; [constructor|exact IH2].
  - destruct (split (is_any_of [x]) s) as [|w ws]; [congruence|]. cbn [cons_head]. split.
    + rewrite <- IH1. destruct ws; reflexivity.
    + inversion IH2; subst. constructor; [now constructor|assumption].
Qed.

(** * Prefixes and substrings *)

Lemma starts_with_app pat rest : starts_with (pat ++ rest) pat = true.
Proof.
  induction pat as [|c pat IH]; cbn; [now destruct rest|]. rewrite IH, andb_true_r. now apply eqb_iff.
Qed.
Lemma starts_with_iff s pat : starts_with s pat = true <-> exists rest, s = pat ++ rest.
Proof.
  split.
  - revert s. induction pat as [|c pat IH]; intros s; [exists s; reflexivity|].
    destruct s as [|b s]; cbn; [discriminate|]. intros H. apply andb_true_iff in H. destruct H as [H1 H2].
    apply eqb_iff in H1. subst. destruct (IH s H2) as [rest ->]. now exists rest.
  - intros [rest ->]. apply starts_with_app.
Qed.
Lemma starts_with_nil s : starts_with s [] = true.
Proof. now destruct s. Qed.

Lemma find_sub_found a pat b : (forall u v, a ++ pat ++ b = u ++ pat ++ v -> (length a <= length u)%nat) ->
  find_sub (a ++ pat ++ b) pat = Some (length a).
Proof.
  induction a as [|c a IH]; intros M.
  - cbn [app length]. destruct (pat ++ b) eqn:E; cbn [find_sub]; rewrite <- ?E, ?starts_with_app; try reflexivity.
  - cbn [app length find_sub]. destruct (starts_with (c :: a ++ pat ++ b) pat) eqn:S.
    + apply starts_with_iff in S. destruct S as [rest S]. specialize (M [] rest S). cbn in M. lia.
    + rewrite IH; [reflexivity|]. intros u v E. specialize (M (c :: u) v). cbn [app length] in M.
      specialize (M ltac:(now rewrite E)). lia.
Qed.

Lemma find_sub_none s pat : find_sub s pat = None <-> ~ exists a b, s = a ++ pat ++ b.
Proof.
  induction s as [|c s IH]; cbn [find_sub].
  - destruct pat as [|x pat]; cbn.
    + split; [discriminate|]. intros N. exfalso. apply N. now exists [], [].
    + split; [|reflexivity]. intros _ (a & b & E). destruct a; discriminate.
  - destruct (starts_with (c :: s) pat) eqn:S.
    + split; [discriminate|]. intros N. exfalso. apply N. apply starts_with_iff in S. destruct S as [rest S]. now exists [], rest.
    + destruct (find_sub s pat) as [n|]; cbn.
      * split; [discriminate|]. intros N. exfalso. destruct IH as [_ IH]. assert (X : Some n = None); [|discriminate].
        apply IH. intros (a & b & E). apply N. exists (c :: a), b. now rewrite E.
      * split; [|reflexivity]. intros _ (a & b & E). destruct a as [|x a].
        -- cbn in E. rewrite E, starts_with_app in S. discriminate.
        -- injection E as -> E. destruct IH as [IH _]. apply (IH eq_refl). now exists a, b.
Qed.

(** * Trimming *)

Lemma is_space_white c : is_space c = true <-> white c.
Proof. unfold is_space, white. rewrite <- code_char. lia. Qed.

