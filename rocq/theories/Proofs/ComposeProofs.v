(** Proofs about String::compose and raw_convert. *)
From Coq Require Import ZArith List Bool Ascii String Lia.
From Verif.Model Require Import Base Strings Float Compose RawConvert.
From Verif.Spec Require Import Outcome TextSpec ComposeSpec.
From Verif.Proofs Require Import StringProofs.
Import ListNotations.
Local Open Scope Z_scope.
Local Notation length := List.length.

Definition to_piece (m : mark) : piece := match m with MChar c => PText c | MArg n => PSpec n end.

Lemma not_starts_digit s : ~ starts_with_digit s <-> starts_not is_digit s.
Proof.
  destruct s as [|c s]; cbn; [tauto|]. split.
  - intros N. destruct (is_digit c) eqn:E; [|reflexivity]. exfalso. apply N. exists (digit_val c). now apply is_digit_dec.
  - intros E [d D]. apply dec_digit_is in D. destruct D. congruence.
Qed.

Lemma parse_marks fmt ms : marks fmt ms -> forall fuel, (length fmt <= fuel)%nat -> compose_parse fuel fmt = map to_piece ms.
Proof.
  induction 1 as [|c s ms N H IH|s ms H IH|d n s ms D N H IH|s ms NE ND NP H IH|]; intros fuel L.
  - now destruct fuel.
  - cbn [length] in L. destruct fuel as [|k]; [lia|]. cbn [compose_parse].
    destruct (Ascii.eqb_spec c "%"%char) as [E|_]; [contradiction|]. cbn. f_equal. apply IH. lia.
  - cbn [length] in L. destruct fuel as [|k]; [lia|]. cbn [compose_parse]. cbn [Ascii.eqb Bool.eqb]. cbn. f_equal. apply IH. lia.
  - cbn [length] in L. rewrite app_length in L. destruct fuel as [|k]; [lia|].
    destruct (numeral_digits d n D) as (F & V & NE & _). apply not_starts_digit in N.
    pose proof (take_while_app is_digit d s F N) as T1. pose proof (drop_while_app is_digit d s F N) as T2.
    destruct d as [|c d]; [congruence|]. inversion F as [|x y Dc F']; subst x y.
    cbn [compose_parse app] in *. replace (Ascii.eqb "%" "%") with true by reflexivity.
    assert (P : Ascii.eqb c "%" = false) by (destruct (Ascii.eqb_spec c "%") as [->|]; [discriminate Dc|reflexivity]).
    rewrite P, Dc. cbn [map to_piece]. rewrite T1, T2, V. f_equal. apply IH. cbn [length] in L. lia.
  - cbn [length] in L. destruct fuel as [|k]; [lia|]. destruct s as [|c s]; [congruence|]. apply not_starts_digit in ND. cbn in ND.
    cbn [compose_parse]. replace (Ascii.eqb "%" "%") with true by reflexivity.
    assert (P : Ascii.eqb c "%" = false) by (destruct (Ascii.eqb_spec c "%") as [->|]; [now destruct NP|reflexivity]).
    rewrite P, ND. cbn [map to_piece]. f_equal. apply IH. lia.
  - destruct fuel as [|k]; [cbn in L; lia|]. reflexivity.
Qed.

Lemma every_format_aux n : forall fmt, (length fmt <= n)%nat -> exists ms, marks fmt ms.
Proof.
  induction n as [|n IH]; intros fmt L.
  - destruct fmt; [|cbn in L; lia]. exists []. constructor.
  - destruct fmt as [|c s]; [exists []; constructor|]. cbn in L.
    destruct (Ascii.eqb_spec c "%"%char) as [->|N].
    + destruct s as [|d t]; [exists [MChar "%"%char]; apply marks_last|].
      destruct (Ascii.eqb_spec d "%"%char) as [->|N].
      * destruct (IH t) as [ms M]; [cbn in L; lia|]. exists (MChar "%"%char :: ms). now apply marks_percent.
      * destruct (is_digit d) eqn:D.
        -- assert (E : take_while is_digit (d :: t) ++ drop_while is_digit (d :: t) = d :: t) by apply take_drop.
           assert (NE : take_while is_digit (d :: t) <> []) by (cbn; rewrite D; discriminate).
           destruct (IH (drop_while is_digit (d :: t))) as [ms M].
           { rewrite <- E in L. rewrite app_length in L. destruct (take_while is_digit (d :: t)); [congruence|]. cbn in L |- *. lia. }
           exists (MArg (dec_val (take_while is_digit (d :: t))) :: ms). rewrite <- E at 1.
           apply marks_arg; [apply digits_numeral; [exact NE|apply take_while_all]|apply not_starts_digit; apply drop_while_starts|exact M].
        -- destruct (IH (d :: t)) as [ms M]; [lia|]. exists (MChar "%"%char :: ms). apply marks_bare; auto.
           ++ discriminate.
           ++ apply not_starts_digit. exact D.
           ++ cbn. congruence.
    + destruct (IH s) as [ms M]; [lia|]. exists (MChar c :: ms). now constructor.
Qed.
Lemma every_format fmt : exists ms, marks fmt ms.
Proof. now apply (every_format_aux (length fmt)). Qed.

Lemma numbered_full args : Forall (fun a => a <> []) args -> numbered_args args = args.
Proof.
  unfold numbered_args. induction 1 as [|a args N F IH]; cbn; [reflexivity|]. destruct a; [congruence|]. cbn. now rewrite IH.
Qed.

Lemma compose_puts fmt ms args : marks fmt ms -> Forall (fun a => a <> []) args ->
  compose fmt args = List.concat (map (put args) ms).
Proof.
  intros M F. unfold compose. rewrite (parse_marks fmt ms M) by lia. rewrite flat_map_concat_map, map_map.
  f_equal. apply map_ext. intros [c|n]; cbn; [reflexivity|]. rewrite (numbered_full args F).
  destruct (n <=? 0) eqn:A, (1 <=? n) eqn:B; try reflexivity; lia.
Qed.

Lemma compose_general fmt ms args : marks fmt ms ->
  compose fmt args = List.concat (map (put (filter (fun a => negb (is_nil a)) args)) ms).
Proof.
  intros M. unfold compose. rewrite (parse_marks fmt ms M) by lia. rewrite flat_map_concat_map, map_map.
  f_equal. apply map_ext. intros [c|n]; cbn; [reflexivity|]. fold (numbered_args args).
  destruct (n <=? 0) eqn:A, (1 <=? n) eqn:B; try reflexivity; lia.
Qed.

Lemma compose_empty_wrong : exists fmt args ms, marks fmt ms /\ compose fmt args <> List.concat (map (put args) ms).
Proof.
  exists (lit "saw %1 expecting %2"), [[]; lit "x"]. destruct (every_format (lit "saw %1 expecting %2")) as [ms M].
  exists ms. split; [exact M|]. rewrite (compose_general _ _ _ M). pose proof (parse_marks _ _ M 100 ltac:(cbn; lia)) as P.
  assert (ms = map (fun p => match p with PText c => MChar c | PSpec n => MArg n end) (map to_piece ms)) as E.
  { rewrite map_map. rewrite <- (map_id ms) at 1. apply map_ext. now intros []. }
  rewrite <- P in E. vm_compute in E. rewrite E. vm_compute. discriminate.
Qed.

(** * Locales *)

Lemma replace_one_absent x rep s : ~ In x s -> replace_all s [x] rep = s.
Proof.
  unfold replace_all. induction s as [|c s IH]; cbn; intros N; [reflexivity|].
  assert (E : Ascii.eqb x c = false) by (destruct (Ascii.eqb_spec x c) as [->|]; [exfalso; apply N; now left|reflexivity]).
  rewrite E. cbn. f_equal. apply IH. intros I. apply N. now right.
Qed.

Lemma replace_char x y s : replace_all s [x] [y] = map (fun c => if Ascii.eqb x c then y else c) s.
Proof.
  unfold replace_all. induction s as [|c s IH]; cbn; [reflexivity|].
  rewrite starts_with_nil, andb_true_r. destruct (Ascii.eqb x c); cbn; now rewrite IH.
Qed.

Section Locale.
Variable dp : ascii.
Hypothesis separator_dp : separator dp.

Local Definition f (c : ascii) : ascii := if Ascii.eqb "." c then dp else c.
Local Definition g (s : str) : str := map f s.

Lemma dp_kinds : is_space dp = false /\ is_digit dp = false /\ is_xdigit dp = false /\ lower dp = dp /\
  dp <> cminus /\ dp <> cplus /\ (forall c, is_digit c = true \/ (97 <= code c <= 122) -> dp <> c).
Proof.
  destruct separator_dp as (A & B & C & D & E). unfold white in C. rewrite <- code_char in *.
  assert (DG : is_digit dp = false) by (unfold is_digit; lia).
  split; [unfold is_space; lia|]. split; [exact DG|]. split; [unfold is_xdigit; rewrite DG; cbn; lia|].
  split; [unfold lower; destruct ((65 <=? code dp) && (code dp <=? 90)) eqn:L; [lia|reflexivity]|].
  split; [exact D|]. split; [exact E|]. intros c [H|H] ->; [unfold is_digit in H; lia|lia].
Qed.

Lemma f_preserves p : p "."%char = false -> p dp = false -> forall c, p (f c) = p c.
Proof.
  intros A B c. unfold f. destruct (Ascii.eqb_spec "." c) as [<-|]; congruence.
Qed.

Lemma drop_while_g p s : (forall c, p (f c) = p c) -> drop_while p (g s) = g (drop_while p s).
Proof. intros H. induction s as [|c s IH]; cbn; [reflexivity|]. rewrite H. destruct (p c); [exact IH|reflexivity]. Qed.

Lemma take_while_g p s : p "."%char = false -> (forall c, p (f c) = p c) -> take_while p (g s) = take_while p s.
Proof.
  intros D H. induction s as [|c s IH]; cbn; [reflexivity|]. rewrite H. destruct (p c) eqn:E; [|reflexivity].
  fold (g s). rewrite IH. f_equal. unfold f. destruct (Ascii.eqb_spec "." c) as [<-|]; [congruence|reflexivity].
Qed.

Lemma f_eqb c x : x <> "."%char -> x <> dp -> Ascii.eqb (f c) x = Ascii.eqb c x.
Proof.
  intros A B. unfold f. destruct (Ascii.eqb_spec "." c) as [<-|]; [|reflexivity].
  destruct (Ascii.eqb_spec dp x), (Ascii.eqb_spec "." x); congruence.
Qed.

Lemma take_sign_g s : take_sign (g s) = (fst (take_sign s), g (snd (take_sign s))).
Proof.
  destruct dp_kinds as (_ & _ & _ & _ & M & P & _).
  destruct s as [|c s]; [reflexivity|]. cbn [g map take_sign]. rewrite !f_eqb by (discriminate || congruence).
  destruct (Ascii.eqb c cminus); [reflexivity|]. destruct (Ascii.eqb c cplus); reflexivity.
Qed.

Lemma lower_f c : lower (f c) = f (lower c).
Proof.
  destruct dp_kinds as (_ & _ & _ & L & _). unfold f at 1. destruct (Ascii.eqb_spec "." c) as [<-|N]; [rewrite L; reflexivity|].
  unfold f. destruct (Ascii.eqb_spec "." (lower c)) as [E|]; [|reflexivity].
  exfalso. unfold lower in E. destruct ((65 <=? code c) && (code c <=? 90)) eqn:B; [|congruence].
  assert (X : code "."%char = code (chr (code c + 32))) by now rewrite <- E. rewrite code_chr in X by lia.
  change (code "."%char) with 46 in X. lia.
Qed.

Lemma to_lower_g s : to_lower (g s) = g (to_lower s).
Proof. unfold to_lower, g. rewrite !map_map. apply map_ext. apply lower_f. Qed.

Lemma starts_with_g s pat : Forall (fun x => x <> "."%char /\ x <> dp) pat -> starts_with (g s) pat = starts_with s pat.
Proof.
  intros F. revert s. induction F as [|x pat [A B] F IH]; intros s; [now rewrite !starts_with_nil|].
  destruct s as [|c s]; cbn; [reflexivity|]. fold (g s). rewrite IH. f_equal.
  rewrite !(Ascii.eqb_sym x). now apply f_eqb.
Qed.

Lemma pat_ok (l : str) : Forall (fun x => is_digit x = true \/ 97 <= code x <= 122) l -> Forall (fun x => x <> "."%char /\ x <> dp) l.
Proof.
  destruct dp_kinds as (_ & _ & _ & _ & _ & _ & K). intros F. eapply Forall_impl; [|exact F]. intros c H. split.
  - intros ->. cbn in H. destruct H as [H|H]; [discriminate|]. change (code "."%char) with 46 in H. lia.
  - intros E. symmetry in E. revert E. now apply K.
Qed.
Ltac pat := apply pat_ok; cbn [lit list_ascii_of_string];
  repeat (apply Forall_cons; [first [left; reflexivity | right; vm_compute; split; discriminate]|]); apply Forall_nil.

Lemma scan_exponent_g m s : m = "e"%char \/ m = "p"%char -> scan_exponent m (g s) = scan_exponent m s.
Proof.
  intros HM. destruct dp_kinds as (Sp & Dg & _ & L & _ & _ & K). destruct s as [|c s]; [reflexivity|].
  cbn [g map scan_exponent]. rewrite lower_f. rewrite f_eqb.
  - destruct (Ascii.eqb (lower c) m); [|reflexivity]. fold (g s). rewrite take_sign_g.
    destruct (take_sign s) as [n d]. cbn [fst snd].
    rewrite take_while_g; [reflexivity|reflexivity|]. now apply f_preserves.
  - destruct HM as [->| ->]; discriminate.
  - destruct HM as [->| ->]; intros E; symmetry in E; revert E; apply K; right; vm_compute; split; discriminate.
Qed.

Lemma head_eqb_dp c : c <> dp \/ dp = "."%char -> Ascii.eqb (f c) dp = Ascii.eqb c ".".
Proof.
  intros N. unfold f. destruct (Ascii.eqb_spec "." c) as [<-|M].
  - now rewrite Ascii.eqb_refl.
  - destruct (Ascii.eqb_spec c dp), (Ascii.eqb_spec c "."); try congruence; destruct N; congruence.
Qed.

Lemma drop_while_in p s c : In c (drop_while p s) -> In c s.
Proof. induction s as [|x s IH]; cbn; [tauto|]. destruct (p x); [auto|cbn; tauto]. Qed.
Lemma take_sign_in s c : In c (snd (take_sign s)) -> In c s.
Proof.
  destruct s as [|x s]; cbn; [tauto|]. destruct (Ascii.eqb x cminus), (Ascii.eqb x cplus); cbn; tauto.
Qed.

Lemma scan_float_g s : ~ In dp s \/ dp = "."%char -> scan_float dp (g s) = scan_float "." s.
Proof.
  intros N. destruct dp_kinds as (Sp & Dg & Xd & L & M & P & K). unfold scan_float.
  rewrite (drop_while_g is_space) by (now apply f_preserves). rewrite take_sign_g.
  assert (N' : ~ In dp (snd (take_sign (drop_while is_space s))) \/ dp = "."%char).
  { destruct N as [N|N]; [left|now right]. intros I. apply N. apply take_sign_in in I. now apply drop_while_in in I. }
  destruct (take_sign (drop_while is_space s)) as [neg r]. cbn [fst snd] in *.
  rewrite to_lower_g. rewrite !starts_with_g by pat.
  destruct (starts_with (to_lower r) (lit "nan")); [reflexivity|].
  destruct (starts_with (to_lower r) (lit "inf")).
  { unfold g at 1. rewrite skipn_map. destruct (skipn 3 (to_lower r)) as [|c t]; [reflexivity|]. cbn [map].
    rewrite f_eqb; [reflexivity|discriminate|]. intros E. symmetry in E. revert E. apply K. right. vm_compute. split; discriminate. }
  assert (HD : forall p l, p "."%char = false -> (forall c, p (f c) = p c) -> ~ In dp l \/ dp = "."%char ->
     match g l with
     | [] => ([], g l)
     | c :: t => if Ascii.eqb c dp then (take_while p t, drop_while p t) else ([], g l)
     end = (fst match l with
     | [] => ([], l)
     | c :: t => if Ascii.eqb c "." then (take_while p t, drop_while p t) else ([], l)
     end, g (snd match l with
     | [] => ([], l)
     | c :: t => if Ascii.eqb c "." then (take_while p t, drop_while p t) else ([], l)
     end))).
  { intros p l D H NI. destruct l as [|c t]; [reflexivity|]. cbn [g map]. rewrite head_eqb_dp.
    - destruct (Ascii.eqb c "."); [|reflexivity]. cbn [fst snd]. fold (g t). now rewrite take_while_g, drop_while_g.
    - destruct NI as [NI|NI]; [left|now right]. intros ->. apply NI. now left. }
  destruct (starts_with (to_lower r) (lit "0x")).
  - cbv zeta. assert (SK : skipn 2 (g r) = g (skipn 2 r)) by (unfold g; now rewrite skipn_map). rewrite SK.
    rewrite (drop_while_g is_xdigit), (take_while_g is_xdigit) by (reflexivity || now apply f_preserves).
    rewrite (HD is_xdigit).
    + destruct (drop_while is_xdigit (skipn 2 r)) as [|c t]; [|destruct (Ascii.eqb c ".")]; cbn [fst snd];
        rewrite scan_exponent_g by (now right); reflexivity.
    + reflexivity.
    + now apply f_preserves.
    + destruct N' as [N'|N']; [left|now right]. intros I. apply drop_while_in in I. apply N'.
      rewrite <- (firstn_skipn 2 r). apply in_or_app. now right.
  - cbv zeta. rewrite (drop_while_g is_digit), (take_while_g is_digit) by (reflexivity || now apply f_preserves).
    rewrite (HD is_digit).
    + destruct (drop_while is_digit r) as [|c t]; [|destruct (Ascii.eqb c ".")]; cbn [fst snd];
        rewrite scan_exponent_g by (now left); reflexivity.
    + reflexivity.
    + now apply f_preserves.
    + destruct N' as [N'|N']; [left|now right]. intros I. apply drop_while_in in I. now apply N'.
Qed.

Lemma scan_int_g s : scan_int (g s) = scan_int s.
Proof.
  destruct dp_kinds as (Sp & Dg & Xd & L & M & P & K). unfold scan_int.
  rewrite (drop_while_g is_space) by (now apply f_preserves). rewrite take_sign_g.
  destruct (take_sign (drop_while is_space s)) as [neg r]. cbn [fst snd].
  now rewrite (take_while_g is_digit) by (reflexivity || now apply f_preserves).
Qed.
End Locale.

Lemma separator_dot : separator "."%char.
Proof. unfold separator, white. change (char_code ".") with 46. repeat split; try lia; try discriminate. Qed.

Lemma make_local_g loc v : make_local loc v = g (decimal_point loc) v.
Proof. unfold make_local. change (lit ".") with ["."%char]. now rewrite replace_char. Qed.

Lemma c_local v : make_local c_locale v = v.
Proof.
  rewrite make_local_g. unfold g, f. cbn [decimal_point c_locale]. rewrite <- (map_id v) at 2. apply map_ext.
  intros c. destruct (Ascii.eqb_spec "." c); congruence.
Qed.

Lemma float_any_locale loc v : separator (decimal_point loc) -> ~ In (decimal_point loc) v \/ decimal_point loc = "."%char ->
  raw_convert_float_in loc v = raw_convert_float v.
Proof.
  intros S N. unfold raw_convert_float, raw_convert_float_in. rewrite c_local. cbn [decimal_point c_locale].
  rewrite make_local_g. now apply scan_float_g.
Qed.

Lemma int_any_locale loc v : separator (decimal_point loc) -> raw_convert_int_in loc v = raw_convert_int v.
Proof.
  intros S. unfold raw_convert_int, raw_convert_int_in. rewrite c_local, make_local_g. now apply scan_int_g.
Qed.

(** A separator that contains a character that is not a digit is not found in a number. *)
Lemma replace_absent pat rep s : (exists x, In x pat /\ is_digit x = false) -> Forall (fun c => is_digit c = true) s ->
  replace_all s pat rep = s.
Proof.
  intros (x & I & D) F. unfold replace_all. destruct pat as [|p pat]; [reflexivity|].
  assert (NS : forall t, Forall (fun c => is_digit c = true) t -> starts_with t (p :: pat) = false).
  { intros t Ft. destruct (starts_with t (p :: pat)) eqn:E; [|reflexivity]. apply starts_with_iff in E. destruct E as [r ->].
    apply Forall_app in Ft. destruct Ft as [Ft _]. rewrite Forall_forall in Ft. specialize (Ft x I). congruence. }
  induction F as [|c s H F IH]; [reflexivity|]. cbn [replace_all_aux]. rewrite NS by now constructor. now rewrite IH.
Qed.

Lemma string_any_locale loc v : 0 <= v -> separator (decimal_point loc) ->
  (thousands_sep loc = [] \/ exists x, In x (thousands_sep loc) /\ is_digit x = false) ->
  raw_convert_string_in loc v = digits v.
Proof.
  intros P S T. unfold raw_convert_string_in, make_raw.
  destruct (numeral_digits _ _ (digits_is_numeral v P)) as (F & _).
  assert (E : replace_all (digits v) (thousands_sep loc) [] = digits v).
  { destruct T as [->|T]; [reflexivity|]. now apply replace_absent. }
  rewrite E. apply replace_absent; [|exact F]. exists (decimal_point loc). split; [now left|]. now apply dp_kinds.
Qed.

Lemma int_value loc v s rest : separator (decimal_point loc) -> numeral s v -> is_int v ->
  (forall c r, rest = c :: r -> ~ exists d, dec_digit c d) -> raw_convert_int_in loc (s ++ rest) = Ok v.
Proof.
  intros S N I R. rewrite (int_any_locale loc _ S). unfold raw_convert_int, raw_convert_int_in. rewrite c_local.
  apply numeral_scan; [exact N|exact I|]. apply not_starts_digit. destruct rest as [|c r]; cbn; [tauto|]. now apply (R c r).
Qed.

Lemma string_value loc v : 0 <= v -> separator (decimal_point loc) ->
  (thousands_sep loc = [] \/ exists x, In x (thousands_sep loc) /\ ~ exists d, dec_digit x d) ->
  numeral (raw_convert_string_in loc v) v.
Proof.
  intros P S T. rewrite string_any_locale; [now apply digits_is_numeral|exact P|exact S|].
  destruct T as [T|(x & I & D)]; [now left|]. right. exists x. split; [exact I|]. destruct (is_digit x) eqn:E; [|reflexivity].
  exfalso. apply D. eexists. now apply is_digit_dec.
Qed.

Lemma compose_meaning fmt args : Forall (fun a => a <> []) args ->
  exists ms, marks fmt ms /\ compose fmt args = List.concat (map (put args) ms).
Proof. intros F. destruct (every_format fmt) as [ms M]. exists ms. split; [exact M|]. now apply compose_puts. Qed.

Lemma marks_unique fmt ms ms' : marks fmt ms -> marks fmt ms' -> ms = ms'.
Proof.
  intros A B. pose proof (parse_marks _ _ A _ (le_n _)) as PA. pose proof (parse_marks _ _ B _ (le_n _)) as PB.
  rewrite PA in PB. revert PB. clear. revert ms'.
  induction ms as [|m ms IH]; intros [|m' ms']; cbn; try discriminate; [reflexivity|].
  intros E. injection E as E1 E2. apply IH in E2. subst. f_equal. destruct m, m'; cbn in E1; congruence.
Qed.

Lemma compose_any fmt ms args : marks fmt ms ->
  compose fmt args = List.concat (map (put (filter (fun a => match a with [] => false | _ => true end) args)) ms).
Proof.
  intros M. rewrite (compose_general fmt ms args M).
  f_equal. apply map_ext. intros [c|n]; cbn [put]; [reflexivity|].
  replace (filter (fun a : list ascii => negb (is_nil a)) args) with (filter (fun a : str => match a with [] => false | _ => true end) args);
    [reflexivity|]. apply filter_ext. now intros [].
Qed.
