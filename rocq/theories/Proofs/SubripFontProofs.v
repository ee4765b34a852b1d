(** Colours of font tags. *)
From Coq Require Import ZArith List Bool Ascii String Lia.
From Verif.Model Require Import Base Strings Float TimeModel Types Lines RawConvert Compose Ssa Subrip.
From Verif.Spec Require Import Outcome TextSpec LinesSpec StlFileSpec RawSpec SsaTagSpec SubripSpec.
From Verif.Proofs Require Import StringProofs ComposeProofs ColourProofs Iso6937Proofs StlReadProofs SsaTagProofs LinesProofs.
Import ListNotations.
Local Open Scope Z_scope.
Local Notation length := List.length.

(** * Searching *)

Lemma search_last_none {A} (m : str -> option A) s : search_last m s = None <-> forall before suf, s = before ++ suf -> m suf = None.
Proof.
  induction s as [|c s IH]; cbn [search_last].
  - split; [|intros H; now apply (H [])]. intros E before suf Q. symmetry in Q. apply app_eq_nil in Q. destruct Q as [_ ->]. exact E.
  - destruct (search_last m s) as [a|] eqn:E.
    + split; [discriminate|]. intros H. exfalso. assert (Q : Some a = None); [|discriminate]. apply IH. intros b suf ->.
      now apply (H (c :: b)).
    + split.
      * intros M b suf Q. destruct b as [|x b]; [cbn in Q; now subst suf|]. injection Q as _ Q. now apply (proj1 IH eq_refl b).
      * intros H. now apply (H []).
Qed.
Lemma search_last_some {A} (m : str -> option A) s a : search_last m s = Some a <->
  exists before suf, s = before ++ suf /\ m suf = Some a /\
    forall before' suf', s = before' ++ suf' -> m suf' <> None -> (length before' <= length before)%nat.
Proof.
  revert a. induction s as [|c s IH]; intros a; cbn [search_last].
  - split.
    + intros E. exists [], []. repeat split; [exact E|]. intros b suf Q _. symmetry in Q. apply app_eq_nil in Q. destruct Q as [-> _]. cbn. lia.
    + intros (b & suf & Q & M & _). symmetry in Q. apply app_eq_nil in Q. destruct Q as [_ ->]. exact M.
  - destruct (search_last m s) as [a'|] eqn:E.
    + destruct (proj1 (IH a') eq_refl) as (b & suf & -> & M & L). split.
      * intros [= <-]. exists (c :: b), suf. repeat split; [exact M|]. intros b' suf' Q M'. destruct b' as [|x b']; [cbn; lia|].
        injection Q as _ Q. specialize (L b' suf' Q M'). cbn. lia.
      * intros (b' & suf' & Q & M' & L'). assert (G : (length (c :: b) <= length b')%nat) by (apply (L' (c :: b) suf); [reflexivity|congruence]).
        destruct b' as [|x b']; [cbn in G; lia|]. injection Q as _ Q.
        assert (G' : (length b' <= length b)%nat) by (apply (L b' suf' Q); congruence).
        assert (b = b') as <-.
        { assert (LE : length b = length b') by (cbn in G; lia). clear -Q LE. revert b' LE Q. induction b as [|y b IH]; intros [|z b'] LE Q; try discriminate; [reflexivity|].
          injection Q as -> Q. f_equal. apply IH; [now injection LE|exact Q]. }
        apply app_inv_head in Q. subst suf'. congruence.
    + pose proof (proj1 (search_last_none m s) E) as N. split.
      * intros M. exists [], (c :: s). repeat split; [exact M|]. intros b' suf' Q M'. destruct b' as [|x b']; [cbn; lia|].
        injection Q as _ Q. exfalso. apply M'. now apply (N b').
      * intros (b' & suf' & Q & M' & _). destruct b' as [|x b']; [cbn in Q; now subst suf'|]. injection Q as _ Q.
        rewrite (N b' suf' Q) in M'. discriminate.
Qed.

(** * color=# *)

Lemma hex_all ds : Forall is_hex_char ds <-> Forall (fun c => is_xdigit c = true) ds.
Proof. split; apply Forall_impl; intros c; apply is_hex_char_iff. Qed.


Definition unquote (r : str) : str :=
  match r with c :: t => if Ascii.eqb c (chr 34) || Ascii.eqb c (chr 39) then t else r | [] => r end.
Definition hash_digits (r : str) : option str :=
  match r with
  | c :: t => if Ascii.eqb c "#"%char then match take_while is_xdigit t with [] => None | ds => Some ds end else None
  | [] => None
  end.
Lemma match_hex_eq s : match_hex_here s = if starts_with s (lit "color=") then hash_digits (unquote (skipn 6 s)) else None.
Proof. reflexivity. Qed.

Lemma unquote_hash q t : quote_or_nothing q -> unquote (q ++ "#"%char :: t) = "#"%char :: t.
Proof. intros [->|[->| ->]]; reflexivity. Qed.
Lemma unquote_inv r : exists q, quote_or_nothing q /\ r = q ++ unquote r.
Proof.
  destruct r as [|c t]; [exists []; split; [now left|reflexivity]|]. cbn [unquote].
  destruct (Ascii.eqb c (chr 34)) eqn:A; [|destruct (Ascii.eqb c (chr 39)) eqn:B]; cbn [orb].
  - apply eqb_iff in A. subst c. exists [dquote]. split; [right; now left|reflexivity].
  - apply eqb_iff in B. subst c. exists [squote]. split; [right; now right|reflexivity].
  - exists []. split; [now left|reflexivity].
Qed.

Lemma match_hex_iff s ds : match_hex_here s = Some ds <-> hash_colour s ds.
Proof.
  rewrite match_hex_eq. unfold hash_colour. split.
  - destruct (starts_with s (lit "color=")) eqn:S; [|discriminate]. apply starts_with_iff in S. destruct S as (r & ->).
    change (skipn 6 (lit "color=" ++ r)) with r. destruct (unquote_inv r) as (q & Q & E). set (u := unquote r) in *. clearbody u.
    destruct u as [|c t]; [discriminate|]. cbn [hash_digits]. destruct (Ascii.eqb c "#"%char) eqn:H; [|discriminate]. apply eqb_iff in H. subst c.
    pose proof (take_drop is_xdigit t) as T. pose proof (take_while_all is_xdigit t) as F. pose proof (drop_while_starts is_xdigit t) as D.
    destruct (take_while is_xdigit t) as [|d ds'] eqn:TW; [discriminate|]. intros [= <-].
    exists q, (drop_while is_xdigit t). split; [rewrite E at 1; rewrite <- T at 1; reflexivity|]. split; [exact Q|]. split; [discriminate|].
    split; [now apply hex_all|now apply not_begins_hex].
  - intros (q & rest & -> & Q & NE & F & NB). rewrite starts_with_app. change (skipn 6 (lit "color=" ++ ?r)) with r.
    rewrite unquote_hash by exact Q. cbn [hash_digits]. rewrite Ascii.eqb_refl. apply hex_all in F. apply not_begins_hex in NB.
    rewrite take_while_app by assumption. destruct ds; [congruence|reflexivity].
Qed.

(** * rgba *)

Lemma rgba_number_iff s d rest : rgba_number s = Some (d, rest) <->
  exists a b, s = a ++ d ++ b ++ rest /\ Forall white a /\ d <> [] /\ Forall (fun c => is_digit c = true) d /\ Forall white b /\ ~ begins white rest /\
    ~ begins is_digit_char (b ++ rest).
Proof.
  unfold rgba_number. split.
  - pose proof (take_drop is_space s) as T1. pose proof (take_while_all is_space s) as W1. set (r := drop_while is_space s) in *.
    pose proof (take_drop is_digit r) as T2. pose proof (take_while_all is_digit r) as W2. pose proof (drop_while_starts is_digit r) as S2.
    destruct (take_while is_digit r) as [|x ds] eqn:E; [discriminate|]. set (r2 := drop_while is_digit r) in *.
    pose proof (take_drop is_space r2) as T3. pose proof (take_while_all is_space r2) as W3. pose proof (drop_while_starts is_space r2) as S3.
    intros [= <- <-]. exists (take_while is_space s), (take_while is_space r2). rewrite T3.
    split; [now rewrite T2, T1|]. split; [now apply white_all|]. split; [discriminate|]. split; [exact W2|]. split; [now apply white_all|].
    split; [now apply not_begins_white|]. now apply StlReadProofs.not_begins_digit.
  - intros (a & b & -> & A & NE & D & B & NB & ND). apply white_all in A, B. apply not_begins_white in NB. apply StlReadProofs.not_begins_digit in ND.
    assert (S : starts_not is_space (d ++ b ++ rest)).
    { destruct d as [|x d]; [congruence|]. inversion D; subst. cbn. now apply digit_not_space. }
    rewrite drop_while_app by assumption. rewrite take_while_app, drop_while_app by assumption. rewrite drop_while_app by assumption.
    destruct d; [congruence|reflexivity].
Qed.

(** A number followed by a given character. *)
Lemma rgba_number_sep s c rest d : is_space c = false -> is_digit c = false ->
  (rgba_number s = Some (d, c :: rest) <-> exists n, s = n ++ c :: rest /\ (exists v, padded n v) /\ d = take_while is_digit (drop_while is_space n)).
Proof.
  intros SC DC. rewrite rgba_number_iff. split.
  - intros (a & b & -> & A & NE & D & B & NB & ND). exists (a ++ d ++ b). split; [now rewrite <- !app_assoc|]. split.
    + exists (dec_val d), a, d, b. repeat split; [exact A| |exact B]. now apply digits_numeral.
    + apply white_all in A, B. rewrite drop_while_app; [|exact A|destruct d as [|x d]; [congruence|]; inversion D; subst; cbn; now apply digit_not_space].
      symmetry. apply take_while_app; [exact D|]. destruct b as [|x b]; [exact I|]. inversion B; subst. cbn. cbn in ND.
      destruct (is_digit x) eqn:E; [|reflexivity]. apply digit_not_space in E. congruence.
  - intros (n & -> & (v & (a & d' & b & -> & A & N & B)) & ->). apply numeral_digits in N. destruct N as (D & _ & NE & _).
    assert (E : take_while is_digit (drop_while is_space (a ++ d' ++ b)) = d').
    { apply white_all in A, B. rewrite drop_while_app; [|exact A|destruct d' as [|x d']; [congruence|]; inversion D; subst; cbn; now apply digit_not_space].
      apply take_while_app; [exact D|]. destruct b as [|x b]; [exact I|]. inversion B; subst. cbn.
      destruct (is_digit x) eqn:E; [|reflexivity]. apply digit_not_space in E. congruence. }
    rewrite E. exists a, b. split; [now rewrite <- !app_assoc|]. split; [exact A|]. split; [exact NE|]. split; [exact D|]. split; [exact B|]. split.
    + apply not_begins_white. exact SC.
    + apply StlReadProofs.not_begins_digit. destruct b as [|x b]; [exact DC|]. inversion B as [|? ? X]; subst. cbn. apply is_space_white in X.
      destruct (is_digit x) eqn:DX; [|reflexivity]. apply digit_not_space in DX. congruence.
Qed.

Lemma padded_digits n v : padded n v -> numeral (take_while is_digit (drop_while is_space n)) v.
Proof.
  intros (a & d & b & -> & A & N & B). pose proof (numeral_digits d v N) as (D & _ & NE & _). apply white_all in A, B.
  rewrite drop_while_app; [|exact A|destruct d as [|x d]; [congruence|]; inversion D; subst; cbn; now apply digit_not_space].
  rewrite take_while_app; [exact N|exact D|]. destruct b as [|x b]; [exact I|]. inversion B; subst. cbn.
  destruct (is_digit x) eqn:E; [|reflexivity]. apply digit_not_space in E. congruence.
Qed.

Lemma rgba_comma_iff s t : rgba_comma s = Some t <-> s = ","%char :: t.
Proof.
  destruct s as [|c s]; cbn [rgba_comma]; [split; discriminate|]. destruct (Ascii.eqb_spec c ","%char) as [->|N].
  - split; [intros [= ->]; reflexivity|intros [= ->]; reflexivity].
  - split; [discriminate|]. intros [= E _]. congruence.
Qed.

Definition digits_of (n : str) : str := take_while is_digit (drop_while is_space n).

Lemma match_rgba_some s r g b : match_rgba_here s = Some (r, g, b) <->
  exists rs gs bs as_ rest, s = lit "color=" ++ dquote :: lit "rgba(" ++ join (lit ",") [rs; gs; bs; as_] ++ ")"%char :: dquote :: rest /\
    (exists v, padded rs v) /\ (exists v, padded gs v) /\ (exists v, padded bs v) /\ (exists v, padded as_ v) /\
    r = digits_of rs /\ g = digits_of gs /\ b = digits_of bs.
Proof.
  unfold match_rgba_here. set (pre := lit "color=" ++ [chr 34] ++ lit "rgba("). split.
  - destruct (starts_with s pre) eqn:S; [|discriminate]. apply starts_with_iff in S. destruct S as (t & ->).
    change (skipn 12 (pre ++ t)) with t.
    destruct (rgba_number t) as [[d1 s1]|] eqn:N1; [|discriminate]. destruct (rgba_comma s1) as [s2|] eqn:C1; [|discriminate].
    destruct (rgba_number s2) as [[d2 s3]|] eqn:N2; [|discriminate]. destruct (rgba_comma s3) as [s4|] eqn:C2; [|discriminate].
    destruct (rgba_number s4) as [[d3 s5]|] eqn:N3; [|discriminate]. destruct (rgba_comma s5) as [s6|] eqn:C3; [|discriminate].
    destruct (rgba_number s6) as [[d4 s7]|] eqn:N4; [|discriminate].
    destruct (starts_with s7 (lit ")" ++ [chr 34])) eqn:Q; [|discriminate]. intros [= <- <- <-].
    apply rgba_comma_iff in C1, C2, C3. subst s1 s3 s5. apply starts_with_iff in Q. destruct Q as (rest & ->).
    apply rgba_number_sep in N1; [|reflexivity..]. apply rgba_number_sep in N2; [|reflexivity..]. apply rgba_number_sep in N3; [|reflexivity..].
    change ((lit ")" ++ [chr 34]) ++ rest) with (")"%char :: dquote :: rest) in N4. apply rgba_number_sep in N4; [|reflexivity..].
    destruct N1 as (n1 & -> & P1 & ->), N2 as (n2 & -> & P2 & ->), N3 as (n3 & -> & P3 & ->), N4 as (n4 & -> & P4 & _).
    exists n1, n2, n3, n4, rest. split; [|now repeat split].
    change (join (lit ",") [n1; n2; n3; n4]) with (n1 ++ lit "," ++ n2 ++ lit "," ++ n3 ++ lit "," ++ n4).
    unfold pre. rewrite <- !app_assoc. reflexivity.
  - intros (n1 & n2 & n3 & n4 & rest & -> & P1 & P2 & P3 & P4 & -> & -> & ->).
    assert (E : lit "color=" ++ dquote :: lit "rgba(" ++ join (lit ",") [n1; n2; n3; n4] ++ ")"%char :: dquote :: rest =
      pre ++ n1 ++ ","%char :: n2 ++ ","%char :: n3 ++ ","%char :: n4 ++ ")"%char :: dquote :: rest).
    { change (join (lit ",") [n1; n2; n3; n4]) with (n1 ++ lit "," ++ n2 ++ lit "," ++ n3 ++ lit "," ++ n4).
      unfold pre. rewrite <- !app_assoc. reflexivity. }
    rewrite E, starts_with_app. match goal with |- context [skipn 12 (pre ++ ?t)] => change (skipn 12 (pre ++ t)) with t end.
    assert (G : forall n c t, (exists v, padded n v) -> is_space c = false -> is_digit c = false -> rgba_number (n ++ c :: t) = Some (digits_of n, c :: t)).
    { intros n c t P SC DC. apply rgba_number_sep; [exact SC|exact DC|]. exists n. now repeat split. }
    rewrite (G n1) by (try reflexivity; exact P1). cbn [rgba_comma]. rewrite Ascii.eqb_refl.
    rewrite (G n2) by (try reflexivity; exact P2). cbn [rgba_comma]. rewrite Ascii.eqb_refl.
    rewrite (G n3) by (try reflexivity; exact P3). cbn [rgba_comma]. rewrite Ascii.eqb_refl.
    rewrite (G n4) by (try reflexivity; exact P4).
    replace (starts_with (")"%char :: dquote :: rest) (lit ")" ++ [chr 34])) with true; [reflexivity|].
    symmetry. apply starts_with_iff. now exists rest.
Qed.

Lemma match_rgba_iff s r g b : rgba_colour s r g b <-> exists rs gs bs, match_rgba_here s = Some (rs, gs, bs) /\ numeral rs r /\ numeral gs g /\ numeral bs b.
Proof.
  split.
  - intros (rs & gs & bs & as_ & a & rest & E & P1 & P2 & P3 & P4). exists (digits_of rs), (digits_of gs), (digits_of bs). split.
    + apply match_rgba_some. exists rs, gs, bs, as_, rest. repeat split; try exact E; eexists; eassumption.
    + repeat split; now apply padded_digits.
  - intros (rs & gs & bs & M & N1 & N2 & N3). apply match_rgba_some in M.
    destruct M as (n1 & n2 & n3 & n4 & rest & E & (v1 & P1) & (v2 & P2) & (v3 & P3) & (v4 & P4) & -> & -> & ->).
    assert (G : forall n v w, padded n v -> numeral (digits_of n) w -> padded n w).
    { intros n v w P N. apply padded_digits in P as P'. rewrite (numeral_unique _ _ _ N P'). exact P. }
    exists n1, n2, n3, n4, v4, rest. split; [exact E|]. split; [now apply (G _ _ _ P1)|]. split; [now apply (G _ _ _ P2)|].
    split; [now apply (G _ _ _ P3)|exact P4].
Qed.

(** * The colour *)

Lemma share_table : forallb (fun k => match byte_fraction (Z.of_nat k), share (Z.of_nat k) with
    | SpecFloat.S754_zero a, SpecFloat.S754_zero b => Bool.eqb a b
    | SpecFloat.S754_finite a m e, SpecFloat.S754_finite b m' e' => Bool.eqb a b && Pos.eqb m m' && Z.eqb e e'
    | _, _ => false end) (seq 0 256) = true.
Proof. vm_compute. reflexivity. Qed.

Lemma byte_fraction_share v : 0 <= v <= 255 -> byte_fraction v = share v.
Proof.
  intros B. pose proof share_table as T. rewrite forallb_forall in T. specialize (T (Z.to_nat v)).
  rewrite Z2Nat.id in T by lia. assert (I : In (Z.to_nat v) (seq 0 256)) by (apply in_seq; lia). specialize (T I).
  destruct (byte_fraction v) as [a| | |a m e], (share v) as [b| | |b m' e']; try discriminate.
  - apply Bool.eqb_prop in T. now subst b.
  - apply andb_true_iff in T. destruct T as [T E]. apply andb_true_iff in T. destruct T as [T M].
    apply Bool.eqb_prop in T. apply Pos.eqb_eq in M. apply Z.eqb_eq in E. now subst.
Qed.

Lemma rgb_hex_share c1 c2 c3 c4 c5 c6 v1 v2 v3 v4 v5 v6 rest :
  hex_digit c1 v1 -> hex_digit c2 v2 -> hex_digit c3 v3 -> hex_digit c4 v4 -> hex_digit c5 v5 -> hex_digit c6 v6 ->
  from_rgb_hex (c1 :: c2 :: c3 :: c4 :: c5 :: c6 :: rest) = Ok (mkC (share (16 * v1 + v2)) (share (16 * v3 + v4)) (share (16 * v5 + v6))).
Proof.
  intros H1 H2 H3 H4 H5 H6. unfold from_rgb_hex.
  rewrite (scan_pair _ _ _ _ _ H1 H2), (scan_pair _ _ _ _ _ H3 H4), (scan_pair _ _ _ _ _ H5 H6).
  apply hex_digit_scan in H1 as (_ & _ & _ & _ & _ & H1), H2 as (_ & _ & _ & _ & _ & H2), H3 as (_ & _ & _ & _ & _ & H3),
    H4 as (_ & _ & _ & _ & _ & H4), H5 as (_ & _ & _ & _ & _ & H5), H6 as (_ & _ & _ & _ & _ & H6).
  rewrite !byte_fraction_share by lia. rewrite !(Z.mul_comm 16). reflexivity.
Qed.
Lemma rgba_hex_share c1 c2 c3 c4 c5 c6 a1 a2 v1 v2 v3 v4 v5 v6 w1 w2 rest :
  hex_digit c1 v1 -> hex_digit c2 v2 -> hex_digit c3 v3 -> hex_digit c4 v4 -> hex_digit c5 v5 -> hex_digit c6 v6 -> hex_digit a1 w1 -> hex_digit a2 w2 ->
  from_rgba_hex (c1 :: c2 :: c3 :: c4 :: c5 :: c6 :: a1 :: a2 :: rest) = Ok (mkC (share (16 * v1 + v2)) (share (16 * v3 + v4)) (share (16 * v5 + v6))).
Proof.
  intros H1 H2 H3 H4 H5 H6 H7 H8. unfold from_rgba_hex.
  rewrite (scan_pair _ _ _ _ _ H1 H2), (scan_pair _ _ _ _ _ H3 H4), (scan_pair _ _ _ _ _ H5 H6), (scan_pair _ _ _ _ _ H7 H8).
  apply hex_digit_scan in H1 as (_ & _ & _ & _ & _ & H1), H2 as (_ & _ & _ & _ & _ & H2), H3 as (_ & _ & _ & _ & _ & H3),
    H4 as (_ & _ & _ & _ & _ & H4), H5 as (_ & _ & _ & _ & _ & H5), H6 as (_ & _ & _ & _ & _ & H6).
  rewrite !byte_fraction_share by lia. rewrite !(Z.mul_comm 16). reflexivity.
Qed.

Lemma convert_digits d v z : numeral d v -> (raw_convert_int d = Ok z <-> is_int v /\ z = v).
Proof.
  intros N. unfold raw_convert_int, raw_convert_int_in. rewrite c_local.
  pose proof (numeral_digits d v N) as (F & V & NE & _). unfold scan_int.
  assert (S : starts_not is_space d) by (destruct d as [|x d]; [congruence|]; inversion F; subst; now apply digit_not_space).
  rewrite drop_while_id by exact S. destruct d as [|x d]; [congruence|]. cbn [take_sign]. destruct (numeral_head x d v N) as [-> ->].
  pose proof (take_while_app is_digit (x :: d) [] F I) as T. rewrite app_nil_r in T. rewrite T. rewrite V. apply chk_iff.
Qed.

Lemma search_hash_some saw ds : search_last match_hex_here saw = Some ds <->
  exists s, last_place (fun s => exists ds, hash_colour s ds) saw s /\ hash_colour s ds.
Proof.
  rewrite search_last_some. split.
  - intros (b & s & E & M & L). exists s. apply match_hex_iff in M. split; [|exact M]. split; [now exists ds|]. exists b. split; [exact E|].
    intros b' s' E' (ds' & H). apply (L b' s' E'). apply match_hex_iff in H. congruence.
  - intros (s & (_ & b & E & L) & H). exists b, s. split; [exact E|]. apply match_hex_iff in H. split; [exact H|].
    intros b' s' E' N. apply (L b' s' E'). destruct (match_hex_here s') as [ds'|] eqn:M; [|congruence]. exists ds'. now apply match_hex_iff.
Qed.
Lemma search_hash_none saw : search_last match_hex_here saw = None <-> forall before s ds, saw = before ++ s -> ~ hash_colour s ds.
Proof.
  rewrite search_last_none. split.
  - intros N b s ds E H. apply match_hex_iff in H. rewrite (N b s E) in H. discriminate.
  - intros N b s E. destruct (match_hex_here s) as [ds|] eqn:M; [|reflexivity]. apply match_hex_iff in M. now apply (N b s ds) in E.
Qed.
Lemma rgba_some s : (exists r g b, rgba_colour s r g b) <-> match_rgba_here s <> None.
Proof.
  split.
  - intros (r & g & b & H). apply match_rgba_iff in H. destruct H as (rs & gs & bs & H & _). congruence.
  - intros N. destruct (match_rgba_here s) as [[[rs gs] bs]|] eqn:M; [|congruence]. pose proof M as M'. apply match_rgba_some in M'.
    destruct M' as (n1 & n2 & n3 & n4 & rest & E & (v1 & P1) & (v2 & P2) & (v3 & P3) & (v4 & P4) & -> & -> & ->).
    exists v1, v2, v3, n1, n2, n3, n4, v4, rest. now repeat split.
Qed.

Lemma six_or_eight ds : Forall is_hex_char ds -> (length ds = 6%nat \/ length ds = 8%nat) ->
  exists c1 c2 c3 c4 c5 c6 alpha, ds = [c1; c2; c3; c4; c5; c6] ++ alpha /\ (length alpha = 0%nat \/ length alpha = 2%nat).
Proof.
  intros _ L. destruct ds as [|c1 [|c2 [|c3 [|c4 [|c5 [|c6 al]]]]]]; cbn in L; try (exfalso; lia).
  exists c1, c2, c3, c4, c5, c6, al. split; [reflexivity|lia].
Qed.

Theorem font_colour_iff n ctx saw k : font_colour n ctx saw = Ok k <-> font_colour_is saw k.
Proof.
  unfold font_colour. split.
  - destruct (search_last match_hex_here saw) as [ds|] eqn:S.
    + apply search_hash_some in S. destruct S as (s & LP & H). pose proof H as (q & rest & _ & _ & _ & F & _). intros E.
      assert (L : length ds = 6%nat \/ length ds = 8%nat).
      { destruct (Nat.eqb_spec (length ds) 6); [now left|]. destruct (Nat.eqb_spec (length ds) 8); [now right|discriminate]. }
      destruct (six_or_eight ds F L) as (c1 & c2 & c3 & c4 & c5 & c6 & al & -> & LA).
      apply Forall_app in F. destruct F as [F FA].
      do 6 (match type of F with Forall _ (_ :: _) => let D := fresh "D" in apply Forall_cons_iff in F; destruct F as [D F]; destruct D as (? & D) end).
      destruct LA as [LA|LA].
      * destruct al; [|discriminate]. cbn [length app Nat.eqb] in E. rewrite (rgb_hex_share _ _ _ _ _ _ _ _ _ _ _ _ [] D D0 D1 D2 D3 D4) in E.
        injection E as <-. eapply font_hash; try eassumption. now left.
      * destruct al as [|a1 [|a2 [|? ?]]]; try discriminate. cbn [length app Nat.eqb] in E.
        apply Forall_cons_iff in FA. destruct FA as [(w1 & A1) FA]. apply Forall_cons_iff in FA. destruct FA as [(w2 & A2) _].
        rewrite (rgba_hex_share _ _ _ _ _ _ _ _ _ _ _ _ _ _ _ _ [] D D0 D1 D2 D3 D4 A1 A2) in E.
        injection E as <-. eapply font_hash; try eassumption. now right.
    + pose proof (proj1 (search_hash_none saw) S) as S'. clear S. rename S' into S. destruct (search_last match_rgba_here saw) as [[[rs gs] bs]|] eqn:R; [|discriminate].
      apply search_last_some in R. destruct R as (b & s & E & M & L). intros K.
      pose proof M as M'. apply match_rgba_some in M'. destruct M' as (n1 & n2 & n3 & n4 & rest & _ & (v1 & P1) & (v2 & P2) & (v3 & P3) & (v4 & P4) & -> & -> & ->).
      apply padded_digits in P1, P2, P3. fold (digits_of n1) in P1. fold (digits_of n2) in P2. fold (digits_of n3) in P3.
      destruct (raw_convert_int (digits_of n1)) as [r| |] eqn:E1; [|discriminate..]. apply (convert_digits _ _ _ P1) in E1. destruct E1 as [I1 ->].
      destruct (raw_convert_int (digits_of n2)) as [g| |] eqn:E2; [|discriminate..]. apply (convert_digits _ _ _ P2) in E2. destruct E2 as [I2 ->].
      destruct (raw_convert_int (digits_of n3)) as [bl| |] eqn:E3; [|discriminate..]. apply (convert_digits _ _ _ P3) in E3. destruct E3 as [I3 ->].
      cbn [bind] in K. apply Ok_inj in K. rewrite <- K. change over_255 with share.
      assert (RC : rgba_colour s v1 v2 v3) by (apply match_rgba_iff; eexists _, _, _; split; [exact M|now repeat split]).
      eapply font_rgba; try eassumption. split; [now exists v1, v2, v3|]. exists b. split; [exact E|].
      intros b' s' E' H. apply (L b' s' E'). now apply rgba_some.
  - intros [s r1 r2 g1 g2 b1 b2 vr1 vr2 vg1 vg2 vb1 vb2 al LP H LA D1 D2 D3 D4 D5 D6|s r g b NH LP H I1 I2 I3].
    + assert (S : search_last match_hex_here saw = Some ([r1; r2; g1; g2; b1; b2] ++ al)) by (apply search_hash_some; now exists s).
      rewrite S. destruct H as (q & rest & _ & _ & _ & F & _). apply Forall_app in F. destruct F as [_ FA]. destruct LA as [LA|LA].
      * destruct al; [|discriminate]. cbn [length app Nat.eqb]. now apply rgb_hex_share.
      * destruct al as [|a1 [|a2 [|? ?]]]; try discriminate. cbn [length app Nat.eqb].
        apply Forall_cons_iff in FA. destruct FA as [(w1 & A1) FA]. apply Forall_cons_iff in FA. destruct FA as [(w2 & A2) _].
        now apply (rgba_hex_share _ _ _ _ _ _ _ _ _ _ _ _ _ _ w1 w2).
    + pose proof (proj2 (search_hash_none saw) NH) as NH'. rewrite NH'. apply match_rgba_iff in H. destruct H as (rs & gs & bs & M & N1 & N2 & N3).
      assert (R : search_last match_rgba_here saw = Some (rs, gs, bs)).
      { apply search_last_some. destruct LP as (_ & b' & E & L). exists b', s. split; [exact E|]. split; [exact M|].
        intros b'' s'' E' N. apply (L b'' s'' E'). now apply rgba_some. }
      rewrite R. rewrite (proj2 (convert_digits rs r r N1)) by now split. rewrite (proj2 (convert_digits gs g g N2)) by now split.
      rewrite (proj2 (convert_digits bs b b N3)) by now split. reflexivity.
Qed.
