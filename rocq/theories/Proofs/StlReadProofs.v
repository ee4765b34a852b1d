(** Proofs about the binary STL reader. *)
From Coq Require Import ZArith List Bool Ascii String Lia.
From Verif.Model Require Import Base Strings Float TimeModel Types Lines Compose Iso6937Tables Utf Iso6937 StlTables StlUtil
  StlBinReader.
From Verif.Spec Require Import Outcome TextSpec TimeSpec Utf8Spec Iso6937Spec StlTableSpec StlFileSpec.
From Verif.Proofs Require Import TimeProofs StringProofs ComposeProofs Iso6937Proofs UtfProofs StlTableProofs.
Import ListNotations.
Local Open Scope Z_scope.
Local Notation length := List.length.

(** * Bytes at a position *)

Lemma bytes_at_iff b at_ n s : (at_ + n <= length b)%nat -> (bytes_at b at_ n s <-> get_string b at_ n = s).
Proof.
  intros L. unfold get_string. split.
  - intros (p & q & -> & <- & <-). rewrite skipn_app, skipn_all, Nat.sub_diag. cbn [skipn app].
    now rewrite firstn_app, firstn_all, Nat.sub_diag, firstn_O, app_nil_r.
  - intros <-. exists (firstn at_ b), (skipn n (skipn at_ b)). split; [|split].
    + now rewrite firstn_skipn, firstn_skipn.
    + rewrite firstn_length. lia.
    + rewrite firstn_length, skipn_length. lia.
Qed.

Lemma byte_at_iff b at_ v : (at_ < length b)%nat -> (byte_at b at_ v <-> get_int b at_ = v).
Proof.
  intros L. unfold get_int. split.
  - intros (p & c & q & -> & <- & ->). rewrite app_nth2, Nat.sub_diag by lia. cbn [nth]. apply code_char.
  - intros <-. exists (firstn at_ b), (nth at_ b zero), (skipn (S at_) b). split; [|split].
    + rewrite <- (firstn_skipn at_ b) at 1. f_equal. revert at_ L. induction b as [|x b IH]; cbn [length]; [lia|].
      intros [|k] L; [reflexivity|]. cbn [skipn nth]. apply IH. lia.
    + rewrite firstn_length. lia.
    + apply code_char.
Qed.
Lemma get_int_range b at_ : 0 <= get_int b at_ <= 255.
Proof. apply code_bounds. Qed.

(** * Numbers *)

Definition cval (s : str) : Z :=
  let '(neg, d) := take_sign (drop_while is_space s) in
  if neg then - dec_val (take_while is_digit d) else dec_val (take_while is_digit d).

Lemma scan_cval s : scan_int s = chk (cval s).
Proof.
  unfold scan_int, cval. destruct (take_sign (drop_while is_space s)) as [neg d].
  destruct (take_while is_digit d) as [|c t]; [|reflexivity]. destruct neg; reflexivity.
Qed.

Lemma c_string_cons c s : c_string (c :: s) = if code c =? 0 then [] else c :: c_string s.
Proof. unfold c_string. cbn. now destruct (code c =? 0). Qed.
Lemma space_c_string s : drop_while is_space (c_string s) = c_string (drop_while is_space s).
Proof.
  induction s as [|c s IH]; [reflexivity|]. rewrite c_string_cons. cbn [drop_while]. destruct (code c =? 0) eqn:Z0.
  - replace (is_space c) with false by (unfold is_space; lia). now rewrite c_string_cons, Z0.
  - cbn [drop_while]. destruct (is_space c); [exact IH|]. now rewrite c_string_cons, Z0.
Qed.
Lemma digits_c_string s : take_while is_digit (c_string s) = take_while is_digit s.
Proof.
  induction s as [|c s IH]; [reflexivity|]. rewrite c_string_cons. cbn [take_while]. destruct (code c =? 0) eqn:Z0.
  - now replace (is_digit c) with false by (unfold is_digit; lia).
  - cbn [take_while]. destruct (is_digit c); [now rewrite IH|reflexivity].
Qed.
Lemma sign_c_string s : take_sign (c_string s) = (fst (take_sign s), c_string (snd (take_sign s))).
Proof.
  destruct s as [|c s]; [reflexivity|]. rewrite c_string_cons. unfold take_sign.
  destruct (Ascii.eqb_spec c cminus) as [->|NM]; [reflexivity|].
  destruct (Ascii.eqb_spec c cplus) as [->|NP]; [reflexivity|]. cbn [fst snd]. rewrite c_string_cons.
  destruct (code c =? 0); [reflexivity|]. destruct (Ascii.eqb_spec c cminus) as [->|_]; [congruence|].
  destruct (Ascii.eqb_spec c cplus) as [->|_]; [congruence|reflexivity].
Qed.
Lemma cval_c_string s : cval (c_string s) = cval s.
Proof.
  unfold cval. rewrite space_c_string, sign_c_string. destruct (take_sign (drop_while is_space s)) as [neg d]. cbn [fst snd].
  now rewrite digits_c_string.
Qed.

Lemma space_white c : is_space c = true <-> TextSpec.white c.
Proof. apply is_space_white. Qed.
Lemma not_begins_digit s : ~ begins is_digit_char s <-> starts_not is_digit s.
Proof.
  destruct s as [|c s]; cbn; [tauto|]. unfold is_digit_char. split.
  - intros N. destruct (is_digit c) eqn:E; [|reflexivity]. exfalso. apply N. exists (digit_val c). now apply is_digit_dec.
  - intros E [d D]. apply dec_digit_is in D. destruct D. congruence.
Qed.

Lemma cval_parts sp r : Forall TextSpec.white sp -> starts_not is_space r ->
  cval (sp ++ r) = let '(neg, d) := take_sign r in
                   if neg then - dec_val (take_while is_digit d) else dec_val (take_while is_digit d).
Proof.
  intros W N. unfold cval. rewrite drop_while_app; [reflexivity| |exact N].
  eapply Forall_impl; [|exact W]. intros c. apply space_white.
Qed.

Lemma digits_start d v rest : numeral d v -> exists c t, d ++ rest = c :: t /\ is_digit c = true.
Proof.
  intros N. destruct (numeral_digits d v N) as (F & _ & NE & _). destruct d as [|c d]; [congruence|]. inversion F; subst.
  exists c, (d ++ rest). now split.
Qed.
Lemma take_digits d v rest : numeral d v -> ~ begins is_digit_char rest -> dec_val (take_while is_digit (d ++ rest)) = v.
Proof.
  intros N R. destruct (numeral_digits d v N) as (F & V & _). apply not_begins_digit in R. now rewrite take_while_app.
Qed.

Lemma take_sign_other c t : c <> cminus -> c <> cplus -> take_sign (c :: t) = (false, c :: t).
Proof.
  intros A B. unfold take_sign. destruct (Ascii.eqb_spec c cminus) as [X|_]; [contradiction|]. destruct (Ascii.eqb_spec c cplus) as [X|_]; [contradiction|reflexivity].
Qed.

Lemma c_number_cval s v : c_number s v -> cval s = v.
Proof.
  intros H. destruct H as [sp d v rest W N R|sp d v rest W N R|sp d v rest W N R|sp rest W NW NS ND|sp c rest W SC ND].
  - destruct (digits_start d v rest N) as (c & t & E & D). rewrite cval_parts; [|exact W|].
    + pose proof (take_digits d v rest N R) as T. rewrite E in *. rewrite take_sign_other; [exact T| |];
        intros ->; discriminate D.
    + rewrite E. cbn. now apply digit_not_space.
  - rewrite cval_parts; [|exact W|reflexivity]. cbn [take_sign Ascii.eqb Bool.eqb cminus cplus].
    change (take_sign ("+"%char :: d ++ rest)) with (false, d ++ rest). cbv iota beta. now apply take_digits.
  - rewrite cval_parts; [|exact W|reflexivity]. change (take_sign ("-"%char :: d ++ rest)) with (true, d ++ rest).
    cbv iota beta. f_equal. now apply take_digits.
  - rewrite cval_parts; [|exact W|].
    + destruct rest as [|c rest]; [reflexivity|]. cbn in NS. rewrite take_sign_other.
      * apply not_begins_digit in ND. cbv iota beta. rewrite take_while_nil by exact ND. reflexivity.
      * intros ->. apply NS. now right.
      * intros ->. apply NS. now left.
    + destruct rest as [|c rest]; cbn in *; [exact I|]. destruct (is_space c) eqn:E; [|reflexivity]. apply space_white in E. contradiction.
  - rewrite cval_parts; [|exact W|]. 
    + apply not_begins_digit in ND. destruct SC as [-> | ->].
      * change (take_sign ("+"%char :: rest)) with (false, rest). cbv iota beta. rewrite take_while_nil by exact ND. reflexivity.
      * change (take_sign ("-"%char :: rest)) with (true, rest). cbv iota beta. rewrite take_while_nil by exact ND. reflexivity.
    + destruct SC as [-> | ->]; reflexivity.
Qed.

Lemma spaces_all s : Forall TextSpec.white (take_while is_space s).
Proof. eapply Forall_impl; [|apply take_while_all]. intros c. apply space_white. Qed.

Lemma digits_or_not d : (exists v, take_while is_digit d <> [] /\ numeral (take_while is_digit d) v /\ dec_val (take_while is_digit d) = v /\
    ~ begins is_digit_char (drop_while is_digit d)) \/ (take_while is_digit d = [] /\ ~ begins is_digit_char d).
Proof.
  destruct (take_while is_digit d) as [|c t] eqn:E.
  - right. split; [reflexivity|]. apply not_begins_digit. destruct d as [|c d]; [exact I|]. cbn in *. destruct (is_digit c); [discriminate|reflexivity].
  - left. exists (dec_val (take_while is_digit d)). rewrite <- E. split; [congruence|]. split.
    + apply digits_numeral; [congruence|apply take_while_all].
    + split; [reflexivity|]. apply not_begins_digit. apply drop_while_starts.
Qed.

Lemma c_number_total s : c_number s (cval s).
Proof.
  rewrite <- (take_drop is_space s) at 1. unfold cval. pose proof (spaces_all s) as W.
  pose proof (drop_while_starts is_space s) as NS. destruct (drop_while is_space s) as [|c r].
  - cbn. apply c_number_none; [exact W|cbn; tauto..].
  - destruct (Ascii.eqb_spec c cminus) as [->|NM]; [|destruct (Ascii.eqb_spec c cplus) as [->|NP]].
    + change (take_sign (cminus :: r)) with (true, r). cbv iota beta.
      destruct (digits_or_not r) as [(v & NE & N & V & B)|[E B]].
      * rewrite <- (take_drop is_digit r) at 1. rewrite V. now apply c_number_minus.
      * rewrite E. change (- dec_val []) with 0. apply c_number_sign; [exact W|now right|exact B].
    + change (take_sign (cplus :: r)) with (false, r). cbv iota beta.
      destruct (digits_or_not r) as [(v & NE & N & V & B)|[E B]].
      * rewrite <- (take_drop is_digit r) at 1. rewrite V. now apply c_number_plus.
      * rewrite E. change (dec_val []) with 0. apply c_number_sign; [exact W|now left|exact B].
    + rewrite take_sign_other by assumption.
      destruct (digits_or_not (c :: r)) as [(v & NE & N & V & B)|[E B]].
      * rewrite <- (take_drop is_digit (c :: r)) at 1. rewrite V. now apply c_number_plain.
      * rewrite E. change (dec_val []) with 0. apply c_number_none; [exact W| | |exact B].
        -- cbn. intros X. apply space_white in X. cbn in NS. congruence.
        -- cbn. intros [->| ->]; [now apply NP|now apply NM].
Qed.

Lemma take_while_length p s : (length (take_while p s) <= length s)%nat.
Proof. induction s as [|c s IH]; cbn; [lia|]. destruct (p c); cbn; lia. Qed.
Lemma drop_while_length p s : (length (drop_while p s) <= length s)%nat.
Proof. induction s as [|c s IH]; cbn; [lia|]. destruct (p c); cbn; lia. Qed.

Lemma cval_bound s : Z.abs (cval s) < 10 ^ Z.of_nat (length s).
Proof.
  assert (D : forall d, (length d <= length s)%nat -> 0 <= dec_val (take_while is_digit d) < 10 ^ Z.of_nat (length s)).
  { intros d L. destruct (take_while is_digit d) as [|c t] eqn:E.
    - change (dec_val []) with 0. split; [lia|]. apply Z.pow_pos_nonneg; lia.
    - assert (N : numeral (c :: t) (dec_val (c :: t))).
      { apply digits_numeral; [discriminate|]. rewrite <- E. apply take_while_all. }
      pose proof (numeral_bound _ _ N) as B. destruct (numeral_digits _ _ N) as (_ & _ & _ & P). split; [exact P|].
      pose proof (take_while_length is_digit d) as T. rewrite E in T.
      eapply Z.lt_le_trans; [exact B|]. apply Z.pow_le_mono_r; lia. }
  unfold cval. pose proof (drop_while_length is_space s) as L. destruct (drop_while is_space s) as [|c r].
  - specialize (D [] ltac:(cbn; lia)). cbn in *. lia.
  - cbn [length] in L. unfold take_sign. destruct (Ascii.eqb c cminus); [|destruct (Ascii.eqb c cplus)].
    + specialize (D r ltac:(lia)). lia.
    + specialize (D r ltac:(lia)). lia.
    + specialize (D (c :: r) ltac:(cbn; lia)). lia.
Qed.

Lemma get_atoi_ok b at_ n : (n <= 9)%nat -> get_atoi b at_ n = Ok (cval (get_string b at_ n)).
Proof.
  intros L. unfold get_atoi, atoi. rewrite scan_cval, cval_c_string. apply chk_ok.
  pose proof (cval_bound (get_string b at_ n)) as B.
  assert (L' : (length (get_string b at_ n) <= 9)%nat) by (unfold get_string; rewrite firstn_length; lia).
  assert (10 ^ Z.of_nat (length (get_string b at_ n)) <= 10 ^ 9) by (apply Z.pow_le_mono_r; lia).
  unfold is_int. lia.
Qed.

Lemma number_at_iff b at_ n v : (at_ + n <= length b)%nat -> (number_at b at_ n v <-> cval (get_string b at_ n) = v).
Proof.
  intros L. unfold number_at. split.
  - intros (s & B & C). apply bytes_at_iff in B; [|exact L]. subst s. now apply c_number_cval.
  - intros <-. exists (get_string b at_ n). split; [now apply bytes_at_iff|apply c_number_total].
Qed.

(** * The header *)

Lemma code_at_iff {E : Type} b at_ n (t : list (str * E * str)) e read show name : (at_ + n <= length b)%nat ->
  reads_table read show name t -> (code_at b at_ n t e <-> read (get_string b at_ n) = Ok e).
Proof.
  intros L (R & _). rewrite R. unfold code_at. split.
  - intros (c & d & B & I). apply bytes_at_iff in B; [|exact L]. subst c. now exists d.
  - intros (d & I). exists (get_string b at_ n), d. split; [now apply bytes_at_iff|exact I].
Qed.

Lemma language_groups_reads c e : language_group_file_to_enum c = Ok e <-> exists d, In (c, e, d) reader_language_groups.
Proof.
  unfold language_group_file_to_enum, file_to_enum_or_throw.
  assert (R : NoDup (map (fun r => fst (fst r)) (str_rows language_group_map))).
  { apply (nodup_b_ok str_eqb); [exact str_eqb_iff|vm_compute; reflexivity]. }
  assert (X : str_rows language_group_map = reader_language_groups) by (vm_compute; reflexivity).
  rewrite <- X, <- (file_to_enum_some _ c e R). destruct (file_to_enum c language_group_map); split; congruence.
Qed.

Lemma rates_read s n : (let* fr := stl_dfc_to_frame_rate s in to_int (trunc_Z fr)) = Ok n <-> In (s, n) reader_rates.
Proof.
  unfold stl_dfc_to_frame_rate, reader_rates. split.
  - destruct (str_eqb s (lit "STL23.01")) eqn:A; [apply str_eqb_iff in A; subst s|].
    { intros H. assert (E : Ok 23 = Ok n) by (rewrite <- H; vm_compute; reflexivity). injection E as <-. now left. }
    destruct (str_eqb s (lit "STL24.01")) eqn:B; [apply str_eqb_iff in B; subst s|].
    { intros H. assert (E : Ok 24 = Ok n) by (rewrite <- H; vm_compute; reflexivity). injection E as <-. right. now left. }
    destruct (str_eqb s (lit "STL25.01")) eqn:C; [apply str_eqb_iff in C; subst s|].
    { intros H. assert (E : Ok 25 = Ok n) by (rewrite <- H; vm_compute; reflexivity). injection E as <-. right. right. now left. }
    destruct (str_eqb s (lit "STL30.01")) eqn:D; [apply str_eqb_iff in D; subst s|].
    { intros H. assert (E : Ok 30 = Ok n) by (rewrite <- H; vm_compute; reflexivity). injection E as <-. right. right. right. now left. }
    discriminate.
  - intros [E|[E|[E|[E|[]]]]]; pose proof (f_equal fst E) as E1; pose proof (f_equal snd E) as E2; cbn [fst snd] in E1, E2;
      subst s n; vm_compute; reflexivity.
Qed.

Lemma bind_ok {A B : Type} (e : res A) (k : A -> res B) b : bind e k = Ok b <-> exists a, e = Ok a /\ k a = Ok b.
Proof.
  destruct e as [a|x|u]; cbn [bind]; split; try discriminate; try (intros (a' & E & _); discriminate E).
  - eauto.
  - intros (a' & E & K). apply Ok_inj in E. now subst.
Qed.

Lemma header_iff b g : length b = 1024%nat -> (read_gsi b = Ok g <-> header_read b g).
Proof.
  intros L. unfold read_gsi. rewrite !get_atoi_ok by lia. cbn [bind].
  split.
  - intros H. apply bind_ok in H. destruct H as (fr & R & H). apply bind_ok in H. destruct H as (n & R' & H).
    assert (RT : In (get_string b 3 8, n) reader_rates) by (apply rates_read; rewrite R; exact R').
    apply bind_ok in H. destruct H as (ds & D & H). apply bind_ok in H. destruct H as (lg & LG & H).
    apply bind_ok in H. destruct H as (la & LA & H). apply bind_ok in H. destruct H as (ts & TS & H). apply Ok_inj in H.
    rewrite <- H. unfold header_read.
    cbn [code_page_number frame_rate g_display_standard g_language_group g_language original_programme_title
      original_episode_title translated_programme_title translated_episode_title translator_name translator_contact_details
      subtitle_list_reference_code creation_date revision_date revision_number tti_blocks number_of_subtitles subtitle_groups
      maximum_characters maximum_rows g_timecode_status start_of_programme first_in_cue disks disk_sequence_number
      country_of_origin publisher editor_name editor_contact_details].
    repeat match goal with |- _ /\ _ => split end;
      try (apply bytes_at_iff; [lia|reflexivity]); try (apply number_at_iff; [lia|reflexivity]); [exact L| | | | | |].
    + exists (get_string b 3 8). split; [apply bytes_at_iff; [lia|reflexivity]|exact RT].
    + exact (proj2 (code_at_iff b 11 1 _ ds _ _ _ ltac:(lia) (proj1 (proj2 display_table))) D).
    + apply language_groups_reads in LG. destruct LG as [d I]. exists (get_string b 12 2), d. split; [|exact I].
      apply bytes_at_iff; [lia|reflexivity].
    + exact (proj2 (code_at_iff b 14 2 _ la _ _ _ ltac:(lia) (proj1 (proj2 languages_table))) LA).
    + exists (cval (get_string b 253 2)). split; [apply number_at_iff; [lia|reflexivity]|].
      destruct (cval (get_string b 253 2) =? 99) eqn:N; [left|right]; (split; [lia|reflexivity]).
    + exact (proj2 (code_at_iff b 255 1 _ ts _ _ _ ltac:(lia) (proj1 (proj2 timecode_table))) TS).
  - unfold header_read. intros (_ & H0 & (dfc & B3 & RT) & DS & (c12 & d12 & B12 & I12) & LA & H). destruct g as [g1 g2 g3 g4 g5 g6 g7 g8 g9 g10 g11 g12 g13 g14 g15 g16 g17 g18 g19 g20 g21 g22 g23 g24 g25 g26 g27 g28 g29].
    cbn [code_page_number frame_rate g_display_standard g_language_group g_language original_programme_title
      original_episode_title translated_programme_title translated_episode_title translator_name translator_contact_details
      subtitle_list_reference_code creation_date revision_date revision_number tti_blocks number_of_subtitles subtitle_groups
      maximum_characters maximum_rows g_timecode_status start_of_programme first_in_cue disks disk_sequence_number
      country_of_origin publisher editor_name editor_contact_details] in *.
    destruct H as (F1 & F2 & F3 & F4 & F5 & F6 & F7 & F8 & F9 & F10 & N1 & N2 & N3 & N4 & (r & NR & R) & TS & F11 & F12 & N5 & N6 &
      F13 & F14 & F15 & F16).
    repeat match goal with X : bytes_at _ _ _ _ |- _ => apply bytes_at_iff in X; [|lia]
                         | X : number_at _ _ _ _ |- _ => apply number_at_iff in X; [|lia] end.
    subst dfc c12. apply rates_read, bind_ok in RT. destruct RT as (fr & E1 & E2). rewrite E1. cbn [bind]. rewrite E2. cbn [bind].
    rewrite (proj1 (code_at_iff b 11 1 _ _ _ _ _ ltac:(lia) (proj1 (proj2 display_table))) DS). cbn [bind].
    rewrite (proj2 (language_groups_reads _ _) (ex_intro _ d12 I12)). cbn [bind].
    rewrite (proj1 (code_at_iff b 14 2 _ _ _ _ _ ltac:(lia) (proj1 (proj2 languages_table))) LA). cbn [bind].
    rewrite (proj1 (code_at_iff b 255 1 _ _ _ _ _ ltac:(lia) (proj1 (proj2 timecode_table))) TS). cbn [bind].
    assert (MR : (if cval (get_string b 253 2) =? 99 then 12 else cval (get_string b 253 2)) = g20).
    { rewrite NR. destruct R as [[-> ->]|[N ->]]; [reflexivity|]. destruct (r =? 99) eqn:X; [lia|reflexivity]. }
    rewrite MR. subst. reflexivity.
Qed.

(** * Rows of text *)

Definition colour_code (c : Z) : option (Z * Z * Z) :=
  if c =? 0 then Some (0, 0, 0) else if c =? 1 then Some (1, 0, 0) else if c =? 2 then Some (0, 1, 0)
  else if c =? 3 then Some (1, 1, 0) else if c =? 4 then Some (0, 0, 1) else if c =? 5 then Some (1, 0, 1)
  else if c =? 6 then Some (0, 1, 1) else if c =? 7 then Some (1, 1, 1) else None.
Lemma stl_colour_code c : stl_colour c = option_map colour_of (colour_code c).
Proof. unfold stl_colour, colour_code. repeat (destruct (c =? _); [reflexivity|]). reflexivity. Qed.
Lemma colour_code_iff c k : In (c, k) stl_colours <-> colour_code c = Some k.
Proof.
  unfold colour_code. split.
  - intros I. repeat (destruct I as [I|I]; [injection I as <- <-; reflexivity|]). destruct I.
  - unfold stl_colours. intros H.
    repeat (match type of H with (if ?c =? ?n then _ else _) = _ => destruct (c =? n) eqn:?E end;
            [apply Z.eqb_eq in E; subst c; injection H as <-; cbn; tauto|clear E]).
    discriminate.
Qed.
Lemma colour_code_range c k : colour_code c = Some k -> 0 <= c <= 7.
Proof. intros H. apply colour_code_iff in H. repeat (destruct H as [H|H]; [injection H as <- _; lia|]). destruct H. Qed.
Lemma colour_code_some c : 0 <= c <= 7 -> exists k, colour_code c = Some k.
Proof.
  intros R. unfold colour_code. destruct (c =? 0) eqn:?; [eauto|]. destruct (c =? 1) eqn:?; [eauto|]. destruct (c =? 2) eqn:?; [eauto|].
  destruct (c =? 3) eqn:?; [eauto|]. destruct (c =? 4) eqn:?; [eauto|]. destruct (c =? 5) eqn:?; [eauto|]. destruct (c =? 6) eqn:?; [eauto|].
  destruct (c =? 7) eqn:?; [eauto|]. lia.
Qed.

Definition ctl (c : Z) : bool := (c <=? 7) || ((128 <=? c) && (c <=? 131)).
Definition next (c : Z) (s : style) : style :=
  mkStyle (match colour_code c with Some k => k | None => st_colour s end)
          (if c =? 128 then true else if c =? 129 then false else st_italic s)
          (if c =? 130 then true else if c =? 131 then false else st_underline s).

Lemma control_next c s : 0 <= c -> ctl c = true -> control c s (next c s).
Proof.
  intros P C. destruct s as [k i u]. unfold next. cbn [st_colour st_italic st_underline].
  assert (R : 0 <= c <= 7 \/ 128 <= c <= 131) by (unfold ctl in C; lia). destruct R as [R|R].
  - destruct (colour_code_some c R) as [k' K]. rewrite K. destruct (c =? 128) eqn:E1; [lia|]. destruct (c =? 129) eqn:E2; [lia|].
    destruct (c =? 130) eqn:E3; [lia|]. destruct (c =? 131) eqn:E4; [lia|]. constructor. now apply colour_code_iff.
  - assert (N : colour_code c = None).
    { destruct (colour_code c) eqn:E; [|reflexivity]. apply colour_code_range in E. lia. }
    rewrite N. assert (Q : c = 128 \/ c = 129 \/ c = 130 \/ c = 131) by lia.
    destruct Q as [-> | [-> | [-> | ->]]]; cbn; constructor.
Qed.
Lemma control_inv c s s' : control c s s' -> ctl c = true /\ s' = next c s.
Proof.
  intros H. destruct H as [c k old i u I| | | |]; try (split; reflexivity). apply colour_code_iff in I. pose proof (colour_code_range _ _ I).
  unfold ctl, next. rewrite I. cbn [st_colour st_italic st_underline].
  destruct (c =? 128) eqn:E1; [lia|]. destruct (c =? 129) eqn:E2; [lia|].
  destruct (c =? 130) eqn:E3; [lia|]. destruct (c =? 131) eqn:E4; [lia|]. split; [lia|reflexivity].
Qed.

Fixpoint cut (line : str) (s : style) (text : str) : list (style * str) * style :=
  let finish := (match text with [] => [] | _ => [(s, text)] end, s) in
  match line with
  | [] => finish
  | ch :: t =>
      if code ch =? 143 then finish
      else if ctl (code ch) then let r := cut t (next (code ch) s) [] in ((s, text) :: fst r, snd r)
      else cut t s (text ++ [ch])
  end.

Lemma bytes_app a b : bytes (a ++ b) = bytes a ++ bytes b.
Proof. apply map_app. Qed.
Lemma plain_app a b : plain_text a -> plain_text b -> plain_text (a ++ b).
Proof. intros; now apply Forall_app. Qed.

Definition as_bytes (p : style * str) : style * list Z := (fst p, bytes (snd p)).
Lemma finish_bytes s text : map as_bytes (match text with [] => [] | _ => [(s, text)] end) =
  if is_nil (bytes text) then [] else [(s, bytes text)].
Proof. now destruct text. Qed.

Lemma cut_pieces line : forall s text, plain_text (bytes text) ->
  row_pieces s (bytes (text ++ line)) (map as_bytes (fst (cut line s text))) (snd (cut line s text)).
Proof.
  induction line as [|ch t IH]; intros s text P; cbn [cut].
  - cbn [fst snd]. rewrite app_nil_r, finish_bytes. now constructor.
  - rewrite bytes_app. cbn [bytes map]. fold (bytes t). rewrite <- code_char.
    destruct (code ch =? 143) eqn:F.
    { apply Z.eqb_eq in F. rewrite F. cbn [fst snd]. rewrite finish_bytes. now constructor. }
    destruct (ctl (code ch)) eqn:C.
    { cbn [fst snd map]. unfold as_bytes at 1. cbn [fst snd]. econstructor; [exact P| |].
      - apply control_next; [apply code_bounds|exact C].
      - apply (IH _ []). constructor. }
    assert (E : bytes text ++ code ch :: bytes t = bytes ((text ++ [ch]) ++ t)).
    { rewrite !bytes_app, <- app_assoc. cbn [bytes map app]. now rewrite <- code_char. }
    rewrite E. apply IH. rewrite bytes_app. apply plain_app; [exact P|]. cbn [bytes map]. constructor; [|constructor].
    rewrite <- code_char. unfold ctl in C. lia.
Qed.

Lemma plain_split p p' c c' q q' : plain_text p -> plain_text p' ->
  (ctl c = true \/ c = 143) -> (ctl c' = true \/ c' = 143) ->
  p ++ c :: q = p' ++ c' :: q' -> p = p' /\ c = c' /\ q = q'.
Proof.
  intros P. revert p'. induction P as [|x p X P IH]; intros [|x' p'] P' C C' E; cbn [app] in E.
  - injection E as <- <-. auto.
  - inversion P' as [|? ? Y]; subst. injection E as -> _. unfold ctl in C. lia.
  - injection E as -> _. unfold ctl in C'. lia.
  - inversion P'; subst. injection E as -> E. destruct (IH p' ltac:(assumption) C C' E) as (-> & -> & ->). auto.
Qed.
Lemma plain_no_code p p' c q : plain_text p -> (ctl c = true \/ c = 143) -> p = p' ++ c :: q -> False.
Proof.
  intros P C ->. apply Forall_app in P. destruct P as [_ P]. inversion P; subst. unfold ctl in C. lia.
Qed.

Lemma row_pieces_unique s bs ps t : row_pieces s bs ps t -> forall ps' t', row_pieces s bs ps' t' -> ps = ps' /\ t = t'.
Proof.
  induction 1 as [s p P|s p rest P|s s' s'' p c rest ps P C R IH]; intros ps' t' H'.
  - remember p as bs eqn:E in H'. destruct H' as [? ? P'|? ? ? P'|? ? ? ? ? ? ? P' C' R'].
    + subst. auto.
    + exfalso. symmetry in E. eapply plain_no_code; [exact P| |exact E]. now right.
    + exfalso. symmetry in E. eapply plain_no_code; [exact P| |exact E]. left. now apply control_inv in C'.
  - remember (p ++ 143 :: rest) as bs eqn:E in H'. destruct H' as [? ? P'|? ? ? P'|? ? ? ? ? ? ? P' C' R'].
    + exfalso. eapply plain_no_code; [exact P'| |exact E]. now right.
    + eapply plain_split in E; [|assumption..|now right|now right]. destruct E as (-> & _ & _). auto.
    + exfalso. pose proof (control_inv _ _ _ C') as [CC _].
      eapply plain_split in E; [|assumption..|now left|now right]. destruct E as (_ & -> & _). discriminate CC.
  - pose proof (control_inv _ _ _ C) as [CC ->].
    remember (p ++ c :: rest) as bs eqn:E in H'. destruct H' as [? ? P'|? ? ? P'|? ? ? ? ? ? ? P' C' R'].
    + exfalso. eapply plain_no_code; [exact P'| |exact E]. now left.
    + exfalso. eapply plain_split in E; [|assumption..|now right|now left]. destruct E as (_ & <- & _). discriminate CC.
    + pose proof (control_inv _ _ _ C') as [CC' ->].
      eapply plain_split in E; [|assumption..|now left|now left]. destruct E as (-> & -> & ->).
      destruct (IH _ _ R') as [-> ->]. auto.
Qed.

Fixpoint rows_cut (row : Z) (i u : bool) (rows : list str) : list (Z * style * str) :=
  match rows with
  | [] => []
  | r :: t => let c := cut r (mkStyle (1, 1, 1) i u) [] in
              map (fun p => (row, fst p, snd p)) (fst c) ++ rows_cut (row + 1) (st_italic (snd c)) (st_underline (snd c)) t
  end.
Definition piece_bytes (p : Z * style * str) : Z * style * list Z := (fst p, bytes (snd p)).

Lemma rows_cut_pieces rows : forall row i u, rows_pieces row i u (map bytes rows) (map piece_bytes (rows_cut row i u rows)).
Proof.
  induction rows as [|r t IH]; intros row i u; cbn [rows_cut map]; [constructor|].
  set (c := cut r _ []). pose proof (cut_pieces r (mkStyle (1, 1, 1) i u) [] ltac:(constructor)) as C. fold c in C. cbn [app] in C.
  rewrite map_app, map_map.
  replace (map (fun x => piece_bytes (row, fst x, snd x)) (fst c)) with (map (fun p => (row, fst p, snd p)) (map as_bytes (fst c)))
    by (rewrite map_map; reflexivity).
  econstructor; [exact C|apply IH].
Qed.

Lemma rows_pieces_unique row i u rows ps : rows_pieces row i u rows ps -> forall ps', rows_pieces row i u rows ps' -> ps = ps'.
Proof.
  induction 1 as [|row i u bs rest ps s ps' R H IH]; intros q H'; inversion H'; subst; [reflexivity|].
  destruct (row_pieces_unique _ _ _ _ R _ _ ltac:(eassumption)) as [-> ->]. f_equal. auto.
Qed.

(** * The subtitles of a block *)

Definition piece_of (g : gsi) (from to : time) (just row : Z) (s : style) (text : str) : raw :=
  mkRaw text None (mkFS None None) None None (colour_of (st_colour s)) false (st_italic s) (st_underline s)
    (mkH (if just =? 1 then LEFT_OF_SCREEN else if just =? 3 then RIGHT_OF_SCREEN else HORIZONTAL_CENTRE_OF_SCREEN) (f_of_int 0))
    (mkV None (Some row) (Some (maximum_rows g)) (Some TOP_OF_SCREEN)) from to None None.

Definition decode_piece (g : gsi) (from to : time) (just : Z) (p : Z * style * str) : res raw :=
  let* w := pure_decode (c_string (snd p)) None in Ok (piece_of g from to just (fst (fst p)) (snd (fst p)) (wide_to_utf8 w)).

Lemma mapM_app {A B : Type} (f : A -> res B) a b :
  mapM f (a ++ b) = let* x := mapM f a in let* y := mapM f b in Ok (x ++ y).
Proof.
  induction a as [|h a IH]; cbn [app mapM bind].
  - destruct (mapM f b); reflexivity.
  - destruct (f h); cbn [bind]; [|reflexivity..]. rewrite IH. destruct (mapM f a); cbn [bind]; [|reflexivity..].
    destruct (mapM f b); reflexivity.
Qed.

Lemma st_bind_snd {A B : Type} (e : st A) (k : A -> st B) t :
  st_bind e k t = match snd (e t) with Ok a => k a (fst (e t)) | Throw x => (fst (e t), Throw x) | Undef u => (fst (e t), Undef u) end.
Proof. unfold st_bind. destruct (e t) as [t' r]. reflexivity. Qed.

Lemma push_ok sub text subs t : reached t ->
  snd (push_text sub text subs t) =
    (let* w := pure_decode (c_string text) None in
     Ok (set_text (wide_to_utf8 w) sub, subs ++ [set_text (wide_to_utf8 w) sub])) /\
  reached (fst (push_text sub text subs t)).
Proof.
  intros R. unfold push_text. rewrite st_bind_snd. destruct (decode_pure t (c_string text) R) as [E R']. rewrite E.
  destruct (pure_decode (c_string text) None) as [w|x|u]; cbn [bind st_ret fst snd]; split; try reflexivity; exact R'.
Qed.


Lemma chars_ok g from to just row line : forall s text sub subs t, reached t ->
  (forall x, set_text x sub = piece_of g from to just row s x) ->
  snd (stl_chars line sub (st_italic s) (st_underline s) text subs t) =
    (let* rs := mapM (decode_piece g from to just) (map (fun p => (row, fst p, snd p)) (fst (cut line s text))) in
     Ok (st_italic (snd (cut line s text)), st_underline (snd (cut line s text)), subs ++ rs)) /\
  reached (fst (stl_chars line sub (st_italic s) (st_underline s) text subs t)).
Proof.
  assert (FIN : forall s text sub subs t, reached t -> (forall x, set_text x sub = piece_of g from to just row s x) ->
    snd (match text with
         | [] => st_ret (Ok (st_italic s, st_underline s, subs))
         | _ => let$ x := push_text sub text subs in st_ret (Ok (st_italic s, st_underline s, snd x))
         end t) =
    (let* rs := mapM (decode_piece g from to just) (map (fun p => (row, fst p, snd p)) (match text with [] => [] | _ => [(s, text)] end)) in
     Ok (st_italic s, st_underline s, subs ++ rs)) /\
    reached (fst (match text with
         | [] => st_ret (Ok (st_italic s, st_underline s, subs))
         | _ => let$ x := push_text sub text subs in st_ret (Ok (st_italic s, st_underline s, snd x))
         end t))).
  { intros s [|c text] sub subs t R B.
    - cbn. rewrite app_nil_r. now split.
    - set (tx := c :: text). rewrite st_bind_snd. destruct (push_ok sub tx subs t R) as [E R']. rewrite E.
      cbn [map mapM fst snd]. unfold decode_piece at 1. cbn [fst snd].
      destruct (pure_decode (c_string tx) None) as [w|x|u]; cbn [bind st_ret fst snd]; split; try reflexivity; try exact R'.
      now rewrite B. }
  induction line as [|ch l IH]; intros s text sub subs t R B; cbn [stl_chars cut]; [exact (FIN s text sub subs t R B)|].
  destruct (code ch =? 143); [exact (FIN s text sub subs t R B)|]. fold (ctl (code ch)).
  destruct (ctl (code ch)).
  - rewrite st_bind_snd. destruct (push_ok sub text subs t R) as [E R']. rewrite E.
    cbn [map mapM fst snd]. unfold decode_piece at 1. cbn [fst snd].
    destruct (pure_decode (c_string text) None) as [w|x|u]; cbn [bind st_ret fst snd]; [|split; [reflexivity|exact R']..].
    set (sub' := set_underline _ (set_italic _ _)).
    destruct (IH (next (code ch) s) [] sub' (subs ++ [set_text (wide_to_utf8 w) sub]) _ R') as [H1 H2].
    + intros y. unfold sub'. rewrite stl_colour_code. unfold next. destruct (colour_code (code ch)) as [k|]; cbn [option_map].
      * match goal with |- set_text _ (set_underline ?u (set_italic ?i (set_colour ?c _))) = _ =>
          change (set_underline u (set_italic i (set_colour c (set_text y sub))) =
                  piece_of g from to just row (mkStyle k i u) y) end.
        rewrite B. reflexivity.
      * match goal with |- set_text _ (set_underline ?u (set_italic ?i _)) = _ =>
          change (set_underline u (set_italic i (set_text y sub)) =
                  piece_of g from to just row (mkStyle (st_colour s) i u) y) end.
        rewrite B. reflexivity.
    + split; [|exact H2]. etransitivity; [exact H1|]. rewrite B.
      set (r := cut l (next (code ch) s) []).
      destruct (mapM (decode_piece g from to just) (map (fun p => (row, fst p, snd p)) (fst r))) as [rs|x|u]; cbn [bind]; [|reflexivity..].
      now rewrite <- app_assoc.
  - destruct (IH s (text ++ [ch]) (set_underline (st_underline s) (set_italic (st_italic s) sub)) subs t R) as [H1 H2].
    + intros y. change (set_underline (st_underline s) (set_italic (st_italic s) (set_text y sub)) = piece_of g from to just row s y).
      rewrite B. reflexivity.
    + now split.
Qed.

Definition tc (b : str) (at_ : nat) (rate : Z) : time :=
  mkT (get_int b at_ * 3600 + get_int b (at_ + 1) * 60 + get_int b (at_ + 2)) (get_int b (at_ + 3)) (Some (mkR rate 1)).

Lemma get_timecode_ok b at_ rate : get_timecode b at_ rate = Ok (tc b at_ rate).
Proof.
  unfold get_timecode, from_hmsf, hms_seconds, tc, iadd, imul.
  pose proof (get_int_range b at_). pose proof (get_int_range b (at_ + 1)). pose proof (get_int_range b (at_ + 2)).
  rewrite !chk_ok by (unfold is_int; lia). cbn [bind]. rewrite !chk_ok by (unfold is_int; lia). cbn [bind].
  rewrite !chk_ok by (unfold is_int; lia). reflexivity.
Qed.

Lemma new_sub_ok b g j i u : exists sub, stl_new_sub b g j i u = Ok sub /\
  forall x, set_text x sub = piece_of g (tc b 5 (frame_rate g)) (tc b 9 (frame_rate g)) (get_int b 14) (get_int b 13 + j)
                               (mkStyle (1, 1, 1) i u) x.
Proof.
  unfold stl_new_sub. rewrite !get_timecode_ok. cbn [bind]. eexists. split; [reflexivity|]. intros x. unfold stl_href, piece_of.
  destruct (get_int b 14 =? 1) eqn:E1.
  { apply Z.eqb_eq in E1. rewrite E1. reflexivity. }
  destruct (get_int b 14 =? 3) eqn:E3.
  { apply Z.eqb_eq in E3. rewrite E3. reflexivity. }
  destruct ((get_int b 14 =? 0) || (get_int b 14 =? 2)); reflexivity.
Qed.

Lemma lines_ok b g lines : forall j i u highest subs t, reached t ->
  snd (stl_lines b g lines j i u highest subs t) =
    (let* rs := mapM (decode_piece g (tc b 5 (frame_rate g)) (tc b 9 (frame_rate g)) (get_int b 14))
                     (rows_cut (get_int b 13 + j) i u lines) in
     Ok (match lines with [] => highest | _ => Z.max highest (get_int b 13 + j + Z.of_nat (length lines) - 1) end, subs ++ rs)) /\
  reached (fst (stl_lines b g lines j i u highest subs t)).
Proof.
  induction lines as [|l ls IH]; intros j i u highest subs t R; cbn [stl_lines rows_cut].
  - cbn. rewrite app_nil_r. now split.
  - destruct (new_sub_ok b g j i u) as (sub & E & B). rewrite !st_bind_snd. unfold st_ret. cbn [fst snd]. rewrite E.
    rewrite !st_bind_snd.
    destruct (chars_ok g _ _ _ _ l (mkStyle (1, 1, 1) i u) [] sub subs t R B) as [C RC]. cbn [st_italic st_underline] in C, RC.
    rewrite C, mapM_app. set (c := cut l (mkStyle (1, 1, 1) i u) []) in *.
    destruct (mapM _ (map (fun p => (get_int b 13 + j, fst p, snd p)) (fst c))) as [rs|x|ub]; cbn [bind fst snd];
      [|split; [reflexivity|exact RC]..].
    destruct (IH (j + 1) (st_italic (snd c)) (st_underline (snd c)) (Z.max highest (get_int b 13 + j)) (subs ++ rs) _ RC) as [H1 H2].
    split; [|exact H2]. etransitivity; [exact H1|]. replace (get_int b 13 + (j + 1)) with (get_int b 13 + j + 1) by lia.
    clear H1 IH C. match goal with |- context [mapM ?f (rows_cut ?a ?x ?y ls)] => destruct (mapM f (rows_cut a x y ls)) as [rs'|e|ub] end;
      cbn [bind]; [|reflexivity..]. rewrite <- app_assoc. f_equal. f_equal.
    cbn [length]. destruct ls; [cbn [length]; lia|cbn [length]; lia].
Qed.

Definition block_res (g : gsi) (b : str) : res (list raw * option Z) :=
  let* c := comment_file_to_enum (get_int b 15) in
  match c with
  | COMMENT_YES => Ok ([], None)
  | COMMENT_NO =>
      let rows := split (is_any_of [chr 138]) (get_string b 16 112) in
      let* rs := mapM (decode_piece g (tc b 5 (frame_rate g)) (tc b 9 (frame_rate g)) (get_int b 14)) (rows_cut (get_int b 13) false false rows) in
      Ok (rs, Some (get_int b 13 + Z.of_nat (length rows) - 1))
  end.

Fixpoint blocks_res (n : nat) (g : gsi) (input : str) : res (list (list raw * option Z)) :=
  match n with
  | O => Ok []
  | S k =>
      let* x := read_block 128 "TTI" input in
      let* y := block_res g (fst x) in
      let* rest := blocks_res k g (snd x) in
      Ok (y :: rest)
  end.

Definition top_row (h : Z) (l : list (option Z)) : Z :=
  fold_left (fun h o => match o with Some r => Z.max h r | None => h end) l h.

Lemma blocks_ok g n : forall input highest subs t, reached t ->
  snd (stl_blocks n g input highest subs t) =
    (let* l := blocks_res n g input in Ok (top_row highest (map snd l), subs ++ List.concat (map fst l))) /\
  reached (fst (stl_blocks n g input highest subs t)).
Proof.
  induction n as [|n IH]; intros input highest subs t R; cbn [stl_blocks blocks_res].
  - cbn. rewrite app_nil_r. now split.
  - rewrite st_bind_snd. unfold st_ret. cbn [fst snd].
    destruct (read_block 128 "TTI" input) as [[b rest]|x|u]; cbn [bind fst snd]; [|now split..].
    rewrite st_bind_snd. cbn [fst snd]. unfold block_res.
    destruct (comment_file_to_enum (get_int b 15)) as [c|x|u]; cbn [bind fst snd]; [|now split..].
    destruct c.
    + rewrite st_bind_snd. set (rows := split _ _).
      destruct (lines_ok b g rows 0 false false highest subs t R) as [L RL]. rewrite L, Z.add_0_r. cbn [bind].
      destruct (mapM _ (rows_cut (get_int b 13) false false rows)) as [rs|x|u]; cbn [bind fst snd]; [|split; [reflexivity|exact RL]..].
      destruct (IH rest (match rows with [] => highest | _ => Z.max highest (get_int b 13 + Z.of_nat (length rows) - 1) end) (subs ++ rs) _ RL)
        as [H1 H2].
      split; [|exact H2]. etransitivity; [exact H1|]. destruct (blocks_res n g rest) as [l|x|u]; cbn [bind map fst snd List.concat]; [|reflexivity..].
      rewrite <- app_assoc. f_equal. f_equal. unfold top_row. cbn [fold_left].
      destruct rows eqn:E; [|reflexivity]. exfalso. now apply (split_not_nil (is_any_of [chr 138]) (get_string b 16 112)).
    + cbn [bind]. destruct (IH rest highest subs t R) as [H1 H2]. split; [|exact H2]. etransitivity; [exact H1|].
      destruct (blocks_res n g rest) as [l|x|u]; cbn [bind map fst snd List.concat]; reflexivity.
Qed.

Definition file_res (input : str) : res (gsi * list raw) :=
  let* x := read_block 1024 "GSI" input in
  let* g := read_gsi (fst x) in
  let* l := blocks_res (Z.to_nat (tti_blocks g)) g (snd x) in
  Ok (g, fix_lines (top_row 0 (map snd l)) (maximum_rows g) (List.concat (map fst l))).

Lemma read_ok input t : reached t ->
  snd (stl_binary_read input t) = file_res input /\ reached (fst (stl_binary_read input t)).
Proof.
  intros R. unfold stl_binary_read, file_res. rewrite st_bind_snd. unfold st_ret. cbn [fst snd].
  destruct (read_block 1024 "GSI" input) as [[b rest]|x|u]; cbn [bind fst snd]; [|now split..].
  rewrite st_bind_snd. cbn [fst snd]. destruct (read_gsi b) as [g|x|u]; cbn [bind fst snd]; [|now split..].
  rewrite st_bind_snd. destruct (blocks_ok g (Z.to_nat (tti_blocks g)) rest 0 [] t R) as [H1 H2]. rewrite H1.
  destruct (blocks_res _ g rest) as [l|x|u]; cbn [bind fst snd]; now split.
Qed.

(** * Reading is what the specification says *)

Lemma mapM_iff {A B : Type} (f : A -> res B) l rs : mapM f l = Ok rs <-> Forall2 (fun a b => f a = Ok b) l rs.
Proof.
  revert rs. induction l as [|a l IH]; intros rs; cbn [mapM].
  - split; [intros H; apply Ok_inj in H; subst; constructor|intros H; inversion H; reflexivity].
  - rewrite bind_ok. split.
    + intros (b & E & H). apply bind_ok in H. destruct H as (bs & E' & H). apply Ok_inj in H. subst rs.
      constructor; [exact E|now apply IH].
    + intros H. inversion H as [|? b ? bs E F]; subst. exists b. split; [exact E|]. apply IH in F. rewrite F. reflexivity.
Qed.

Lemma pure_decode_c_string s : forall d, pure_decode (c_string s) d = pure_decode s d.
Proof.
  induction s as [|c s IH]; intros d; [reflexivity|]. rewrite c_string_cons. cbn [pure_decode]. destruct (code c =? 0) eqn:E; [reflexivity|].
  cbn [pure_decode]. rewrite E. now rewrite !IH.
Qed.

Lemma glyph_scalar_checked : forallb (fun e => valid_codepoint (snd e)) glyph_list = true.
Proof. vm_compute. reflexivity. Qed.
Lemma glyph_scalar bs c : glyph bs c -> scalar c.
Proof.
  intros G. apply glyph_in in G. apply valid_codepoint_scalar.
  exact (proj1 (forallb_forall _ _) glyph_scalar_checked _ G).
Qed.
Lemma decodes_scalars d bs w : decodes d bs w -> Forall scalar w.
Proof.
  assert (Z0 : scalar 0) by (unfold scalar; lia).
  induction 1; try (constructor; fail); try (constructor; [|assumption]); eauto using glyph_scalar.
Qed.

Lemma decode_piece_iff g from to just p r :
  decode_piece g from to just p = Ok r <-> piece_raw g from to just (piece_bytes p) r.
Proof.
  destruct p as [[row s] x]. unfold decode_piece, piece_raw, piece_bytes. cbn [fst snd]. rewrite pure_decode_c_string, bind_ok. split.
  - intros (w & D & E). apply pure_decode_sound in D; [|exact I]. apply Ok_inj in E. exists w, (wide_to_utf8 w).
    split; [exact D|]. split; [|now rewrite <- E]. apply wide_to_utf8_ok. eapply decodes_scalars; exact D.
  - intros (w & text & D & U & E). exists w. pose proof (decodes_scalars _ _ _ D) as SC. apply pure_decode_complete in D; [|exact I].
    split; [exact D|]. rewrite (utf8_unique _ _ _ (wide_to_utf8_ok w SC) U). now rewrite E.
Qed.

Lemma tc_iff b at_ rate t : (at_ + 3 < length b)%nat -> (timecode_at b at_ rate t <-> t = tc b at_ rate).
Proof.
  intros L. unfold timecode_at, tc. split.
  - intros (h & m & s & f & H & M & S & F & ->). apply byte_at_iff in H, M, S, F; try lia. now subst.
  - intros ->. exists (get_int b at_), (get_int b (at_ + 1)), (get_int b (at_ + 2)), (get_int b (at_ + 3)).
    split; [apply byte_at_iff; [lia|reflexivity]|]. split; [apply byte_at_iff; [lia|reflexivity]|].
    split; [apply byte_at_iff; [lia|reflexivity]|]. split; [apply byte_at_iff; [lia|reflexivity]|]. reflexivity.
Qed.

Lemma Forall2_map_l {A B C : Type} (f : A -> B) (P : B -> C -> Prop) l r :
  Forall2 P (map f l) r <-> Forall2 (fun a => P (f a)) l r.
Proof.
  split.
  - revert r. induction l as [|a l IH]; intros r H; inversion H; subst; constructor; auto.
  - induction 1; cbn; constructor; auto.
Qed.
Lemma Forall2_iff {A B : Type} (P Q : A -> B -> Prop) l r : (forall a b, P a b <-> Q a b) -> Forall2 P l r <-> Forall2 Q l r.
Proof. intros H. split; intros F; induction F; constructor; firstorder. Qed.

Lemma newline_chr : ascii_of_nat 138 = chr 138.
Proof. reflexivity. Qed.

Lemma free_not_in x s : free (is_any_of [x]) s <-> ~ In x s.
Proof.
  unfold free. rewrite Forall_forall. split.
  - intros H I. specialize (H x I). rewrite (proj2 (is_any_one x x)) in H; [discriminate|reflexivity].
  - intros N y I. destruct (is_any_of [x] y) eqn:E; [|reflexivity]. apply is_any_one in E. subst. contradiction.
Qed.

Lemma block_iff g b rs o : length b = 128%nat -> (block_res g b = Ok (rs, o) <-> block_read g b rs o).
Proof.
  intros L. unfold block_res. pose proof (proj1 (proj2 comment_table)) as (RT & _).
  rewrite bind_ok. split.
  - intros (c & C & H). apply RT in C. destruct C as [d C]. destruct c.
    + assert (Z0 : get_int b 15 = 0) by (destruct C as [C|[C|[]]]; congruence).
      apply bind_ok in H. destruct H as (rs' & M & H). apply Ok_inj in H. injection H as <- <-.
      apply mapM_iff in M. pose proof (rows_cut_pieces (split (is_any_of [chr 138]) (get_string b 16 112)) (get_int b 13) false false) as P.
      destruct (split_inv (chr 138) (get_string b 16 112)) as [J F].
      eapply block_text with (top := get_int b 13) (just := get_int b 14);
        [exact L|now apply byte_at_iff; [lia|]|apply tc_iff; [lia|reflexivity]|apply tc_iff; [lia|reflexivity]
        |now apply byte_at_iff; [lia|]|now apply byte_at_iff; [lia|]|apply bytes_at_iff; [lia|reflexivity]|apply split_not_nil
        |symmetry; exact J| |exact P|].
      * eapply Forall_impl; [|exact F]. intros a. apply free_not_in.
      * apply Forall2_map_l. eapply Forall2_iff; [|exact M]. intros. symmetry. apply decode_piece_iff.
    + assert (Z1 : get_int b 15 = 1) by (destruct C as [C|[C|[]]]; congruence).
      apply Ok_inj in H. injection H as <- <-. constructor; [exact L|]. now apply byte_at_iff; [lia|].
  - intros H. destruct H as [_ C|from to top just text rows pieces raws _ C FR TO TP JU TX NE J F P M].
    + apply byte_at_iff in C; [|lia]. exists COMMENT_YES. split; [|reflexivity]. apply RT. rewrite C. eexists. right. left. reflexivity.
    + apply byte_at_iff in C, TP, JU; [|lia..]. apply tc_iff in FR, TO; [|lia..]. apply bytes_at_iff in TX; [|lia].
      exists COMMENT_NO. split; [apply RT; rewrite C; eexists; left; reflexivity|].
      assert (S : split (is_any_of [chr 138]) (get_string b 16 112) = rows).
      { rewrite TX, J, newline_chr. apply split_join; [now apply is_any_one|exact NE|]. eapply Forall_impl; [|exact F].
        intros a. rewrite newline_chr. apply free_not_in. }
      rewrite S, TP, JU, <- FR, <- TO. pose proof (rows_cut_pieces rows top false false) as P'.
      rewrite (rows_pieces_unique _ _ _ _ _ P _ P') in M. apply (proj1 (Forall2_map_l piece_bytes _ _ _)) in M.
      rewrite (proj2 (mapM_iff (decode_piece g from to just) (rows_cut top false false rows) raws)); [reflexivity|].
      eapply Forall2_iff; [|exact M]. intros. apply decode_piece_iff.
Qed.

Lemma block_read_length g b rs o : block_read g b rs o -> length b = 128%nat.
Proof. intros H. now destruct H. Qed.

Lemma firstn_app_exact {A : Type} (a b : list A) n : length a = n -> firstn n (a ++ b) = a.
Proof. intros <-. now rewrite firstn_app, firstn_all, Nat.sub_diag, firstn_O, app_nil_r. Qed.
Lemma skipn_app_exact {A : Type} (a b : list A) n : length a = n -> skipn n (a ++ b) = b.
Proof. intros <-. now rewrite skipn_app, skipn_all, Nat.sub_diag. Qed.

Lemma read_block_iff n what input b rest : read_block n what input = Ok (b, rest) <-> input = b ++ rest /\ length b = n.
Proof.
  unfold read_block. destruct (Nat.ltb_spec (length input) n) as [L|L]; split.
  - discriminate.
  - intros [-> E]. rewrite app_length in L. lia.
  - intros H. apply Ok_inj in H. pose proof (f_equal fst H) as H1. pose proof (f_equal snd H) as H2. cbn [fst snd] in H1, H2.
    rewrite <- H1, <- H2, firstn_skipn, firstn_length. split; [reflexivity|lia].
  - intros [-> E]. now rewrite firstn_app_exact, skipn_app_exact.
Qed.

Lemma blocks_iff g n : forall input l, blocks_res n g input = Ok l <->
  exists blocks rest, input = List.concat blocks ++ rest /\ length blocks = n /\
    Forall2 (fun b x => block_read g b (fst x) (snd x)) blocks l.
Proof.
  induction n as [|n IH]; intros input l; cbn [blocks_res].
  - split.
    + intros H. apply Ok_inj in H. subst l. exists [], input. split; [reflexivity|]. split; [reflexivity|constructor].
    + intros (blocks & rest & E & L & F). destruct blocks; [|discriminate]. inversion F. reflexivity.
  - rewrite bind_ok. split.
    + intros ((b & rest) & RB & H). apply read_block_iff in RB. destruct RB as [-> L]. cbn [fst snd] in H.
      apply bind_ok in H. destruct H as ((rs & o) & B & H). apply block_iff in B; [|exact L].
      apply bind_ok in H. destruct H as (l' & R & H). apply Ok_inj in H. subst l. apply IH in R.
      destruct R as (blocks & rest' & -> & N & F). exists (b :: blocks), rest'. cbn [List.concat length]. rewrite <- app_assoc.
      split; [reflexivity|]. split; [now rewrite N|]. constructor; [exact B|exact F].
    + intros (blocks & rest & E & N & F). destruct F as [|b x blocks l B F]; [discriminate|]. cbn [List.concat] in E.
      rewrite <- app_assoc in E. pose proof (block_read_length _ _ _ _ B) as L. exists (b, List.concat blocks ++ rest).
      split; [now apply read_block_iff|]. cbn [fst snd]. rewrite (proj2 (block_iff g b (fst x) (snd x) L) B). cbn [bind].
      rewrite (proj2 (IH (List.concat blocks ++ rest) l)); [cbn [bind]; now destruct x|]. exists blocks, rest.
      split; [reflexivity|]. split; [cbn in N; congruence|exact F].
Qed.

Lemma top_row_spec l : forall h, (top_row h l = h \/ In (Some (top_row h l)) l) /\ h <= top_row h l /\
  forall r, In (Some r) l -> r <= top_row h l.
Proof.
  unfold top_row. induction l as [|o l IH]; intros h; cbn [fold_left].
  - split; [now left|]. split; [lia|]. intros r [].
  - destruct o as [r|].
    + destruct (IH (Z.max h r)) as (A & B & C). split; [|split; [lia|]].
      * destruct A as [A|A]; [|right; now right]. destruct (Z.max_spec h r) as [[X Y]|[X Y]].
        -- right. left. rewrite A. now f_equal.
        -- left. rewrite A. lia.
      * intros r' [E|I]; [injection E as ->; lia|now apply C].
    + destruct (IH h) as (A & B & C). split; [|split; [exact B|]].
      * destruct A as [A|A]; [now left|right; now right].
      * intros r' [E|I]; [discriminate|now apply C].
Qed.
Lemma highest_row_iff l n : highest_row l n <-> n = top_row 0 l.
Proof.
  destruct (top_row_spec l 0) as (A & B & C). unfold highest_row. split.
  - intros ([->|I] & P & M).
    + destruct A as [A|A]; [now rewrite A|]. specialize (M _ A). lia.
    + specialize (C _ I). destruct A as [A|A]; [lia|]. specialize (M _ A). lia.
  - intros ->. split; [exact A|]. split; [exact B|exact C].
Qed.

Lemma block_read_rows g b rs o : block_read g b rs o -> Forall (fun r => exists row,
  r_vpos r = mkV None (Some row) (Some (maximum_rows g)) (Some TOP_OF_SCREEN)) rs.
Proof.
  intros H. destruct H as [|from to top just text rows pieces raws _ _ _ _ _ _ _ _ _ _ _ M]; [constructor|].
  induction M as [|[[row s] bs] r ps rs P M IH]; constructor; [|exact IH]. destruct P as (w & t & _ & _ & ->). eexists. reflexivity.
Qed.

Lemma fix_lines_iff highest rows rs subs : Forall (fun r => exists row m, r_vpos r = mkV None (Some row) (Some m) (Some TOP_OF_SCREEN)) rs ->
  fix_lines highest rows rs = subs <-> Forall2 (moved_up (Z.max 0 (highest - rows))) rs subs.
Proof.
  intros F.
  assert (M : forall d r r', (exists row m, r_vpos r = mkV None (Some row) (Some m) (Some TOP_OF_SCREEN)) ->
             (moved_up d r r' <-> r' = fix_line d r)).
  { intros d r r' (row & m & V). unfold moved_up, fix_line. rewrite V. cbn [v_line]. unfold set_line. split.
    - intros (row' & m' & E & ->). injection E as <- <-. rewrite V. reflexivity.
    - intros ->. exists row, m. split; [reflexivity|]. rewrite V. reflexivity. }
  assert (Z0 : forall r, (exists row m, r_vpos r = mkV None (Some row) (Some m) (Some TOP_OF_SCREEN)) -> fix_line 0 r = r).
  { intros r (row & m & V). unfold fix_line. rewrite V. cbn [v_line]. rewrite Z.sub_0_r. destruct r. cbn in *. subst. reflexivity. }
  unfold fix_lines. destruct (rows <? highest) eqn:E.
  - replace (Z.max 0 (highest - rows)) with (highest - rows) by lia. split.
    + intros <-. induction F as [|r rs H F IH]; cbn [map]; constructor; [now apply M|exact IH].
    + intros H. revert F. induction H as [|r s rs ss H HH IH]; intros F; [reflexivity|]. inversion F; subst. cbn [map].
      apply M in H; [|assumption]. rewrite <- H, IH by assumption. reflexivity.
  - replace (Z.max 0 (highest - rows)) with 0 by lia. split.
    + intros <-. induction F as [|r rs H F IH]; constructor; [|exact IH]. apply M; [exact H|]. now rewrite Z0.
    + intros H. revert F. induction H as [|r s rs ss H HH IH]; intros F; [reflexivity|]. inversion F; subst.
      apply M in H; [|assumption]. rewrite Z0 in H by assumption. rewrite H, IH by assumption. reflexivity.
Qed.

Lemma raws_rows g blocks l : Forall2 (fun b x => block_read g b (fst x) (snd x)) blocks l ->
  Forall (fun r => exists row m, r_vpos r = mkV None (Some row) (Some m) (Some TOP_OF_SCREEN)) (List.concat (map fst l)).
Proof.
  induction 1 as [|b x blocks l B F IH]; cbn; [constructor|]. apply Forall_app. split; [|exact IH].
  eapply Forall_impl; [|exact (block_read_rows _ _ _ _ B)]. intros r [row V]. eauto.
Qed.

Lemma file_res_iff input g subs : file_res input = Ok (g, subs) <-> stl_file input g subs.
Proof.
  unfold file_res. rewrite bind_ok. split.
  - intros ((b & rest) & RB & H). apply read_block_iff in RB. destruct RB as [-> L]. cbn [fst snd] in H.
    apply bind_ok in H. destruct H as (g' & G & H). apply header_iff in G; [|exact L].
    apply bind_ok in H. destruct H as (l & B & H). apply Ok_inj in H.
    pose proof (f_equal fst H) as H1. pose proof (f_equal snd H) as H2. cbn [fst snd] in H1, H2. subst g'.
    apply blocks_iff in B. destruct B as (blocks & rest' & -> & N & F).
    exists (List.concat (map fst l)), (top_row 0 (map snd l)). split; [exists b, blocks, rest', (map fst l), (map snd l)|].
    2: { apply fix_lines_iff; [|exact H2]. eapply raws_rows; exact F. }
    split; [reflexivity|]. split; [exact G|]. split; [lia|].
    assert (C : combine (map fst l) (map snd l) = l) by (clear; induction l as [|[x y] l IH]; cbn; congruence).
    rewrite C. split; [exact F|]. split; [now rewrite !map_length|]. split; [reflexivity|now apply highest_row_iff].
  - intros (raws & top & (head & blocks & rest & rawss & lasts & -> & G & N & F & LL & -> & HR) & M).
    assert (L : length head = 1024%nat) by apply G. exists (head, List.concat blocks ++ rest).
    split; [now apply read_block_iff|]. cbn [fst snd]. rewrite (proj2 (header_iff head g L) G). cbn [bind].
    rewrite (proj2 (blocks_iff g (Z.to_nat (tti_blocks g)) (List.concat blocks ++ rest) (combine rawss lasts))).
    + cbn [bind]. assert (C1 : map fst (combine rawss lasts) = rawss).
      { clear -LL. revert lasts LL. induction rawss as [|x r IH]; intros [|y s] E; try discriminate; cbn; [reflexivity|].
        rewrite IH; [reflexivity|]. cbn in E. congruence. }
      assert (C2 : map snd (combine rawss lasts) = lasts).
      { clear -LL. revert lasts LL. induction rawss as [|x r IH]; intros [|y s] E; try discriminate; cbn; [reflexivity|].
        rewrite IH; [reflexivity|]. cbn in E. congruence. }
      apply highest_row_iff in HR. apply fix_lines_iff in M; [now rewrite C1, C2, <- HR, M|].
      rewrite <- C1. eapply raws_rows. exact F.
    + exists blocks, rest. split; [reflexivity|]. split; [lia|exact F].
Qed.

Lemma read_iff h input g subs : snd (stl_binary_read input (after h)) = Ok (g, subs) <-> stl_file input g subs.
Proof. rewrite (proj1 (read_ok input (after h) (after_reached h))). apply file_res_iff. Qed.

(** * Outcomes *)

Definition within (x y : list Z) : Prop := exists p q, y = p ++ x ++ q.
Lemma within_refl x : within x x.
Proof. exists [], []. now rewrite app_nil_r. Qed.
Lemma within_trans x y z : within x y -> within y z -> within x z.
Proof. intros (p & q & ->) (p' & q' & ->). exists (p' ++ p), (q ++ q'). now rewrite !app_assoc. Qed.

Lemma cut_within line : forall s text p, In p (fst (cut line s text)) -> within (bytes (snd p)) (bytes (text ++ line)).
Proof.
  induction line as [|ch t IH]; intros s text p; cbn [cut].
  - cbn [fst]. destruct text as [|c text]; [intros []|]. intros [<-|[]]. cbn [snd]. rewrite app_nil_r. apply within_refl.
  - destruct (code ch =? 143).
    { cbn [fst]. destruct text as [|c text]; [intros []|]. intros [<-|[]]. cbn [snd]. exists [], (bytes (ch :: t)). now rewrite bytes_app. }
    destruct (ctl (code ch)).
    { cbn [fst]. intros [<-|I].
      - exists [], (bytes (ch :: t)). cbn [snd]. now rewrite bytes_app.
      - apply IH in I. cbn [app] in I. eapply within_trans; [exact I|]. exists (bytes (text ++ [ch])), [].
        rewrite app_nil_r, <- bytes_app, <- app_assoc. reflexivity. }
    intros I. apply IH in I. now rewrite <- app_assoc in I.
Qed.
Lemma rows_cut_within rows : forall row i u p, In p (rows_cut row i u rows) -> exists r, In r rows /\ within (bytes (snd p)) (bytes r).
Proof.
  induction rows as [|r rows IH]; intros row i u p; cbn [rows_cut]; [intros []|]. rewrite in_app_iff. intros [I|I].
  - apply in_map_iff in I. destruct I as (x & <- & I). exists r. split; [now left|]. cbn [snd]. now apply cut_within in I.
  - apply IH in I. destruct I as (r' & I & W). exists r'. split; [now right|exact W].
Qed.
Lemma join_within x rows r : In r rows -> within (bytes r) (bytes (join [x] rows)).
Proof.
  induction rows as [|r0 rows IH]; intros I; [destruct I|]. destruct rows as [|r1 rows].
  - destruct I as [<-|[]]. apply within_refl.
  - change (join [x] (r0 :: r1 :: rows)) with (r0 ++ x :: join [x] (r1 :: rows)). rewrite bytes_app. destruct I as [<-|I].
    + now exists [], (bytes (x :: join [x] (r1 :: rows))).
    + eapply within_trans; [exact (IH I)|]. exists (bytes (r0 ++ [x])), []. rewrite app_nil_r, bytes_app, <- app_assoc. reflexivity.
Qed.

(** Either a value, or STLError, or undefined behaviour for a reason found in the bytes. *)
Definition fine {A : Type} (bs : list Z) (r : res A) : Prop :=
  match r with
  | Ok _ => True
  | Throw e => exists m, e = EStl m
  | Undef _ => exists x, within x bs /\ unassigned_accent_used x
  end.
Lemma fine_bind {A B : Type} bs (e : res A) (k : A -> res B) : fine bs e -> (forall a, e = Ok a -> fine bs (k a)) -> fine bs (bind e k).
Proof. destruct e; cbn; auto. Qed.
Lemma fine_within {A : Type} x y (r : res A) : within x y -> fine x r -> fine y r.
Proof. intros W. destruct r; cbn; auto. intros (z & Z & U). exists z. split; [|exact U]. eapply within_trans; eassumption. Qed.

Lemma fine_table {F E : Type} (read : F -> res E) show name t c bs : reads_table read show name t -> fine bs (read c).
Proof. intros (_ & _ & T). destruct (T c) as [[e ->]|[m ->]]; cbn; eauto. Qed.

Lemma fine_language_group c bs : fine bs (language_group_file_to_enum c).
Proof.
  unfold language_group_file_to_enum, file_to_enum_or_throw. destruct (file_to_enum c language_group_map); cbn; [exact I|eauto].
Qed.

Lemma fine_rate s bs : fine bs (stl_dfc_to_frame_rate s).
Proof.
  unfold stl_dfc_to_frame_rate. destruct (str_eqb s (lit "STL23.01")); [exact I|]. destruct (str_eqb s (lit "STL24.01")); [exact I|].
  destruct (str_eqb s (lit "STL25.01")); [exact I|]. destruct (str_eqb s (lit "STL30.01")); [exact I|]. cbn. eauto.
Qed.

Lemma fine_header b bs : length b = 1024%nat -> fine bs (read_gsi b).
Proof.
  intros L. unfold read_gsi. rewrite !get_atoi_ok by lia. cbn [bind]. apply fine_bind; [apply fine_rate|]. intros fr E.
  apply fine_bind.
  - revert E. unfold stl_dfc_to_frame_rate. destruct (str_eqb _ _); [intros H; apply Ok_inj in H; subst fr; vm_compute; exact I|].
    destruct (str_eqb _ _); [intros H; apply Ok_inj in H; subst fr; vm_compute; exact I|].
    destruct (str_eqb _ _); [intros H; apply Ok_inj in H; subst fr; vm_compute; exact I|].
    destruct (str_eqb _ _); [intros H; apply Ok_inj in H; subst fr; vm_compute; exact I|]. discriminate.
  - intros n _. apply fine_bind; [exact (fine_table _ _ _ _ _ _ (proj1 (proj2 display_table)))|intros].
    apply fine_bind; [apply fine_language_group|intros].
    apply fine_bind; [exact (fine_table _ _ _ _ _ _ (proj1 (proj2 languages_table)))|intros].
    apply fine_bind; [exact (fine_table _ _ _ _ _ _ (proj1 (proj2 timecode_table)))|intros]. exact I.
Qed.

Lemma fine_piece g from to just p : fine (bytes (snd p)) (decode_piece g from to just p).
Proof.
  unfold decode_piece. apply fine_bind; [|intros; exact I]. rewrite pure_decode_c_string.
  destruct (pure_decode_cases (snd p) None I) as [[E U]|[[w E] _]]; rewrite E; cbn; [|exact I].
  exists (bytes (snd p)). split; [apply within_refl|]. destruct U as [(a & b & q & H & _)|U]; [discriminate|exact U].
Qed.
Lemma fine_mapM {A B : Type} (f : A -> res B) l bs : (forall a, In a l -> fine bs (f a)) -> fine bs (mapM f l).
Proof.
  induction l as [|a l IH]; intros H; cbn [mapM]; [exact I|]. apply fine_bind; [apply H; now left|intros].
  apply fine_bind; [apply IH; intros; apply H; now right|intros; exact I].
Qed.

Lemma fine_block g b : length b = 128%nat -> fine (bytes b) (block_res g b).
Proof.
  intros L. unfold block_res. apply fine_bind; [exact (fine_table _ _ _ _ _ _ (proj1 (proj2 comment_table)))|]. intros [|] _; [|exact I].
  apply fine_bind; [|intros; exact I]. apply fine_mapM. intros p P. apply rows_cut_within in P. destruct P as (r & R & W).
  eapply fine_within; [|apply fine_piece]. eapply within_trans; [exact W|]. destruct (split_inv (chr 138) (get_string b 16 112)) as [J _].
  eapply within_trans; [exact (join_within (chr 138) _ _ R)|]. rewrite J.
  destruct (proj2 (bytes_at_iff b 16 112 (get_string b 16 112) ltac:(lia)) eq_refl) as (x & y & E & _).
  exists (bytes x), (bytes y). rewrite <- !bytes_app. now rewrite <- E.
Qed.

Lemma fine_read_block n what input bs : fine bs (read_block n what input).
Proof. unfold read_block. destruct (Nat.ltb _ _); cbn; eauto. Qed.

Lemma fine_blocks g n : forall input, fine (bytes input) (blocks_res n g input).
Proof.
  induction n as [|n IH]; intros input; cbn [blocks_res]; [exact I|]. apply fine_bind; [apply fine_read_block|].
  intros [b rest] E. apply read_block_iff in E. destruct E as [-> L]. cbn [fst snd]. rewrite bytes_app. apply fine_bind.
  - eapply fine_within; [|now apply fine_block]. now exists [], (bytes rest).
  - intros y _. apply fine_bind; [|intros; exact I]. eapply fine_within; [|apply IH]. exists (bytes b), []. now rewrite app_nil_r.
Qed.

Lemma fine_file input : fine (bytes input) (file_res input).
Proof.
  unfold file_res. apply fine_bind; [apply fine_read_block|]. intros [b rest] E. apply read_block_iff in E. destruct E as [-> L].
  cbn [fst snd]. rewrite bytes_app. apply fine_bind; [now apply fine_header|]. intros g _. apply fine_bind; [|intros; exact I].
  eapply fine_within; [|apply fine_blocks]. exists (bytes b), []. now rewrite app_nil_r.
Qed.

Lemma read_outcome h input : (exists g subs, snd (stl_binary_read input (after h)) = Ok (g, subs)) \/
  (exists m, snd (stl_binary_read input (after h)) = Throw (EStl m)) \/
  ~ defined (snd (stl_binary_read input (after h))) /\
    exists p a b q, bytes input = p ++ a :: b :: q /\ (a = 0xC9 \/ a = 0xCC) /\ ~ is_accent_byte b.
Proof.
  rewrite (proj1 (read_ok input (after h) (after_reached h))). pose proof (fine_file input) as F.
  destruct (file_res input) as [[g subs]|e|u]; cbn in F.
  - left. eauto.
  - right. left. destruct F as [m ->]. eauto.
  - right. right. split; [intros D; now apply (D u)|]. destruct F as (x & (p & q & ->) & (p' & a & b & q' & -> & _ & A & _ & N)).
    exists (p ++ p'), a, b, (q' ++ q). split; [|now split]. rewrite <- !app_assoc. reflexivity.
Qed.

Lemma read_short h input : (length input < 1024)%nat ->
  snd (stl_binary_read input (after h)) = Throw (EStl (lit "Could not read GSI block from binary STL file")).
Proof.
  intros L. rewrite (proj1 (read_ok input (after h) (after_reached h))). unfold file_res, read_block.
  destruct (Nat.ltb_spec (length input) 1024); [|lia]. cbn [bind]. vm_compute. reflexivity.
Qed.

Lemma header_unique head g g' : header_read head g -> header_read head g' -> g = g'.
Proof.
  intros H H'. assert (L : length head = 1024%nat) by apply H. apply header_iff in H, H'; [|exact L..]. rewrite H in H'. now apply Ok_inj in H'.
Qed.

Lemma concat_length {A : Type} n (l : list (list A)) : Forall (fun b => length b = n) l -> length (List.concat l) = (n * length l)%nat.
Proof. induction 1 as [|b l H F IH]; cbn; [lia|]. rewrite app_length, H, IH. lia. Qed.

Lemma blocks_lengths g blocks l : Forall2 (fun b x => block_read g b (fst x) (snd x)) blocks l -> Forall (fun b => length b = 128%nat) blocks.
Proof. induction 1; constructor; [eapply block_read_length; eassumption|assumption]. Qed.

Lemma read_truncated h head rest g : header_read head g -> Z.of_nat (length rest) < 128 * tti_blocks g ->
  ~ returns (snd (stl_binary_read (head ++ rest) (after h))).
Proof.
  intros G S [[g' subs] R]. apply read_iff in R. destruct R as (raws & top & (head' & blocks & rest' & rawss & lasts & E & G' & N & F & _) & _).
  assert (L : length head = 1024%nat) by apply G. assert (L' : length head' = 1024%nat) by apply G'.
  assert (head = head') by (rewrite <- (firstn_app_exact head rest 1024 L), E, firstn_app_exact by exact L'; reflexivity). subst head'.
  pose proof (header_unique _ _ _ G G') as <-. apply app_inv_head in E. subst rest.
  pose proof (blocks_lengths _ _ _ F) as BL. rewrite app_length, (concat_length 128) in S by exact BL. lia.
Qed.

(** * Rows *)

Lemma rows_cut_rows rows : forall row i u p, In p (rows_cut row i u rows) -> row <= fst (fst p) < row + Z.of_nat (length rows).
Proof.
  induction rows as [|r rows IH]; intros row i u p; cbn [rows_cut length]; [intros []|]. rewrite in_app_iff. intros [I|I].
  - apply in_map_iff in I. destruct I as (x & <- & _). cbn. lia.
  - apply IH in I. lia.
Qed.

Lemma mapM_in {A B : Type} (f : A -> res B) l rs r : mapM f l = Ok rs -> In r rs -> exists a, In a l /\ f a = Ok r.
Proof.
  intros M. apply mapM_iff in M. induction M as [|a b l rs E M IH]; intros I; [destruct I|]. destruct I as [<-|I].
  - exists a. split; [now left|exact E].
  - destruct (IH I) as (x & X & Y). exists x. split; [now right|exact Y].
Qed.

Lemma block_rows g b rs o r : block_read g b rs o -> In r rs -> exists row last, on_row r row /\ 0 <= row /\ o = Some last /\ row <= last.
Proof.
  intros H. pose proof (block_read_length _ _ _ _ H) as L. apply block_iff in H; [|exact L]. revert H.
  unfold block_res. intros H. apply bind_ok in H. destruct H as (c & _ & H). destruct c.
  - apply bind_ok in H. destruct H as (rs' & M & H). apply Ok_inj in H. injection H as <- <-. intros I.
    destruct (mapM_in _ _ _ _ M I) as (p & P & E). apply rows_cut_rows in P. unfold decode_piece in E. apply bind_ok in E.
    destruct E as (w & _ & E). apply Ok_inj in E. subst r. exists (fst (fst p)). eexists. split; [reflexivity|].
    pose proof (get_int_range b 13). split; [lia|]. split; [reflexivity|]. lia.
  - apply Ok_inj in H. injection H as <- <-. intros [].
Qed.

Lemma contents_rows input g raws top r : stl_contents input g raws top -> In r raws -> exists row, on_row r row /\ 0 <= row <= top.
Proof.
  intros (head & blocks & rest & rawss & lasts & _ & _ & _ & F & LL & -> & (_ & _ & HR)) I. apply in_concat in I. destruct I as (rs & I & R).
  assert (X : exists b o, block_read g b rs o /\ In o lasts).
  { clear HR R. remember (combine rawss lasts) as l eqn:E. revert rawss lasts E LL I.
    induction F as [|b x blocks l B F IH]; intros [|rs0 rawss] [|o lasts] E LL I; cbn in E, LL; try discriminate; try now destruct I.
    injection E as -> E. destruct I as [<-|I].
    - exists b, o. split; [exact B|now left].
    - destruct (IH rawss lasts E ltac:(congruence) I) as (b' & o' & X & Y). exists b', o'. split; [exact X|now right]. }
  destruct X as (b & o & B & O). destruct (block_rows _ _ _ _ _ B R) as (row & last & V & P & -> & LE). exists row. split; [exact V|].
  specialize (HR last O). lia.
Qed.

Lemma read_rows h input g subs : snd (stl_binary_read input (after h)) = Ok (g, subs) ->
  exists raws top d, stl_contents input g raws top /\ 0 <= d /\ (top <= maximum_rows g -> d = 0) /\
    Forall2 (moved_up d) raws subs /\ Forall (fun r => exists row, on_row r row /\ row <= maximum_rows g) subs.
Proof.
  intros R. apply read_iff in R. destruct R as (raws & top & C & M). exists raws, top, (Z.max 0 (top - maximum_rows g)).
  split; [exact C|]. split; [lia|]. split; [lia|]. split; [exact M|].
  assert (RW : forall r, In r raws -> exists row, on_row r row /\ 0 <= row <= top) by (intros; eapply contents_rows; eassumption).
  clear C. induction M as [|r s raws subs H M IH]; constructor.
  - destruct (RW r (or_introl eq_refl)) as (row & V & P). destruct H as (row' & m & E & ->). unfold on_row in *. cbn. rewrite E in V.
    cbn in V. injection V as ->. eexists. split; [reflexivity|]. lia.
  - apply IH. intros; apply RW; now right.
Qed.

(** * Comments *)

Lemma blocks_res_app g bs : Forall (fun b => length b = 128%nat) bs -> forall n rest,
  blocks_res (length bs + n) g (List.concat bs ++ rest) =
  (let* l := mapM (block_res g) bs in let* l' := blocks_res n g rest in Ok (l ++ l')).
Proof.
  induction 1 as [|b bs L F IH]; intros n rest; cbn [length Nat.add List.concat app mapM bind].
  - destruct (blocks_res n g rest); reflexivity.
  - cbn [blocks_res]. rewrite <- app_assoc. rewrite (proj2 (read_block_iff 128 "TTI" _ b (List.concat bs ++ rest)) (conj eq_refl L)).
    cbn [bind fst snd]. destruct (block_res g b); cbn [bind]; [|reflexivity..]. rewrite IH.
    destruct (mapM (block_res g) bs); cbn [bind]; [|reflexivity..]. destruct (blocks_res n g rest); reflexivity.
Qed.

Lemma block_res_same g g' b : frame_rate g = frame_rate g' -> maximum_rows g = maximum_rows g' -> block_res g b = block_res g' b.
Proof.
  intros E F. unfold block_res, decode_piece, piece_of. rewrite E, F. reflexivity.
Qed.
Lemma blocks_res_same g g' n : frame_rate g = frame_rate g' -> maximum_rows g = maximum_rows g' ->
  forall input, blocks_res n g input = blocks_res n g' input.
Proof.
  intros E F. induction n as [|n IH]; intros input; cbn [blocks_res]; [reflexivity|]. destruct (read_block 128 "TTI" input) as [x|e|u]; cbn [bind]; [|reflexivity..].
  rewrite (block_res_same g g' _ E F). destruct (block_res g' (fst x)); cbn [bind]; [|reflexivity..]. now rewrite IH.
Qed.

Definition subtitles_of (r : res (gsi * list raw)) : res (list raw) := let* x := r in Ok (snd x).

Lemma file_res_header head g body : header_read head g ->
  file_res (head ++ body) = (let* l := blocks_res (Z.to_nat (tti_blocks g)) g body in
    Ok (g, fix_lines (top_row 0 (map snd l)) (maximum_rows g) (List.concat (map fst l)))).
Proof.
  intros G. assert (L : length head = 1024%nat) by apply G. unfold file_res.
  rewrite (proj2 (read_block_iff 1024 "GSI" (head ++ body) head body) (conj eq_refl L)). cbn [bind fst snd].
  rewrite (proj2 (header_iff head g L) G). reflexivity.
Qed.

Lemma top_row_skip l l' h : top_row h (l ++ None :: l') = top_row h (l ++ l').
Proof. unfold top_row. now rewrite !fold_left_app. Qed.

Lemma comment_ignored h h' head head' g g' before comment rest :
  header_read head g -> header_read head' g' -> frame_rate g = frame_rate g' -> maximum_rows g = maximum_rows g' ->
  Forall (fun b => length b = 128%nat) before -> length comment = 128%nat -> byte_at comment 15 1 ->
  Z.of_nat (length before) <= tti_blocks g -> tti_blocks g' = tti_blocks g + 1 ->
  subtitles_of (snd (stl_binary_read (head' ++ List.concat before ++ comment ++ rest) (after h'))) =
  subtitles_of (snd (stl_binary_read (head ++ List.concat before ++ rest) (after h))).
Proof.
  intros G G' E F BL CL C N N'. rewrite (proj1 (read_ok _ (after h') (after_reached h'))), (proj1 (read_ok _ (after h) (after_reached h))).
  rewrite (file_res_header _ _ _ G), (file_res_header _ _ _ G'). unfold subtitles_of.
  replace (Z.to_nat (tti_blocks g')) with (length before + S (Z.to_nat (tti_blocks g) - length before))%nat by lia.
  replace (Z.to_nat (tti_blocks g)) with (length before + (Z.to_nat (tti_blocks g) - length before))%nat at 2 by lia.
  rewrite (blocks_res_same g g' _ E F), F. rewrite !blocks_res_app by exact BL. cbn [blocks_res].
  rewrite (proj2 (read_block_iff 128 "TTI" _ comment rest) (conj eq_refl CL)). cbn [bind fst snd].
  rewrite (proj2 (block_iff g' comment [] None CL) (block_comment g' comment CL C)). cbn [bind].
  destruct (mapM (block_res g') before) as [l|x|u]; cbn [bind]; [|reflexivity..].
  destruct (blocks_res _ g' rest) as [l'|x|u]; cbn [bind]; [|reflexivity..]. cbn [snd].
  rewrite !map_app. cbn [map fst snd]. rewrite top_row_skip, !concat_app. reflexivity.
Qed.
