(** Proofs about the binary STL writer: header and text. *)
From Coq Require Import ZArith List Bool Ascii String Lia.
From Verif.Model Require Import Base Strings Float TimeModel Types RawConvert Iso6937Tables Utf Iso6937 StlTables StlUtil
  StlBinReader StlBinWriter.
From Verif.Spec Require Import Outcome TextSpec TimeSpec Utf8Spec Iso6937Spec StlTableSpec StlFileSpec.
From Verif.Proofs Require Import TimeProofs StringProofs ComposeProofs Iso6937Proofs UtfProofs StlTableProofs StlReadProofs.
Import ListNotations.
Local Open Scope Z_scope.
Local Notation length := List.length.

(** * The buffer *)

Lemma overwrite_here r : forall s, (length s <= length r)%nat -> overwrite r 0 s = s ++ skipn (length s) r.
Proof.
  induction r as [|b r IH]; intros [|c s] L; cbn [length] in *; try lia; try reflexivity. cbn [overwrite app skipn length]. f_equal. apply IH. lia.
Qed.
Lemma overwrite_at w : forall r s, s <> [] -> (length s <= length r)%nat -> overwrite (w ++ r) (length w) s = w ++ s ++ skipn (length s) r.
Proof.
  induction w as [|c w IH]; intros r s NE L; cbn [app length].
  - now apply overwrite_here.
  - destruct s as [|x s]; [congruence|]. cbn [overwrite]. f_equal. apply IH; [discriminate|exact L].
Qed.
Lemma put_at w r s at_ : length w = at_ -> (length s <= length r)%nat -> put_string at_ s (w ++ r) = w ++ s ++ skipn (length s) r.
Proof.
  intros <- L. unfold put_string. destruct s as [|c s].
  - cbn [length skipn app]. destruct (w ++ r) eqn:E; [|destruct (length w)]; reflexivity.
  - now apply overwrite_at.
Qed.

(** One field: the first [n] bytes of [s] stay, the rest of it (if any) is left in front of the zeros. *)
Lemma field_step w junk k s at_ n : length w = at_ -> (n <= length s)%nat -> (length s <= length junk + k)%nat ->
  exists junk' k', put_string at_ s (w ++ junk ++ repeat zero k) = (w ++ firstn n s) ++ junk' ++ repeat zero k' /\
    (length junk' <= Nat.max (length s - n) (length junk - n))%nat /\ (n + length junk' + k' = length junk + k)%nat /\
    length (w ++ firstn n s) = (at_ + n)%nat.
Proof.
  intros W N L. exists (skipn n s ++ skipn (length s) junk), (k - (length s - length junk))%nat.
  split; [|split; [|split]].
  - rewrite put_at; [|exact W|rewrite app_length, repeat_length; exact L]. rewrite skipn_app, <- !app_assoc. f_equal.
    rewrite <- (firstn_skipn n s) at 1. rewrite <- app_assoc. do 3 f_equal.
    remember (length s - length junk)%nat as m. assert (M : (m <= k)%nat) by lia. clear - M. revert k M.
    induction m as [|m IH]; intros [|k] M; try lia; try reflexivity. cbn [repeat skipn Nat.sub]. apply IH. lia.
  - rewrite app_length, !skipn_length. lia.
  - rewrite app_length, !skipn_length. lia.
  - rewrite app_length, firstn_length. lia.
Qed.


(** * Header values *)

Lemma sub_assert_bind {B : Type} b (k : unit -> res B) : bind (sub_assert b) k = if b then k tt else Throw EProgramming.
Proof. now destruct b. Qed.

Lemma asserts_iff a : (writer_asserts a = Ok tt /\ header_ok a) \/ (writer_asserts a = Throw EProgramming /\ ~ header_ok a).
Proof.
  unfold writer_asserts, header_ok. rewrite !sub_assert_bind. unfold sub_assert.
  destruct (Nat.leb_spec (length (w_original_programme_title a)) 32); [|right; split; [reflexivity|lia]].
  destruct (Nat.leb_spec (length (w_original_episode_title a)) 32); [|right; split; [reflexivity|lia]].
  destruct (Nat.leb_spec (length (w_translated_programme_title a)) 32); [|right; split; [reflexivity|lia]].
  destruct (Nat.leb_spec (length (w_translated_episode_title a)) 32); [|right; split; [reflexivity|lia]].
  destruct (Nat.leb_spec (length (w_translator_name a)) 32); [|right; split; [reflexivity|lia]].
  destruct (Nat.leb_spec (length (w_translator_contact_details a)) 32); [|right; split; [reflexivity|lia]].
  destruct (Nat.eqb_spec (length (w_creation_date a)) 6); [|right; split; [reflexivity|lia]].
  destruct (Nat.eqb_spec (length (w_revision_date a)) 6); [|right; split; [reflexivity|lia]].
  destruct (Z.leb_spec (w_revision_number a) 99); [|right; split; [reflexivity|lia]].
  destruct (Nat.eqb_spec (length (w_country_of_origin a)) 3); [|right; split; [reflexivity|lia]].
  destruct (Nat.leb_spec (length (w_publisher a)) 32); [|right; split; [reflexivity|lia]].
  destruct (Nat.leb_spec (length (w_editor_name a)) 32); [|right; split; [reflexivity|lia]].
  destruct (Nat.leb_spec (length (w_editor_contact_details a)) 32); [|right; split; [reflexivity|lia]].
  left. split; [reflexivity|lia].
Qed.

Lemma digits_aux_head fuel n : 0 < n -> n < 2 ^ Z.of_nat fuel -> exists c t, digits_aux fuel n [] = c :: t /\ c <> "0"%char.
Proof.
  revert n. induction fuel as [|f IH]; intros n P L; [cbn in L; lia|]. cbn [digits_aux]. destruct (Z.ltb_spec n 10) as [H|H].
  - exists (chr (48 + n mod 10)), []. split; [reflexivity|]. rewrite Z.mod_small by lia. intros E. apply (f_equal code) in E.
    rewrite code_chr in E by lia. change (code "0"%char) with 48 in E. lia.
  - rewrite digits_aux_app. destruct (IH (n / 10)) as (c & t & E & N).
    + apply Z.div_str_pos. lia.
    + rewrite Nat2Z.inj_succ, Z.pow_succ_r in L by lia. apply Z.div_lt_upper_bound; lia.
    + rewrite E. now exists c, (t ++ [chr (48 + n mod 10)]).
Qed.
Lemma digits_head n : 0 < n -> exists c t, digits n = c :: t /\ c <> "0"%char.
Proof.
  intros P. apply digits_aux_head; [exact P|]. rewrite Nat2Z.inj_succ, Z2Nat.id by apply Z.log2_nonneg. apply Z.log2_spec. exact P.
Qed.

Lemma pad_counter n v : (0 < n)%nat -> 0 <= v -> counter n v (firstn n (print_int_pad n v)).
Proof.
  intros N V. exists (print_int_pad n v). split; [now apply print_pad_numeral|]. split; [|split; [|reflexivity]].
  - unfold print_int_pad. destruct (v <? 0) eqn:E; [lia|]. rewrite app_length, repeat_length. lia.
  - unfold print_int_pad. destruct (v <? 0) eqn:E; [lia|]. rewrite app_length, repeat_length. intros L.
    destruct (Z.eq_dec v 0) as [->|Z]; [cbn in L; lia|]. destruct (digits_head v) as (c & t & D & H); [lia|].
    replace (n - length (digits v))%nat with 0%nat by lia. rewrite D. cbn. congruence.
Qed.

Lemma pad_length n v k : (0 < n <= k)%nat -> 0 <= v < 10 ^ Z.of_nat k -> (n <= length (print_int_pad n v) <= k)%nat.
Proof.
  intros N V. unfold print_int_pad. destruct (v <? 0) eqn:E; [lia|]. rewrite app_length, repeat_length.
  assert (length (digits v) <= k)%nat by (apply digits_aux_length; lia). lia.
Qed.

(** * The header *)

Lemma field_length n s : (length s <= n)%nat -> length (field n s) = n.
Proof. intros L. unfold field. rewrite app_length, repeat_length. lia. Qed.
Lemma put_field at_ n s buf : (length s <= n)%nat -> put_string_n at_ n s buf = Ok (put_string at_ (field n s) buf).
Proof. intros L. unfold put_string_n. apply Nat.leb_le in L. rewrite L. reflexivity. Qed.
Lemma dfc_length r : length (stl_frame_rate_to_dfc r) = 8%nat.
Proof. unfold stl_frame_rate_to_dfc. repeat destruct (about_equal _ _); reflexivity. Qed.
Lemma lang_file l : exists c d, language_enum_to_file l = Ok c /\ In (lit c, l, d) ebu_languages /\ length (lit c) = 2%nat.
Proof.
  destruct (languages_total l) as (c & d & I). pose proof I as J. destruct languages_table as (_ & _ & W & _).
  assert (X : exists d, In (c, l, d) ebu_languages) by eauto. apply W in X.
  destruct (language_enum_to_file l) as [x| |]; cbn in X; try discriminate. injection X as <-. exists x, d.
  split; [reflexivity|]. split; [exact I|].
  assert (A : forallb (fun r => Nat.eqb (length (fst (fst r))) 2) ebu_languages = true) by (vm_compute; reflexivity).
  rewrite forallb_forall in A. specialize (A _ J). now apply Nat.eqb_eq in A.
Qed.

(** Fields one after the other: text, width, how many bytes it can stick out. *)
Fixpoint put_fields (at_ : nat) (fs : list (str * (nat * nat))) (buf : str) : str :=
  match fs with [] => buf | f :: t => put_fields (at_ + fst (snd f)) t (put_string at_ (fst f) buf) end.
Definition fits_field (f : str * (nat * nat)) : Prop := (fst (snd f) <= length (fst f) <= fst (snd f) + snd (snd f))%nat.
Definition junk_after (widths : list (nat * nat)) (j : nat) : nat := fold_left (fun j w => Nat.max (snd w) (j - fst w)) widths j.
Definition total (widths : list (nat * nat)) : nat := fold_left (fun j w => fst w + j)%nat widths 0%nat.
Lemma total_from l : forall z, fold_left (fun j w => fst w + j)%nat l z = (total l + z)%nat.
Proof.
  induction l as [|w l IH]; intros z; [reflexivity|]. unfold total. cbn [fold_left]. rewrite IH, (IH (fst w + 0)%nat). lia.
Qed.

Lemma put_fields_ok fs : Forall fits_field fs -> forall w junk k J, (length junk <= J)%nat ->
  (total (map snd fs) + 10 <= length junk + k)%nat -> Forall (fun f => snd (snd f) <= 10)%nat fs ->
  exists junk' k', put_fields (length w) fs (w ++ junk ++ repeat zero k) = w ++ List.concat (map (fun f => firstn (fst (snd f)) (fst f)) fs) ++ junk' ++ repeat zero k' /\
    (length junk' <= junk_after (map snd fs) J)%nat /\ (total (map snd fs) + length junk' + k' = length junk + k)%nat.
Proof.
  induction 1 as [|[s [n e]] fs F _ IH]; intros w junk k J LJ LK EX.
  - exists junk, k. split; [reflexivity|]. split; [exact LJ|reflexivity].
  - cbn [put_fields fst snd map List.concat]. unfold fits_field in F. cbn [fst snd] in F.
    pose proof (Forall_inv EX) as EX1. apply Forall_inv_tail in EX. cbn [fst snd] in EX1.
    unfold total in *. cbn [map fold_left fst snd] in *. rewrite total_from in *.
    destruct (field_step w junk k s (length w) n eq_refl) as (j1 & k1 & E1 & A1 & B1 & C1); [lia|lia|].
    rewrite E1, <- C1. destruct (IH (w ++ firstn n s) j1 k1 (Nat.max e (J - n))%nat) as (j2 & k2 & E2 & A2 & B2); [lia| |exact EX|].
    { lia. }
    exists j2, k2. split; [rewrite E2, <- !app_assoc; reflexivity|]. split; [exact A2|]. lia.
Qed.

Lemma minus_length v : - 2 ^ 31 <= v < 0 -> (2 <= length (print_int_pad 2 v) <= 11)%nat.
Proof.
  intros V. unfold print_int_pad. destruct (v <? 0) eqn:E; [|lia]. cbn [length]. rewrite app_length, repeat_length.
  assert (length (digits (- v)) <= 10)%nat by (apply digits_aux_length; change (10 ^ Z.of_nat 10) with 10000000000; lia).
  destruct (digits_head (- v)) as (c & t & D & _); [lia|]. rewrite D in *. cbn [length] in *. lia.
Qed.

Definition gsi_fields (a : writer_args) (dfc lang rn nt ns nl : str) : list str :=
      [ lit "850"; dfc; lit "0"; lit "00"; lang;
        field 32 (w_original_programme_title a); field 32 (w_original_episode_title a);
        field 32 (w_translated_programme_title a); field 32 (w_translated_episode_title a);
        field 32 (w_translator_name a); field 32 (w_translator_contact_details a);
        lit "0000000000000000"; w_creation_date a; w_revision_date a; rn; nt; ns; lit "001"; nl; lit "23"; lit "1";
        lit "00000000"; lit "00000000"; lit "1"; lit "1"; w_country_of_origin a;
        field 32 (w_publisher a); field 32 (w_editor_name a); field 32 (w_editor_contact_details a);
        repeat zero 651 ].

Lemma gsi_any a tti subs longest : header_ok a -> - 2 ^ 31 <= w_revision_number a -> 0 <= tti < 2 ^ 31 -> 0 <= subs < 2 ^ 31 ->
  0 <= longest < 2 ^ 31 ->
  exists lang d, In (lang, w_language a, d) ebu_languages /\
    make_gsi a tti subs longest = Ok (List.concat (gsi_fields a (stl_frame_rate_to_dfc (w_fps a)) lang
      (firstn 2 (print_int_pad 2 (w_revision_number a))) (firstn 5 (print_int_pad 5 tti)) (firstn 5 (print_int_pad 5 subs)) (firstn 2 (print_int_pad 2 longest)))).
Proof.
  intros (T1 & T2 & T3 & T4 & T5 & T6 & D1 & D2 & RN & CO & P & E1 & E2) RN0 NT NS NL.
  destruct (lang_file (w_language a)) as (lang & d & LE & LI & LL). exists (lit lang), d.
  assert (L1 : (2 <= length (print_int_pad 2 (w_revision_number a)) <= 11)%nat).
  { destruct (Z.lt_ge_cases (w_revision_number a) 0) as [M|M]; [apply minus_length; lia|].
    pose proof (pad_length 2 (w_revision_number a) 10 ltac:(lia) ltac:(change (10 ^ Z.of_nat 10) with 10000000000; lia)). lia. }
  pose proof (pad_length 5 tti 10 ltac:(lia) ltac:(change (10 ^ Z.of_nat 10) with 10000000000; lia)) as L2.
  pose proof (pad_length 5 subs 10 ltac:(lia) ltac:(change (10 ^ Z.of_nat 10) with 10000000000; lia)) as L3.
  pose proof (pad_length 2 longest 10 ltac:(lia) ltac:(change (10 ^ Z.of_nat 10) with 10000000000; lia)) as L4.
  unfold make_gsi, put_int_as_string. rewrite LE. cbn [bind].
  repeat (rewrite put_field by (assumption || lia); cbn [bind]).
  split; [exact LI|]. f_equal. unfold gsi_fields.
  set (ex := fun s : str => (s, (length s, 0%nat))). set (t32 := fun s => (field 32 s, (32%nat, 0%nat))).
  set (fs := [(lit "850", (3, 0)); (stl_frame_rate_to_dfc (w_fps a), (8, 0)); (lit "0", (1, 0)); (lit "00", (2, 0)); (lit lang, (2, 0));
    t32 (w_original_programme_title a); t32 (w_original_episode_title a);
    t32 (w_translated_programme_title a); t32 (w_translated_episode_title a);
    t32 (w_translator_name a); t32 (w_translator_contact_details a);
    (lit "0000000000000000", (16, 0)); (w_creation_date a, (6, 0)); (w_revision_date a, (6, 0));
    (print_int_pad 2 (w_revision_number a), (2, 9)); (print_int_pad 5 tti, (5, 5)); (print_int_pad 5 subs, (5, 5)); (lit "001", (3, 0));
    (print_int_pad 2 longest, (2, 8)); (lit "23", (2, 0)); (lit "1", (1, 0));
    (lit "00000000", (8, 0)); (lit "00000000", (8, 0)); (lit "1", (1, 0)); (lit "1", (1, 0)); (field 3 (w_country_of_origin a), (3, 0));
    t32 (w_publisher a); t32 (w_editor_name a); t32 (w_editor_contact_details a)]%nat).
  assert (F : Forall fits_field fs).
  { subst fs. repeat apply Forall_cons; try apply Forall_nil; unfold fits_field; subst t32 ex; cbn [fst snd];
      try rewrite dfc_length; try (rewrite field_length by (assumption || lia)); try (cbn; lia); lia. }
  destruct (put_fields_ok fs F [] [] 1024 0) as (j & k & E & A & B).
  - cbn. lia.
  - vm_compute. lia.
  - subst fs. repeat apply Forall_cons; try apply Forall_nil; subst t32; cbn [fst snd]; lia.
  - change (put_fields (length (@nil ascii)) fs ([] ++ [] ++ repeat zero 1024)) with (put_fields 0 fs (repeat zero 1024)) in E.
    match goal with |- ?x = _ => change x with (put_fields 0 fs (repeat zero 1024)) end.
    change (junk_after (map snd fs) 0) with 0%nat in A. change (total (map snd fs)) with 373%nat in B.
    cbn [length] in B. rewrite E.
    replace k with 651%nat by lia. destruct j; [|cbn [length] in A; lia].
    subst fs. cbn [map fst snd List.concat]. subst t32. cbn [fst snd].
    rewrite !app_nil_l, !app_nil_r, <- !app_assoc.
    rewrite !(firstn_all2 (field 32 _)) by (rewrite field_length; lia).
    rewrite (firstn_all2 (stl_frame_rate_to_dfc _)) by (rewrite dfc_length; lia).
    rewrite (firstn_all2 (lit lang)) by lia. rewrite (firstn_all2 (w_creation_date a)) by lia. rewrite (firstn_all2 (w_revision_date a)) by lia.
    replace (field 3 (w_country_of_origin a)) with (w_country_of_origin a) by (unfold field; rewrite CO, Nat.sub_diag; cbn [repeat]; now rewrite app_nil_r).
    rewrite (firstn_all2 (w_country_of_origin a)) by lia.
    reflexivity.
Qed.

Lemma gsi_ok a tti subs longest : header_ok a -> 0 <= w_revision_number a -> 0 <= tti < 2 ^ 31 -> 0 <= subs < 2 ^ 31 ->
  0 <= longest < 2 ^ 31 ->
  exists lang d h, In (lang, w_language a, d) ebu_languages /\ make_gsi a tti subs longest = Ok h /\
    gsi_layout a (stl_frame_rate_to_dfc (w_fps a)) lang tti subs longest h.
Proof.
  intros HO RN0 NT NS NL. destruct (gsi_any a tti subs longest HO) as (lang & d & LI & E); try lia.
  exists lang, d. eexists. split; [exact LI|]. split; [exact E|].
  exists (firstn 2 (print_int_pad 2 (w_revision_number a))), (firstn 5 (print_int_pad 5 tti)), (firstn 5 (print_int_pad 5 subs)), (firstn 2 (print_int_pad 2 longest)).
  split; [apply pad_counter; lia|]. split; [apply pad_counter; lia|]. split; [apply pad_counter; lia|]. split; [apply pad_counter; lia|]. reflexivity.
Qed.

(** * The text *)

Lemma change_underline a b : bytes (if b && negb a then [c_underline_on] else if a && negb b then [c_underline_off] else []) = change a b 0x82 0x83.
Proof. now destruct a, b. Qed.
Lemma change_italic a b : bytes (if b && negb a then [c_italic_on] else if a && negb b then [c_italic_off] else []) = change a b 0x80 0x81.
Proof. now destruct a, b. Qed.

Lemma coded_chars i u w bss its rest : Forall2 written w bss -> coded i u its rest -> coded i u (map Char w ++ its) (List.concat bss ++ rest).
Proof.
  intros F C. induction F as [|c cs w bss W F IH]; [exact C|]. cbn [map app List.concat]. rewrite <- app_assoc. now apply coded_char.
Qed.

Definition text_plain (k : block) : Prop := exists w, utf8 (b_text k) w /\ ~ In 0 w.

Lemma blocks_text h bs : Forall text_plain bs -> forall i u,
  exists parts, Forall2 block_items bs parts /\
    let x := tti_blocks_text (after h) bs i u in
    forall its rest, coded (snd (fst x)) (snd x) its rest -> coded i u (List.concat parts ++ its) (bytes (fst (fst x)) ++ rest).
Proof.
  induction 1 as [|k bs (w & U & Z) F IH]; intros i u; cbn [tti_blocks_text].
  - exists []. split; [constructor|]. intros its rest C. exact C.
  - destruct (IH (b_italic k) (b_underline k)) as (parts & P & X).
    destruct (tti_blocks_text (after h) bs (b_italic k) (b_underline k)) as [[rst i'] u']. cbn [fst snd] in *.
    destruct (encode_written h w) as (bss & W & E). { apply Forall_forall. intros c I ->. now apply Z. }
    exists ((Style (b_italic k) (b_underline k) :: map Char w) :: parts). split; [constructor; [|exact P]; now exists w|].
    intros its rest C. rewrite (utf8_to_wide_ok _ _ U). rewrite !bytes_app, E, change_underline, change_italic.
    cbn [List.concat app]. rewrite <- !app_assoc. apply coded_style. apply coded_chars; [exact W|]. now apply X.
Qed.

Lemma coded_breaks i u n its rest : coded i u its rest -> coded i u (repeat Break n ++ its) (bytes (repeat c_newline n) ++ rest).
Proof. intros C. induction n as [|n IH]; [exact C|]. cbn [repeat app bytes map]. now apply coded_break. Qed.

Lemma lines_text h ls : Forall (fun l => Forall text_plain (l_blocks (fst l))) ls -> forall last i u,
  exists its, line_items last ls its /\ coded i u its (bytes (tti_lines_text (after h) ls last i u ++ [c_unused])).
Proof.
  induction 1 as [|[l row] ls F _ IH]; intros last i u; cbn [tti_lines_text].
  - exists []. split; [constructor|]. rewrite !bytes_app, <- app_assoc.
    destruct u, i; [exact (coded_end true true)|exact (coded_end false true)|exact (coded_end true false)|exact (coded_end false false)].
  - destruct (blocks_text h (l_blocks l) F i u) as (parts & P & X).
    destruct (tti_blocks_text (after h) (l_blocks l) i u) as [[here i'] u']. cbn [fst snd] in *.
    destruct (IH (Some row) i' u') as (its & L & C). eexists. split; [constructor; [exact P|exact L]|].
    rewrite <- !app_assoc, bytes_app. specialize (X _ _ C). rewrite <- bytes_app in X.
    destruct last as [r|]; [|exact X]. now apply coded_breaks.
Qed.

(** * Blocks *)

Lemma put_int1 at_ v buf : put_int_as_int at_ v 1 buf = put_string at_ [chr (v mod 256)] buf.
Proof. unfold put_int_as_int. cbn [seq map]. change (2 ^ (8 * Z.of_nat 0)) with 1. now rewrite Z.div_1_r. Qed.

Lemma byte_mod v : char_code (chr (v mod 256)) = v mod 256.
Proof. apply char_code_chr. now apply Z.mod_pos_bound. Qed.

Lemma buffer_parts (buf : str) : length buf = 128%nat ->
  exists b0 b1 b2 b3 b4 b5 b6 b7 b8 b9 b10 b11 b12 b13 b14 b15 r,
    buf = [b0; b1; b2; b3; b4; b5; b6; b7; b8; b9; b10; b11; b12; b13; b14; b15] ++ r /\ length r = 112%nat.
Proof.
  intros L. do 16 (destruct buf as [|? buf]; [discriminate|]). do 17 eexists. split; [reflexivity|].
  cbn [length] in L. lia.
Qed.

Lemma chunk_last k t : t <> [] -> (length t <= 112)%nat ->
  chunked k (bytes t) [(255, bytes (t ++ repeat c_unused (112 - length t)))].
Proof.
  intros N L. rewrite bytes_app.
  assert (R : bytes (repeat c_unused (112 - length t)) = repeat 0x8F (112 - length (bytes t))).
  { unfold bytes at 2. rewrite map_length. generalize (112 - length t)%nat. clear. induction n; cbn; [reflexivity|]. now rewrite <- IHn. }
  rewrite R. apply chunked_last.
  - now destruct t.
  - unfold bytes. now rewrite map_length.
Qed.

Lemma chunks_ok fuel : forall text k b0 b1 b2 e q r, text <> [] -> (length text <= fuel)%nat -> length q = 12%nat -> length r = 112%nat ->
  exists chunks blocks e' r', tti_chunks fuel text k ([b0; b1; b2; e] ++ q ++ r) = Ok (blocks, [b0; b1; b2; e'] ++ q ++ r') /\
    length r' = 112%nat /\ chunked k (bytes text) chunks /\
    Forall2 (fun c b => bytes b = bytes [b0; b1; b2] ++ fst c :: bytes q ++ snd c) chunks blocks.
Proof.
  induction fuel as [|fuel IH]; intros text k b0 b1 b2 e q r N L Q R.
  { destruct text; [congruence|cbn in L; lia]. }
  cbn [tti_chunks]. destruct text as [|x text0] eqn:TE; [congruence|]. rewrite <- TE in *. clear TE.
  assert (Lt : (length (firstn 112 text) <= 112)%nat) by (rewrite firstn_length; lia).
  set (this := firstn 112 text) in *.
  assert (P : put_string 16 (this ++ repeat c_unused (112 - length this)) ([b0; b1; b2; e] ++ q ++ r)
              = [b0; b1; b2; e] ++ q ++ this ++ repeat c_unused (112 - length this)).
  { assert (LL : length (this ++ repeat c_unused (112 - length this)) = 112%nat) by (rewrite app_length, repeat_length; lia).
    rewrite app_assoc, put_at; [|rewrite app_length, Q; reflexivity|lia].
    rewrite LL, skipn_all2 by lia. rewrite app_nil_r. now rewrite <- app_assoc. }
  rewrite P, put_int1. clear P.
  set (body := this ++ repeat c_unused (112 - length this)).
  assert (Lb : length body = 112%nat) by (unfold body; rewrite app_length, repeat_length; lia).
  destruct (is_nil (skipn 112 text)) eqn:RN.
  - assert (S0 : skipn 112 text = []) by (destruct (skipn 112 text); [reflexivity|discriminate]).
    assert (T : this = text). { subst this. rewrite <- (firstn_skipn 112 text) at 2. now rewrite S0, app_nil_r. }
    rewrite S0. change (255 mod 256) with 255.
    exists [(255, bytes body)], [[b0; b1; b2; chr 255] ++ q ++ body], (chr 255), body.
    split.
    { change (put_string 3 [chr 255] ([b0; b1; b2; e] ++ q ++ body)) with ([b0; b1; b2; chr 255] ++ overwrite (q ++ body) 0 []).
      assert (O : overwrite (q ++ body) 0 [] = q ++ body) by (destruct (q ++ body); reflexivity). rewrite O. destruct fuel; reflexivity. }
    split; [exact Lb|]. split.
    + rewrite <- T at 1. apply chunk_last; [rewrite T; exact N|exact Lt].
    + constructor; [|constructor]. cbn [fst snd]. rewrite !bytes_app. reflexivity.
  - assert (S0 : skipn 112 text <> []) by (intros S0; rewrite S0 in RN; discriminate).
    assert (T : length this = 112%nat).
    { subst this. destruct (Nat.le_gt_cases 112 (length text)) as [H|H]; [rewrite firstn_length; lia|].
      exfalso. apply S0. apply skipn_all2. lia. }
    assert (B : body = this). { unfold body. rewrite T. cbn [repeat Nat.sub]. apply app_nil_r. }
    rewrite B in *. clear B. change (put_string 3 [chr (k mod 256)] ([b0; b1; b2; e] ++ q ++ this)) with ([b0; b1; b2; chr (k mod 256)] ++ overwrite (q ++ this) 0 []).
    assert (O : overwrite (q ++ this) 0 [] = q ++ this) by (destruct (q ++ this); reflexivity). rewrite O. clear O.
    destruct (IH (skipn 112 text) (k + 1) b0 b1 b2 (chr (k mod 256)) q this) as (chunks & blocks & e' & r' & E & R' & C & F); try assumption.
    { rewrite skipn_length. destruct text; cbn [length] in *; [congruence|lia]. }
    rewrite E. cbn [bind fst snd].
    exists ((k mod 256, bytes this) :: chunks), (([b0; b1; b2; chr (k mod 256)] ++ q ++ this) :: blocks), e', r'.
    split; [reflexivity|]. split; [exact R'|]. split.
    + rewrite <- (firstn_skipn 112 text), bytes_app. fold this. apply chunked_more; [unfold bytes; now rewrite map_length| |exact C].
      intros X. apply S0. now apply map_eq_nil in X.
    + constructor; [|exact F]. cbn [fst snd]. rewrite !bytes_app. unfold bytes. cbn [map]. rewrite byte_mod. reflexivity.
Qed.

Lemma top_of_least vps : vps <> [] -> exists t, top_of vps = Some t /\ least vps t.
Proof.
  intros N. unfold top_of. destruct vps as [|v vps]; [congruence|]. cbn [fold_left].
  assert (G : forall l t, exists t', fold_left (fun top vp => match top with None => Some vp | Some t => if vp <? t then Some vp else top end) l (Some t) = Some t'
    /\ (t' = t \/ In t' l) /\ t' <= t /\ Forall (fun k => t' <= k) l).
  { induction l as [|x l IH]; intros t; cbn [fold_left].
    - exists t. repeat split; [now left|lia|constructor].
    - destruct (Z.ltb_spec x t) as [H|H].
      + destruct (IH x) as (t' & E & A & B & C). exists t'. split; [exact E|]. split; [right; destruct A as [->|A]; [now left|now right]|].
        split; [lia|constructor; [lia|exact C]].
      + destruct (IH t) as (t' & E & A & B & C). exists t'. split; [exact E|]. split; [destruct A as [->|A]; [now left|right; now right]|].
        split; [lia|constructor; [lia|exact C]]. }
  destruct (G vps v) as (t & E & A & B & C). exists t. split; [exact E|]. split; [destruct A as [->|A]; [now left|now right]|constructor; [lia|exact C]].
Qed.

Lemma justification_ok l : justification_enum_to_file (href_justification (h_ref (l_hpos l))) = Ok (justification_of l).
Proof. unfold justification_of. now destruct (h_ref (l_hpos l)). Qed.

Lemma header_made s top fps r f1 f2 first buf : length buf = 128%nat ->
  writer_rate fps = Ok r -> frames_at (s_from s) r = Ok f1 -> frames_at (s_to s) r = Ok f2 -> hd_error (s_lines s) = Some first ->
  exists b0 b1 b2 e q rest, tti_header s (Some top) fps buf = Ok ([b0; b1; b2; e] ++ q ++ rest) /\ length q = 12%nat /\ length rest = 112%nat /\
    bytes [b0; b1; b2] = [1; 0; 0] /\
    bytes q = [0; hours (s_from s) mod 256; minutes (s_from s) mod 256; seconds (s_from s) mod 256; f1 mod 256;
               hours (s_to s) mod 256; minutes (s_to s) mod 256; seconds (s_to s) mod 256; f2 mod 256; top mod 256; justification_of first; 0].
Proof.
  intros L W F1 F2 H. destruct (buffer_parts buf L) as (b0 & b1 & b2 & b3 & b4 & b5 & b6 & b7 & b8 & b9 & b10 & b11 & b12 & b13 & b14 & b15 & rest & -> & R).
  unfold tti_header, put_timecode. rewrite !put_int1.
  change (cumulative_status_enum_to_file CUMULATIVE_STATUS_NOT_CUMULATIVE) with (@Ok Z 0). change (comment_enum_to_file COMMENT_NO) with (@Ok Z 0).
  rewrite W. cbn [bind]. rewrite F1. cbn [bind]. rewrite F2. cbn [bind opt_get]. destruct (s_lines s) as [|l ls]; [discriminate|]. injection H as ->. cbn [bind].
  rewrite justification_ok. cbn [bind]. rewrite !put_int1.
  exists (chr 1), (chr 0), (chr 0), b3. eexists [_; _; _; _; _; _; _; _; _; _; _; _], rest. split.
  { assert (O : forall s, overwrite s 0 [] = s) by (intros [|? ?]; reflexivity).
    unfold put_int_as_int, put_string. cbn [seq map app overwrite Nat.add]. rewrite !O. reflexivity. }
  split; [reflexivity|]. split; [exact R|]. split; [reflexivity|].
  unfold bytes. cbn [map]. rewrite !byte_mod. repeat f_equal. unfold justification_of. now destruct (h_ref (l_hpos first)).
Qed.
