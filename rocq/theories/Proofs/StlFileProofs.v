(** Consequences of what the binary STL writer writes: where things are in the file. *)
From Coq Require Import ZArith Reals List Bool Ascii String Lia Lra.
From Verif.Model Require Import Base Strings Float TimeModel Types RawConvert Iso6937Tables Utf Iso6937 StlTables StlUtil
  StlBinReader StlBinWriter.
From Verif.Spec Require Import Outcome TextSpec TimeSpec Utf8Spec Iso6937Spec PositionSpec StlTableSpec StlFileSpec StlWriteSpec.
From Verif.Proofs Require Import TimeProofs StringProofs Iso6937Proofs UtfProofs StlTableProofs StlReadProofs StlWriteProofs StlRowProofs StlWriterProofs.
Import ListNotations.
Local Open Scope Z_scope.
Local Notation length := List.length.

Lemma Forall2_impl {A B : Type} (P Q : A -> B -> Prop) l m : (forall x y, P x y -> Q x y) -> Forall2 P l m -> Forall2 Q l m.
Proof. intros H. induction 1; constructor; auto. Qed.

(** * Header *)

Lemma disk_format_length fps dfc : disk_format fps dfc -> length dfc = 8%nat.
Proof.
  intros (x & _ & [(r & c & I & _ & ->)|[_ ->]]); [|reflexivity].
  destruct I as [[= _ <-]|[[= _ <-]|[[= _ <-]|[[= _ <-]|[]]]]]; reflexivity.
Qed.
Lemma counter_length n v s : counter n v s -> length s = n.
Proof. intros (d & _ & L & _ & ->). rewrite firstn_length. lia. Qed.
Lemma language_length c e d : In (c, e, d) ebu_languages -> length c = 2%nat.
Proof.
  intros I. assert (A : forallb (fun r => Nat.eqb (length (fst (fst r))) 2) ebu_languages = true) by (vm_compute; reflexivity).
  rewrite forallb_forall in A. specialize (A _ I). now apply Nat.eqb_eq in A.
Qed.

Lemma concat_at (pre : list str) s post rest : bytes_at (List.concat (pre ++ s :: post) ++ rest) (length (List.concat pre)) (length s) s.
Proof.
  exists (List.concat pre), (List.concat post ++ rest). split; [|split; reflexivity].
  rewrite concat_app. cbn [List.concat]. now rewrite <- !app_assoc.
Qed.
(** The [k]-th of a list of fields. *)
Lemma field_at fs rest k s at_ n : nth_error fs k = Some s -> length s = n -> length (List.concat (firstn k fs)) = at_ ->
  bytes_at (List.concat fs ++ rest) at_ n s.
Proof.
  intros N <- <-. assert (E : fs = firstn k fs ++ s :: skipn (S k) fs).
  { revert fs N. induction k as [|k IH]; intros [|f fs] N; try discriminate; [injection N as ->; reflexivity|]. cbn. f_equal. now apply IH. }
  rewrite E at 1. apply concat_at.
Qed.

Lemma concat_sum (l : list (list ascii)) : length (List.concat l) = fold_right Nat.add 0%nat (map (@length ascii) l).
Proof. induction l as [|x l IH]; cbn; [reflexivity|]. now rewrite app_length, IH. Qed.

(** Where each field of the header is. *)
Record header_at (file : str) (a : writer_args) (dfc lang rn nt ns nl : str) : Prop := {
  at_cpn : bytes_at file 0 3 (lit "850");
  at_dfc : bytes_at file 3 8 dfc;
  at_dsc : bytes_at file 11 1 (lit "0");
  at_cct : bytes_at file 12 2 (lit "00");
  at_lc : bytes_at file 14 2 lang;
  at_opt : bytes_at file 16 32 (field 32 (w_original_programme_title a));
  at_oet : bytes_at file 48 32 (field 32 (w_original_episode_title a));
  at_tpt : bytes_at file 80 32 (field 32 (w_translated_programme_title a));
  at_tet : bytes_at file 112 32 (field 32 (w_translated_episode_title a));
  at_tn : bytes_at file 144 32 (field 32 (w_translator_name a));
  at_tcd : bytes_at file 176 32 (field 32 (w_translator_contact_details a));
  at_slr : bytes_at file 208 16 (lit "0000000000000000");
  at_cd : bytes_at file 224 6 (w_creation_date a);
  at_rd : bytes_at file 230 6 (w_revision_date a);
  at_rn : bytes_at file 236 2 rn;
  at_tnb : bytes_at file 238 5 nt;
  at_tns : bytes_at file 243 5 ns;
  at_tng : bytes_at file 248 3 (lit "001");
  at_mnc : bytes_at file 251 2 nl;
  at_mnr : bytes_at file 253 2 (lit "23");
  at_tcs : bytes_at file 255 1 (lit "1");
  at_tcp : bytes_at file 256 8 (lit "00000000");
  at_tcf : bytes_at file 264 8 (lit "00000000");
  at_tnd : bytes_at file 272 1 (lit "1");
  at_dsn : bytes_at file 273 1 (lit "1");
  at_co : bytes_at file 274 3 (w_country_of_origin a);
  at_pub : bytes_at file 277 32 (field 32 (w_publisher a));
  at_en : bytes_at file 309 32 (field 32 (w_editor_name a));
  at_ecd : bytes_at file 341 32 (field 32 (w_editor_contact_details a)) }.

Lemma fields_at a dfc lang rn nt ns nl rest : header_ok a -> length dfc = 8%nat -> length lang = 2%nat ->
  length rn = 2%nat -> length nt = 5%nat -> length ns = 5%nat -> length nl = 2%nat ->
  header_at (List.concat (gsi_fields a dfc lang rn nt ns nl) ++ rest) a dfc lang rn nt ns nl /\
  length (List.concat (gsi_fields a dfc lang rn nt ns nl)) = 1024%nat.
Proof.
  intros (T1 & T2 & T3 & T4 & T5 & T6 & D1 & D2 & _ & CO & P & E1 & E2) L1 L2 L3 L4 L5 L6.
  set (ls := [3; 8; 1; 2; 2; 32; 32; 32; 32; 32; 32; 16; 6; 6; 2; 5; 5; 3; 2; 2; 1; 8; 8; 1; 1; 3; 32; 32; 32; 651]%nat).
  assert (M : map (@length ascii) (gsi_fields a dfc lang rn nt ns nl) = ls).
  { unfold gsi_fields, ls. cbn [map]. rewrite L1, L2, L3, L4, L5, L6, D1, D2, CO. rewrite !field_length by assumption. rewrite repeat_length. reflexivity. }
  assert (CL : forall k, length (List.concat (firstn k (gsi_fields a dfc lang rn nt ns nl))) = fold_right Nat.add 0%nat (firstn k ls)).
  { intros k. rewrite <- M, firstn_map. apply concat_sum. }
  split; [|rewrite <- (firstn_all (gsi_fields a dfc lang rn nt ns nl)), CL; reflexivity].
  assert (FA : forall k s n, nth_error (gsi_fields a dfc lang rn nt ns nl) k = Some s -> nth_error ls k = Some n ->
    bytes_at (List.concat (gsi_fields a dfc lang rn nt ns nl) ++ rest) (fold_right Nat.add 0%nat (firstn k ls)) n s).
  { intros k s n N LN. apply (field_at _ _ k); [exact N| |apply CL].
    apply (map_nth_error (@length ascii)) in N. rewrite M, LN in N. congruence. }
  constructor.
  - exact (FA 0%nat _ _ eq_refl eq_refl).
  - exact (FA 1%nat _ _ eq_refl eq_refl).
  - exact (FA 2%nat _ _ eq_refl eq_refl).
  - exact (FA 3%nat _ _ eq_refl eq_refl).
  - exact (FA 4%nat _ _ eq_refl eq_refl).
  - exact (FA 5%nat _ _ eq_refl eq_refl).
  - exact (FA 6%nat _ _ eq_refl eq_refl).
  - exact (FA 7%nat _ _ eq_refl eq_refl).
  - exact (FA 8%nat _ _ eq_refl eq_refl).
  - exact (FA 9%nat _ _ eq_refl eq_refl).
  - exact (FA 10%nat _ _ eq_refl eq_refl).
  - exact (FA 11%nat _ _ eq_refl eq_refl).
  - exact (FA 12%nat _ _ eq_refl eq_refl).
  - exact (FA 13%nat _ _ eq_refl eq_refl).
  - exact (FA 14%nat _ _ eq_refl eq_refl).
  - exact (FA 15%nat _ _ eq_refl eq_refl).
  - exact (FA 16%nat _ _ eq_refl eq_refl).
  - exact (FA 17%nat _ _ eq_refl eq_refl).
  - exact (FA 18%nat _ _ eq_refl eq_refl).
  - exact (FA 19%nat _ _ eq_refl eq_refl).
  - exact (FA 20%nat _ _ eq_refl eq_refl).
  - exact (FA 21%nat _ _ eq_refl eq_refl).
  - exact (FA 22%nat _ _ eq_refl eq_refl).
  - exact (FA 23%nat _ _ eq_refl eq_refl).
  - exact (FA 24%nat _ _ eq_refl eq_refl).
  - exact (FA 25%nat _ _ eq_refl eq_refl).
  - exact (FA 26%nat _ _ eq_refl eq_refl).
  - exact (FA 27%nat _ _ eq_refl eq_refl).
  - exact (FA 28%nat _ _ eq_refl eq_refl).
Qed.

Lemma bytes_at_unique b at_ n s t : bytes_at b at_ n s -> bytes_at b at_ n t -> s = t.
Proof.
  intros A B. assert (L : (at_ + n <= length b)%nat) by (destruct A as (p & q & -> & <- & <-); rewrite !app_length; lia).
  apply bytes_at_iff in A, B; [congruence|exact L..].
Qed.

(** * Blocks *)

Lemma chunk_lengths k t cs : chunked k t cs -> Forall (fun c => length (snd c) = 112%nat) cs.
Proof.
  induction 1 as [k t N L|k t r bs L N C IH]; constructor; cbn [snd]; [|constructor|exact L|exact IH]. rewrite app_length, repeat_length. lia.
Qed.
Lemma subtitle_block_lengths n s rows bs : subtitle_blocks n s rows bs -> Forall (fun b => length b = 128%nat) bs.
Proof.
  intros (h1 & m1 & s1 & f1 & h2 & m2 & s2 & f2 & top & first & its & text & chunks & _ & _ & _ & _ & _ & _ & C & F).
  apply chunk_lengths in C. induction F as [|c b cs bs' X F IH]; constructor.
  - apply Forall_inv in C. rewrite <- (map_length char_code), X, app_length, C. reflexivity.
  - apply IH. now apply Forall_inv_tail in C.
Qed.
Lemma all_block_lengths n srs bss : Forall2 (fun sr bs => subtitle_blocks n (fst sr) (snd sr) bs) srs bss ->
  Forall (fun b => length b = 128%nat) (List.concat bss).
Proof.
  induction 1 as [|sr bs srs bss X _ IH]; cbn [List.concat]; [constructor|]. apply Forall_app. split; [|exact IH]. now apply subtitle_block_lengths in X.
Qed.

Lemma gsi_length a dfc lang x y z g fps : header_ok a -> disk_format fps dfc -> (exists d, In (lang, w_language a, d) ebu_languages) ->
  gsi_layout a dfc lang x y z g -> length g = 1024%nat.
Proof.
  intros H D (d & L) (rn & nt & ns & nl & C1 & C2 & C3 & C4 & ->).
  apply (fields_at a dfc lang rn nt ns nl []); try assumption; eauto using disk_format_length, counter_length, language_length.
Qed.

(** * The whole file *)

Lemma written_structure n a ss file : header_ok a -> stl_written n a ss file ->
  exists rowss blockss dfc lang d longest rn nt ns nl,
    Forall2 rows_ok ss rowss /\
    Forall2 (fun sr bs => subtitle_blocks n (fst sr) (snd sr) bs) (combine ss rowss) blockss /\
    disk_format (w_fps a) dfc /\ In (lang, w_language a, d) ebu_languages /\ longest_is ss longest /\
    counter 2 (w_revision_number a) rn /\ counter 5 (Z.of_nat (length (List.concat blockss))) nt /\ counter 5 (Z.of_nat (length ss)) ns /\ counter 2 longest nl /\
    length (List.concat (gsi_fields a dfc lang rn nt ns nl)) = 1024%nat /\
    file = List.concat (gsi_fields a dfc lang rn nt ns nl) ++ List.concat (List.concat blockss) /\
    header_at file a dfc lang rn nt ns nl /\ Forall (fun b => length b = 128%nat) (List.concat blockss).
Proof.
  intros H (rowss & blockss & dfc & lang & d & longest & head & R & B & D & L & LO & (rn & nt & ns & nl & C1 & C2 & C3 & C4 & E) & ->).
  exists rowss, blockss, dfc, lang, d, longest, rn, nt, ns, nl. repeat (split; [assumption|]).
  destruct (fields_at a dfc lang rn nt ns nl (List.concat (List.concat blockss))) as [F1 F2]; try assumption;
    eauto using disk_format_length, counter_length, language_length.
  split; [exact F2|]. split; [rewrite E; reflexivity|]. split; [rewrite E; exact F1|]. now apply all_block_lengths in B.
Qed.

Lemma written_size n a ss file : header_ok a -> stl_written n a ss file ->
  exists k, length file = (1024 + 128 * k)%nat /\ (length ss <= k)%nat.
Proof.
  intros H W. destruct (written_structure n a ss file H W) as (rowss & blockss & dfc & lang & d & longest & rn & nt & ns & nl & R & B & _ & _ & _ & _ & _ & _ & _ & L & -> & _ & BL).
  exists (length (List.concat blockss)). split; [rewrite app_length, L, (blocks_length _ BL); reflexivity|].
  apply (blocks_many n ss rowss); [exact B|]. apply (Forall2_len _ _ _ R).
Qed.

(** * Counters *)

Lemma numeral_range s v : numeral s v -> 0 <= v < 10 ^ Z.of_nat (length s).
Proof.
  induction 1 as [c d [D _]|s v c d N IH [D _]].
  - cbn [length]. change (10 ^ Z.of_nat 1) with 10. lia.
  - rewrite app_length. cbn [length]. rewrite Nat2Z.inj_add, Z.pow_add_r by lia. change (10 ^ Z.of_nat 1) with 10. lia.
Qed.
Lemma numeral_leading s v : numeral s v -> hd_error s <> Some "0"%char -> 10 ^ (Z.of_nat (length s) - 1) <= v.
Proof.
  induction 1 as [c d [D DC]|s v c d N IH [D _]]; intros H.
  - cbn [length]. change (10 ^ (Z.of_nat 1 - 1)) with 1. destruct (Z.eq_dec d 0) as [->|X]; [|lia]. exfalso. apply H. cbn. f_equal.
    rewrite <- (chr_code c), code_char, DC. reflexivity.
  - assert (SN : s <> []) by (intros ->; inversion N as [|? ? ? ? N' ? E]; destruct s; discriminate).
    assert (L : (0 < length s)%nat) by (destruct s; [congruence|cbn; lia]).
    rewrite app_length. cbn [length]. replace (Z.of_nat (length s + 1) - 1) with (Z.of_nat (length s) - 1 + 1) by lia.
    rewrite Z.pow_add_r by lia. change (10 ^ 1) with 10. specialize (IH ltac:(destruct s; [congruence|exact H])). lia.
Qed.
Lemma counter_number n v s : counter n v s -> v < 10 ^ Z.of_nat n -> number n v s.
Proof.
  intros (d & N & L & Z & ->) B. destruct (Nat.eq_dec n (length d)) as [->|X]; [rewrite firstn_all; now split|].
  exfalso. pose proof (numeral_leading d v N (Z ltac:(lia))) as H.
  assert (10 ^ Z.of_nat n <= 10 ^ (Z.of_nat (length d) - 1)) by (apply Z.pow_le_mono_r; lia). lia.
Qed.

Lemma written_counters n a ss file : header_ok a -> stl_written n a ss file ->
  exists rn nt ns nl longest, bytes_at file 236 2 rn /\ bytes_at file 238 5 nt /\ bytes_at file 243 5 ns /\ bytes_at file 251 2 nl /\ longest_is ss longest /\
    (number 2 (w_revision_number a) rn) /\
    (forall k, length file = (1024 + 128 * k)%nat -> Z.of_nat k < 100000 -> number 5 (Z.of_nat k) nt) /\
    (Z.of_nat (length ss) < 100000 -> number 5 (Z.of_nat (length ss)) ns) /\
    (longest < 100 -> number 2 longest nl).
Proof.
  intros H W. destruct (written_structure n a ss file H W) as (rowss & blockss & dfc & lang & d & longest & rn & nt & ns & nl & R & B & _ & _ & LO & C1 & C2 & C3 & C4 & L & E & HA & BL).
  exists rn, nt, ns, nl, longest. destruct HA. repeat (split; [assumption|]). split; [|split; [|split]].
  - apply counter_number; [exact C1|]. change (10 ^ Z.of_nat 2) with 100. destruct H as (_ & _ & _ & _ & _ & _ & _ & _ & RN & _). lia.
  - intros k K1 K2. rewrite E, app_length, L, (blocks_length _ BL) in K1. replace k with (length (List.concat blockss)) by lia.
    apply counter_number; [exact C2|]. change (10 ^ Z.of_nat 5) with 100000. lia.
  - intros K. apply counter_number; [exact C3|]. change (10 ^ Z.of_nat 5) with 100000. lia.
  - intros K. apply counter_number; [exact C4|]. exact K.
Qed.

(** A field of [n] digits cannot hold more. *)
Lemma field_too_small (file s : str) at_ n v w : bytes_at file at_ n s -> numeral s v -> 10 ^ Z.of_nat n <= w -> v <> w.
Proof. intros (p & q & _ & _ & L) N W ->. apply numeral_range in N. rewrite L in N. lia. Qed.

(** * Errors *)

Definition not_programming {A : Type} (x : res A) : Prop := x <> Throw EProgramming.
Lemma np_bind {A B : Type} (x : res A) (f : A -> res B) : not_programming x -> (forall y, not_programming (f y)) -> not_programming (bind x f).
Proof. intros X F. destruct x as [y|e|u]; cbn [bind]; [apply F|intros E; apply X; congruence|discriminate]. Qed.
Lemma np_ok {A : Type} (x : A) : not_programming (Ok x). Proof. discriminate. Qed.
Lemma np_undef {A : Type} u : not_programming (@Undef A u). Proof. discriminate. Qed.
Lemma np_to_int o : not_programming (to_int o).
Proof. destruct o as [z|]; cbn; [destruct (in_int z); discriminate|discriminate]. Qed.
Lemma np_opt {A : Type} (o : option A) : not_programming (opt_get o).
Proof. destruct o; discriminate. Qed.
Lemma np_mapM {A B : Type} (f : A -> res B) l : (forall x, not_programming (f x)) -> not_programming (mapM f l).
Proof. intros F. induction l as [|x l IH]; cbn [mapM]; [apply np_ok|]. apply np_bind; [apply F|]. intros y. apply np_bind; [exact IH|]. intros; apply np_ok. Qed.

Lemma np_position l : not_programming (stl_vertical_position l).
Proof.
  unfold stl_vertical_position. destruct (v_prop (l_vpos l)).
  - destruct (match v_ref (l_vpos l) with Some r => r | None => TOP_OF_SCREEN end); try apply np_to_int. apply np_ok.
  - destruct (v_line (l_vpos l)); [|apply np_ok]. apply np_bind; [apply np_opt|]. intros y.
    destruct (match v_ref (l_vpos l) with Some r => r | None => TOP_OF_SCREEN end); try apply np_to_int. apply np_ok.
Qed.
Lemma np_frames t r : not_programming (frames_at t r).
Proof.
  unfold frames_at. destruct (t_rate t); [|discriminate]. apply np_bind; [|intros; apply np_to_int].
  unfold imul, chk. destruct (in_int _); discriminate.
Qed.
Lemma np_timecode at_ t fps buf : not_programming (put_timecode at_ t fps buf).
Proof.
  unfold put_timecode, writer_rate. apply np_bind; [apply np_bind; [apply np_to_int|intros; apply np_ok]|]. intros r.
  apply np_bind; [apply np_frames|]. intros; apply np_ok.
Qed.
Lemma np_header s top fps buf : not_programming (tti_header s top fps buf).
Proof.
  unfold tti_header. change (cumulative_status_enum_to_file CUMULATIVE_STATUS_NOT_CUMULATIVE) with (@Ok Z 0). change (comment_enum_to_file COMMENT_NO) with (@Ok Z 0).
  cbn [bind]. apply np_bind; [apply np_timecode|]. intros b1. apply np_bind; [apply np_timecode|]. intros b2.
  apply np_bind; [apply np_opt|]. intros t. destruct (s_lines s) as [|l ls]; cbn [bind]; [apply np_undef|].
  rewrite justification_ok. apply np_ok.
Qed.
Lemma np_chunks fuel : forall text k buf, not_programming (tti_chunks fuel text k buf).
Proof.
  induction fuel as [|fuel IH]; intros [|c text] k buf; cbn [tti_chunks]; try apply np_ok; [apply np_undef|].
  apply np_bind; [apply IH|]. intros; apply np_ok.
Qed.
Lemma np_subtitles tab ss fps : forall buf, not_programming (tti_subtitles tab ss fps buf).
Proof.
  induction ss as [|s ss IH]; intros buf; cbn [tti_subtitles]; [apply np_ok|]. apply np_bind.
  - unfold tti_subtitle. apply np_bind; [apply np_mapM, np_position|]. intros vps. apply np_bind; [apply np_header|]. intros; apply np_chunks.
  - intros x. apply np_bind; [apply IH|]. intros; apply np_ok.
Qed.

Lemma refused tab ss a : snd (write_stl_binary ss a tab) = Throw EProgramming <-> ~ header_ok a.
Proof.
  unfold write_stl_binary. cbn [snd]. destruct (asserts_iff a) as [[-> H]|[-> H]]; cbn [bind]; [|now split].
  split; [|contradiction]. intros E. exfalso. revert E. apply np_bind; [apply np_subtitles|]. intros blocks.
  destruct (gsi_total a (Z.of_nat (length blocks)) (Z.of_nat (length ss)) (longest_line ss) H) as (g & ->). apply np_ok.
Qed.

(** * Text of the blocks *)

(** The text fields of the blocks, put together; the extension numbers. *)
Lemma chunked_text k t cs : chunked k t cs ->
  exists fill, (fill < 112)%nat /\ List.concat (map snd cs) = t ++ repeat 0x8F fill.
Proof.
  induction 1 as [k t N L|k t r bs L N C (fill & F & IH)].
  - exists (112 - length t)%nat. destruct t as [|c t]; [congruence|]. cbn [length] in *. split; [lia|]. cbn [map snd List.concat]. now rewrite app_nil_r.
  - exists fill. split; [exact F|]. cbn [map snd List.concat]. now rewrite IH, app_assoc.
Qed.
Lemma chunked_ext k t cs : chunked k t cs -> forall i c, nth_error cs i = Some c ->
  (S i = length cs -> fst c = 255) /\ (S i <> length cs -> fst c = (k + Z.of_nat i) mod 256).
Proof.
  induction 1 as [k t N L|k t r bs L N C IH]; intros i c E.
  - destruct i as [|[|i]]; [injection E as <-|discriminate..]. cbn. split; [reflexivity|congruence].
  - destruct i as [|i].
    + injection E as <-. split; [|intros _; cbn [fst]; f_equal; lia]. destruct C; cbn [length]; discriminate.
    + destruct (IH i c E) as [A B]. cbn [length]. split; [intros X; apply A; lia|]. intros X. rewrite B by lia. f_equal. lia.
Qed.

Lemma block_fields (b : str) h e : length h = 3%nat -> forall q t, length q = 12%nat -> map char_code b = h ++ e :: q ++ t ->
  byte_at b 3 e /\ bytes (skipn 16 b) = t.
Proof.
  intros LH q t LQ E. assert (L3 : (3 < length b)%nat) by (rewrite <- (map_length char_code), E, !app_length; cbn [length]; lia).
  split.
  - apply byte_at_iff; [exact L3|]. unfold get_int. rewrite code_char, <- (map_nth char_code), E.
    rewrite app_nth2 by lia. rewrite LH. reflexivity.
  - unfold bytes. rewrite <- skipn_map, E. destruct h as [|x0 [|x1 [|x2 [|]]]]; try discriminate. cbn [app].
    change (skipn 16 (x0 :: x1 :: x2 :: e :: q ++ t)) with (skipn 12 (q ++ t)). rewrite <- LQ. rewrite skipn_app, skipn_all, Nat.sub_diag. reflexivity.
Qed.

Lemma subtitle_text n s rows blocks : subtitle_blocks n s rows blocks ->
  exists its text fill, line_items None (combine (s_lines s) rows) its /\ coded false false its text /\ (fill < 112)%nat /\
    bytes (List.concat (map (skipn 16) blocks)) = text ++ repeat 0x8F fill /\
    forall i b, nth_error blocks i = Some b ->
      byte_at b 3 (if Nat.eqb (S i) (length blocks) then 255 else Z.of_nat i mod 256).
Proof.
  intros (h1 & m1 & s1 & f1 & h2 & m2 & s2 & f2 & top & first & its & text & chunks & _ & _ & _ & _ & LI & CO & CH & F).
  destruct (chunked_text _ _ _ CH) as (fill & FL & CT). exists its, text, fill. repeat (split; [assumption|]).
  assert (BF : Forall2 (fun c b => byte_at b 3 (fst c) /\ bytes (skipn 16 b) = snd c) chunks blocks).
  { eapply Forall2_impl; [|exact F]. intros c b E. now apply (block_fields b [1; 0; 0] (fst c) eq_refl [0; h1 mod 256; m1; s1; f1 mod 256; h2 mod 256; m2; s2; f2 mod 256; top mod 256; justification_of first; 0] (snd c) eq_refl). }
  split.
  - rewrite <- CT. clear - BF. induction BF as [|c b cs bs [_ X] _ IH]; [reflexivity|]. cbn [map List.concat]. now rewrite bytes_app, X, IH.
  - pose proof (Forall2_len _ _ _ BF) as LL. intros i b E.
    assert (EC : exists c, nth_error chunks i = Some c /\ byte_at b 3 (fst c)).
    { clear - BF E. revert i E. induction BF as [|c b' cs bs [X _] _ IH]; intros [|i] E; try discriminate; [injection E as ->; now exists c|]. now apply IH. }
    destruct EC as (c & E1 & E2). destruct (chunked_ext _ _ _ CH i c E1) as [A B]. rewrite <- LL.
    destruct (Nat.eqb_spec (S i) (length chunks)) as [X|X]; [rewrite A in E2 by exact X|rewrite B in E2 by exact X]; exact E2.
Qed.

Lemma combine_facts {A B C : Type} (P : A -> B -> Prop) (Q : A * B -> C -> Prop) l m n :
  Forall2 P l m -> Forall2 Q (combine l m) n -> Forall2 (fun x z => exists y, P x y /\ Q (x, y) z) l n.
Proof.
  intros F. revert n. induction F as [|x y l m X _ IH]; intros n G; inversion G; subst; constructor; eauto.
Qed.

Lemma written_text n a ss file : header_ok a -> stl_written n a ss file ->
  exists head blockss, file = head ++ List.concat (List.concat blockss) /\ length head = 1024%nat /\
    Forall (fun b => length b = 128%nat) (List.concat blockss) /\ Forall2 text_in_blocks ss blockss.
Proof.
  intros H W. destruct (written_structure n a ss file H W) as (rowss & blockss & dfc & lang & d & longest & rn & nt & ns & nl & R & B & _ & _ & _ & _ & _ & _ & _ & L & E & _ & BL).
  eexists. exists blockss. split; [exact E|]. split; [exact L|]. split; [exact BL|].
  pose proof (combine_facts _ _ _ _ _ R B) as F. eapply Forall2_impl; [|exact F]. cbv beta. intros s bs (rows & [R1 _] & SB). cbn [fst snd] in SB.
  destruct (subtitle_text _ _ _ _ SB) as (its & text & fill & X). exists rows, its, text, fill. split; [exact R1|exact X].
Qed.

(** * Frame bytes *)

Lemma nth_block (bs : list str) rest k b : Forall (fun b => length b = 128%nat) bs -> (k < length bs)%nat ->
  bytes_at (List.concat bs ++ rest) (128 * k) 128 b -> In b bs.
Proof.
  intros F. revert k. induction F as [|x bs X F IH]; intros k K B; [cbn in K; lia|]. destruct k as [|k].
  - left. apply (bytes_at_unique (List.concat (x :: bs) ++ rest) 0 128); [|exact B].
    exists [], (List.concat bs ++ rest). cbn [List.concat app]. rewrite app_assoc. now repeat split.
  - right. apply (IH k); [cbn in K; lia|]. destruct B as (p & q & E & LP & LB).
    assert (XP : exists p', p = x ++ p').
    { exists (skipn 128 p). rewrite <- (firstn_skipn 128 p) at 1. f_equal. cbn [List.concat] in E. rewrite <- !app_assoc in E.
      apply (f_equal (firstn 128)) in E. rewrite firstn_app, X, Nat.sub_diag, firstn_O, app_nil_r in E.
      rewrite <- X, firstn_all, X in E. rewrite firstn_app in E. replace (128 - length p)%nat with 0%nat in E by lia.
      rewrite firstn_O, app_nil_r in E. now symmetry. }
    destruct XP as (p' & ->). exists p', q. cbn [List.concat] in E. rewrite <- !app_assoc in E. apply app_inv_head in E.
    split; [exact E|]. rewrite app_length in LP. split; [lia|exact LB].
Qed.

Lemma written_block n a ss file k b : header_ok a -> stl_written n a ss file -> block_at file k b ->
  exists s rows blocks, In s ss /\ rows_ok s rows /\ subtitle_blocks n s rows blocks /\ In b blocks.
Proof.
  intros H W B. destruct (written_structure n a ss file H W) as (rowss & blockss & dfc & lang & d & longest & rn & nt & ns & nl & R & SB & _ & _ & _ & _ & _ & _ & _ & L & E & _ & BL).
  assert (I : In b (List.concat blockss)).
  { destruct B as (p & q & EF & LP & LB). apply (nth_block (List.concat blockss) [] k); [exact BL| |].
    - assert (LL : length file = (1024 + 128 * length (List.concat blockss))%nat) by (rewrite E, app_length, L, (blocks_length _ BL); reflexivity).
      rewrite EF, !app_length, LP, LB in LL. lia.
    - rewrite app_nil_r. exists (skipn 1024 p), q. rewrite skipn_length. split; [|lia].
      rewrite E in EF. apply (f_equal (skipn 1024)) in EF. rewrite <- L in EF at 1. rewrite skipn_app, skipn_all, Nat.sub_diag, skipn_O, app_nil_l in EF.
      rewrite EF, skipn_app. replace (1024 - length p)%nat with 0%nat by lia. reflexivity. }
  apply in_concat in I as (blocks & I1 & I2).
  pose proof (combine_facts _ _ _ _ _ R SB) as F. clear - F I1 I2.
  induction F as [|s bs ss bss (rows & X & Y) F IH]; [contradiction|]. destruct I1 as [->|I1].
  - exists s, rows, blocks. cbn [fst snd] in Y. split; [now left|]. split; [exact X|]. split; [exact Y|exact I2].
  - destruct (IH I1) as (s' & rows' & blocks' & A & Z). exists s', rows', blocks'. split; [now right|exact Z].
Qed.

(** The time is not within half a frame of the next second at [k] frames per second. *)
Lemma timecode_frame k t h m s f : 0 < k < 256 -> timecode (k * 1000) t h m s f ->
  (forall tr, t_rate t = Some tr -> 0 < num tr /\ 0 < den tr /\ 0 <= t_frames t /\ 2 * k * (t_frames t * den tr) < (2 * k - 1) * num tr) ->
  0 <= f < k.
Proof.
  intros K (_ & _ & _ & _ & tr & R & NE & _) H. destruct (H tr R) as (N & D & F & B). clear H.
  assert (P : 0 < num tr * 1000) by lia.
  assert (Y : 0 <= t_frames t * den tr) by nia. set (x := t_frames t * den tr) in *. set (y := num tr) in *. clearbody x y. nia.
Qed.
Lemma timecode_frame_most k t h m s f : 0 < k < 256 -> timecode (k * 1000) t h m s f ->
  (forall tr, t_rate t = Some tr -> 0 < num tr /\ 0 < den tr /\ 0 <= t_frames t /\ t_frames t * den tr < num tr) ->
  0 <= f <= k.
Proof.
  intros K (_ & _ & _ & _ & tr & R & NE & _) H. destruct (H tr R) as (N & D & F & B). clear H.
  assert (Y : 0 <= t_frames t * den tr) by nia. set (x := t_frames t * den tr) in *. set (y := num tr) in *. clearbody x y. nia.
Qed.

Lemma block_times n s rows blocks b : subtitle_blocks n s rows blocks -> In b blocks ->
  exists h1 m1 s1 f1 h2 m2 s2 f2, timecode n (s_from s) h1 m1 s1 f1 /\ timecode n (s_to s) h2 m2 s2 f2 /\
    byte_at b 5 (h1 mod 256) /\ byte_at b 6 m1 /\ byte_at b 7 s1 /\ byte_at b 8 (f1 mod 256) /\
    byte_at b 9 (h2 mod 256) /\ byte_at b 10 m2 /\ byte_at b 11 s2 /\ byte_at b 12 (f2 mod 256).
Proof.
  intros SB I. pose proof (subtitle_block_lengths _ _ _ _ SB) as BL. rewrite Forall_forall in BL. specialize (BL b I).
  destruct SB as (h1 & m1 & s1 & f1 & h2 & m2 & s2 & f2 & top & first & its & text & chunks & T1 & T2 & _ & _ & _ & _ & _ & F).
  exists h1, m1, s1, f1, h2, m2, s2, f2. split; [exact T1|]. split; [exact T2|].
  assert (E : exists c : Z * list Z, map char_code b = [1; 0; 0; fst c; 0; h1 mod 256; m1; s1; f1 mod 256; h2 mod 256; m2; s2; f2 mod 256; top mod 256; justification_of first; 0] ++ snd c).
  { clear - F I. induction F as [|c b' cs bs X _ IH]; [contradiction|]. destruct I as [->|I]; [now exists c|now apply IH]. }
  destruct E as (c & E).
  assert (B : forall i, (i < 16)%nat -> byte_at b i (nth i (map char_code b) 0)).
  { intros i Hi. apply byte_at_iff; [lia|]. unfold get_int. rewrite code_char. change 0 with (char_code zero). now rewrite map_nth. }
  rewrite E in B.
  repeat split.
  - exact (B 5%nat ltac:(lia)).
  - exact (B 6%nat ltac:(lia)).
  - exact (B 7%nat ltac:(lia)).
  - exact (B 8%nat ltac:(lia)).
  - exact (B 9%nat ltac:(lia)).
  - exact (B 10%nat ltac:(lia)).
  - exact (B 11%nat ltac:(lia)).
  - exact (B 12%nat ltac:(lia)).
Qed.
