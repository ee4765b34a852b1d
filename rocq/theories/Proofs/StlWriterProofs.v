(** The binary STL writer writes what the file format asks for. *)
From Coq Require Import ZArith Reals List Bool Ascii String Lia Lra.
From Verif.Model Require Import Base Strings Float TimeModel Types RawConvert Iso6937Tables Utf Iso6937 StlTables StlUtil
  StlBinReader StlBinWriter.
From Verif.Spec Require Import Outcome TextSpec TimeSpec Utf8Spec Iso6937Spec PositionSpec StlTableSpec StlFileSpec StlWriteSpec.
From Verif.Proofs Require Import TimeProofs StringProofs Iso6937Proofs UtfProofs StlReadProofs StlWriteProofs StlRowProofs.
Import ListNotations.
Local Open Scope Z_scope.
Local Notation length := List.length.

Definition rows_ok (s : subtitle) (rows : list Z) : Prop :=
  Forall2 (fun l => row_of (l_vpos l)) (s_lines s) rows /\ Forall (fun r => 0 <= r <= 23) rows.

Lemma positions_ok ls : Forall (fun l => placed (l_vpos l)) ls ->
  exists rows, mapM stl_vertical_position ls = Ok rows /\ Forall2 (fun l => row_of (l_vpos l)) ls rows /\ Forall (fun r => 0 <= r <= 23) rows.
Proof.
  induction 1 as [|l ls P _ (rows & E & A & B)].
  - exists []. repeat split; constructor.
  - destruct (row_ok l P) as (row & R & R1 & R2). exists (row :: rows). cbn [mapM]. rewrite R. cbn [bind]. rewrite E. repeat split; now constructor.
Qed.

Lemma combine_fst {A B : Type} (P : A -> Prop) (l : list A) : Forall P l -> forall m : list B, Forall (fun x => P (fst x)) (combine l m).
Proof. induction 1; intros [|b m]; cbn; constructor; auto. Qed.

Lemma subtitle_ok h n fps s buf : stl_rate fps n -> writable s -> length buf = 128%nat ->
  exists rows blocks buf', tti_subtitle (after h) s fps buf = Ok (blocks, buf') /\ length buf' = 128%nat /\
    mapM stl_vertical_position (s_lines s) = Ok rows /\ rows_ok s rows /\
    subtitle_blocks n s rows blocks /\ Forall (fun b => length b = 128%nat) blocks.
Proof.
  intros S (NE & T1 & T2 & F) L. unfold tti_subtitle.
  destruct (positions_ok (s_lines s)) as (rows & ER & R1 & R2).
  { eapply Forall_impl; [|exact F]. intros l [P _]. exact P. }
  rewrite ER. cbn [bind].
  destruct (top_of_least rows) as (top & ET & LT).
  { intros ->. inversion R1 as [X|]. now apply NE. }
  rewrite ET. destruct (hd_error (s_lines s)) as [first|] eqn:FE; [|destruct (s_lines s); [congruence|discriminate]].
  destruct (timecode_ok fps n (s_from s) S T1) as (f1 & F1 & TC1). destruct (timecode_ok fps n (s_to s) S T2) as (f2 & F2 & TC2).
  destruct (header_made s top fps _ f1 f2 first buf L (rate_ok _ _ S) F1 F2 FE) as (b0 & b1 & b2 & e & q & rest & EH & Q & RS & B & BQ).
  rewrite EH. cbn [bind].
  destruct (lines_text h (combine (s_lines s) rows)) with (last := @None Z) (i := false) (u := false) as (its & LI & CO).
  { apply (combine_fst (fun l => Forall text_plain (l_blocks l))). eapply Forall_impl; [|exact F]. intros l [_ X]. exact X. }
  fold (tti_text (after h) (s_lines s) rows) in CO. set (text := tti_text (after h) (s_lines s) rows) in *.
  assert (TN : text <> []). { unfold text, tti_text. intros X. now apply app_eq_nil in X as [_ X]. }
  destruct (chunks_ok (length text) text 0 b0 b1 b2 e q rest TN (le_n _) Q RS) as (chunks & blocks & e' & r' & EC & R' & CH & FB).
  exists rows, blocks, ([b0; b1; b2; e'] ++ q ++ r'). split; [exact EC|]. split; [rewrite !app_length, Q, R'; reflexivity|].
  split; [reflexivity|]. split; [split; assumption|].
  pose proof TC1 as (_ & _ & M1 & M2 & _). pose proof TC2 as (_ & _ & M3 & M4 & _).
  assert (FB' : Forall2 (fun chunk b => map char_code b =
        [1; 0; 0; fst chunk; 0; hours (s_from s) mod 256; minutes (s_from s); seconds (s_from s); f1 mod 256; hours (s_to s) mod 256; minutes (s_to s); seconds (s_to s); f2 mod 256; top mod 256; justification_of first; 0]
        ++ snd chunk) chunks blocks).
  { eapply Forall2_iff; [|exact FB]. intros c b. change (map char_code b) with (bytes b). rewrite B, BQ.
    rewrite (Z.mod_small (minutes _)), (Z.mod_small (seconds _)), (Z.mod_small (minutes (s_to s))), (Z.mod_small (seconds (s_to s))) by lia.
    reflexivity. }
  split.
  - exists (hours (s_from s)), (minutes (s_from s)), (seconds (s_from s)), f1, (hours (s_to s)), (minutes (s_to s)), (seconds (s_to s)), f2,
      top, first, its, (bytes text), chunks. repeat (split; [eassumption|]). exact FB'.
  - assert (CL : forall k t cs, chunked k t cs -> Forall (fun c => length (snd c) = 112%nat) cs).
    { clear. induction 1 as [k t N L|k t r bs L N C IH]; constructor; cbn [snd]; [|constructor|exact L|exact IH].
      rewrite app_length, repeat_length. lia. }
    apply CL in CH. clear - FB' CH. induction FB' as [|c b cs bs X _ IH]; constructor.
    + apply Forall_inv in CH. rewrite <- (map_length char_code), X, app_length, CH. reflexivity.
    + apply IH. now apply Forall_inv_tail in CH.
Qed.

Lemma subtitles_ok h n fps ss : stl_rate fps n -> Forall writable ss -> forall buf, length buf = 128%nat ->
  exists rowss blockss, tti_subtitles (after h) ss fps buf = Ok (List.concat blockss) /\
    Forall2 (fun s rows => mapM stl_vertical_position (s_lines s) = Ok rows) ss rowss /\ Forall2 rows_ok ss rowss /\
    Forall2 (fun sr bs => subtitle_blocks n (fst sr) (snd sr) bs) (combine ss rowss) blockss /\ Forall (fun b => length b = 128%nat) (List.concat blockss).
Proof.
  intros S. induction 1 as [|s ss W _ IH]; intros buf L.
  - exists [], []. repeat split; constructor.
  - destruct (subtitle_ok h n fps s buf S W L) as (rows & blocks & buf' & E & L' & EX & RO & SB & B).
    destruct (IH buf' L') as (rowss & blockss & E2 & EX2 & RO2 & SB2 & B2).
    exists (rows :: rowss), (blocks :: blockss). cbn [tti_subtitles]. rewrite E. cbn [bind fst snd]. rewrite E2.
    split; [reflexivity|]. split; [now constructor|]. split; [now constructor|]. split; [constructor; [exact SB|exact SB2]|]. cbn [List.concat]. now apply Forall_app.
Qed.

Lemma line_bytes_eq l : line_bytes l = bytes_of_line l.
Proof.
  unfold line_bytes, bytes_of_line.
  assert (G : forall bs z, fold_left (fun t k => t + Z.of_nat (length (b_text k))) bs z = z + Z.of_nat (length (List.concat (map b_text bs)))).
  { induction bs as [|k bs IH]; intros z; cbn [fold_left map List.concat]; [cbn; lia|]. rewrite IH, app_length. lia. }
  now rewrite G.
Qed.

Lemma longest_ok ss : longest_is ss (longest_line ss) /\ 0 <= longest_line ss.
Proof.
  unfold longest_is, longest_line.
  assert (G : forall ls m, let r := fold_left (fun m l => Z.max m (line_bytes l)) ls m in
    m <= r /\ Forall (fun k => k <= r) (map bytes_of_line ls) /\ (r = m \/ In r (map bytes_of_line ls))).
  { induction ls as [|l ls IH]; intros m; cbn [fold_left map]; cbv zeta.
    - split; [lia|]. split; [constructor|now left].
    - destruct (IH (Z.max m (line_bytes l))) as (A & B & C). rewrite line_bytes_eq in *. split; [lia|]. split; [constructor; [lia|exact B]|].
      destruct C as [C|C]; [|right; now right]. rewrite C. destruct (Z.max_spec m (bytes_of_line l)) as [[_ M]|[_ M]]; rewrite M; [right; now left|now left]. }
  assert (H : forall ss m, let r := fold_left (fun m s => fold_left (fun m l => Z.max m (line_bytes l)) (s_lines s) m) ss m in
    m <= r /\ Forall (fun k => k <= r) (map bytes_of_line (List.concat (map s_lines ss))) /\
    (r = m \/ In r (map bytes_of_line (List.concat (map s_lines ss))))).
  { clear ss. induction ss as [|s ss IH]; intros m; cbn [fold_left map List.concat]; cbv zeta.
    - split; [lia|]. split; [constructor|now left].
    - destruct (IH (fold_left (fun m l => Z.max m (line_bytes l)) (s_lines s) m)) as (A & B & C).
      destruct (G (s_lines s) m) as (A1 & B1 & C1). rewrite map_app. split; [lia|]. split.
      + apply Forall_app. split; [|exact B]. eapply Forall_impl; [|exact B1]. cbv beta. intros k K. lia.
      + rewrite in_app_iff. destruct C as [C|C]; [|now right; right]. rewrite C. destruct C1 as [C1|C1]; [now left|right; now left]. }
  destruct (H ss 0) as (A & B & C). cbv zeta in *. split; [|exact A]. split; [exact B|].
  destruct C as [C|C]; [|now left]. destruct (map bytes_of_line (List.concat (map s_lines ss))) as [|x l] eqn:E; [right; now split|].
  left. rewrite C in *. apply Forall_inv in B. left. cut (0 <= x); [lia|].
  destruct (List.concat (map s_lines ss)) as [|y ys]; [discriminate|]. injection E as <- _. unfold bytes_of_line. lia.
Qed.

Lemma blocks_length (bs : list str) : Forall (fun b => length b = 128%nat) bs -> length (List.concat bs) = (128 * length bs)%nat.
Proof. induction 1 as [|b bs B _ IH]; cbn [List.concat length]; [reflexivity|]. rewrite app_length, B, IH. lia. Qed.

Lemma Forall2_len {A B : Type} (P : A -> B -> Prop) l m : Forall2 P l m -> length l = length m.
Proof. induction 1; cbn [length]; congruence. Qed.
Lemma blocks_many n ss rowss blockss : Forall2 (fun sr bs => subtitle_blocks n (fst sr) (snd sr) bs) (combine ss rowss) blockss ->
  length ss = length rowss -> (length ss <= length (List.concat blockss))%nat.
Proof.
  revert rowss blockss. induction ss as [|s ss IH]; intros [|rows rowss] blockss F L; cbn [length] in *; try lia.
  cbn [combine] in F. inversion F as [|x bs y bss A B]; subst. cbn [List.concat]. rewrite app_length.
  specialize (IH rowss bss B ltac:(lia)). cut (1 <= length bs)%nat; [lia|].
  destruct A as (? & ? & ? & ? & ? & ? & ? & ? & ? & ? & ? & ? & chunks & _ & _ & _ & _ & _ & _ & C & D).
  destruct C; inversion D; cbn [length]; lia.
Qed.


Lemma gsi_total a x y z : header_ok a -> exists g, make_gsi a x y z = Ok g.
Proof.
  intros (T1 & T2 & T3 & T4 & T5 & T6 & D1 & D2 & RN & CO & P & E1 & E2). unfold make_gsi.
  destruct (lang_file (w_language a)) as (lang & d & LE & _). rewrite LE. cbn [bind].
  repeat (rewrite put_field by (assumption || lia); cbn [bind]). eauto.
Qed.

(** Arguments like those of [acceptable], with any revision number that is not too large. *)
Lemma write_parts_any h ss a n : stl_rate (w_fps a) n -> Forall writable ss -> header_ok a ->
  Forall (fun s => Forall (fun l => bytes_of_line l < 2 ^ 31) (s_lines s)) ss ->
  exists rowss blockss g, snd (write_stl_binary ss a (after h)) = Ok (g ++ List.concat (List.concat blockss)) /\
    Forall2 (fun s rows => mapM stl_vertical_position (s_lines s) = Ok rows) ss rowss /\ Forall2 rows_ok ss rowss /\
    Forall2 (fun sr bs => subtitle_blocks n (fst sr) (snd sr) bs) (combine ss rowss) blockss /\
    Forall (fun b => length b = 128%nat) (List.concat blockss) /\
    make_gsi a (Z.of_nat (length (List.concat blockss))) (Z.of_nat (length ss)) (longest_line ss) = Ok g /\
    longest_is ss (longest_line ss) /\ 0 <= longest_line ss < 2 ^ 31 /\ (length ss <= length (List.concat blockss))%nat.
Proof.
  intros S W HO LS. unfold write_stl_binary. cbn [snd].
  destruct (asserts_iff a) as [[-> _]|[_ N]]; [|contradiction]. cbn [bind].
  assert (T : exists h', (if writer_converts ss a then ensure (after h) else after h) = after h').
  { destruct (writer_converts ss a); [|now exists h]. exists (h ++ [Encode []]). unfold after. rewrite fold_left_app. reflexivity. }
  destruct T as (h' & ->).
  destruct (subtitles_ok h' n (w_fps a) ss S W (repeat zero 128) eq_refl) as (rowss & blockss & E & EX & RO & SB & BL).
  unfold make_tti_blocks. rewrite E. cbn [bind].
  destruct (longest_ok ss) as [LO L0].
  assert (L1 : longest_line ss < 2 ^ 31).
  { destruct LO as [_ [I|[_ ->]]]; [|reflexivity]. apply in_map_iff in I as (l & <- & I). apply in_concat in I as (ls & I1 & I2).
    apply in_map_iff in I1 as (s & <- & I1). rewrite Forall_forall in LS. specialize (LS s I1). rewrite Forall_forall in LS. now apply LS. }
  destruct (gsi_total a (Z.of_nat (length (List.concat blockss))) (Z.of_nat (length ss)) (longest_line ss) HO) as (g & EG).
  rewrite EG. cbn [bind]. exists rowss, blockss, g. split; [reflexivity|]. split; [exact EX|]. split; [exact RO|]. split; [exact SB|]. split; [exact BL|]. split; [exact EG|].
  split; [exact LO|]. split; [lia|]. exact (blocks_many n ss rowss blockss SB (Forall2_len _ _ _ RO)).
Qed.

Lemma write_parts_gsi h ss a n : acceptable n a ss ->
  exists rowss blockss g, snd (write_stl_binary ss a (after h)) = Ok (g ++ List.concat (List.concat blockss)) /\
    Forall2 (fun s rows => mapM stl_vertical_position (s_lines s) = Ok rows) ss rowss /\
    Forall2 (fun sr bs => subtitle_blocks n (fst sr) (snd sr) bs) (combine ss rowss) blockss /\
    Forall (fun b => length b = 128%nat) (List.concat blockss) /\
    make_gsi a (Z.of_nat (length (List.concat blockss))) (Z.of_nat (length ss)) (longest_line ss) = Ok g /\
    (small (g ++ List.concat (List.concat blockss)) ->
      exists lang d longest,
        Forall2 rows_ok ss rowss /\ disk_format (w_fps a) (stl_frame_rate_to_dfc (w_fps a)) /\
        In (lang, w_language a, d) ebu_languages /\ longest_is ss longest /\
        gsi_layout a (stl_frame_rate_to_dfc (w_fps a)) lang (Z.of_nat (length (List.concat blockss))) (Z.of_nat (length ss)) longest g).
Proof.
  intros (S & W & HO & RN & LS). destruct (write_parts_any h ss a n S W HO LS) as (rowss & blockss & g & E & EX & RO & SB & BL & EG & LO & L1 & LM).
  exists rowss, blockss, g. split; [exact E|]. split; [exact EX|]. split; [exact SB|]. split; [exact BL|]. split; [exact EG|].
  unfold small. intros LF. pose proof (blocks_length _ BL) as BLE. unfold str in *. rewrite app_length, BLE in LF.
  destruct (gsi_ok a (Z.of_nat (length (List.concat blockss))) (Z.of_nat (length ss)) (longest_line ss)) as (lang & d & g' & LI & EG' & GL); try assumption; try lia.
  rewrite EG' in EG. apply Ok_inj in EG. subst g'.
  exists lang, d, (longest_line ss). split; [exact RO|]. split.
  { destruct S as (x & V & B & _). apply (dfc_ok _ x V). apply Rabs_le. lra. }
  split; [exact LI|]. split; [exact LO|]. exact GL.
Qed.

Lemma write_parts h ss a n : acceptable n a ss ->
  exists rowss blockss g, snd (write_stl_binary ss a (after h)) = Ok (g ++ List.concat (List.concat blockss)) /\
    Forall2 (fun s rows => mapM stl_vertical_position (s_lines s) = Ok rows) ss rowss /\
    Forall2 (fun sr bs => subtitle_blocks n (fst sr) (snd sr) bs) (combine ss rowss) blockss /\
    Forall (fun b => length b = 128%nat) (List.concat blockss) /\
    (small (g ++ List.concat (List.concat blockss)) ->
      exists lang d longest,
        Forall2 rows_ok ss rowss /\ disk_format (w_fps a) (stl_frame_rate_to_dfc (w_fps a)) /\
        In (lang, w_language a, d) ebu_languages /\ longest_is ss longest /\
        gsi_layout a (stl_frame_rate_to_dfc (w_fps a)) lang (Z.of_nat (length (List.concat blockss))) (Z.of_nat (length ss)) longest g).
Proof.
  intros A. destruct (write_parts_gsi h ss a n A) as (rowss & blockss & g & E & EX & SB & BL & _ & F). exists rowss, blockss, g. auto.
Qed.

Lemma write_ok h ss a n : acceptable n a ss ->
  exists file, snd (write_stl_binary ss a (after h)) = Ok file /\ (small file -> stl_written n a ss file).
Proof.
  intros A. destruct (write_parts h ss a n A) as (rowss & blockss & g & E & _ & SB & _ & F). eexists. split; [exact E|].
  intros L. destruct (F L) as (lang & d & longest & RO & DF & LI & LO & GL).
  exists rowss, blockss, (stl_frame_rate_to_dfc (w_fps a)), lang, d, longest, g. repeat (split; [assumption|]). reflexivity.
Qed.
