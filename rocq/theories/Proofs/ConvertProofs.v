(** Reading a file, collecting what was read and writing it as a binary STL file. *)
From Coq Require Import ZArith Reals Lia Lra List Bool Ascii String.
From Verif.Model Require Import Base Strings Float TimeModel Types Lines Collect Ssa Subrip WebVtt StlText StlUtil StlBinReader StlBinWriter.
From Verif.Spec Require Import Outcome TextSpec LinesSpec TimeSpec Utf8Spec Iso6937Spec SortSpec CollectSpec PositionSpec StlFileSpec StlWriteSpec RawSpec StopSpec WebVttSpec SubripUseSpec SsaUseSpec CollectReadSpec ConvertSpec.
From Verif.Proofs Require Import SortProofs CollectProofs LinesProofs CollectReadProofs.
From Verif.Proofs Require StlReadProofs StlWriteProofs StlUseProofs SubripProofs WebVttProofs StlTextProofs SsaProofs.
Import ListNotations.
Local Open Scope Z_scope.
Local Notation length := List.length.

Lemma ready_converted n a raws : all_comparable raws -> Forall raw_writable raws -> writer_ready n a raws -> converted n a raws.
Proof. intros C W (R & H & V & L) sort h S. now apply StlUseProofs.collected_written. Qed.

(** * Binary STL *)

Lemma utf8_nul s w : utf8 s w -> In 0 w -> In (ascii_of_nat 0) s.
Proof.
  intros (parts & F & E) I. assert (J : In 0 (List.concat parts)).
  { clear E. induction F as [|v p w parts C F IH]; [destruct I|]. cbn [List.concat]. apply in_app_iff. destruct I as [->|I]; [left|right; auto].
    inversion C; subst; [now left|lia..]. }
  rewrite <- E in J. apply in_map_iff in J. destruct J as (c & Z0 & I'). unfold char_code in Z0.
  replace (ascii_of_nat 0) with c; [exact I'|]. rewrite <- (ascii_nat_embedding c). f_equal. lia.
Qed.


Lemma c_number_small s v : c_number s v -> (length s <= 2)%nat -> Z.abs v < 100.
Proof.
  intros C L. assert (K : forall d n, numeral d n -> (length d <= 2)%nat -> Z.abs n < 100).
  { intros d n N B. apply StlFileProofs.numeral_range in N. assert (10 ^ Z.of_nat (length d) <= 10 ^ 2) by (apply Z.pow_le_mono_r; lia). lia. }
  destruct C as [sp d v rest _ N _|sp d v rest _ N _|sp d v rest _ N _|sp rest _ _ _ _|sp c rest _ _ _]; rewrite ?app_length in L; cbn [length] in L; rewrite ?app_length in L;
    try (cbn; lia); try (apply (K d); [exact N|lia]).
  rewrite Z.abs_opp. apply (K d); [exact N|lia].
Qed.
Lemma rows_small head g : header_read head g -> Z.abs (maximum_rows g) < 100.
Proof.
  intros H. assert (R : exists r, number_at head 253 2 r /\ (r = 99 /\ maximum_rows g = 12 \/ r <> 99 /\ maximum_rows g = r)) by (unfold header_read in H; tauto).
  destruct R as (r & (s & (p & q & _ & _ & L) & N) & [(_ & ->)|(_ & ->)]); [lia|]. apply (c_number_small s); [exact N|lia].
Qed.

Lemma decodes_known d bs w : decodes d bs w -> Forall (fun c => c = 0 \/ representable c) w.
Proof. induction 1; try exact IHdecodes; try constructor; try assumption; try (now left); right; eexists; eassumption. Qed.
(** What is known of the pieces of a file before they are moved. *)
Definition from_file (g : gsi) (r : raw) : Prop :=
  (exists w, utf8 (r_text r) w /\ Forall (fun c => c = 0 \/ representable c) w) /\ (exists row, r_vpos r = mkV None (Some row) (Some (maximum_rows g)) (Some TOP_OF_SCREEN)) /\
  0 <= t_seconds (r_from r) /\ 0 <= t_frames (r_from r) <= 255 /\ 0 <= t_seconds (r_to r) /\ 0 <= t_frames (r_to r) <= 255.
Lemma timecode_from_zero b n rate t : timecode_at b n rate t -> 0 <= t_seconds t /\ 0 <= t_frames t <= 255.
Proof. intros (h & m & s & f & A & B & C & D & ->). apply byte_at_range in A, B, C, D. cbn. lia. Qed.
Lemma block_from_file g b raws last : block_read g b raws last -> Forall (from_file g) raws.
Proof.
  intros [L B|from to top just text rows pieces rs L B F T _ _ _ _ _ _ _ P]; [constructor|]. apply timecode_from_zero in F, T.
  clear -F T P. induction P as [|p r ps rs K P IH]; [constructor|]. constructor; [|exact IH]. destruct p as [[row st] bs]. destruct K as (w & text & DW & U & ->).
  split; [exists w; split; [exact U|now apply (decodes_known None bs)]|]. split; [now exists row|]. cbn [r_from r_to]. tauto.
Qed.
Lemma moved_from_file g d r r' : from_file g r -> moved_up d r r' -> from_file g r'.
Proof. intros (U & (row0 & V) & T) (row & rows & E & ->). split; [exact U|]. split; [|exact T]. rewrite V in E. injection E as -> ->. cbn. eexists. reflexivity. Qed.
Lemma all_from_file h input g subs : snd (stl_binary_read input (after h)) = Ok (g, subs) -> Forall (from_file g) subs /\ Z.abs (maximum_rows g) < 100 /\ 23 <= frame_rate g.
Proof.
  intros E. apply StlReadProofs.read_iff in E. destruct E as (raws & top & (head & blocks & rest & rawss & lasts & _ & H & _ & F & L & -> & _) & M). split.
  - assert (A : Forall (from_file g) (List.concat rawss)).
    { apply concat_forall. clear -F L. revert lasts blocks F L. induction rawss as [|rs rawss IH]; intros lasts blocks F L; [constructor|]. destruct lasts as [|z lasts]; [discriminate|].
      cbn [combine] in F. inversion F as [|b x bs xs B F' E1 E2]; subst. constructor; [now apply block_from_file in B|]. apply (IH lasts bs); [exact F'|]. now injection L. }
    refine (forall2_r _ _ _ _ _ _ A M). intros a b. apply moved_from_file.
  - split; [now apply (rows_small head)|]. destruct H as (_ & _ & (dfc & _ & I) & _). cbn [In reader_rates] in I. destruct I as [I|[I|[I|[I|[]]]]]; injection I as _ <-; lia.
Qed.
Lemma binary_comparable h input g subs : snd (stl_binary_read input (after h)) = Ok (g, subs) -> all_comparable subs.
Proof. intros E. apply binary_meets in E. destruct E as [R F]. apply (comparable_by (at_rate (frame_rate g) 255)); [apply at_rate_ok|apply at_rate_compares; lia|exact F]. Qed.

Lemma binary_writable h input g subs : snd (stl_binary_read input (after h)) = Ok (g, subs) -> 0 < maximum_rows g -> Forall not_above subs -> Forall no_nul subs ->
  Forall raw_writable subs.
Proof.
  intros E MR NA NN. pose proof (all_from_file h input g subs E) as (A & MX & FR).
  apply binary_meets in E as ME. destruct ME as [FB M]. destruct (StlReadProofs.read_rows h input g subs E) as (_ & _ & _ & _ & _ & _ & _ & R).
  rewrite Forall_forall in *. intros r I. destruct (A r I) as ((w & U & _) & (row & V) & T). destruct (M r I) as ((R1 & _) & (R2 & _) & _).
  destruct (R r I) as (row' & O & B). unfold on_row in O. rewrite V in O. injection O as <-. assert (P : 0 <= row) by (apply (NA r I); unfold on_row; now rewrite V).
  assert (K : forall t, t_rate t = Some (mkR (frame_rate g) 1) -> 0 <= t_seconds t -> 0 <= t_frames t <= 255 -> time_ok t).
  { intros t RT S F. split; [exact S|]. exists (mkR (frame_rate g) 1). cbn [num den]. unfold is_int. repeat split; try exact RT; try lia. }
  split; [apply K; tauto|]. split; [apply K; tauto|]. split.
  - rewrite V. apply (placed_line _ row (maximum_rows g)); cbn [v_prop v_line v_lines]; try reflexivity; try lia. cbn [reference v_ref from_top].
    assert (0 < IZR (maximum_rows g))%R by (apply IZR_lt; lia). assert (0 <= IZR row <= IZR (maximum_rows g))%R by (split; apply IZR_le; lia).
    split; [apply Rmult_le_pos; [lra|left; now apply Rinv_0_lt_compat]|]. apply Rmult_le_reg_r with (IZR (maximum_rows g)); [assumption|]. unfold Rdiv. rewrite Rmult_assoc, Rinv_l by lra. lra.
  - exists w. split; [exact U|]. intros Z0. apply (NN r I). now apply (utf8_nul _ w).
Qed.
Theorem binary_converted h input g subs n a : snd (stl_binary_read input (after h)) = Ok (g, subs) -> 0 < maximum_rows g -> Forall not_above subs -> Forall no_nul subs ->
  writer_ready n a subs -> converted n a subs.
Proof. intros E MR NA NN W. apply ready_converted; [now apply (binary_comparable h input g)|now apply (binary_writable h input g)|exact W]. Qed.

(** * SSA *)

Lemma ssa_writable s raws : moderate_numbers s -> formats_timed s -> ssa_reader_string s = Ok raws ->
  Forall times_from_zero raws -> Forall (fun r => StlWriteSpec.placed (r_vpos r)) raws -> Forall real_text raws -> all_comparable raws /\ Forall raw_writable raws.
Proof.
  intros MN FT E TZ PL RT. pose proof (ssa_short s raws MN FT E) as M. split.
  - apply (comparable_by (at_rate 1000 999990)); [apply at_rate_ok|apply at_rate_compares; lia|exact M].
  - rewrite Forall_forall in *. intros r I. destruct (M r I) as ((R1 & B1) & (R2 & B2) & _), (TZ r I) as (S1 & F1 & S2 & F2).
    assert (K : forall t, t_rate t = Some (mkR 1000 1) -> 0 <= t_seconds t -> 0 <= t_frames t -> Z.abs (t_frames t) <= 999990 -> time_ok t).
    { intros t RR S F B. split; [exact S|]. exists (mkR 1000 1). cbn [num den]. unfold is_int. repeat split; try exact RR; try lia. }
    split; [now apply K|]. split; [now apply K|]. split; [now apply PL|exact (RT r I)].
Qed.
Theorem ssa_converted s raws n a : moderate_numbers s -> formats_timed s -> ssa_reader_string s = Ok raws ->
  Forall times_from_zero raws -> Forall (fun r => StlWriteSpec.placed (r_vpos r)) raws -> Forall real_text raws -> writer_ready n a raws -> converted n a raws.
Proof. intros MN FT E TZ PL RT W. destruct (ssa_writable s raws MN FT E TZ PL RT) as [C R]. now apply ready_converted. Qed.

(** * Positions without a number of lines *)

Definition loose (r : raw) : Prop := v_line (r_vpos r) <> None /\ v_lines (r_vpos r) = None.

Lemma loose_position l r : loose r -> unplaced r -> l_vpos l = r_vpos r -> stl_vertical_position l = Undef UbEmptyOptional.
Proof. intros (A & B) C E. unfold stl_vertical_position. rewrite E. rewrite C, B. destruct (v_line (r_vpos r)); [reflexivity|congruence]. Qed.
Lemma loose_never raws : all_comparable raws -> Forall loose raws -> Forall unplaced raws -> raws <> [] -> never_converted raws.
Proof.
  intros C L U N sort h a S H. destruct (collect_spec sort raws S C) as (sorted & subs & groups & (P & _) & E & (EG & F & _)). exists subs. split; [exact E|].
  assert (NS : sorted <> []) by (intros ->; apply Permutation.Permutation_sym, Permutation.Permutation_nil in P; contradiction).
  destruct F as [|s grp subs groups SH F]; [cbn in EG; congruence|]. unfold subtitle_holds in SH. destruct (List.concat grp) as [|p rest] eqn:EC; [destruct SH|].
  destruct SH as (_ & _ & _ & _ & LH & _). destruct (s_lines s) as [|l ls] eqn:ES; inversion LH as [EX|? ps ? lss LH1 LH' EX EY]; subst grp; [discriminate|]. destruct ps as [|q ps]; [destruct LH1|]. destruct LH1 as (_ & V & _ & _).
  assert (I : In q raws).
  { apply (Permutation.Permutation_in q (Permutation.Permutation_sym P)). rewrite <- EG. cbn [map List.concat]. apply in_app_iff. left. cbn [List.concat]. now left. }
  rewrite Forall_forall in L, U. pose proof (loose_position l q (L q I) (U q I) V) as X.
  intros D. apply (D UbEmptyOptional). unfold write_stl_binary. cbn [snd is_nil]. destruct (StlWriteProofs.asserts_iff a) as [(-> & _)|(_ & NH)]; [|contradiction].
  cbn [bind]. unfold make_tti_blocks. cbn [tti_subtitles]. unfold tti_subtitle. rewrite ES. cbn [mapM]. rewrite X. reflexivity.
Qed.

(** * SubRip *)

Lemma style_loose s f r : In (s, f) SsaTagSpec.style_tags -> loose r -> loose (f r).
Proof. cbn [In SsaTagSpec.style_tags]. intros I L. repeat destruct I as [I|I]; [injection I as <- <-; exact L..|contradiction]. Qed.
Lemma override_loose c r t r' : SsaTagSpec.override c r t r' -> loose r -> loose r'.
Proof. intros O L. destruct O as [s f I| | | | | |]; try exact L. now apply (style_loose s). Qed.
Lemma piece_loose text r p : In p (with_piece text r) -> loose r -> loose p.
Proof. unfold with_piece. destruct text; intros I L; [contradiction|]. destruct I as [<-|[]]. exact L. Qed.
Lemma pieces_loose r cs tx toks ps r' last : SubripSpec.pieces r cs tx toks ps r' last -> loose r -> loose r' /\ Forall loose ps.
Proof.
  induction 1 as [r cs text|r cs text c toks ps r' last P IH|r cs text tok r1 cs1 toks ps r' last RS P IH|r cs text body r1 toks ps r' last O P IH]; intros L.
  - split; [exact L|constructor].
  - now apply IH.
  - assert (K : loose r1) by (destruct RS; exact L). destruct (IH K) as [A B]. split; [exact A|]. apply Forall_app. split; [|exact B].
    apply Forall_forall. intros p I. now apply (piece_loose text r).
  - apply IH. now apply (override_loose _ _ _ _ O).
Qed.
Lemma rows_loose n r ls raws : SubripSpec.rows n r ls raws -> v_lines (r_vpos r) = None -> Forall loose raws.
Proof.
  induction 1 as [|n r line rest toks ps r' last last' raws L P W R IH]; intros V; [constructor|]. apply pieces_loose in P; [|split; [discriminate|exact V]]. destruct P as [P1 P2].
  apply Forall_app. split; [exact P2|]. apply Forall_app. split; [|apply IH, P1]. apply Forall_forall. intros p I. now apply (piece_loose last' r').
Qed.
Lemma subrip_loose s raws : subrip_reader_string s = Ok raws -> Forall loose raws.
Proof.
  intros E. apply SubripProofs.subrip_string_iff in E. destruct E as (ls & TL & ls' & cs & rawss & CL & CU & F & ->). apply concat_forall. clear -F.
  induction F as [|c rs cs rawss (liness & _ & R) F IH]; constructor; [|exact IH]. now apply (rows_loose _ _ _ _ R).
Qed.
Theorem subrip_never s raws : short_numbers s -> subrip_reader_string s = Ok raws -> raws <> [] -> Forall unplaced raws -> never_converted raws.
Proof.
  intros S E N U. apply loose_never; [|now apply (subrip_loose s)|exact U|exact N]. apply SubripProofs.subrip_string_iff in E.
  apply (comparable_by (at_rate 1000 99999)); [apply at_rate_ok|apply at_rate_compares; lia|]. apply (subrip_meets _ _ _ E). intros f t. now apply cue_time_short.
Qed.

(** * WebVTT *)

Lemma plain_rows_loose from to rows : forall n, Forall (fun r => loose r /\ unplaced r) (plain_rows from to n rows).
Proof. induction rows as [|row rows IH]; intros n; cbn [plain_rows]; constructor; [split; [split; [discriminate|reflexivity]|reflexivity]|apply IH]. Qed.
Lemma vtt_loose s raws : vtt_reader_string s = Ok raws -> Forall (fun r => loose r /\ unplaced r) raws.
Proof.
  intros E. apply WebVttProofs.vtt_string_iff in E. destruct E as (ls & TL & V). destruct V as [|h h' ls ls' cs rawss CH B CL CU F]; [constructor|]. apply concat_forall. clear -F.
  induction F as [|c rs cs rawss (rows & _ & ->) F IH]; constructor; [|exact IH]. apply plain_rows_loose.
Qed.
Theorem vtt_never s raws : short_numbers s -> vtt_reader_string s = Ok raws -> raws <> [] -> never_converted raws.
Proof.
  intros S E N. pose proof (vtt_loose s raws E) as L. apply loose_never; [|revert L; apply Forall_impl; tauto|revert L; apply Forall_impl; tauto|exact N]. apply WebVttProofs.vtt_string_iff in E.
  apply (comparable_by (at_rate 1000 99999)); [apply at_rate_ok|apply at_rate_compares; lia|]. apply (vtt_meets _ _ _ E). intros f t. now apply cue_time_short.
Qed.

(** * Text STL *)

Definition drifting (r : raw) : Prop := loose r /\ unplaced r.
Lemma text_pieces_loose r s r' ps : StlTextSpec.pieces r s r' ps -> drifting r -> drifting r' /\ Forall drifting ps.
Proof.
  induction 1 as [r|r n c s r' ps B V P IH|r x c r1 s r' ps C T P IH|r c C|r t s r' ps N F E P IH]; intros L.
  - split; [exact L|constructor].
  - apply IH. destruct L as ((_ & L) & U). split; [split; [discriminate|exact L]|exact U].
  - apply IH. destruct T as [(_ & ->)|[(_ & ->)|[(_ & ->)|(_ & _ & _ & ->)]]]; exact L.
  - split; [exact L|constructor].
  - destruct IH as [A B]; [destruct L as ((_ & L) & U); split; [split; [discriminate|exact L]|exact U]|]. split; [exact A|]. constructor; [exact L|exact B].
Qed.
Lemma text_line_loose r l r' rs : StlTextSpec.line_means r l r' rs -> drifting r -> drifting r' /\ Forall drifting rs.
Proof.
  intros L M. destruct L as [l v _|l v b _ _|l v b _ _|l v b _ _|l v n _ _|l name v _ _|l start finish from to text r' rs _ F T P|l start finish text _ _|l _ _]; try (split; [exact M|constructor]).
  apply text_pieces_loose in P; [exact P|exact M].
Qed.
Lemma text_lines_loose r ls r' raws : StlTextSpec.lines_mean r ls r' raws -> drifting r -> Forall drifting raws.
Proof.
  induction 1 as [|r l l' r1 rs ls r2 rss T L R IH]; intros M; [constructor|]. apply text_line_loose in L; [|exact M]. destruct L as [L1 L2].
  apply Forall_app. split; [exact L2|now apply IH].
Qed.
Theorem text_stl_never s raws : stl_text_read true s = Ok raws -> raws <> [] -> never_converted raws.
Proof.
  intros E N. assert (L : Forall drifting raws).
  { apply StlTextProofs.text_stl_iff in E. destruct E as (ls & r & _ & L). apply text_lines_loose in L; [exact L|]. split; [split; [discriminate|reflexivity]|reflexivity]. }
  apply loose_never; [|revert L; apply Forall_impl; unfold drifting; tauto|revert L; apply Forall_impl; unfold drifting; tauto|exact N].
  apply (comparable_by no_rate); [|intros x y A B|now apply (stl_text_unrated s)].
  - intros x A r X. unfold no_rate in A. congruence.
  - unfold time_lt, time_eq, no_rate in *. rewrite A, B. destruct (negb _); split; eexists; reflexivity.
Qed.

(** * Checks for examples *)

Definition within_check (f : flt) : bool :=
  match f with
  | SpecFloat.S754_zero _ => true
  | SpecFloat.S754_finite false m e => SpecFloat.valid_binary 24 128 f && (e <=? 0) && (Zpos m <=? 2 ^ (- e))
  | _ => false
  end.
Lemma within_check_ok f : within_check f = true -> exists x, float_value f x /\ (0 <= x <= 1)%R.
Proof.
  destruct f as [b| | |[] m e]; try discriminate; intros C.
  - exists 0%R. split; [repeat split|lra].
  - unfold within_check in C. apply andb_true_iff in C. destruct C as [C L]. apply andb_true_iff in C. destruct C as [V E]. apply Z.leb_le in L, E.
    exists (Flocq.IEEE754.BinarySingleNaN.SF2R Zaux.radix2 (SpecFloat.S754_finite false m e)). split; [repeat split; exact V|]. cbn [BinarySingleNaN.SF2R SpecFloat.cond_Zopp]. unfold Defs.F2R. cbn [Defs.Fnum Defs.Fexp].
    assert (P : (0 < Raux.bpow Zaux.radix2 e)%R) by apply Raux.bpow_gt_0. split; [apply Rmult_le_pos; [apply IZR_le; lia|lra]|].
    apply Rle_trans with (IZR (2 ^ (- e)) * Raux.bpow Zaux.radix2 e)%R; [apply Rmult_le_compat_r; [lra|now apply IZR_le]|].
    change 2 with (Zaux.radix_val Zaux.radix2). rewrite Raux.IZR_Zpower by lia. rewrite <- Raux.bpow_plus. replace (- e + e) with 0 by lia. cbn. lra.
Qed.
Definition placed_check (v : vpos) : bool :=
  match v_prop v with Some p => within_check p && match reference v with VERTICAL_CENTRE_OF_SCREEN => false | _ => true end | None => false end.
Lemma placed_check_ok v : placed_check v = true -> StlWriteSpec.placed v.
Proof.
  unfold placed_check. destruct (v_prop v) as [p|] eqn:E; [|discriminate]. intros C. apply andb_true_iff in C. destruct C as [C R]. apply within_check_ok in C. destruct C as (x & F & B).
  apply (placed_proportion v p x E F). destruct (reference v); try discriminate; cbn [from_top]; lra.
Qed.
Lemma plain_real r : forallb (fun c => (1 <=? char_code c) && (char_code c <? 128)) (r_text r) = true -> real_text r.
Proof. intros C. destruct (StlUseProofs.plain_utf8 _ C) as [U N]. eexists. split; [exact U|exact N]. Qed.
Lemma forall_check {A : Type} (f : A -> bool) (P : A -> Prop) l : (forall x, f x = true -> P x) -> forallb f l = true -> Forall P l.
Proof. intros H C. rewrite forallb_forall in C. apply Forall_forall. auto. Qed.
