(** What dump() writes. *)
From Coq Require Import ZArith List Bool Ascii String Lia.
From Verif.Model Require Import Base Strings Float TimeModel Types Collect Dump.
From Verif.Spec Require Import Outcome TextSpec LinesSpec StlFileSpec StlTextSpec DumpSpec.
From Verif.Proofs Require Import StringProofs LinesProofs StlWriteProofs SsaTextProofs FiguresProofs.
Import ListNotations.
Local Open Scope Z_scope.
Local Notation length := List.length.

Lemma digits_shown v : 0 <= v -> shown_nat (digits v) v.
Proof.
  intros P. split; [now apply digits_is_numeral|]. destruct (Z.eq_dec v 0) as [->|N]; [now left|]. right. apply digits_head. lia.
Qed.
Lemma print_int_shown v : shown_int (print_int v) v.
Proof.
  unfold print_int. destruct (Z.ltb_spec v 0) as [H|H].
  - right. split; [exact H|]. exists (digits (- v)). split; [reflexivity|]. apply digits_shown. lia.
  - left. split; [exact H|]. now apply digits_shown.
Qed.
Lemma shown_int_ne s v : shown_int s v -> (1 <= length s)%nat.
Proof.
  intros [[_ [N _]]|(_ & d & -> & _)]; [|cbn; lia]. apply numeral_digits in N. destruct N as (_ & _ & N & _). destruct s; [congruence|cbn; lia].
Qed.
Lemma setw_shown v : two_digits (print_setw 2 v) v.
Proof.
  unfold print_setw. exists (print_int v). split; [apply print_int_shown|]. pose proof (shown_int_ne _ _ (print_int_shown v)) as L.
  destruct (print_int v) as [|a [|b t]]; [cbn in L; lia|right; now split|left]. split; [reflexivity|cbn; lia].
Qed.
Lemma quot_parts n d : 0 < d -> exists r, n = d * Z.quot n d + r /\ Z.abs r < d /\ (0 <= n -> 0 <= Z.quot n d /\ 0 <= r) /\ (n <= 0 -> Z.quot n d <= 0 /\ r <= 0).
Proof.
  intros D. exists (Z.rem n d). pose proof (Z.quot_rem n d ltac:(lia)) as E. split; [exact E|].
  pose proof (Z.rem_bound_abs n d ltac:(lia)) as B. split; [lia|]. split.
  - intros P. split; [apply Z.quot_pos; lia|apply Z.rem_nonneg; lia].
  - intros P. pose proof (Z.rem_nonpos n d ltac:(lia) P). split; [|assumption].
    rewrite <- (Z.opp_involutive n), Z.quot_opp_l by lia. pose proof (Z.quot_pos (- n) d ltac:(lia) D). lia.
Qed.
Theorem print_time_shown t : time_text (print_time t) t.
Proof.
  unfold time_text, print_time, seconds, minutes, hours.
  destruct (quot_parts (t_seconds t) 3600 ltac:(lia)) as (r1 & E1 & B1 & P1 & N1). set (h := Z.quot (t_seconds t) 3600) in *.
  replace (t_seconds t - h * 3600) with r1 by lia.
  destruct (quot_parts r1 60 ltac:(lia)) as (r2 & E2 & B2 & P2 & N2). set (m := Z.quot r1 60) in *.
  replace (r1 - m * 60) with r2 by lia.
  eexists h, m, r2, _, _, _, _, _. split; [lia|]. split; [lia|]. split; [lia|]. split; [lia|].
  split; [apply setw_shown|]. split; [apply setw_shown|]. split; [apply setw_shown|]. split; [apply print_int_shown|].
  split; [|reflexivity]. destruct (t_rate t); [|reflexivity]. eexists _, _. split; [apply print_int_shown|]. split; [apply print_int_shown|reflexivity].
Qed.

(** A printed time without a rate is read back by the text STL reader. *)
Lemma shown_integer s v : shown_int s v -> is_int v -> integer s v.
Proof.
  intros [[_ [N _]]|(L & d & -> & N & _)] I; [now constructor|].
  pose proof (integer_minus d (- v) N) as X. rewrite Z.opp_involutive in X. now apply X.
Qed.
Lemma shown_no_colon s v : shown_int s v -> ~ In ":"%char s.
Proof.
  assert (D : forall s v, numeral s v -> ~ In ":"%char s).
  { intros d w N I. apply numeral_digits in N. destruct N as (F & _). rewrite Forall_forall in F. apply F in I. discriminate. }
  intros [[_ [N _]]|(L & d & -> & N & _)]; [now apply (D _ _ N)|]. intros [I|I]; [discriminate|]. now apply (D _ _ N).
Qed.
Lemma two_digits_integer s v : 0 <= v -> two_digits s v -> is_int v -> integer s v /\ ~ In ":"%char s.
Proof.
  intros P (d & S & E) I. pose proof (shown_no_colon _ _ S) as NC. destruct E as [[-> _]|[-> _]]; [split; [now apply shown_integer|exact NC]|].
  split; [|intros [J|J]; [discriminate|now apply NC]]. constructor; [|exact I]. destruct S as [[_ [N _]]|[L _]]; [|lia]. now apply (numeral_zeros 1).
Qed.
Theorem print_time_read t : is_int (t_seconds t) -> 0 <= t_seconds t -> is_int (t_frames t) -> t_rate t = None -> frame_time (print_time t) t.
Proof.
  intros I P IF R. destruct (print_time_shown t) as (h & m & s & hs & ms & ss & fs & rate & E & BM & BS & SG & H & M & S & F & RT & ->).
  rewrite R in RT. subst rate.
  assert (B : 0 <= h /\ 0 <= m < 60 /\ 0 <= s < 60 /\ h * 3600 <= t_seconds t) by lia. destruct B as (B1 & B2 & B3 & B4).
  unfold is_int in *.
  assert (IH : is_int h /\ is_int m /\ is_int s) by (unfold is_int; lia). destruct IH as (I1 & I2 & I3).
  destruct (two_digits_integer _ _ B1 H I1) as [H1 H2]. destruct (two_digits_integer _ _ (proj1 B2) M I2) as [M1 M2].
  destruct (two_digits_integer _ _ (proj1 B3) S I3) as [S1 S2].
  exists hs, ms, ss, fs, h, m, s, (t_frames t). split.
  { split; [discriminate|]. split; [now rewrite app_nil_r|].
    constructor; [now rewrite contains_one|]. constructor; [now rewrite contains_one|]. constructor; [now rewrite contains_one|].
    constructor; [rewrite contains_one; now apply (shown_no_colon _ _ F)|constructor]. }
  split; [exact H1|]. split; [exact M1|]. split; [exact S1|]. split; [now apply shown_integer|]. split; [unfold time_fits, is_int; lia|].
  destruct t as [x y z]; cbn [t_seconds t_frames t_rate] in *. subst z. f_equal. lia.
Qed.

(** * Lines *)
Definition i_tag (before after : bool) : list item := if after && negb before then [OpenI] else if before && negb after then [CloseI] else [].
Definition u_tag (before after : bool) : list item := if after && negb before then [OpenU] else if before && negb after then [CloseU] else [].
Fixpoint items_from (i u : bool) (bs : list block) : list item :=
  match bs with
  | [] => i_tag i false ++ u_tag u false
  | b :: t => i_tag i (b_italic b) ++ u_tag u (b_underline b) ++ Words (b_text b) :: items_from (b_italic b) (b_underline b) t
  end.
Lemma items_dumped bs : forall i u, dump_blocks bs i u = List.concat (map item_text (items_from i u bs)).
Proof.
  induction bs as [|b bs IH]; intros i u; cbn [dump_blocks items_from].
  - destruct i, u; reflexivity.
  - rewrite IH, !map_app, !concat_app. cbn [map List.concat item_text]. destruct i, u, (b_italic b), (b_underline b); reflexivity.
Qed.
Lemma items_styled bs : forall i u, styled i u (items_from i u bs) (map block_words bs).
Proof.
  induction bs as [|b bs IH]; intros i u; cbn [items_from map].
  - destruct i, u; cbn; repeat constructor.
  - specialize (IH (b_italic b) (b_underline b)). unfold block_words at 1. destruct i, u, (b_italic b), (b_underline b); cbn; repeat constructor; exact IH.
Qed.
Lemma items_i bs : forall i u, length (filter is_i (items_from i u bs)) = changes i (map b_italic bs ++ [false]).
Proof.
  induction bs as [|b bs IH]; intros i u; cbn [items_from map changes app].
  - destruct i, u; reflexivity.
  - rewrite !filter_app, !app_length. cbn [filter is_i]. rewrite IH. destruct i, u, (b_italic b), (b_underline b); reflexivity.
Qed.
Lemma items_u bs : forall i u, length (filter is_u (items_from i u bs)) = changes u (map b_underline bs ++ [false]).
Proof.
  induction bs as [|b bs IH]; intros i u; cbn [items_from map changes app].
  - destruct i, u; reflexivity.
  - rewrite !filter_app, !app_length. cbn [filter is_u]. rewrite IH. destruct i, u, (b_italic b), (b_underline b); reflexivity.
Qed.
Lemma place_dumped v : exists a r, amount_text v a /\ reference_text v r /\ dump_position v = a ++ r.
Proof.
  unfold dump_position. eexists _, _. split; [|split; [|reflexivity]].
  - destruct v as [[p|] [n|] [ns|] ref]; cbn [v_prop v_line v_lines];
      solve [apply (amount_proportion _ p); [reflexivity|apply print_float_text] | apply amount_none; [reflexivity|cbn; auto] |
        apply (amount_lines _ n ns); first [reflexivity|apply print_int_shown]].
  - destruct v as [pr n ns [[]|]]; cbn [v_ref];
     first [now apply ref_top|now apply ref_centre|now apply ref_bottom|now apply ref_subtitle|now apply ref_none].
Qed.
Lemma line_dumped l : line_text l (dump_line l).
Proof.
  unfold dump_line. rewrite items_dumped. destruct (place_dumped (l_vpos l)) as (a & r & A & R & ->).
  exists a, r, (items_from false false (l_blocks l)). split; [exact A|]. split; [exact R|].
  split; [split; [apply items_styled|split; [apply items_i|apply items_u]]|].
  unfold tab, nl. cbn [app]. now rewrite <- !app_assoc.
Qed.
Lemma lines_dumped ls : exists ss, Forall2 line_text ls ss /\ flat_map dump_line ls = List.concat ss.
Proof.
  induction ls as [|l ls (ss & F & E)]; [exists []; now split|]. exists (dump_line l :: ss). split; [constructor; [apply line_dumped|exact F]|].
  cbn. now rewrite E.
Qed.
Lemma subtitles_dumped us : forall n, subtitles_text n us (dump_subtitles n us).
Proof.
  induction us as [|u us IH]; intros n; cbn [dump_subtitles]; [constructor|].
  destruct (lines_dumped (s_lines u)) as (ls & F & E). rewrite E.
  match goal with |- subtitles_text _ _ ?s => replace s with
    ((lit "Subtitle " ++ print_int n ++ lit " at " ++ print_time (s_from u) ++ lit " -> " ++ print_time (s_to u) ++ lf :: List.concat ls) ++ dump_subtitles (n + 1) us) end.
  2:{ unfold nl. rewrite <- !app_assoc. cbn [app]. reflexivity. }
  constructor; [|apply IH]. exists (print_int n), (print_time (s_from u)), (print_time (s_to u)), ls.
  split; [apply print_int_shown|]. split; [apply print_time_shown|]. split; [apply print_time_shown|]. now split.
Qed.
Theorem dump_writes sort metadata raws us : collect sort raws = Ok us ->
  exists s, dump sort metadata raws = Ok s /\ dump_text metadata us s.
Proof.
  intros C. unfold dump. rewrite C. cbn. eexists. split; [reflexivity|]. exists (dump_subtitles 0 us). split; [apply subtitles_dumped|].
  f_equal. unfold dump_metadata. now rewrite flat_map_concat_map.
Qed.
Theorem dump_fails sort metadata raws : (forall e, collect sort raws = Throw e -> dump sort metadata raws = Throw e) /\
  (forall u, collect sort raws = Undef u -> dump sort metadata raws = Undef u).
Proof. split; intros x C; unfold dump; now rewrite C. Qed.
Theorem line_tags l : exists place items, dump_line l = tab_char :: place ++ tab_char :: List.concat (map item_text items) ++ [lf] /\ line_items (l_blocks l) items.
Proof.
  destruct (line_dumped l) as (a & r & items & _ & _ & I & E). exists (a ++ r), items. split; [|exact I]. rewrite E. now rewrite <- app_assoc.
Qed.
