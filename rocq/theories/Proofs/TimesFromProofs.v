(** Where the times of subtitles come from. *)
From Coq Require Import ZArith QArith Lia List Bool Ascii String.
From Verif.Model Require Import Base Strings Float TimeModel Types Lines Collect Ssa Subrip WebVtt StlText StlUtil StlBinReader.
From Verif.Spec Require Import Outcome TextSpec LinesSpec TimeSpec SortSpec CollectSpec StlFileSpec RawSpec SsaTagSpec SubripSpec StopSpec SubripUseSpec WebVttSpec SsaSpec SsaUseSpec CollectReadSpec TextFileSpec TimesFromSpec.
From Verif.Spec Require StlTextSpec.
From Verif.Proofs Require Import LinesProofs SubripProofs SubripUseProofs WebVttProofs TextFileProofs CollectReadProofs.
From Verif.Proofs Require StringProofs SubripStopProofs PieceUtf8Proofs StlTextProofs StlTextUseProofs StlReadProofs SsaTextProofs SsaProofs FieldOrderProofs.
Import ListNotations.
Local Open Scope Z_scope.
Local Notation length := List.length.

(** * Order *)

Lemma order_none {A} (says : A -> time -> time -> Prop) us : in_order says us [].
Proof. induction us; now constructor. Qed.
Lemma order_skip {A} (says : A -> time -> time -> Prop) us vs raws : in_order says vs raws -> in_order says (us ++ vs) raws.
Proof. intros O. induction us; [exact O|now constructor]. Qed.
Lemma order_unit {A} (says : A -> time -> time -> Prop) u us raws more :
  Forall (fun r => says u (r_from r) (r_to r)) raws -> in_order says us more -> in_order says (u :: us) (raws ++ more).
Proof. intros F O. induction F; [now constructor|]. cbn [app]. now constructor. Qed.
Lemma order_change {A B} (says : A -> time -> time -> Prop) (says' : B -> time -> time -> Prop) us vs raws :
  Forall2 (fun u v => forall f t, says u f t -> says' v f t) us vs -> in_order says us raws -> in_order says' vs raws.
Proof.
  intros F O. revert vs F. induction O as [|u us raws O IH|u us r raws S O IH]; intros vs F.
  - inversion F. constructor.
  - inversion F; subst. constructor. now apply IH.
  - inversion F as [|? v ? vs' H F']; subst. constructor; [now apply H|]. now apply IH.
Qed.
Lemma order_weaken {A} (says says' : A -> time -> time -> Prop) us raws :
  (forall u f t, In u us -> says u f t -> says' u f t) -> in_order says us raws -> in_order says' us raws.
Proof. intros H. apply order_change. induction us as [|u us IH]; constructor; [intros f t; apply H; now left|]. apply IH. intros v f t I. apply H. now right. Qed.
Lemma order_all {A} (says : A -> time -> time -> Prop) us raws : in_order says us raws -> Forall (fun r => exists u, In u us /\ says u (r_from r) (r_to r)) raws.
Proof.
  induction 1 as [|u us raws O IH|u us r raws S O IH]; [constructor|..].
  - revert IH. apply Forall_impl. intros r (v & I & S). exists v. split; [now right|exact S].
  - constructor; [|exact IH]. exists u. split; [now left|exact S].
Qed.
Lemma order_pieces {A} (says : A -> time -> time -> Prop) (P : raw -> Prop) us raws : Forall P raws -> in_order says us raws ->
  in_order (fun u f t => says u f t /\ exists r, P r /\ f = r_from r /\ t = r_to r) us raws.
Proof.
  intros F O. induction O as [|u us raws O IH|u us r raws S O IH]; [constructor|constructor; auto|]. inversion F; subst. constructor; [|auto].
  split; [exact S|]. now exists r.
Qed.
Lemma order_forwards {A} (says : A -> time -> time -> Prop) us raws : in_order says us raws -> all_forwards says us -> Forall forwards raws.
Proof. intros O H. apply order_all in O. revert O. apply Forall_impl. intros r (u & I & S). exact (H u _ _ I S). Qed.

(** * SubRip *)

Lemma cue_says c raws : cue_subtitles c raws -> Forall (fun r => r_from r = cue_from c /\ r_to r = cue_to c) raws.
Proof. intros (liness & _ & R). apply rows_clock in R. revert R. apply Forall_impl. intros p (E1 & E2 & _). now split. Qed.
Lemma cues_order ls cs : cues_in ls cs -> forall rawss, Forall2 cue_subtitles cs rawss -> in_order (timing_line ","%char) ls (List.concat rawss).
Proof.
  induction 1 as [|ls cs C IH|counter N|counter timing from to text rest cs N T F E C IH]; intros rawss R.
  - inversion R. constructor.
  - constructor. now apply IH.
  - inversion R. apply order_none.
  - inversion R as [|? rs ? rawss' R1 R2]; subst. cbn [List.concat]. apply order_next. apply order_unit; [|now apply order_skip, IH].
    apply cue_says in R1. revert R1. apply Forall_impl. cbn. now intros r (-> & ->).
Qed.
Theorem subrip_order s raws : subrip_reader_string s = Ok raws -> exists ls, text_lines s ls /\ in_order srt_says ls raws.
Proof.
  intros E. apply subrip_string_iff in E. destruct E as (ls & TL & ls' & cs & rawss & CL & CU & F & ->). exists ls. split; [exact TL|].
  refine (order_change _ _ _ _ _ _ (cues_order _ _ CU _ F)). clear -CL. induction CL; constructor; [|exact IHCL]. intros f t T. now exists y.
Qed.

(** * WebVTT *)

Lemma vtt_order_cues ls cs : vtt_cues ls cs -> forall rawss, Forall2 vtt_subtitles cs rawss ->
  in_order (fun l f t => has_arrow l /\ timing_line "."%char l f t) ls (List.concat rawss).
Proof.
  induction 1 as [|l ls cs N A C IH|l comment rest cs N F E C IH|timing from to text rest cs N A T F E C IH]; intros rawss R.
  - inversion R. constructor.
  - constructor. now apply IH.
  - constructor. now apply order_skip, IH.
  - inversion R as [|? rs ? rawss' R1 R2]; subst. cbn [List.concat]. apply order_unit; [|now apply order_skip, IH].
    destruct R1 as (rows & _ & ->). generalize (plain_rows_clock from to rows 0). apply Forall_impl. now intros r (-> & -> & _).
Qed.
Theorem vtt_order s raws : vtt_reader_string s = Ok raws -> exists ls, text_lines s ls /\ in_order vtt_says ls raws.
Proof.
  intros E. apply vtt_string_iff in E. destruct E as (ls & TL & V). exists ls. split; [exact TL|].
  destruct V as [|h h' ls ls' cs rawss CH B CL CU F]; [constructor|]. constructor.
  refine (order_change _ _ _ _ _ _ (vtt_order_cues _ _ CU _ F)). clear -CL. induction CL; constructor; [|exact IHCL]. intros f t (A & T). now exists y.
Qed.

(** * Text STL *)

Lemma stl_order_lines r ls r' raws : StlTextSpec.lines_mean r ls r' raws -> in_order stl_says ls raws.
Proof.
  induction 1 as [|r l l' r1 rs ls r2 rss T L R IH]; [constructor|]. apply order_unit; [|exact IH].
  destruct L as [l0 v _|l0 v b _ _|l0 v b _ _|l0 v b _ _|l0 v n _ _|l0 name v _ _|l0 start finish from to text r' rs SL F TT P|l0 start finish text _ _|l0 _ _]; try constructor.
  apply stl_text_pieces_clock in P. destruct P as [_ P]. revert P. apply Forall_impl. intros p (E1 & E2 & _). cbn in E1, E2.
  exists l0, start, finish, text. rewrite <- E1, <- E2. exact (conj T (conj SL (conj F TT))).
Qed.
Theorem stl_order s raws : stl_text_read true s = Ok raws -> exists ls, StlTextSpec.complete_lines s ls /\ in_order stl_says ls raws.
Proof. intros E. apply StlTextProofs.text_stl_iff in E. destruct E as (ls & r & C & L). exists ls. split; [exact C|exact (stl_order_lines _ _ _ _ L)]. Qed.

(** * Binary STL *)

Lemma block_order g b raws last : block_read g b raws last -> Forall (fun r => block_says (frame_rate g) b (r_from r) (r_to r)) raws.
Proof.
  intros [L B|from to top just text rows pieces rs L B F T _ _ _ _ _ _ _ P]; [constructor|].
  clear -F T P. induction P as [|p r ps rs K P IH]; [constructor|]. constructor; [|exact IH]. destruct p as [[row st] bs]. destruct K as (w & text & _ & _ & ->). now split.
Qed.
Lemma moved_order {A} (says : A -> time -> time -> Prop) k us raws : in_order says us raws -> forall raws', Forall2 (moved_up k) raws raws' -> in_order says us raws'.
Proof.
  induction 1 as [|u us raws O IH|u us r raws S O IH]; intros raws' F.
  - inversion F. constructor.
  - constructor. now apply IH.
  - inversion F as [|? r' ? rs' M F']; subst. destruct M as (row & rows & _ & ->). constructor; [exact S|]. now apply IH.
Qed.
Theorem binary_order h input g subs : snd (stl_binary_read input (Iso6937Spec.after h)) = Ok (g, subs) ->
  exists blocks, file_blocks input (tti_blocks g) blocks /\ in_order (block_says (frame_rate g)) blocks subs.
Proof.
  intros E. apply StlReadProofs.read_iff in E. destruct E as (raws & top & (head & blocks & rest & rawss & lasts & EI & H & N & F & L & -> & _) & M).
  exists blocks. split.
  - exists head, rest. split; [exact EI|]. split; [apply H|]. split; [|exact N]. clear -F. induction F as [|b x bs xs B F IH]; constructor; [|exact IH]. destruct B; assumption.
  - refine (moved_order _ _ _ _ _ _ M). clear -F L. revert blocks lasts F L. induction rawss as [|rs rawss IH]; intros blocks lasts F L; [apply order_none|].
    destruct lasts as [|z lasts]; [discriminate|]. cbn [combine] in F. inversion F as [|b x bs xs B F' E1 E2]; subst. cbn [List.concat].
    apply order_unit; [exact (block_order _ _ _ _ B)|]. apply (IH _ lasts); [exact F'|]. now injection L.
Qed.

(** * SSA *)

Definition ends_meet (Qf Qt : time -> Prop) (r : raw) : Prop := Qf (r_from r) /\ Qt (r_to r).
Lemma ends_clock Qf Qt r r' : same_clock r r' -> ends_meet Qf Qt r -> ends_meet Qf Qt r'.
Proof. intros (A & B & _). unfold ends_meet. now rewrite A, B. Qed.
Lemma event_ends (Qf Qt : time -> Prop) f ev key v ev' : event_entry f ev key v ev' ->
  (forall t, ssa_time v t -> (key = lit "Start" -> Qf t) /\ (key = lit "End" -> Qt t)) ->
  ends_meet Qf Qt (ev_sub ev) -> Forall (ends_meet Qf Qt) (ev_out ev) -> ends_meet Qf Qt (ev_sub ev') /\ Forall (ends_meet Qf Qt) (ev_out ev').
Proof.
  intros E H G O. assert (KEEP : forall r, same_clock (ev_sub ev) r -> ends_meet Qf Qt r) by (intros r K; exact (ends_clock _ _ _ _ K G)).
  destruct E as [r st l rt out x t T|r st l rt out x t T|r st l rt out x name s _ _|ev x name _ _|r st l rt out x _ _|ev x _|r st l rt out x y _ _|ev|r st l rt out x y _ _|ev|r st l rt out x raws T|ev key x N];
    cbn [ev_sub ev_out] in *; try (split; [apply KEEP; now repeat split|exact O]).
  - split; [|exact O]. split; [now apply H|exact (proj2 G)].
  - split; [|exact O]. split; [exact (proj1 G)|now apply H].
  - split; [apply KEEP; repeat split|]. apply Forall_app. split; [exact O|]. apply ssa_text_clock in T. revert T. apply Forall_impl. exact KEEP.
Qed.
Lemma events_ends (Qf Qt : time -> Prop) f kvs ev ev' : in_turn (event_step f) ev kvs ev' ->
  (forall k v v' t, In (k, v) kvs -> trimmed v v' -> ssa_time v' t -> (k = lit "Start" -> Qf t) /\ (k = lit "End" -> Qt t)) ->
  ends_meet Qf Qt (ev_sub ev) -> Forall (ends_meet Qf Qt) (ev_out ev) -> Forall (ends_meet Qf Qt) (ev_out ev').
Proof.
  induction 1 as [|ev [k v] ev1 kvs ev2 S T IH]; intros H G O; [exact O|]. destruct S as (v' & TR & E). cbn [fst snd] in *.
  destruct (event_ends Qf Qt _ _ _ _ _ E) as [G' O']; [intros t; apply (H k v); [now left|exact TR]|exact G|exact O|].
  apply IH; [|exact G'|exact O']. intros k0 v0 v0' t I. apply (H k0 v0). now right.
Qed.
Lemma dialogue_ends f body raws : dialogue_line f body raws -> exists vs, field_values (length (sr_event_format f)) body vs /\
  Forall (ends_meet (field_or_unset (combine (sr_event_format f) vs) "Start") (field_or_unset (combine (sr_event_format f) vs) "End")) raws.
Proof.
  intros (_ & vs & ev & V & T & ->). exists vs. split; [exact V|]. apply (events_ends _ _ f _ new_event ev T).
  - intros k v v' t I TR ST. split; intros ->; left; now exists v, v'.
  - split; right; reflexivity.
  - constructor.
Qed.
Definition formatted (all : list str) (f : ssa_reader) : Prop := sr_event_format f = [] \/ exists l, In l all /\ format_line l (sr_event_format f).
Lemma ssa_order_line all f l f' : ssa_line_read f l f' -> In l all -> formatted all f ->
  formatted all f' /\ exists rs, sr_subs f' = sr_subs f ++ rs /\ Forall (fun r => ssa_says field_or_unset all l (r_from r) (r_to r)) rs.
Proof.
  intros L I R.
  assert (SAME : forall f', sr_event_format f' = sr_event_format f -> sr_subs f' = sr_subs f ->
    formatted all f' /\ exists rs, sr_subs f' = sr_subs f ++ rs /\ Forall (fun r => ssa_says field_or_unset all l (r_from r) (r_to r)) rs).
  { intros g E1 E2. unfold formatted. rewrite E1, E2. split; [exact R|]. exists []. split; [now rewrite app_nil_r|constructor]. }
  destruct L as [f line B|f line s B|f line h p B J|f line s B N|f line l key body f' B N K E]; try (apply SAME; reflexivity).
  destruct E as [x y ss sf ef subs body v _|x y ss sf ef subs body v _|x y ss sf ef subs body|x y ss sf ef subs body st _ _|x y ss sf ef subs body parts keys P F|x y ss sf ef subs body raws D|f key body _]; try (apply SAME; reflexivity).
  - split; [|exists []; split; [now rewrite app_nil_r|constructor]]. right. exists line. split; [exact I|]. now exists l, body, parts.
  - split; [exact R|]. exists raws. split; [reflexivity|]. pose proof (proj1 D) as NE. cbn [sr_event_format] in NE. destruct R as [R|(fl & IF & FL)]; [contradiction|]. cbn [sr_event_format] in FL.
    apply dialogue_ends in D. destruct D as (vs & V & A). cbn [sr_event_format] in V, A. revert A. apply Forall_impl. intros r (A & C).
    exists fl, ef, l, body, vs. exact (conj IF (conj FL (conj B (conj K (conj V (conj A C)))))).
Qed.
Lemma ssa_order_lines all ls f f' : in_turn ssa_line_read f ls f' -> (forall l, In l ls -> In l all) -> formatted all f ->
  exists rs, sr_subs f' = sr_subs f ++ rs /\ in_order (ssa_says field_or_unset all) ls rs.
Proof.
  induction 1 as [f|f l f1 ls f2 L T IH]; intros I R; [exists []; split; [now rewrite app_nil_r|constructor]|].
  destruct (ssa_order_line all f l f1 L (I l (or_introl eq_refl)) R) as (R1 & rs & E1 & F). destruct IH as (rs' & E2 & O); [intros k J; apply I; now right|exact R1|].
  exists (rs ++ rs'). split; [rewrite E2, E1; now rewrite app_assoc|]. now apply order_unit.
Qed.
Theorem ssa_order s raws : ssa_reader_string s = Ok raws -> exists ls, text_lines s ls /\ in_order (ssa_says field_or_unset ls) ls raws.
Proof.
  intros E. apply SsaProofs.ssa_string_iff in E. destruct E as (ls & f & TL & T & ->). exists ls. split; [exact TL|].
  destruct (ssa_order_lines ls ls new_file f T) as (rs & -> & O); [auto|now left|]. exact O.
Qed.
Theorem ssa_order_timed s raws : formats_timed s -> ssa_reader_string s = Ok raws -> exists ls, text_lines s ls /\ in_order (ssa_says field_time ls) ls raws.
Proof.
  intros FT E. destruct (ssa_order s raws E) as (ls & TL & O). exists ls. split; [exact TL|].
  apply (order_pieces _ _ _ _ (ssa_ms _ _ FT E)) in O. revert O. apply order_weaken.
  intros u f t _ ((fl & keys & l' & body & vs & A & B & C & D & V & S & T) & r & (R1 & R2 & _) & -> & ->).
  exists fl, keys, l', body, vs. repeat (split; [assumption|]). split.
  - destruct S as [S|S]; [exact S|]. rewrite S in R1. discriminate.
  - destruct T as [T|T]; [exact T|]. rewrite T in R2. discriminate.
Qed.

(** * Files *)

Lemma text_of_lines_back ls : Forall (fun l => ~ In lf l) ls -> text_lines (text_of_lines ls) ls.
Proof. induction 1 as [|l ls N F IH]; [constructor|]. unfold text_of_lines. cbn [map List.concat]. rewrite <- app_assoc. cbn [app]. now constructor. Qed.
Lemma buffer_lines_back bs ls : Forall2 buffer_line bs ls -> text_lines (text_of_lines ls) ls.
Proof. intros F. apply text_of_lines_back. induction F as [|b l bs ls (_ & N & _) F IH]; constructor; assumption. Qed.
Lemma text_lines_one s a b : text_lines s a -> text_lines s b -> a = b.
Proof. intros A B. apply lines_of_string_iff in A, B. congruence. Qed.
Theorem subrip_file_order s raws : subrip_reader_file s = Ok raws -> exists bs ls, buffers s bs /\ Forall2 buffer_line bs ls /\ in_order srt_says ls raws.
Proof.
  intros E. destruct (subrip_any_file s) as (bs & ls & B & F & S). apply (PieceUtf8Proofs.same_success _ _ _ S) in E. exists bs, ls. split; [exact B|]. split; [exact F|].
  destruct (subrip_order _ _ E) as (ls' & TL & O). now rewrite (text_lines_one _ _ _ (buffer_lines_back _ _ F) TL).
Qed.
Theorem vtt_file_order s raws : vtt_reader_file s = Ok raws -> exists bs ls, buffers s bs /\ Forall2 buffer_line bs ls /\ in_order vtt_says ls raws.
Proof.
  intros E. destruct (vtt_any_file s) as (bs & ls & B & F & S). apply (PieceUtf8Proofs.same_success _ _ _ S) in E. exists bs, ls. split; [exact B|]. split; [exact F|].
  destruct (vtt_order _ _ E) as (ls' & TL & O). now rewrite (text_lines_one _ _ _ (buffer_lines_back _ _ F) TL).
Qed.
Theorem ssa_file_order s raws : ssa_reader_file s = Ok raws -> exists bs ls, buffers s bs /\ Forall2 buffer_line bs ls /\ in_order (ssa_says field_or_unset ls) ls raws.
Proof.
  intros E. destruct (ssa_any_file s) as (bs & ls & B & F & S). rewrite S in E. exists bs, ls. split; [exact B|]. split; [exact F|].
  destruct (ssa_order _ _ E) as (ls' & TL & O). now rewrite (text_lines_one _ _ _ (buffer_lines_back _ _ F) TL).
Qed.

(** * Ends after starts *)

Theorem subrip_forwards s ls raws : text_lines s ls -> all_forwards srt_says ls -> subrip_reader_string s = Ok raws -> Forall forwards raws.
Proof. intros TL A E. destruct (subrip_order _ _ E) as (ls' & TL' & O). rewrite (text_lines_one _ _ _ TL' TL) in O. exact (order_forwards _ _ _ O A). Qed.
Theorem vtt_forwards s ls raws : text_lines s ls -> all_forwards vtt_says ls -> vtt_reader_string s = Ok raws -> Forall forwards raws.
Proof. intros TL A E. destruct (vtt_order _ _ E) as (ls' & TL' & O). rewrite (text_lines_one _ _ _ TL' TL) in O. exact (order_forwards _ _ _ O A). Qed.
Theorem ssa_forwards s ls raws : formats_timed s -> text_lines s ls -> all_forwards (ssa_says field_time ls) ls -> ssa_reader_string s = Ok raws -> Forall forwards raws.
Proof. intros FT TL A E. destruct (ssa_order_timed _ _ FT E) as (ls' & TL' & O). rewrite (text_lines_one _ _ _ TL' TL) in O. exact (order_forwards _ _ _ O A). Qed.
Lemma complete_one s a : StlTextSpec.complete_lines s a -> forall b, StlTextSpec.complete_lines s b -> a = b.
Proof.
  induction 1 as [s N|l rest ls N C IH]; intros b B.
  - inversion B as [? M E|l rest ls' M C E]; subst; [reflexivity|]. exfalso. apply N. apply in_app_iff. right. now left.
  - inversion B as [? M E|l' rest' ls' M C' E]; subst; [exfalso; apply M; apply in_app_iff; right; now left|].
    assert (K : l' = l /\ rest' = rest).
    { clear -N M E. revert l' M E. induction l as [|c l IH]; intros [|d l'] M E; cbn in E.
      - injection E as E. now split.
      - injection E as E1 _. exfalso. apply M. now left.
      - injection E as E1 _. exfalso. apply N. now left.
      - injection E as E1 E. destruct (IH (fun I => N (or_intror I)) l' (fun I => M (or_intror I)) E) as [E2 E3]. subst. now split. }
    destruct K as [-> ->]. f_equal. now apply IH.
Qed.
Theorem stl_forwards s ls raws : StlTextSpec.complete_lines s ls -> all_forwards stl_says ls -> stl_text_read true s = Ok raws -> Forall forwards raws.
Proof. intros TL A E. destruct (stl_order _ _ E) as (ls' & TL' & O). rewrite (complete_one _ _ TL' _ TL) in O. exact (order_forwards _ _ _ O A). Qed.
Theorem binary_forwards h input g subs : snd (stl_binary_read input (Iso6937Spec.after h)) = Ok (g, subs) ->
  (forall blocks, file_blocks input (tti_blocks g) blocks -> all_forwards (block_says (frame_rate g)) blocks) -> Forall forwards subs.
Proof. intros E H. destruct (binary_order _ _ _ _ E) as (blocks & FB & O). exact (order_forwards _ _ _ O (H _ FB)). Qed.
Theorem grouping_forwards raws sorted subs groups : stably_sorted raws sorted -> grouping sorted subs groups -> Forall forwards raws ->
  Forall (fun s => no_later (s_from s) (s_to s)) subs.
Proof.
  intros S (C & F & _) A. assert (B : Forall forwards sorted).
  { apply Forall_forall. intros r I. rewrite Forall_forall in A. apply A. eapply Permutation.Permutation_in; [|exact I]. apply Permutation.Permutation_sym. apply S. }
  rewrite <- C in B. clear -F B. induction F as [|s ls subs groups H F IH]; [constructor|]. cbn [map List.concat] in B. apply Forall_app in B. destruct B as [B1 B2].
  constructor; [|now apply IH]. unfold subtitle_holds in H. destruct (List.concat ls) as [|p rest]; [contradiction|]. destruct H as (-> & -> & _). now inversion B1.
Qed.
Theorem collect_forwards sort raws subs : conforming sort -> all_comparable raws -> Forall forwards raws -> collect sort raws = Ok subs ->
  Forall (fun s => no_later (s_from s) (s_to s)) subs.
Proof.
  intros C K F E. destruct (comparable_collectable raws K sort C) as (sorted & subs' & groups & S & E' & G). rewrite E in E'. injection E' as ->.
  exact (grouping_forwards _ _ _ _ S G F).
Qed.

(** * Checks *)

Definition no_later_check (a b : time) : bool :=
  match t_rate a, t_rate b with
  | Some r, Some q => (num r =? num q) && (den r =? den q) && Qle_bool (instant_at r a) (instant_at r b)
  | None, None => (t_seconds a <? t_seconds b) || (t_seconds a =? t_seconds b) && (t_frames a <=? t_frames b)
  | _, _ => false
  end.
Lemma no_later_check_ok a b : no_later_check a b = true -> no_later a b.
Proof.
  unfold no_later_check, no_later. destruct a as [sa fa [[n d]|]], b as [sb fb [[n' d']|]]; cbn [t_rate t_seconds t_frames num den]; intros C; try discriminate.
  - apply andb_true_iff in C. destruct C as [C Q]. apply andb_true_iff in C. destruct C as [C1 C2]. apply Z.eqb_eq in C1, C2. subst. split; [reflexivity|]. now apply Qle_bool_iff.
  - split; [reflexivity|]. apply orb_true_iff in C. destruct C as [C|C]; [left; now apply Z.ltb_lt|right]. apply andb_true_iff in C. destruct C as [C1 C2]. apply Z.eqb_eq in C1. apply Z.leb_le in C2. now split.
Qed.
Definition timing_check (sep : ascii) (l : str) : bool := match treads sep (clean_line l) with Ok (inr (f, t)) => no_later_check f t | _ => true end.
Lemma srt_check_ok ls : forallb (timing_check ","%char) ls = true -> all_forwards srt_says ls.
Proof.
  intros C l f t I (l' & CL & T). rewrite forallb_forall in C. specialize (C l I). unfold timing_check in C. apply clean_line_iff in CL. rewrite CL in C.
  apply (treads_ok ","%char SubripStopProofs.sep_comma ltac:(discriminate)) in T. rewrite T in C. now apply no_later_check_ok.
Qed.
Lemma vtt_check_ok ls : forallb (timing_check "."%char) ls = true -> all_forwards vtt_says ls.
Proof.
  intros C l f t I (l' & CL & _ & T). rewrite forallb_forall in C. specialize (C l I). unfold timing_check in C. apply clean_line_iff in CL. rewrite CL in C.
  apply (treads_ok "."%char sep_dot ltac:(discriminate)) in T. rewrite T in C. now apply no_later_check_ok.
Qed.
(** (A line with fields that are no times is not accepted by this check.) *)
Definition stl_check (l : str) : bool :=
  match stlt_fields (trim l) with
  | Some (start, finish, _) => match stlt_time start, stlt_time finish with Ok (Some f), Ok (Some t) => no_later_check f t | _, _ => false end
  | None => true
  end.
Lemma stl_check_ok ls : forallb stl_check ls = true -> all_forwards stl_says ls.
Proof.
  intros C l f t I (l' & start & finish & text & TR & SL & F & T). rewrite forallb_forall in C. specialize (C l I). unfold stl_check in C.
  apply SsaTextProofs.trim_iff in TR. rewrite TR, (StlTextProofs.fields_found _ _ _ _ SL) in C.
  pose proof (StlTextProofs.time_total start) as A. pose proof (StlTextProofs.time_total finish) as B.
  destruct (stlt_time start) as [[f'|]|e|u]; try discriminate. destruct (stlt_time finish) as [[t'|]|e|u]; try discriminate. cbn in A, B.
  rewrite (StlTextUseProofs.frame_time_unique _ _ _ F A), (StlTextUseProofs.frame_time_unique _ _ _ T B). now apply no_later_check_ok.
Qed.
Definition block_check (rate : Z) (b : str) : bool := no_later_check (StlReadProofs.tc b 5 rate) (StlReadProofs.tc b 9 rate).
Lemma block_check_ok rate b f t : length b = 128%nat -> block_check rate b = true -> block_says rate b f t -> no_later f t.
Proof. intros L C (F & T). apply StlReadProofs.tc_iff in F, T; [|lia..]. subst. now apply no_later_check_ok. Qed.
Lemma app_split {A : Type} (a b c d : list A) : length a = length c -> a ++ b = c ++ d -> a = c /\ b = d.
Proof. revert c. induction a as [|x a IH]; intros [|y c] L E; try discriminate; [now split|]. injection E as -> E. injection L as L. destruct (IH c L E) as [-> ->]. now split. Qed.
Lemma concat_block n (bs : list str) : forall cs rest rest', Forall (fun b => length b = n) bs -> Forall (fun b => length b = n) cs -> length bs = length cs ->
  List.concat bs ++ rest = List.concat cs ++ rest' -> bs = cs.
Proof.
  induction bs as [|b bs IH]; intros [|c cs] rest rest' F G L E; try discriminate; [reflexivity|]. cbn [List.concat] in E. rewrite <- !app_assoc in E.
  inversion F as [|? ? LB F']; inversion G as [|? ? LC G']; subst. apply app_split in E; [|congruence]. destruct E as [-> E].
  f_equal. apply (IH cs rest rest'); auto.
Qed.
Lemma blocks_check_ok head blocks rest rate n : length head = 1024%nat -> Forall (fun b => length b = 128%nat) blocks -> Z.of_nat (length blocks) = Z.max 0 n ->
  forallb (block_check rate) blocks = true -> forall bs, file_blocks (head ++ List.concat blocks ++ rest) n bs -> all_forwards (block_says rate) bs.
Proof.
  intros H F N C bs (head' & rest' & E & H' & F' & N'). apply app_split in E; [|congruence]. destruct E as [_ E].
  assert (bs = blocks) as -> by (symmetry; apply (concat_block 128%nat _ _ rest rest'); [exact F|exact F'|exact (Nat2Z.inj _ _ (eq_trans N (eq_sym N')))|exact E]).
  intros b f t I S. rewrite forallb_forall in C. rewrite Forall_forall in F. exact (block_check_ok _ _ _ _ (F b I) (C b I) S).
Qed.

(** The keys of a format line, the body of a dialogue, its values. *)
Definition keyed_body (key : str) (line : str) : option str :=
  let l := remove_unicode_bom (trim line) in
  match find_sub l (lit ":") with
  | Some n => if str_eqb (firstn n l) key then Some (trim (skipn (n + 1) l)) else None
  | None => None
  end.
Lemma keyed_body_of line l key body : line_body line l -> keyed l key body -> keyed_body key line = Some body.
Proof.
  intros B (rest & -> & N & TB). unfold keyed_body. apply SsaProofs.line_body_iff in B. rewrite B.
  pose proof (SsaProofs.find_colon (key ++ ":"%char :: rest)) as FC. destruct (find_sub _ (lit ":")) as [n|] eqn:FS.
  - destruct FC as (rest' & E & S & NN). assert (FN : firstn n (key ++ ":"%char :: rest) = key /\ rest' = rest).
    { clear - E N NN. set (a := firstn n _) in *. clearbody a. revert a E N NN. induction key as [|x b IH]; intros a E N NN; destruct a as [|y a]; cbn [app] in E.
      - injection E as ->. now split.
      - injection E as <- E. exfalso. apply NN. now left.
      - injection E as -> E. exfalso. apply N. now left.
      - injection E as -> E. destruct (IH a E) as [-> ->]; [intros X; apply N; now right|intros X; apply NN; now right|now split]. }
    destruct FN as [FN ->]. rewrite FN, (proj2 (StringProofs.str_eqb_iff _ _) eq_refl), S. apply SsaTextProofs.trim_iff in TB. now rewrite TB.
  - exfalso. apply FC. rewrite in_app_iff. right. now left.
Qed.
Definition keys_of (line : str) : option (list str) := option_map (fun body => map trim (split (is_any_of [comma]) body)) (keyed_body (lit "Format") line).
Lemma keys_of_format l keys : format_line l keys -> keys_of l = Some keys.
Proof.
  intros (l' & body & parts & B & K & P & T). unfold keys_of. rewrite (keyed_body_of _ _ _ _ B K). cbn [option_map]. f_equal. apply SsaTextProofs.parts_iff in P. rewrite P.
  clear -T. induction T as [|a b x y H T IH]; [reflexivity|]. cbn. apply SsaTextProofs.trim_iff in H. now rewrite H, IH.
Qed.
Definition values (n : nat) (body : str) : list str :=
  let ps := split (is_any_of [comma]) body in firstn (n - 1) ps ++ [join [comma] (skipn (n - 1) ps)].
Definition values_check (n : nat) (body : str) : bool :=
  Nat.eqb (length (values n body)) n && str_eqb (join [comma] (values n body)) body &&
  forallb (fun v => negb (existsb (Ascii.eqb comma) v)) (removelast (values n body)).
Definition key_times (kvs : list (str * str)) (key : string) : list time :=
  flat_map (fun kv => if str_eqb (fst kv) (lit key) then match ssa_parse_time (trim (snd kv)) with Ok t => [t] | _ => [] end else []) kvs.
Lemma key_times_of kvs key t : field_time kvs key t -> In t (key_times kvs key).
Proof.
  intros (v & v' & I & TR & ST). unfold key_times. apply in_flat_map. exists (lit key, v). split; [exact I|]. cbn [fst snd]. rewrite (proj2 (StringProofs.str_eqb_iff _ _) eq_refl).
  apply SsaTextProofs.trim_iff in TR. apply SsaProofs.parse_time_iff in ST. rewrite TR, ST. now left.
Qed.
Definition ssa_check (ls : list str) : bool :=
  forallb (fun f => match keys_of f with
    | Some keys => forallb (fun l => match keyed_body (lit "Dialogue") l with
        | Some body => values_check (length keys) body &&
            forallb (fun a => forallb (no_later_check a) (key_times (combine keys (values (length keys) body)) "End")) (key_times (combine keys (values (length keys) body)) "Start")
        | None => true end) ls
    | None => true end) ls.
Lemma ssa_check_ok ls : ssa_check ls = true -> all_forwards (ssa_says field_time ls) ls.
Proof.
  intros C l from to I (f & keys & l' & body & vs & IF & FL & B & K & V & S & T). unfold ssa_check in C. rewrite forallb_forall in C. specialize (C f IF).
  rewrite (keys_of_format _ _ FL) in C. rewrite forallb_forall in C. specialize (C l I). rewrite (keyed_body_of _ _ _ _ B K) in C. apply andb_true_iff in C. destruct C as [C1 C2].
  unfold values_check in C1. apply andb_true_iff in C1. destruct C1 as [C1 C3]. apply andb_true_iff in C1. destruct C1 as [C1 C4]. apply Nat.eqb_eq in C1. apply StringProofs.str_eqb_iff in C4.
  pose proof (FieldOrderProofs.values_of _ _ _ C1 C4 C3) as V'. rewrite (SsaProofs.field_values_unique _ _ _ _ V V') in *.
  rewrite forallb_forall in C2. specialize (C2 from (key_times_of _ _ _ S)). rewrite forallb_forall in C2. apply no_later_check_ok. exact (C2 to (key_times_of _ _ _ T)).
Qed.
