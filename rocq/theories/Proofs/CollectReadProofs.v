(** What the readers give can be collected. *)
From Coq Require Import ZArith Lia List Bool Ascii String.
From Verif.Model Require Import Base Strings Float TimeModel Types Lines Collect Ssa Subrip WebVtt StlText StlUtil StlBinReader.
From Verif.Spec Require Import Outcome TextSpec LinesSpec TimeSpec SortSpec CollectSpec StlFileSpec RawSpec SsaTagSpec SubripSpec StopSpec SubripUseSpec WebVttSpec SsaSpec SsaUseSpec CollectReadSpec.
From Verif.Spec Require StlTextSpec.
From Verif.Proofs Require Import SortProofs CollectProofs LinesProofs SubripProofs SubripUseProofs WebVttProofs.
From Verif.Proofs Require StringProofs StlTextProofs StlReadProofs SsaTextProofs SsaProofs SsaUseProofs SsaSafeProofs.
Import ListNotations.
Local Open Scope Z_scope.
Local Notation length := List.length.

Lemma comparable_collectable raws : all_comparable raws -> collectable raws.
Proof. intros A sort C. now apply collect_spec. Qed.

Definition times_meet (Q : time -> Prop) (r : raw) : Prop := Q (r_from r) /\ Q (r_to r) /\ r_fade_up r = None /\ r_fade_down r = None.
Lemma comparable_by (Q : time -> Prop) raws : (forall a, Q a -> rate_ok a) -> (forall a b, Q a -> Q b -> returns (time_lt a b) /\ returns (time_eq a b)) ->
  Forall (times_meet Q) raws -> all_comparable raws.
Proof.
  intros R H F. rewrite Forall_forall in F. split.
  - intros x y X Y. destruct (F x X) as (A & B & C & D), (F y Y) as (A' & B' & C' & D'). rewrite C, D.
    destruct (H _ _ A A') as [H1 H2], (H _ _ B B') as [_ H3]. split; [exact H1|]. split; [exact H2|]. split; [exact H3|]. split; exact I.
  - intros x X. apply R. apply (F x X).
Qed.

(** * Times at one rate *)

Definition at_rate (n b : Z) (t : time) : Prop := t_rate t = Some (mkR n 1) /\ Z.abs (t_frames t) <= b.
Lemma imul_in a b : is_int (a * b) -> imul a b = Ok (a * b).
Proof. intros I. unfold imul, chk. now rewrite (proj2 (in_int_iff _) I). Qed.
Lemma at_rate_compares n b : 0 <= n -> b * n <= 2147483647 -> forall x y, at_rate n b x -> at_rate n b y -> returns (time_lt x y) /\ returns (time_eq x y).
Proof.
  intros N B x y (Rx & Fx) (Ry & Fy). unfold time_lt, time_eq. rewrite Rx, Ry. cbn [num den]. unfold imul3.
  assert (K : forall f, Z.abs f <= b -> is_int (f * n) /\ is_int (f * n * 1)) by (intros f F; unfold is_int; nia).
  destruct (K _ Fx) as [X1 X2], (K _ Fy) as [Y1 Y2]. rewrite (imul_in _ _ X1), (imul_in _ _ Y1). cbn [bind]. rewrite (imul_in _ _ X2), (imul_in _ _ Y2). cbn [bind].
  destruct (negb _); split; eexists; reflexivity.
Qed.
Lemma at_rate_ok n b t : at_rate n b t -> rate_ok t.
Proof. intros (R & _) r E. rewrite R in E. injection E as <-. cbn. lia. Qed.
Lemma at_rate_collectable n b raws : 0 <= n -> b * n <= 2147483647 -> Forall (times_meet (at_rate n b)) raws -> collectable raws.
Proof. intros N B F. apply comparable_collectable. apply (comparable_by (at_rate n b)); [apply at_rate_ok|now apply at_rate_compares|exact F]. Qed.

Definition no_rate (t : time) : Prop := t_rate t = None.
Lemma no_rate_collectable raws : Forall (times_meet no_rate) raws -> collectable raws.
Proof.
  intros F. apply comparable_collectable. apply (comparable_by no_rate); [|intros a b A B|exact F].
  - intros a A r E. unfold no_rate in A. congruence.
  - unfold time_lt, time_eq, no_rate in *. rewrite A, B. destruct (negb _); split; eexists; reflexivity.
Qed.

(** * SubRip *)

(** Neither tags nor text change times and fades. *)
Definition same_clock (r r' : raw) : Prop := r_from r = r_from r' /\ r_to r = r_to r' /\ r_fade_up r = r_fade_up r' /\ r_fade_down r = r_fade_down r'.
Lemma clock_refl r : same_clock r r. Proof. repeat split. Qed.
Lemma clock_trans a b c : same_clock a b -> same_clock b c -> same_clock a c.
Proof. unfold same_clock. intros (A1 & A2 & A3 & A4) (B1 & B2 & B3 & B4). repeat split; congruence. Qed.
Lemma style_clock s f r : In (s, f) style_tags -> same_clock r (f r).
Proof. cbn [In style_tags]. intros I. repeat destruct I as [I|I]; [injection I as <- <-; repeat split..|contradiction]. Qed.
Lemma override_clock c r t r' : override c r t r' -> same_clock r r'.
Proof. intros O. destruct O; try (repeat split; fail). now apply (style_clock s). Qed.
Lemma piece_clock text r p : In p (with_piece text r) -> same_clock r p.
Proof. unfold with_piece. destruct text; intros I; [contradiction|]. destruct I as [<-|[]]. repeat split. Qed.
Lemma pieces_clock r cs tx toks ps r' last : pieces r cs tx toks ps r' last -> same_clock r r' /\ Forall (same_clock r) ps.
Proof.
  induction 1 as [r cs text|r cs text c toks ps r' last P IH|r cs text tok r1 cs1 toks ps r' last RS P IH|r cs text body r1 toks ps r' last O P IH].
  - split; [apply clock_refl|constructor].
  - exact IH.
  - assert (K : same_clock r r1) by (destruct RS; repeat split). destruct IH as [A B]. split; [now apply (clock_trans _ r1)|].
    apply Forall_app. split; [apply Forall_forall; intros p I; now apply (piece_clock text)|]. revert B. apply Forall_impl. intros p. now apply clock_trans.
  - apply override_clock in O. destruct IH as [A B]. split; [now apply (clock_trans _ r1)|]. revert B. apply Forall_impl. intros p. now apply clock_trans.
Qed.
Lemma rows_clock n r ls raws : rows n r ls raws -> Forall (same_clock r) raws.
Proof.
  induction 1 as [|n r line rest toks ps r' last last' raws L P W R IH]; [constructor|]. apply pieces_clock in P. destruct P as [P1 P2].
  assert (K : same_clock r (with_line n r)) by (repeat split). apply Forall_app. split; [|apply Forall_app; split].
  - revert P2. apply Forall_impl. intros p. now apply clock_trans.
  - apply Forall_forall. intros p I. apply piece_clock in I. apply (clock_trans _ (with_line n r)); [exact K|]. now apply (clock_trans _ r').
  - revert IH. apply Forall_impl. intros p. apply clock_trans. now apply (clock_trans _ (with_line n r)).
Qed.

Lemma concat_forall {A : Type} (P : A -> Prop) ls : Forall (Forall P) ls -> Forall P (List.concat ls).
Proof. induction 1; [constructor|]. cbn. apply Forall_app. now split. Qed.
Lemma forall2_r {A B : Type} (R : A -> B -> Prop) (P : A -> Prop) (Q : B -> Prop) la lb : (forall a b, P a -> R a b -> Q b) -> Forall P la -> Forall2 R la lb -> Forall Q lb.
Proof. intros H F F2. induction F2; [constructor|]. inversion F; subst. constructor; [now apply (H x)|auto]. Qed.

Definition cue_meets (Q : time -> Prop) (c : cue) : Prop := Q (cue_from c) /\ Q (cue_to c).
Lemma cue_pieces Q c raws : cue_meets Q c -> cue_subtitles c raws -> Forall (times_meet Q) raws.
Proof.
  intros (A & B) (liness & _ & R). apply rows_clock in R. revert R. apply Forall_impl. intros p (E1 & E2 & E3 & E4). cbn in E1, E2, E3, E4.
  unfold times_meet. rewrite <- E1, <- E2, <- E3, <- E4. now repeat split.
Qed.
Lemma cues_meet ls cs (Q : time -> Prop) : cues_in ls cs -> (forall l from to, In l ls -> timing_line ","%char l from to -> Q from /\ Q to) -> Forall (cue_meets Q) cs.
Proof.
  induction 1 as [|ls cs C IH|counter N|counter timing from to text rest cs N T F E C IH]; intros H; try constructor.
  - apply IH. intros l f t I. apply H. now right.
  - apply (H timing); [right; now left|exact T].
  - apply IH. intros l f t I. apply H. right. right. rewrite in_app_iff. now right.
Qed.
Lemma cleaned_back ls ls' l' : Forall2 cleaned ls ls' -> In l' ls' -> exists l, In l ls /\ cleaned l l'.
Proof.
  induction 1 as [|a b x y C F IH]; intros I; [contradiction|]. destruct I as [->|I]; [exists a; split; [now left|exact C]|].
  destruct (IH I) as (l & I' & C'). exists l. split; [now right|exact C'].
Qed.
Lemma timing_meets sep (Q : time -> Prop) l from to : timing_line sep l from to -> (forall f t, contains f l -> cue_time sep f t -> Q t) -> Q from /\ Q to.
Proof.
  intros (f0 & f1 & f2 & more & F & L & A & B) H. split; (eapply H; [|eassumption]); apply (fields_in l _ _ F); [now left|right; right; now left].
Qed.
Lemma subrip_meets s raws (Q : time -> Prop) : subrip_file s raws -> (forall f t, contains f s -> cue_time ","%char f t -> Q t) -> Forall (times_meet Q) raws.
Proof.
  intros (ls & TL & ls' & cs & rawss & CL & CU & F & ->) H. apply concat_forall. refine (forall2_r _ (cue_meets Q) _ _ _ _ _ F).
  - intros c rs. apply cue_pieces.
  - apply (cues_meet _ _ _ CU). intros l' from to I T. destruct (cleaned_back _ _ _ CL I) as (l & I' & C).
    apply (timing_meets _ _ _ _ _ T). intros f t CT. apply H. apply (contains_trans f l'); [exact CT|].
    apply (contains_trans l' l); [now apply cleaned_in|now apply (text_lines_in s ls)].
Qed.
Lemma cue_time_rate sep f t : cue_time sep f t -> t_rate t = Some (mkR 1000 1).
Proof. intros (a & b & c & d & _ & _ & ->). reflexivity. Qed.
Lemma cue_time_short s sep f t : short_numbers s -> contains f s -> cue_time sep f t -> at_rate 1000 99999 t.
Proof.
  intros S C CT. split; [now apply cue_time_rate in CT|]. destruct CT as (h & m & sec & ms & (a & b & x & y & -> & Ia & Ib & Ix & Iy) & _ & ->). cbn [t_frames].
  apply (short_integer s) in Iy; [lia|exact S|]. eapply contains_trans; [|exact C]. exists (a ++ ":"%char :: b ++ ":"%char :: x ++ [sep]), [].
  rewrite app_nil_r, <- app_assoc. cbn [app]. rewrite <- app_assoc. cbn [app]. now rewrite <- app_assoc.
Qed.
Lemma subrip_ms s raws : subrip_reader_string s = Ok raws -> Forall (clocked milliseconds_rate) raws.
Proof.
  intros E. apply subrip_string_iff in E. apply (subrip_meets _ _ (fun t => t_rate t = Some (mkR 1000 1))) in E; [exact E|]. intros f t _. apply cue_time_rate.
Qed.
Theorem subrip_collectable s raws : short_numbers s -> subrip_reader_string s = Ok raws -> collectable raws.
Proof.
  intros S E. apply subrip_string_iff in E. apply (at_rate_collectable 1000 99999); [lia|lia|]. apply (subrip_meets _ _ _ E). intros f t. now apply cue_time_short.
Qed.

(** * WebVTT *)

Lemma plain_rows_clock from to rows : forall n, Forall (fun r => r_from r = from /\ r_to r = to /\ r_fade_up r = None /\ r_fade_down r = None) (plain_rows from to n rows).
Proof. induction rows as [|row rows IH]; intros n; cbn [plain_rows]; constructor; [repeat split|apply IH]. Qed.
Lemma vtt_cues_meet ls cs (Q : time -> Prop) : vtt_cues ls cs -> (forall l from to, In l ls -> timing_line "."%char l from to -> Q from /\ Q to) -> Forall (cue_meets Q) cs.
Proof.
  induction 1 as [|l ls cs N A C IH|l comment rest cs N F E C IH|timing from to text rest cs N A T F E C IH]; intros H; try constructor.
  - apply IH. intros k f t I. apply H. now right.
  - apply IH. intros k f t I. apply H. right. rewrite in_app_iff. now right.
  - apply (H timing); [now left|exact T].
  - apply IH. intros k f t I. apply H. right. rewrite in_app_iff. now right.
Qed.
Lemma vtt_meets s raws (Q : time -> Prop) : vtt_file s raws -> (forall f t, contains f s -> cue_time "."%char f t -> Q t) -> Forall (times_meet Q) raws.
Proof.
  intros (ls & TL & V) H. destruct V as [|h h' ls ls' cs rawss CH B CL CU F]; [constructor|]. apply concat_forall. refine (forall2_r _ (cue_meets Q) _ _ _ _ _ F).
  - intros c rs (A1 & A2) (rows & _ & ->). generalize (plain_rows_clock (cue_from c) (cue_to c) rows 0). apply Forall_impl. intros r (E1 & E2 & E3 & E4).
    unfold times_meet. now rewrite E1, E2, E3, E4.
  - apply (vtt_cues_meet _ _ _ CU). intros l' from to I T. destruct (cleaned_back _ _ _ CL I) as (l & I' & C).
    apply (timing_meets _ _ _ _ _ T). intros f t CT. apply H. apply (contains_trans f l'); [exact CT|].
    apply (contains_trans l' l); [now apply cleaned_in|apply (text_lines_in s (h :: ls)); [exact TL|now right]].
Qed.
Lemma vtt_ms s raws : vtt_reader_string s = Ok raws -> Forall (clocked milliseconds_rate) raws.
Proof.
  intros E. apply vtt_string_iff in E. apply (vtt_meets _ _ (fun t => t_rate t = Some (mkR 1000 1))) in E; [exact E|]. intros f t _. apply cue_time_rate.
Qed.
Theorem vtt_collectable s raws : short_numbers s -> vtt_reader_string s = Ok raws -> collectable raws.
Proof.
  intros S E. apply vtt_string_iff in E. apply (at_rate_collectable 1000 99999); [lia|lia|]. apply (vtt_meets _ _ _ E). intros f t. now apply cue_time_short.
Qed.

(** * Text STL *)

Lemma stl_text_pieces_clock r s r' ps : StlTextSpec.pieces r s r' ps -> same_clock r r' /\ Forall (same_clock r) ps.
Proof.
  induction 1 as [r|r n c s r' ps B V P IH|r x c r1 s r' ps C T P IH|r c C|r t s r' ps N F E P IH].
  - split; [apply clock_refl|constructor].
  - exact IH.
  - assert (K : same_clock r r1) by (destruct T as [(_ & ->)|[(_ & ->)|[(_ & ->)|(_ & _ & _ & ->)]]]; repeat split). destruct IH as [A B].
    split; [now apply (clock_trans _ r1)|]. revert B. apply Forall_impl. intros p. now apply clock_trans.
  - split; [apply clock_refl|constructor].
  - destruct IH as [A B]. split; [exact A|]. constructor; [repeat split|exact B].
Qed.
Lemma meets_clock Q r r' : same_clock r r' -> times_meet Q r -> times_meet Q r'.
Proof. intros (A & B & C & D). unfold times_meet. rewrite A, B, C, D. auto. Qed.
Lemma frame_time_rate s t : StlTextSpec.frame_time s t -> no_rate t.
Proof. intros (a & b & c & d & h & m & sec & f & _ & _ & _ & _ & _ & _ & ->). reflexivity. Qed.
Lemma stl_text_line_meets r l r' rs : StlTextSpec.line_means r l r' rs -> times_meet no_rate r -> times_meet no_rate r' /\ Forall (times_meet no_rate) rs.
Proof.
  intros L M. destruct L as [l v _|l v b _ _|l v b _ _|l v b _ _|l v n _ _|l name v _ _|l start finish from to text r' rs _ F T P|l start finish text _ _|l _ _]; try (split; [exact M|constructor]).
  apply stl_text_pieces_clock in P. destruct P as [P1 P2]. apply frame_time_rate in F, T.
  assert (M' : times_meet no_rate (with_times from to r)) by (destruct M as (_ & _ & U & D); now repeat split).
  split; [now apply (meets_clock _ _ _ P1)|]. revert P2. apply Forall_impl. intros p K. now apply (meets_clock _ _ _ K).
Qed.
Lemma stl_text_meets r ls r' raws : StlTextSpec.lines_mean r ls r' raws -> times_meet no_rate r -> Forall (times_meet no_rate) raws.
Proof.
  induction 1 as [|r l l' r1 rs ls r2 rss T L R IH]; intros M; [constructor|]. apply stl_text_line_meets in L; [|exact M]. destruct L as [L1 L2].
  apply Forall_app. split; [exact L2|now apply IH].
Qed.
Lemma stl_text_unrated s raws : stl_text_read true s = Ok raws -> Forall (times_meet no_rate) raws.
Proof. intros E. apply StlTextProofs.text_stl_iff in E. destruct E as (ls & r & _ & L). apply stl_text_meets in L; [exact L|]. repeat split. Qed.
Theorem stl_text_collectable s raws : stl_text_read true s = Ok raws -> collectable raws.
Proof. intros E. apply no_rate_collectable. now apply (stl_text_unrated s). Qed.

(** * Binary STL *)

Lemma byte_at_range b n v : byte_at b n v -> 0 <= v <= 255.
Proof. intros (p & c & q & _ & _ & ->). unfold char_code. pose proof (nat_ascii_bounded c). lia. Qed.
Lemma timecode_meets b n rate t : timecode_at b n rate t -> at_rate rate 255 t.
Proof. intros (h & m & s & f & _ & _ & _ & F & ->). apply byte_at_range in F. split; [reflexivity|]. cbn. lia. Qed.
Lemma block_meets g b raws last : block_read g b raws last -> Forall (times_meet (at_rate (frame_rate g) 255)) raws.
Proof.
  intros [L B|from to top just text rows pieces rs L B F T _ _ _ _ _ _ _ P]; [constructor|]. apply timecode_meets in F, T.
  clear -F T P. induction P as [|p r ps rs K P IH]; [constructor|]. constructor; [|exact IH]. destruct p as [[row st] bs]. destruct K as (w & text & _ & _ & ->). exact (conj F (conj T (conj eq_refl eq_refl))).
Qed.
Lemma binary_meets h input g subs : snd (stl_binary_read input (Iso6937Spec.after h)) = Ok (g, subs) ->
  0 <= frame_rate g <= 30 /\ Forall (times_meet (at_rate (frame_rate g) 255)) subs.
Proof.
  intros E. apply StlReadProofs.read_iff in E. destruct E as (raws & top & (head & blocks & rest & rawss & lasts & _ & H & _ & F & L & -> & _) & M). split.
  - destruct H as (_ & _ & (dfc & _ & I) & _). cbn [In reader_rates] in I. destruct I as [I|[I|[I|[I|[]]]]]; injection I as _ <-; lia.
  - assert (A : Forall (times_meet (at_rate (frame_rate g) 255)) (List.concat rawss)).
    { apply concat_forall. clear -F L. revert lasts blocks F L. induction rawss as [|rs rawss IH]; intros lasts blocks F L; [constructor|]. destruct lasts as [|z lasts]; [discriminate|].
      cbn [combine] in F. inversion F as [|b x bs xs B F' E1 E2]; subst. constructor; [now apply block_meets in B|]. apply (IH lasts bs); [exact F'|]. now injection L. }
    refine (forall2_r _ _ _ _ _ _ A M). intros a b (U & V & W & X) (row & rows & _ & ->). exact (conj U (conj V (conj W X))).
Qed.
Theorem binary_collectable h input g subs : snd (stl_binary_read input (Iso6937Spec.after h)) = Ok (g, subs) -> collectable subs.
Proof. intros E. apply binary_meets in E. destruct E as [R F]. apply (at_rate_collectable _ 255) in F; [exact F|lia|lia]. Qed.

(** * SSA *)

Lemma ssa_cut_clock c z r tx its ps : SsaSpec.cut_up c z r tx its ps -> Forall (same_clock r) ps.
Proof.
  assert (W : forall text r, Forall (same_clock r) (with_piece text r)) by (intros text r0; apply Forall_forall; intros p I; now apply piece_clock in I).
  induction 1 as [r text|r text x its ps C IH|r text t r1 its ps O C IH|r text r1 its ps B C IH].
  - apply W.
  - exact IH.
  - apply Forall_app. split; [apply W|]. apply override_clock in O. revert IH. apply Forall_impl. intros p. now apply clock_trans.
  - apply Forall_app. split; [apply W|]. destruct B as (ref & p0 & _ & _ & ->). revert IH. apply Forall_impl. intros p. apply clock_trans. repeat split.
Qed.
Lemma ssa_text_clock c base s raws : SsaSpec.text_subtitles c base s raws -> Forall (same_clock base) raws.
Proof.
  intros (its & r & n & ps & _ & (x & _ & ->) & _ & C & F). apply ssa_cut_clock in C. refine (forall2_r _ _ _ _ _ _ C F).
  intros a b (A1 & A2 & A3 & A4) (ref & p & _ & _ & ->). cbn in A1, A2, A3, A4. now repeat split.
Qed.
(** What dialogues know about their times: [Q] of those that were given, in the order of the fields. *)
Definition given (Q : time -> Prop) (seen : list str) (r : raw) : Prop :=
  (In (lit "Start") seen -> Q (r_from r)) /\ (In (lit "End") seen -> Q (r_to r)) /\ r_fade_up r = None /\ r_fade_down r = None.
Lemma event_given (Q : time -> Prop) f ev key v ev' seen : event_entry f ev key v ev' -> (forall t, ssa_time v t -> Q t) ->
  (key = lit "Text" -> In (lit "Start") seen /\ In (lit "End") seen) ->
  given Q seen (ev_sub ev) -> Forall (times_meet Q) (ev_out ev) -> given Q (seen ++ [key]) (ev_sub ev') /\ Forall (times_meet Q) (ev_out ev').
Proof.
  intros E H TF G O. destruct G as (G1 & G2 & G3 & G4).
  assert (IN : forall k, k <> key -> In k (seen ++ [key]) -> In k seen) by (intros k N I; apply in_app_iff in I; destruct I as [I|[I|[]]]; [exact I|congruence]).
  assert (KEEP : forall r, same_clock (ev_sub ev) r -> lit "Start" <> key -> lit "End" <> key -> given Q (seen ++ [key]) r).
  { intros r (A & B & C & D) N1 N2. unfold given. rewrite <- A, <- B, <- C, <- D. repeat split; auto. }
  destruct E as [r st l rt out x t T|r st l rt out x t T|r st l rt out x name s _ _|ev x name _ _|r st l rt out x _ _|ev x _|r st l rt out x y _ _|ev|r st l rt out x y _ _|ev|r st l rt out x raws T|ev key x N];
    cbn [ev_sub ev_out] in *; try (split; [apply KEEP; [repeat split|vm_compute; discriminate..]|exact O]).
  - split; [|exact O]. split; [|split; [|split; [exact G3|exact G4]]].
    + intros _. now apply H.
    + intros I. apply G2, IN; [vm_compute; discriminate|exact I].
  - split; [|exact O]. split; [|split; [|split; [exact G3|exact G4]]].
    + intros I. apply G1, IN; [vm_compute; discriminate|exact I].
    + intros _. now apply H.
  - split; [apply KEEP; [repeat split|vm_compute; discriminate..]|]. apply Forall_app. split; [exact O|]. apply ssa_text_clock in T. destruct (TF eq_refl) as [S1 S2].
    revert T. apply Forall_impl. intros p K. apply (meets_clock _ _ _ K). repeat split; auto.
  - split; [|exact O]. apply KEEP; [repeat split|..]; intros <-; apply N; vm_compute; tauto.
Qed.
Lemma events_given (Q : time -> Prop) f kvs : forall seen ev ev', in_turn (event_step f) ev kvs ev' ->
  (forall k v v' t, In (k, v) kvs -> trimmed v v' -> ssa_time v' t -> Q t) -> times_first (seen ++ map fst kvs) ->
  given Q seen (ev_sub ev) -> Forall (times_meet Q) (ev_out ev) -> Forall (times_meet Q) (ev_out ev').
Proof.
  induction kvs as [|[k v] kvs IH]; intros seen ev ev' T H TF G O; inversion T as [|? ? ev1 ? ? S T']; subst; [exact O|].
  destruct S as (v' & TR & E). cbn [fst snd] in *.
  destruct (event_given Q f ev k v' ev1 seen E) as [G' O'].
  - intros t. apply (H k v v' t); [now left|exact TR].
  - intros ->. apply (TF seen (map fst kvs)). reflexivity.
  - exact G.
  - exact O.
  - apply (IH (seen ++ [k]) ev1 ev' T'); [|rewrite <- app_assoc; exact TF|exact G'|exact O'].
    intros k0 v0 v0' t I. apply (H k0 v0 v0' t). now right.
Qed.
Lemma combine_keys {A B : Type} (ks : list A) (vs : list B) : length vs = length ks -> map fst (combine ks vs) = ks.
Proof. revert vs. induction ks as [|k ks IH]; intros [|v vs] L; try discriminate; [reflexivity|]. cbn. f_equal. apply IH. now injection L. Qed.
Lemma dialogue_meets (Q : time -> Prop) f body raws : dialogue_line f body raws -> times_first (sr_event_format f) ->
  (forall vs v v' t, field_values (length (sr_event_format f)) body vs -> In v vs -> trimmed v v' -> ssa_time v' t -> Q t) -> Forall (times_meet Q) raws.
Proof.
  intros (_ & vs & ev & V & T & ->) TF H. apply (events_given Q f (combine (sr_event_format f) vs) [] new_event ev T).
  - intros k v v' t I. apply (H vs); [exact V|]. now apply in_combine_r in I.
  - cbn [app]. rewrite combine_keys; [exact TF|]. destruct V as (L & _). exact L.
  - split; [|split; [|now split]]; intros [].
  - constructor.
Qed.
Definition reader_meets (Q : time -> Prop) (f : ssa_reader) : Prop := times_first (sr_event_format f) /\ Forall (times_meet Q) (sr_subs f).
Definition format_timed (l : str) : Prop := forall l' body parts keys, line_body l l' -> keyed l' (lit "Format") body -> parts_of [comma] body parts ->
  Forall2 trimmed parts keys -> times_first keys.
Lemma ssa_time_rate s t : ssa_time s t -> t_rate t = Some (mkR 1000 1).
Proof. intros (a & b & c & d & h & m & sec & x & _ & _ & _ & _ & _ & _ & _ & ->). reflexivity. Qed.
Lemma line_body_part line l : line_body line l -> SsaSafeProofs.part line l.
Proof.
  intros (u & T & B). apply (SsaSafeProofs.part_trans line u); [now apply SsaSafeProofs.part_trimmed|].
  destruct B as [B|(_ & ->)]; [now apply SsaSafeProofs.bom_part|apply SsaSafeProofs.part_refl].
Qed.
Lemma colon_part l key body : keyed l key body -> SsaSafeProofs.part l body.
Proof.
  intros (rest & -> & _ & T). apply (SsaSafeProofs.part_trans _ rest); [|now apply SsaSafeProofs.part_trimmed]. exists (key ++ [":"%char]), [].
  split; [now rewrite app_nil_r, <- app_assoc|]. apply SsaSafeProofs.no_end_snoc. intros [(d & H1 & H2)|H]; [SsaUseProofs.code_lia_in H2|unfold letter in H; SsaUseProofs.code_lia_in H].
Qed.
Lemma ssa_time_short l s t : numbers_within 5 l -> SsaSafeProofs.part l s -> ssa_time s t -> at_rate 1000 999990 t.
Proof.
  intros W P T. split; [now apply ssa_time_rate in T|]. destruct T as (hs & ms & ss & cs & h & m & sec & c & (x & y & z & -> & X & Y & Z0 & _) & _ & _ & _ & (C & _) & _ & _ & ->). cbn [t_frames].
  pose proof (SsaSafeProofs.part_number 5 l cs c W) as B. cut (Z.abs c < 10 ^ Z.of_nat 5); [change (10 ^ Z.of_nat 5) with 100000; lia|]. apply B; [|exact C].
  apply (SsaSafeProofs.part_trans _ _ _ P). exists (hs ++ x :: ms ++ y :: ss ++ [z]), []. split.
  - rewrite app_nil_r, <- !app_assoc. cbn [app]. rewrite <- !app_assoc. cbn [app]. now rewrite <- app_assoc.
  - replace (hs ++ x :: ms ++ y :: ss ++ [z]) with ((hs ++ x :: ms ++ y :: ss) ++ [z]) by (rewrite <- !app_assoc; cbn [app]; now rewrite <- !app_assoc).
    apply SsaSafeProofs.no_end_snoc. destruct Z0 as [->| ->]; intros [(d & H1 & H2)|H]; try (unfold letter in H; SsaUseProofs.code_lia_in H); SsaUseProofs.code_lia_in H2.
Qed.
Lemma ssa_line_meets (Q : time -> Prop) f l f' : ssa_line_read f l f' -> reader_meets Q f -> format_timed l ->
  (forall v t, contains (lit "Dialogue") l -> SsaSafeProofs.part l v -> ssa_time v t -> Q t) -> reader_meets Q f'.
Proof.
  intros L (R1 & R2) FT H. destruct L as [f line B|f line s B|f line h p B I|f line s B N|f line l key body f' B N K E]; try (split; assumption).
  destruct E as [x y ss sf ef subs body v _|x y ss sf ef subs body v _|x y ss sf ef subs body|x y ss sf ef subs body st _ _|x y ss sf ef subs body parts keys P F|x y ss sf ef subs body raws D|f key body _]; cbn [sr_event_format sr_subs] in *; try (split; assumption).
  - split; [|exact R2]. now apply (FT l body parts keys).
  - split; [exact R1|]. cbn [sr_subs]. apply Forall_app. split; [exact R2|]. apply (dialogue_meets Q _ _ _ D); [exact R1|].
    intros vs v v' t V I T. apply H.
    + apply (SsaSafeProofs.part_contains line l); [now apply line_body_part|]. destruct K as (rest & -> & _). exists [], (":"%char :: rest). reflexivity.
    + apply (SsaSafeProofs.part_trans line l); [now apply line_body_part|]. apply (SsaSafeProofs.part_trans l body); [now apply colon_part in K|].
      apply (SsaSafeProofs.part_trans body v); [|now apply SsaSafeProofs.part_trimmed]. destruct V as (_ & -> & _). apply SsaSafeProofs.part_join; [apply SsaSafeProofs.comma_no_alnum|exact I].
Qed.
Lemma ssa_meets (Q : time -> Prop) ls f f' : in_turn ssa_line_read f ls f' -> reader_meets Q f -> Forall format_timed ls ->
  (forall l v t, In l ls -> contains (lit "Dialogue") l -> SsaSafeProofs.part l v -> ssa_time v t -> Q t) -> reader_meets Q f'.
Proof.
  induction 1 as [|f l f1 ls f2 L T IH]; intros R F H; [exact R|]. inversion F; subst. apply IH; [|assumption|].
  - apply (ssa_line_meets Q f l f1 L R); [assumption|]. intros v t. apply H. now left.
  - intros k v t I. apply H. now right.
Qed.
Lemma new_file_meets Q : reader_meets Q new_file.
Proof. split; [|constructor]. intros before after E. now destruct before. Qed.
Lemma ssa_ms s raws : formats_timed s -> ssa_reader_string s = Ok raws -> Forall (clocked milliseconds_rate) raws.
Proof.
  intros (ls & TL & FT) E. apply SsaProofs.ssa_string_iff in E. destruct E as (ls' & f & TL' & T & ->). assert (ls' = ls) as -> by (apply lines_of_string_iff in TL, TL'; congruence).
  apply (ssa_meets (fun t => t_rate t = Some (mkR 1000 1))) in T; [apply T|apply new_file_meets|exact FT|]. intros l v t _ _ _. apply ssa_time_rate.
Qed.
Lemma ssa_short s raws : moderate_numbers s -> formats_timed s -> ssa_reader_string s = Ok raws -> Forall (times_meet (at_rate 1000 999990)) raws.
Proof.
  intros (ls0 & TL0 & M) (ls & TL & FT) E. apply SsaProofs.ssa_string_iff in E. destruct E as (ls' & f & TL' & T & ->).
  assert (ls' = ls) as -> by (apply lines_of_string_iff in TL, TL'; congruence). assert (ls0 = ls) as -> by (apply lines_of_string_iff in TL, TL0; congruence).
  apply (ssa_meets (at_rate 1000 999990)) in T; [apply T|apply new_file_meets|exact FT|].
  intros l v t I D P. rewrite Forall_forall in M. destruct (M l I) as (_ & W). apply (ssa_time_short l); [now apply W|exact P].
Qed.
Theorem ssa_collectable s raws : moderate_numbers s -> formats_timed s -> ssa_reader_string s = Ok raws -> collectable raws.
Proof. intros M F E. apply (at_rate_collectable 1000 999990); [lia|lia|]. now apply (ssa_short s). Qed.

Lemma stl_text_clocked s raws : stl_text_read true s = Ok raws -> Forall (clocked None) raws.
Proof. exact (stl_text_unrated s raws). Qed.
Lemma binary_clocked h input g subs : snd (stl_binary_read input (Iso6937Spec.after h)) = Ok (g, subs) -> Forall (clocked (Some (mkR (frame_rate g) 1))) subs.
Proof. intros E. apply binary_meets in E. destruct E as [_ F]. revert F. apply Forall_impl. intros r ((A & _) & (B & _) & C). exact (conj A (conj B C)). Qed.

(** A check for the formats. *)
Fixpoint times_first_check (start finish : bool) (keys : list str) : bool :=
  match keys with
  | [] => true
  | k :: t => (negb (str_eqb k (lit "Text")) || (start && finish)) && times_first_check (start || str_eqb k (lit "Start")) (finish || str_eqb k (lit "End")) t
  end.
Lemma times_first_check_ok keys : forall seen start finish, (start = true -> In (lit "Start") seen) -> (finish = true -> In (lit "End") seen) ->
  times_first_check start finish keys = true -> forall before after, keys = before ++ lit "Text" :: after -> In (lit "Start") (seen ++ before) /\ In (lit "End") (seen ++ before).
Proof.
  induction keys as [|k keys IH]; intros seen start finish S F C before after E; [now destruct before|]. cbn [times_first_check] in C. apply andb_true_iff in C. destruct C as [C1 C2].
  destruct before as [|b before]; cbn [app] in E; injection E as -> E.
  - rewrite app_nil_r. rewrite (proj2 (StringProofs.str_eqb_iff _ _) eq_refl) in C1. cbn [negb orb] in C1. apply andb_true_iff in C1. destruct C1 as [-> ->]. split; auto.
  - edestruct (fun A B => IH (seen ++ [b]) _ _ A B C2 before after E) as [X Y].
    + intros H. apply in_app_iff. apply orb_true_iff in H. destruct H as [H|H]; [left; auto|right; apply StringProofs.str_eqb_iff in H; subst; now left].
    + intros H. apply in_app_iff. apply orb_true_iff in H. destruct H as [H|H]; [left; auto|right; apply StringProofs.str_eqb_iff in H; subst; now left].
    + rewrite <- app_assoc in X, Y. now split.
Qed.
Definition format_check (line : str) : bool :=
  let l := remove_unicode_bom (trim line) in
  match find_sub l (lit ":") with
  | Some n => negb (str_eqb (firstn n l) (lit "Format")) || times_first_check false false (map trim (split (is_any_of (lit ",")) (trim (skipn (n + 1) l))))
  | None => true
  end.
Definition formats_check (s : str) : bool := forallb format_check (lines_of_string s).
Lemma formats_check_ok s : formats_check s = true -> formats_timed s.
Proof.
  intros C. exists (lines_of_string s). split; [now apply lines_of_string_iff|]. unfold formats_check in C. rewrite forallb_forall in C. apply Forall_forall. intros line I.
  specialize (C line I). intros l body parts keys B K P T. unfold format_check in C. apply SsaProofs.line_body_iff in B. rewrite B in C.
  destruct K as (rest & -> & N & TB). pose proof (SsaProofs.find_colon (lit "Format" ++ ":"%char :: rest)) as FC. destruct (find_sub _ (lit ":")) as [n|] eqn:FS.
  - destruct FC as (rest' & E & S & NN). assert (FN : firstn n (lit "Format" ++ ":"%char :: rest) = lit "Format" /\ rest' = rest).
    { clear - E N NN. set (a := firstn n _) in *. clearbody a. revert E N NN. generalize (lit "Format"). intros b. revert a. induction b as [|x b IH]; intros a E N NN; destruct a as [|y a]; cbn [app] in E.
      - injection E as ->. now split.
      - injection E as <- E. exfalso. apply NN. now left.
      - injection E as -> E. exfalso. apply N. now left.
      - injection E as -> E. destruct (IH a E) as [-> ->]; [intros X; apply N; now right|intros X; apply NN; now right|now split]. }
    destruct FN as [FN ->]. rewrite FN in C. rewrite (proj2 (StringProofs.str_eqb_iff _ _) eq_refl) in C. cbn [negb orb] in C.
    intros before after EK. apply (times_first_check_ok _ [] false false) with (before := before) (after := after) in C; [exact C|discriminate|discriminate|].
    rewrite S. apply SsaTextProofs.trim_iff in TB. rewrite TB. apply SsaTextProofs.parts_iff in P. change (lit ",") with [comma]. rewrite P, <- EK. clear -T. induction T as [|a b x y H T IH]; [reflexivity|].
    cbn. apply SsaTextProofs.trim_iff in H. now rewrite H, IH.
  - exfalso. apply FC. rewrite in_app_iff. right. now left.
Qed.
