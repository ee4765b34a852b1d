(** One subtitle with other times. *)
From Coq Require Import ZArith List Bool Ascii String Lia.
From Verif.Model Require Import Base Strings Float TimeModel Types Lines RawConvert Subrip WebVtt Ssa StlText StlUtil StlBinReader.
From Verif.Spec Require Import Outcome TextSpec LinesSpec RawSpec SsaTagSpec SubripSpec StopSpec SubripUseSpec WebVttSpec SsaSpec TextFileSpec JoinSpec CommentSpec TakeOutSpec RetimeSpec.
From Verif.Proofs Require Import StringProofs LinesProofs SsaTextProofs SsaTagProofs SubripProofs SubripStopProofs SubripUseProofs WebVttProofs SsaProofs SsaUseProofs TextFileProofs JoinProofs CommentProofs FileUseProofs TakeOutProofs.
Import ListNotations.
Local Notation length := List.length.

(** * Times take no part in what tags do *)

Lemma piece_retimed f t text r : with_piece text (with_times f t r) = map (with_times f t) (with_piece text r).
Proof. now destruct text. Qed.
Lemma override_times c r tg r1 f t : override c r tg r1 -> override c (with_times f t r) tg (with_times f t r1).
Proof.
  intros O. inversion O as [s g I|k h v x I M|a b1 x b2 y A X Y B1 B2|n N|s last k C| |tt S1 S2 S3 S4 S5]; subst.
  - assert (E : with_times f t (g r) = g (with_times f t r)).
    { cbn [style_tags In] in I. repeat (destruct I as [I|I]; [injection I as <- <-; reflexivity|]). destruct I. }
    rewrite E. now constructor.
  - exact (override_align c (with_times f t r) k h v x I M).
  - exact (override_pos c (with_times f t r) a b1 x b2 y A X Y B1 B2).
  - exact (override_size c (with_times f t r) n N).
  - exact (override_colour c (with_times f t r) s last k C).
  - exact (override_colour_reset c (with_times f t r)).
  - now apply override_nothing.
Qed.
Lemma restyled_times r cs tok r1 cs1 f t : restyled r cs tok r1 cs1 -> restyled (with_times f t r) cs tok (with_times f t r1) cs1.
Proof. intros R. inversion R; subst; [exact (restyle_bold _ _ _)|exact (restyle_italic _ _ _)|exact (restyle_underline _ _ _)|now apply (restyle_font (with_times f t r))|exact (restyle_font_end (with_times f t r) _ _ _)]. Qed.
Lemma pieces_times f t r cs text toks ps r' last : SubripSpec.pieces r cs text toks ps r' last ->
  SubripSpec.pieces (with_times f t r) cs text toks (map (with_times f t) ps) (with_times f t r') last.
Proof.
  induction 1 as [r cs text|r cs text c toks ps r' last P IH|r cs text tok r1 cs1 toks ps r' last R P IH|r cs text body r1 toks ps r' last O P IH].
  - constructor.
  - now constructor.
  - rewrite map_app, <- piece_retimed. econstructor; [apply restyled_times; exact R|exact IH].
  - econstructor; [apply override_times; exact O|exact IH].
Qed.
Lemma rows_times f t n r ls rs : rows n r ls rs -> rows n (with_times f t r) ls (map (with_times f t) rs).
Proof.
  induction 1 as [|n r line rest toks ps r' last last' raws L P W R IH]; [constructor|].
  rewrite !map_app, <- piece_retimed. apply (pieces_times f t) in P. econstructor; [exact L|exact P|exact W|exact IH].
Qed.
Lemma override_lasts f t c r tg r1 : override c r tg r1 -> lasts f t r -> lasts f t r1.
Proof.
  intros O L. inversion O as [s g I|k h v x I M|a b1 x b2 y A X Y B1 B2|n N|s last k C| |tt S1 S2 S3 S4 S5]; subst; try exact L.
  cbn [style_tags In] in I. repeat (destruct I as [I|I]; [injection I as <- <-; exact L|]). destruct I.
Qed.
Lemma piece_lasts f t text r : lasts f t r -> Forall (lasts f t) (with_piece text r).
Proof. intros L. destruct text; [constructor|]. constructor; [exact L|constructor]. Qed.
Lemma pieces_lasts f t r cs text toks ps r' last : SubripSpec.pieces r cs text toks ps r' last -> lasts f t r -> Forall (lasts f t) ps /\ lasts f t r'.
Proof.
  induction 1 as [r cs text|r cs text c toks ps r' last P IH|r cs text tok r1 cs1 toks ps r' last R P IH|r cs text body r1 toks ps r' last O P IH]; intros L.
  - now split.
  - auto.
  - assert (L1 : lasts f t r1) by (inversion R; subst; exact L). destruct (IH L1) as [A B]. split; [|exact B]. apply Forall_app. split; [now apply piece_lasts|exact A].
  - apply IH. exact (override_lasts _ _ _ _ _ _ O L).
Qed.
Lemma rows_lasts f t n r ls rs : rows n r ls rs -> lasts f t r -> Forall (lasts f t) rs.
Proof.
  induction 1 as [|n r line rest toks ps r' last last' raws L P W R IH]; intros T; [constructor|].
  destruct (pieces_lasts f t _ _ _ _ _ _ _ P T) as [A B]. rewrite !Forall_app. auto using piece_lasts.
Qed.

(** * SubRip *)

Lemma text_lines_ok ls : Forall text_line ls -> Forall (fun l => ~ In lf l) ls /\ exists ls', Forall2 cleaned ls ls' /\ Forall (fun l => l <> []) ls'.
Proof.
  induction 1 as [|l ls (N & l' & C & E) F [IH (ls' & F1 & F2)]]; [split; [constructor|]; exists []; now split|].
  split; [now constructor|]. exists (l' :: ls'). split; now constructor.
Qed.
Lemma cleaned_nothing : cleaned [] [].
Proof. exists [], []. repeat split; auto; [intros (u & v & G & _); now destruct u|]. right. split; [|reflexivity]. intros (u & G). discriminate G. Qed.
Lemma text_lines_text ls : Forall (fun l => ~ In lf l) ls -> text_lines (text_of_lines ls) ls.
Proof. intros F. apply lines_of_string_iff. now apply text_lines_of. Qed.
Lemma subrip_one counter l text f t r : text_line counter -> times_line ","%char l f t -> Forall text_line text ->
  (subrip_reader_string (cue_with [counter] l text) = Ok r <-> exists text', Forall2 cleaned text text' /\ cue_subtitles (mkCue f t text') r).
Proof.
  intros (NC & c' & CC & EC) (NL & l' & CL & T) TX. destruct (text_lines_ok _ TX) as [NT (text' & CT & ET)].
  rewrite subrip_string_iff. unfold cue_with. rewrite (JoinProofs.lines_of_file _ _ (text_lines_text ([counter] ++ [l] ++ text ++ [[]]) ltac:(repeat (constructor; [assumption|]); apply Forall_app; split; [exact NT|repeat constructor; auto]))).
  assert (CLN : Forall2 cleaned ([counter] ++ [l] ++ text ++ [[]]) (c' :: l' :: text' ++ [[]])).
  { constructor; [exact CC|]. constructor; [exact CL|]. apply Forall2_app; [exact CT|]. constructor; [exact cleaned_nothing|constructor]. }
  assert (CU : cues_in (c' :: l' :: text' ++ [[]]) [mkCue f t text']).
  { apply (cues_cue c' l' f t text' [[]] []); auto; [right; now exists []|]. apply cues_blank. constructor. }
  split.
  - intros (ls' & cs & rawss & C & Q & S & ->). rewrite (cleaned_unique _ _ _ C CLN) in Q. rewrite (cues_unique _ _ Q _ CU) in S.
    inversion S as [|? x ? y S1 S2]; subst. inversion S2; subst. exists text'. split; [exact CT|]. cbn [List.concat]. now rewrite app_nil_r.
  - intros (text2 & C2 & S). rewrite (cleaned_unique _ _ _ C2 CT) in S. exists (c' :: l' :: text' ++ [[]]), [mkCue f t text'], [r].
    split; [exact CLN|]. split; [exact CU|]. split; [now repeat constructor|]. cbn. now rewrite app_nil_r.
Qed.
Lemma cue_retimed f t f' t' text r : cue_subtitles (mkCue f t text) r -> Forall (lasts f t) r /\ cue_subtitles (mkCue f' t' text) (map (with_times f' t') r).
Proof.
  intros (liness & P & R). cbn [cue_text cue_from cue_to] in *. split; [apply (rows_lasts _ _ _ _ _ _ R); now split|].
  exists liness. split; [exact P|]. exact (rows_times f' t' _ _ _ _ R).
Qed.
Lemma cue_blank head l text : ends_blank (cue_with (head) l text).
Proof.
  exists (text_of_lines (removelast (head ++ [l] ++ text)) ++ last (head ++ [l] ++ text) []). left. unfold cue_with.
  assert (NE : head ++ [l] ++ text <> []) by now destruct head. rewrite !app_assoc, text_of_app, <- !app_assoc.
  rewrite (app_removelast_last [] NE) at 1. rewrite text_of_app. unfold text_of_lines at 2 3. cbn [map List.concat app]. rewrite <- !app_assoc. cbn [app].
  reflexivity.
Qed.
Lemma retimes_of (read : str -> res (list raw)) a c c' b f t f' t' :
  removable read a c b -> removable read a c' b ->
  (forall ra rc, read a = Ok ra -> read (a ++ c) = Ok (ra ++ rc) -> Forall (lasts f t) rc /\ read (a ++ c') = Ok (ra ++ map (with_times f' t') rc)) ->
  retimes read a c c' b f t f' t'.
Proof.
  intros R R' K r H. apply R in H. destruct H as (ra & rc & rb & A & C & B & ->). exists ra, rc, rb. split; [reflexivity|]. split; [exact A|]. split; [exact C|].
  destruct (K _ _ A C) as [L C']. split; [exact L|]. apply R'. exists ra, (map (with_times f' t') rc), rb. auto.
Qed.
Lemma subrip_retimes a counter l l' text b f t f' t' : a = [] \/ ends_blank a -> text_line counter -> times_line ","%char l f t -> times_line ","%char l' f' t' ->
  Forall text_line text -> retimes subrip_reader_string a (cue_with [counter] l text) (cue_with [counter] l' text) b f t f' t'.
Proof.
  intros A C T T' TX. apply retimes_of; [apply subrip_removable; [exact A|apply cue_blank]|apply subrip_removable; [exact A|apply cue_blank]|].
  intros ra rc RA RC.
  assert (J : forall s x, subrip_reader_string (a ++ s) = Ok (ra ++ x) <-> subrip_reader_string s = Ok x).
  { intros s x. destruct A as [->|A].
    - injection RA as <-. reflexivity.
    - rewrite (subrip_joined a s _ A). rewrite RA. split; [intros (ra' & rb & [= <-] & B & E); apply app_inv_head in E; now subst|]. intros B. exists ra, x. auto. }
  apply (proj1 (J _ _)) in RC. apply (subrip_one _ _ _ f t) in RC; auto. destruct RC as (text' & CT & S). destruct (cue_retimed f t f' t' _ _ S) as [L S'].
  split; [exact L|]. apply (proj2 (J _ _)). apply (subrip_one _ _ _ f' t'); auto. exists text'. now split.
Qed.

(** * WebVTT *)

Lemma other_lines ls : Forall other_line ls -> Forall (fun l => ~ In lf l) ls /\ exists ls', Forall2 cleaned ls ls' /\ Forall (fun l => ~ is_note l /\ ~ has_arrow l) ls'.
Proof.
  induction 1 as [|l ls (N & l' & C & E) F [IH (ls' & F1 & F2)]]; [split; [constructor|]; exists []; now split|].
  split; [now constructor|]. exists (l' :: ls'). split; now constructor.
Qed.
Lemma plain_retimed f t f' t' rows : forall n, map (with_times f' t') (plain_rows f t n rows) = plain_rows f' t' n rows /\ Forall (lasts f t) (plain_rows f t n rows).
Proof.
  induction rows as [|x rows IH]; intros n; [split; constructor|]. destruct (IH (n + 1)%Z) as [A B]. cbn [plain_rows map]. split; [now rewrite A|].
  constructor; [now split|exact B].
Qed.
Lemma vtt_part_ok head l text f t : Forall other_line head -> arrow_line l f t -> Forall text_line text ->
  forall r, (exists text' rows, Forall2 cleaned text text' /\ cue_rows (mkCue f t text') rows /\ r = plain_rows f t 0 rows) -> vtt_part (cue_with head l text) r.
Proof.
  intros HD (NL & l' & CL & NN & HA & T) TX r (text2 & rows & C2 & RW & ->). destruct (text_lines_ok _ TX) as [NT (text' & CT & ET)]. destruct (other_lines _ HD) as [NH (head' & CH & EH)].
  rewrite (cleaned_unique _ _ _ C2 CT) in RW.
  exists (head ++ [l] ++ text ++ [[]]), (head' ++ [l'] ++ text' ++ [[]]), [mkCue f t text'], [plain_rows f t 0 rows].
  split; [apply text_lines_text; rewrite !Forall_app; repeat (split; auto)|].
  split; [apply Forall2_app; [exact CH|]; apply Forall2_app; [now repeat constructor|]; apply Forall2_app; [exact CT|]; constructor; [exact cleaned_nothing|constructor]|].
  split; [|split; [repeat constructor; now exists rows|cbn; now rewrite app_nil_r]].
  clear CH. induction EH as [|h head' [E1 E2] EH IH]; [|cbn [app]; apply vtt_other; auto].
  cbn [app]. apply vtt_cue; auto; [right; now exists []|]. apply vtt_other; [intros (x & G); discriminate G|intros (x & y & G); now destruct x|constructor].
Qed.
Lemma has_rows text : exists rows, forall f t, cue_rows (mkCue f t text) rows.
Proof.
  assert (H : exists liness, Forall2 (parts_of u2028) text liness).
  { induction text as [|x text (liness & IH)]; [exists []; constructor|]. exists (split_lit u2028 x :: liness). constructor; [|exact IH]. apply split_lit_iff; [discriminate|discriminate|reflexivity]. }
  destruct H as (liness & H). exists (List.concat liness). intros f t. exists liness. now split.
Qed.
Lemma vtt_retimes a head l l' text b f t f' t' : ends_blank a -> Forall other_line head -> arrow_line l f t -> arrow_line l' f' t' -> Forall text_line text ->
  retimes vtt_reader_string a (cue_with head l text) (cue_with head l' text) b f t f' t'.
Proof.
  intros A HD T T' TX. apply retimes_of; [apply vtt_removable; [exact A|apply cue_blank]|apply vtt_removable; [exact A|apply cue_blank]|].
  intros ra rc RA RC.
  assert (J : forall s x, vtt_reader_string (a ++ s) = Ok (ra ++ x) <-> vtt_part s x).
  { intros s x. rewrite (vtt_parts a s _ A). rewrite RA. split; [intros (ra' & rb & [= <-] & B & E); apply app_inv_head in E; now subst|]. intros B. exists ra, x. auto. }
  apply (proj1 (J _ _)) in RC.
  destruct (text_lines_ok _ TX) as [NT (text' & CT & ET)].
  destruct (has_rows text') as (rows & RW). pose proof (RW f' t') as RW'. specialize (RW f t).
  assert (E : rc = plain_rows f t 0 rows) by (apply (vtt_part_unique _ _ _ RC); apply (vtt_part_ok _ _ _ f t); auto; exists text', rows; now split).
  subst rc. destruct (plain_retimed f t f' t' rows 0) as [E L]. split; [exact L|]. rewrite E. apply (proj2 (J _ _)). apply (vtt_part_ok _ _ _ f' t'); auto. exists text', rows. now split.
Qed.

(** * SSA *)

Lemma cut_up_times f t c size r text its ps : cut_up c size r text its ps -> cut_up c size (with_times f t r) text its (map (with_times f t) ps).
Proof.
  induction 1 as [r text|r text x its ps H IH|r text tg r1 its ps O H IH|r text r1 its ps (ref & p & V & P & ->) H IH].
  - rewrite <- piece_retimed. constructor.
  - now constructor.
  - rewrite map_app, <- piece_retimed. econstructor; [apply override_times; exact O|exact IH].
  - rewrite map_app, <- piece_retimed. econstructor; [|exact IH]. exists ref, p. auto.
Qed.
Lemma cut_up_lasts f t c size r text its ps : cut_up c size r text its ps -> lasts f t r -> Forall (lasts f t) ps.
Proof.
  induction 1 as [r text|r text x its ps H IH|r text tg r1 its ps O H IH|r text r1 its ps (ref & p & V & P & ->) H IH]; intros L.
  - now apply piece_lasts.
  - auto.
  - apply Forall_app. split; [now apply piece_lasts|]. apply IH. exact (override_lasts _ _ _ _ _ _ O L).
  - apply Forall_app. split; [now apply piece_lasts|]. apply IH. exact L.
Qed.
Lemma finished_times f t base n size ps qs : Forall2 (finished base n size) ps qs ->
  Forall2 (finished (with_times f t base) n size) (map (with_times f t) ps) (map (with_times f t) qs).
Proof. induction 1 as [|p q ps qs (ref & y & V & P & ->) F IH]; [constructor|]. cbn [map]. constructor; [exists ref, y; auto|exact IH]. Qed.
Lemma text_times f t c base s raws : text_subtitles c base s raws -> text_subtitles c (with_times f t base) s (map (with_times f t) raws).
Proof.
  intros (its & r & n & ps & T & (x & M & ->) & B & C & F). exists its. eexists. exists n, (map (with_times f t) ps). split; [exact T|].
  split; [exists x; split; [exact M|reflexivity]|]. split; [exact B|]. split; [exact (cut_up_times f t _ _ _ _ _ _ C)|].
  exact (finished_times f t _ _ _ _ _ F).
Qed.
Lemma text_lasts f t c base s raws : text_subtitles c base s raws -> lasts f t base -> Forall (lasts f t) raws.
Proof.
  intros (its & r & n & ps & T & (x & M & ->) & B & C & F) L. apply (cut_up_lasts f t) in C; [|exact L].
  induction F as [|p q ps qs (ref & y & V & P & ->) F IH]; [constructor|]. inversion C; subst. constructor; auto.
Qed.

Lemma ssa_time_unique s t t' : ssa_time s t -> ssa_time s t' -> t = t'.
Proof. intros A B. apply parse_time_iff in A, B. congruence. Qed.
Definition re (a b : time) (ev : ssa_event) : ssa_event := mkEv (with_times a b (ev_sub ev)) (ev_style ev) (ev_left ev) (ev_right ev) (ev_out ev).
Lemma entry_times f ev k v ev1 a b : ~ In k [lit "Start"; lit "End"; lit "Text"] -> event_entry f ev k v ev1 ->
  event_entry f (re a b ev) k v (re a b ev1) /\ ev_out ev1 = ev_out ev /\ r_from (ev_sub ev1) = r_from (ev_sub ev) /\ r_to (ev_sub ev1) = r_to (ev_sub ev).
Proof.
  intros N E. inversion E; subst; try (exfalso; apply N; cbn [In]; auto; fail); (split; [|now repeat split]).
  - refine (event_style f (with_times a b _) _ _ _ _ _ _ _ _ _); eassumption.
  - eapply event_no_style; eassumption.
  - refine (event_margin_v f (with_times a b _) _ _ _ _ _ _ _); assumption.
  - apply event_keep_margin_v. assumption.
  - refine (event_margin_l f (with_times a b _) _ _ _ _ _ _ _ _); assumption.
  - apply event_keep_margin_l.
  - refine (event_margin_r f (with_times a b _) _ _ _ _ _ _ _ _); assumption.
  - apply event_keep_margin_r.
  - now apply event_other.
Qed.
Lemma values_times f from to from' to' ks vs vs' : values_other_times from to from' to' ks vs vs' ->
  forall ev ev1 a b, in_turn (event_step f) ev (combine ks vs) ev1 ->
  exists a' b', in_turn (event_step f) (re a b ev) (combine ks vs') (re a' b' ev1) /\ ev_out ev1 = ev_out ev /\
    ((r_from (ev_sub ev) = from /\ a = from') \/ In (lit "Start") ks -> r_from (ev_sub ev1) = from /\ a' = from') /\
    ((r_to (ev_sub ev) = to /\ b = to') \/ In (lit "End") ks -> r_to (ev_sub ev1) = to /\ b' = to').
Proof.
  induction 1 as [|k v v' ks vs vs' O V IH]; intros ev ev1 a b T; cbn [combine] in T |- *.
  - inversion T; subst. exists a, b. split; [constructor|]. split; [reflexivity|]. split; intros [H|[]]; exact H.
  - inversion T as [|? ? ev2 ? ? S T']; subst. destruct S as (x & X & E). cbn [fst snd] in X, E.
    inversion O as [? ? y y' Y Y' Q Q'|? ? y y' Y Y' Q Q'|? ? N]; subst.
    + assert (EQ : ev2 = mkEv (with_times from (r_to (ev_sub ev)) (ev_sub ev)) (ev_style ev) (ev_left ev) (ev_right ev) (ev_out ev)).
      { rewrite (trimmed_unique _ _ _ X Y) in E. inversion E as [r st l rt out ? t1 H1| | | | | | | | | | |? ? ? N]; subst; [|exfalso; apply N; cbn; auto].
        cbn [ev_sub ev_style ev_left ev_right ev_out]. now rewrite (ssa_time_unique _ _ _ H1 Q). }
      subst ev2. destruct (IH _ _ from' b T') as (a' & b' & T2 & OUT & FS & TS). exists a', b'.
      split; [econstructor; [exists y'; split; [exact Y'|]; apply (event_start f (with_times a b (ev_sub ev))); exact Q'|exact T2]|].
      split; [exact OUT|]. split; [intros _; apply FS; left; now split|]. intros [H|[H|H]]; [|discriminate H|]; apply TS; [left; exact H|now right].
    + assert (EQ : ev2 = mkEv (with_times (r_from (ev_sub ev)) to (ev_sub ev)) (ev_style ev) (ev_left ev) (ev_right ev) (ev_out ev)).
      { rewrite (trimmed_unique _ _ _ X Y) in E. inversion E as [|r st l rt out ? t1 H1| | | | | | | | | |? ? ? N]; subst; [|exfalso; apply N; cbn; auto].
        cbn [ev_sub ev_style ev_left ev_right ev_out]. now rewrite (ssa_time_unique _ _ _ H1 Q). }
      subst ev2. destruct (IH _ _ a to' T') as (a' & b' & T2 & OUT & FS & TS). exists a', b'.
      split; [econstructor; [exists y'; split; [exact Y'|]; apply (event_end f (with_times a b (ev_sub ev))); exact Q'|exact T2]|].
      split; [exact OUT|]. split; [|intros _; apply TS; left; now split]. intros [H|[H|H]]; [|discriminate H|]; apply FS; [left; exact H|now right].
    + destruct (entry_times f _ _ _ _ a b N E) as (E2 & O2 & F2 & T2). destruct (IH _ _ a b T') as (a' & b' & T3 & OUT & FS & TS). exists a', b'.
      split; [econstructor; [exists x; split; [exact X|exact E2]|exact T3]|]. split; [congruence|]. rewrite F2 in FS. rewrite T2 in TS.
      split; intros [H|[H|H]]; try (apply FS; auto; fail); try (apply TS; auto; fail); exfalso; apply N; rewrite H; cbn; auto.
Qed.
Lemma values_length from to from' to' ks vs vs' : values_other_times from to from' to' ks vs vs' -> length ks = length vs /\ length ks = length vs'.
Proof. induction 1 as [|k v v' ks vs vs' O V [IH1 IH2]]; cbn [length]; split; congruence. Qed.
Lemma combine_end {A B : Type} (a : list A) (b : list B) x y : length a = length b -> combine (a ++ [x]) (b ++ [y]) = combine a b ++ [(x, y)].
Proof. revert b. induction a as [|u a IH]; intros [|v b]; cbn; try discriminate; [reflexivity|]. intros [= E]. now rewrite IH. Qed.
Lemma dialogue_retimed f ks vs vs' text body body' from to from' to' raws :
  sr_event_format f = ks ++ [lit "Text"] -> values_other_times from to from' to' ks vs vs' -> In (lit "Start") ks -> In (lit "End") ks ->
  field_values (length (vs ++ [text])) body (vs ++ [text]) -> field_values (length (vs' ++ [text])) body' (vs' ++ [text]) ->
  dialogue_line f body raws -> Forall (lasts from to) raws /\ dialogue_line f body' (map (with_times from' to') raws).
Proof.
  intros EF V IS IE FV FV' (NE & ws & ev & W & T & ->). destruct (values_length _ _ _ _ _ _ _ V) as [L1 L2].
  assert (N1 : length (sr_event_format f) = length (vs ++ [text])) by (rewrite EF, !app_length; cbn; lia).
  assert (N2 : length (sr_event_format f) = length (vs' ++ [text])) by (rewrite EF, !app_length; cbn; lia).
  rewrite <- N1 in FV. rewrite (field_values_unique _ _ _ _ W FV) in T. rewrite EF, (combine_end _ _ _ _ L1) in T.
  apply in_turn_app in T. destruct T as (ev1 & T1 & T2).
  destruct (values_times f _ _ _ _ _ _ _ V _ _ SsaSpec.no_time SsaSpec.no_time T1) as (a' & b' & T3 & OUT & FS & TS).
  destruct (FS (or_intror IS)) as [FS1 ->]. destruct (TS (or_intror IE)) as [TS1 ->]. clear FS TS.
  inversion T2 as [|? ? ev2 ? ? S T4]; subst. inversion T4; subst. destruct S as (x & X & E). cbn [fst snd] in X, E.
  inversion E as [| | | | | | | | | |r st l rt out ? rws TS|? ? ? N]; subst; [|exfalso; apply N; cbn; auto 10].
  cbn [ev_sub ev_out] in *. subst out. cbn [new_event ev_out app].
  split; [apply (text_lasts _ _ _ _ _ _ TS); now split|]. split; [exact NE|].
  exists (vs' ++ [text]), (mkEv (with_times from' to' r) st l rt (map (with_times from' to') rws)).
  split; [now rewrite N2|]. split; [|reflexivity]. rewrite EF, (combine_end _ _ _ _ L2). apply in_turn_app. exists (re from' to' (mkEv r st l rt [])).
  split; [exact T3|]. econstructor; [|constructor]. exists x. split; [exact X|]. cbn [fst snd re ev_sub ev_style ev_left ev_right ev_out].
  apply (event_text f (with_times from' to' r) st l rt []). exact (text_times from' to' _ _ _ _ TS).
Qed.

Lemma events_state keys a f : events_so_far keys a -> whole_lines a /\ (ssa_lines ssa_init (lines_of_string a) = Ok f -> sr_part f = EVENTS /\ sr_event_format f = keys).
Proof.
  intros (x & l & u & body & parts & d & -> & W & NL & LB & K & P & TR & (ld & O & DL)).
  assert (W1 : whole_lines (x ++ lit "[Events]" ++ [lf])) by (right; exists (x ++ lit "[Events]"); now rewrite <- app_assoc).
  assert (W2 : whole_lines ((x ++ lit "[Events]" ++ [lf]) ++ l ++ [lf])) by (right; exists ((x ++ lit "[Events]" ++ [lf]) ++ l); now rewrite <- !app_assoc).
  replace (x ++ lit "[Events]" ++ [lf] ++ l ++ [lf] ++ d) with (((x ++ lit "[Events]" ++ [lf]) ++ l ++ [lf]) ++ d) by (now rewrite <- !app_assoc).
  split.
  { pose proof (of_lines_whole _ _ O) as [-> |(y & ->)]; [now rewrite app_nil_r|]. right. eexists. now rewrite app_assoc. }
  rewrite string_lines_app by exact W2. rewrite string_lines_app by exact W1. rewrite string_lines_app by exact W.
  replace (lines_of_string (lit "[Events]" ++ [lf])) with [lit "[Events]"] by reflexivity.
  replace (lines_of_string (l ++ [lf])) with [l] by (symmetry; apply lines_of_string_iff; constructor; [exact NL|constructor]).
  apply of_lines_lines, lines_of_string_iff in O. rewrite O. rewrite ssa_lines_app. rewrite <- app_assoc. rewrite ssa_lines_app.
  destruct (ssa_lines ssa_init (lines_of_string x)) as [f0| |]; cbn [bind]; try discriminate.
  intros H. apply TakeOutProofs.bind_ok in H. destruct H as (f1 & H1 & H). cbn [app ssa_lines] in H1.
  apply TakeOutProofs.bind_ok in H1. destruct H1 as (f2 & H2 & H1). apply TakeOutProofs.bind_ok in H1. destruct H1 as (f3 & H3 & H1). injection H1 as <-.
  assert (E2 : f2 = with_part EVENTS f0) by (destruct f0; vm_compute in H2; injection H2 as <-; reflexivity). subst f2.
  destruct (dialogue_lines_only _ DL _ _ H) as (dd & ->). cbn [with_subs sr_part sr_event_format].
  apply ssa_line_iff in H3. destruct K as (rest & -> & NK & TB).
  assert (KY : keyed (lit "Format" ++ ":"%char :: rest) (lit "Format") body) by (exists rest; now split).
  destruct f0 as [p0 rx ry ss sf ef subs]. cbn [with_part] in H3.
  inversion H3 as [? ? B|? ? y B|? ? h p B I|? ? y B N|? ? l1 key body1 f' B NB K1 EN]; subst; pose proof (line_body_unique _ _ _ LB B) as U; try discriminate U.
  - exfalso. cbn [headings In] in I. destruct I as [I|[I|[I|[I|[]]]]]; injection I as <- <-; discriminate U.
  - subst l1. destruct (keyed_unique _ _ _ _ _ KY K1) as [<- <-]. inversion EN as [| | | |? ? ? ? ? ? ? parts1 keys1 P1 T1| |? ? ? N]; subst.
    + cbn. split; [reflexivity|]. rewrite (parts_unique _ _ _ _ P1 P) in T1. clear -T1 TR. revert keys TR. induction T1 as [|a b la lb T1 F IH]; intros keys TR; inversion TR as [|? b' ? lb' T2 F2]; subst; [reflexivity|].
      f_equal; [exact (trimmed_unique _ _ _ T1 T2)|now apply IH].
    + exfalso. apply N. cbn. auto.
Qed.
Lemma dialogue_lines vs c : dialogue_with vs c -> exists l body, ~ In lf l /\ c = l ++ [lf] /\ dialogues c /\ line_body l (lit "Dialogue:" ++ body) /\
  exists body', keyed (lit "Dialogue:" ++ body) (lit "Dialogue") body' /\ field_values (length vs) body' vs.
Proof.
  intros (l & body & -> & N & T & body' & TB & FV). exists l, body. split; [exact N|]. split; [reflexivity|]. split.
  - exists [l]. split; [split; [now repeat constructor|cbn; now rewrite app_nil_r]|]. constructor; [|constructor]. exists (lit "Dialogue:" ++ body). split; [exact T|]. now exists body.
  - split; [exists (lit "Dialogue:" ++ body); split; [exact T|]; right; split; [intros (x & G); discriminate G|reflexivity]|].
    exists body'. split; [|exact FV]. exists body. split; [reflexivity|]. split; [|exact TB]. intros I. cbn in I. intuition discriminate.
Qed.
Lemma line_dialogue f l body body' f1 : sr_part f = EVENTS -> line_body l (lit "Dialogue:" ++ body) -> keyed (lit "Dialogue:" ++ body) (lit "Dialogue") body' ->
  (ssa_line f l = Ok f1 <-> exists raws, dialogue_line f body' raws /\ f1 = with_subs (sr_subs f ++ raws) f).
Proof.
  intros E LB K. rewrite ssa_line_iff. destruct f as [p rx ry ss sf ef subs]. cbn [sr_part] in E. subst p. split.
  - intros H. inversion H as [? ? B|? ? y B|? ? h p B I|? ? y B N|? ? l1 key body1 f' B NB K1 EN]; subst; pose proof (line_body_unique _ _ _ LB B) as U; try discriminate U.
    + exfalso. cbn [headings In] in I. destruct I as [I|[I|[I|[I|[]]]]]; injection I as <- <-; discriminate U.
    + subst l1. destruct (keyed_unique _ _ _ _ _ K K1) as [<- <-]. inversion EN as [| | | | |? ? ? ? ? ? ? raws D|? ? ? N]; subst; [exists raws; now split|exfalso; apply N; cbn; auto].
  - intros (raws & D & ->). econstructor; [exact LB| |exact K|now apply entry_dialogue]. intros [H|H]; discriminate H.
Qed.
Lemma ssa_retimes ks vs vs' text a c c' b f t f' t' :
  events_so_far (ks ++ [lit "Text"]) a -> In (lit "Start") ks -> In (lit "End") ks -> values_other_times f t f' t' ks vs vs' ->
  dialogue_with (vs ++ [text]) c -> dialogue_with (vs' ++ [text]) c' -> retimes ssa_reader_string a c c' b f t f' t'.
Proof.
  intros EV IS IE V D D'. destruct (dialogue_lines _ _ D) as (l & body & N & -> & DL & LB & body1 & K & FV). destruct (dialogue_lines _ _ D') as (l' & body' & N' & -> & DL' & LB' & body1' & K' & FV').
  destruct (events_state _ _ ssa_init EV) as [W _].
  apply retimes_of; [now apply ssa_removable|now apply ssa_removable|]. intros ra rc. unfold ssa_reader_string. rewrite !(string_lines_app a) by exact W.
  replace (lines_of_string (l ++ [lf])) with [l] by (symmetry; apply lines_of_string_iff; constructor; [exact N|constructor]).
  replace (lines_of_string (l' ++ [lf])) with [l'] by (symmetry; apply lines_of_string_iff; constructor; [exact N'|constructor]).
  unfold ssa_read. rewrite !ssa_lines_app. destruct (ssa_lines ssa_init (lines_of_string a)) as [F| |] eqn:S; cbn [bind]; try discriminate.
  destruct (events_state _ _ F EV) as [_ ST]. destruct (ST S) as [PF EF]. intros [= <-] H. cbn [ssa_lines] in H |- *.
  apply TakeOutProofs.bind_ok in H. destruct H as (F1 & H & [= E]). apply TakeOutProofs.bind_ok in H. destruct H as (F2 & H & [= <-]).
  apply (line_dialogue _ _ _ _ _ PF LB K) in H. destruct H as (raws & DG & ->). cbn [with_subs sr_subs] in E. apply app_inv_head in E. subst rc.
  destruct (dialogue_retimed F ks vs vs' text _ _ _ _ _ _ _ EF V IS IE FV FV' DG) as [L DG']. split; [exact L|].
  rewrite (proj2 (line_dialogue F l' body' body1' (with_subs (sr_subs F ++ map (with_times f' t') raws) F) PF LB' K')); [reflexivity|]. eauto.
Qed.

(** * For the examples *)

Lemma times_comma l f t : ~ In lf l -> treads ","%char (clean_line l) = Ok (inr (f, t)) -> times_line ","%char l f t.
Proof. intros N T. split; [exact N|]. exists (clean_line l). split; [now apply clean_line_iff|]. now apply (treads_ok ","%char sep_comma ltac:(discriminate)). Qed.
Lemma arrow_dot l f t : ~ In lf l -> ~ is_note (clean_line l) -> has_arrow (clean_line l) -> treads "."%char (clean_line l) = Ok (inr (f, t)) -> arrow_line l f t.
Proof. intros N A B T. split; [exact N|]. exists (clean_line l). split; [now apply clean_line_iff|]. split; [exact A|]. split; [exact B|]. now apply (treads_ok "."%char sep_dot ltac:(discriminate)). Qed.
Lemma text_of l : ~ In lf l -> clean_line l <> [] -> text_line l.
Proof. intros N T. split; [exact N|]. exists (clean_line l). split; [now apply clean_line_iff|exact T]. Qed.
