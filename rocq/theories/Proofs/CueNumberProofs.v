(** The numbers of subtitles. *)
From Coq Require Import ZArith List Bool Ascii String Lia.
From Verif.Model Require Import Base Strings Float TimeModel Types Lines RawConvert Subrip WebVtt Ssa StlUtil StlBinReader.
From Verif.Spec Require Import Outcome TextSpec LinesSpec RawSpec SsaTagSpec SubripSpec WebVttSpec SsaSpec TextFileSpec JoinSpec Iso6937Spec StlFileSpec StlSamples CommentSpec TakeOutSpec RetimeSpec CueNumberSpec.
From Verif.Proofs Require Import SsaSafeProofs FileEndsProofs SubripUseProofs SsaUseProofs StringProofs SsaTextProofs Iso6937Proofs LinesProofs SubripProofs WebVttProofs SsaProofs TextFileProofs JoinProofs CommentProofs FileUseProofs TakeOutProofs RetimeProofs StlReadProofs EqualityProofs.
Import ListNotations.
Local Notation length := List.length.

Lemma same_error_refl e : same_error e e.
Proof. now destruct e. Qed.
Lemma same_refl {A : Type} (x : res A) : same_but_shown x x.
Proof. destruct x; [reflexivity|apply same_error_refl|reflexivity]. Qed.
Lemma same_bind {A B : Type} (x y : res A) (f g : A -> res B) : same_but_shown x y -> (forall a, same_but_shown (f a) (g a)) -> same_but_shown (bind x f) (bind y g).
Proof. destruct x, y; cbn; try contradiction; auto. now intros ->. Qed.
Ltac same_case := repeat match goal with |- context [match ?x with _ => _ end] => destruct x; try apply same_refl; try (cbn; auto; fail) end.

(** * SubRip: the context takes no part *)

Lemma font_same n c c' saw : same_but_shown (font_colour n c saw) (font_colour n c' saw).
Proof. unfold font_colour. same_case. Qed.
Lemma chars_same n c c' : forall fuel t p cs subs, same_but_shown (convert_chars fuel n c t p cs subs) (convert_chars fuel n c' t p cs subs).
Proof.
  induction fuel as [|k IH]; intros t p cs subs; destruct t as [|x t]; try apply same_refl. cbn [convert_chars].
  destruct (maybe_content p subs) as [p' subs'].
  repeat (match goal with |- same_but_shown (match ?x with Some _ => _ | None => _ end) _ => destruct x; [|] end; try (apply IH)).
  - destruct (until _ _) as [tag rest]. apply same_bind; [apply font_same|]. intros col. apply IH.
  - destruct cs as [|c1 [|c2 cs]]; [apply IH|apply same_refl|apply IH].
  - destruct (until _ _) as [tag rest]. apply same_bind; [apply same_refl|]. intros q. apply IH.
Qed.
Lemma line_same n c c' t p subs : same_but_shown (convert_line n c t p subs) (convert_line n c' t p subs).
Proof. unfold convert_line. apply same_bind; [apply chars_same|]. intros [p' subs']. apply same_refl. Qed.
Lemma sub_lines_same n c c' l : forall rs subs, same_but_shown (convert_sub_lines n c l rs subs) (convert_sub_lines n c' l rs subs).
Proof.
  induction l as [|s l IH]; intros rs subs; [apply same_refl|]. cbn [convert_sub_lines]. apply same_bind; [apply line_same|]. intros [rs' subs'].
  apply same_bind; [apply same_refl|]. intros m. apply IH.
Qed.
Lemma loop_same l : forall n st c c' rs subs, same_but_shown (subrip_loop l n st c rs subs) (subrip_loop l n st c' rs subs).
Proof.
  induction l as [|x l IH]; intros n st c c' rs subs; [apply same_refl|]. cbn [subrip_loop]. destruct st.
  - destruct (clean_line x); apply IH.
  - destruct (_ && _); [cbn; auto|]. apply same_bind; [apply same_refl|]. intros [f|e]; [|cbn; auto]. apply same_bind; [apply same_refl|]. intros [t|e]; [apply IH|cbn; auto].
  - destruct (clean_line x); [apply IH|]. apply same_bind; [apply sub_lines_same|]. intros [rs' subs']. apply IH.
Qed.
Lemma loop_number la blank x x' lb : clean_line blank = [] -> clean_line x <> [] -> clean_line x' <> [] ->
  forall n st c c' rs subs, same_but_shown (subrip_loop (la ++ blank :: x :: lb) n st c rs subs) (subrip_loop (la ++ blank :: x' :: lb) n st c' rs subs).
Proof.
  intros B X X'.
  assert (K : forall n c c' rs subs, same_but_shown (subrip_loop (x :: lb) n COUNTER c rs subs) (subrip_loop (x' :: lb) n COUNTER c' rs subs)).
  { intros n c c' rs subs. cbn [subrip_loop]. destruct (clean_line x); [congruence|]. destruct (clean_line x'); [congruence|]. apply loop_same. }
  induction la as [|y la IH]; intros n st c c' rs subs; cbn [app].
  - cbn [subrip_loop]. rewrite B. destruct st; [apply K|cbn; auto|apply K].
  - cbn [subrip_loop]. destruct st.
    + destruct (clean_line y); apply IH.
    + destruct (_ && _); [cbn; auto|]. apply same_bind; [apply same_refl|]. intros [f|e]; [|cbn; auto]. apply same_bind; [apply same_refl|]. intros [t|e]; [apply IH|cbn; auto].
    + destruct (clean_line y); [apply IH|]. apply same_bind; [apply sub_lines_same|]. intros [rs' subs']. apply IH.
Qed.
Lemma blank_whole a : ends_blank a -> whole_lines a.
Proof. intros (x & [->| ->]); right; [exists (x ++ [lf])|exists (x ++ [lf; cr])]; now rewrite <- app_assoc. Qed.
Lemma blank_lines a : ends_blank a -> exists la blank, lines_of_string a = la ++ [blank] /\ la <> [] /\ clean_line blank = [].
Proof.
  intros E. destruct (joined_lines a [] E) as (la & blank & lb & TA & NE & C & _). exists la, blank. split; [now apply lines_of_string_iff|].
  split; [exact NE|]. now apply clean_line_iff.
Qed.
Lemma one_line l b : ~ In lf l -> lines_of_string (l ++ [lf] ++ b) = l :: lines_of_string b.
Proof.
  intros N. rewrite app_assoc, string_lines_app by (right; now exists l). change (l :: lines_of_string b) with ([l] ++ lines_of_string b). f_equal.
  apply lines_of_string_iff. constructor; [exact N|constructor].
Qed.
Lemma text_clean l : text_line l -> ~ In lf l /\ clean_line l <> [].
Proof. intros (N & l' & C & E). split; [exact N|]. apply clean_line_iff in C. congruence. Qed.
Lemma subrip_number a counter counter' b : a = [] \/ ends_blank a -> text_line counter -> text_line counter' ->
  same_but_shown (subrip_reader_string (a ++ counter ++ [lf] ++ b)) (subrip_reader_string (a ++ counter' ++ [lf] ++ b)).
Proof.
  intros A C C'. destruct (text_clean _ C) as [N X], (text_clean _ C') as [N' X']. unfold subrip_reader_string, subrip_read. destruct A as [->|A].
  - cbn [app]. change (counter ++ lf :: b) with (counter ++ [lf] ++ b). change (counter' ++ lf :: b) with (counter' ++ [lf] ++ b). rewrite !one_line by assumption.
    cbn [subrip_loop]. destruct (clean_line counter); [congruence|]. destruct (clean_line counter'); [congruence|]. apply loop_same.
  - rewrite !(string_lines_app a) by now apply blank_whole. rewrite !one_line by assumption. destruct (blank_lines a A) as (la & blank & -> & _ & BL).
    rewrite <- !app_assoc. now apply loop_number.
Qed.

(** * WebVTT *)

Lemma vloop_same l : forall st c c' rs subs, same_but_shown (vtt_loop l st c rs subs) (vtt_loop l st c' rs subs).
Proof.
  induction l as [|x l IH]; intros st c c' rs subs; [apply same_refl|]. cbn [vtt_loop]. destruct st.
  - destruct (starts_with _ _); [apply IH|cbn; auto].
  - destruct (starts_with _ _); [apply IH|]. destruct (is_some _); [|apply IH]. destruct (_ && _); [cbn; auto|].
    apply same_bind; [apply same_refl|]. intros [f|e]; [|cbn; auto]. apply same_bind; [apply same_refl|]. intros [t|e]; [apply IH|cbn; auto].
  - destruct (clean_line x); [apply IH|]. apply same_bind; [apply same_refl|]. intros [rs' subs']. apply IH.
  - destruct (clean_line x); apply IH.
Qed.
Lemma other_clean l : other_line l -> ~ In lf l /\ starts_with (clean_line l) (lit "NOTE") = false /\ is_some (find_sub (clean_line l) (lit "-->")) = false.
Proof.
  intros (N & l' & C & NN & NA). apply clean_line_iff in C. subst l'. split; [exact N|]. split.
  - destruct (starts_with (clean_line l) (lit "NOTE")) eqn:E; [|reflexivity]. exfalso. apply NN. now apply starts_with_iff.
  - destruct (find_sub (clean_line l) (lit "-->")) eqn:E; [|reflexivity]. exfalso. apply NA. apply arrow_iff. now rewrite E.
Qed.
Definition quiet (l : str) : Prop := starts_with (clean_line l) (lit "NOTE") = false /\ is_some (find_sub (clean_line l) (lit "-->")) = false.
Lemma names_same ls lb : Forall quiet ls -> forall c c' rs subs, same_but_shown (vtt_loop (ls ++ lb) VDATA c rs subs) (vtt_loop lb VDATA c' rs subs).
Proof.
  induction 1 as [|l ls [O1 O2] F IH]; intros c c' rs subs; [apply vloop_same|]. cbn [app vtt_loop]. rewrite O1, O2. apply IH.
Qed.
Lemma same_sym {A : Type} (x y : res A) : same_but_shown x y -> same_but_shown y x.
Proof.
  destruct x as [a|e|u], y as [b|e'|u']; cbn; try contradiction; auto. unfold same_error. destruct e, e'; try discriminate; auto; intuition congruence.
Qed.
Lemma same_trans {A : Type} (x y z : res A) : same_but_shown x y -> same_but_shown y z -> same_but_shown x z.
Proof.
  destruct x as [a|e|u], y as [b|e'|u'], z as [d|e''|u'']; cbn; try contradiction; try congruence. unfold same_error.
  destruct e, e'; try discriminate; destruct e''; try discriminate; intuition congruence.
Qed.
Lemma vloop_names la blank ls ls' lb : clean_line blank = [] -> Forall quiet ls -> Forall quiet ls' ->
  forall st c c' rs subs, same_but_shown (vtt_loop (la ++ blank :: ls ++ lb) st c rs subs) (vtt_loop (la ++ blank :: ls' ++ lb) st c' rs subs).
Proof.
  intros B O O'.
  assert (K : forall c c' rs subs, same_but_shown (vtt_loop (ls ++ lb) VDATA c rs subs) (vtt_loop (ls' ++ lb) VDATA c' rs subs)).
  { intros c c' rs subs. eapply same_trans; [now apply names_same with (c' := c)|]. apply same_sym. now apply names_same. }
  induction la as [|y la IH]; intros st c c' rs subs; cbn [app].
  - cbn [vtt_loop]. rewrite B. destruct st; [cbn; auto| |apply K|apply K]. cbn. apply K.
  - cbn [vtt_loop]. destruct st.
    + destruct (starts_with _ _); [apply IH|cbn; auto].
    + destruct (starts_with _ _); [apply IH|]. destruct (is_some _); [|apply IH]. destruct (_ && _); [cbn; auto|].
      apply same_bind; [apply same_refl|]. intros [f|e]; [|cbn; auto]. apply same_bind; [apply same_refl|]. intros [t|e]; [apply IH|cbn; auto].
    + destruct (clean_line y); [apply IH|]. apply same_bind; [apply same_refl|]. intros [rs' subs']. apply IH.
    + destruct (clean_line y); apply IH.
Qed.
Lemma lines_then ls b : Forall (fun l => ~ In lf l) ls -> lines_of_string (text_of_lines ls ++ b) = ls ++ lines_of_string b.
Proof.
  induction 1 as [|l ls N F IH]; [reflexivity|]. unfold text_of_lines in *. cbn [map List.concat]. rewrite <- !app_assoc, one_line by exact N. now rewrite IH.
Qed.
Lemma other_quiet ls : Forall other_line ls -> Forall quiet ls.
Proof. intros F. eapply Forall_impl; [|exact F]. intros l O. now destruct (other_clean _ O) as (_ & A & B). Qed.
Lemma vtt_names a names names' b : ends_blank a -> Forall other_line names -> Forall other_line names' ->
  same_but_shown (vtt_reader_string (a ++ text_of_lines names ++ b)) (vtt_reader_string (a ++ text_of_lines names' ++ b)).
Proof.
  intros A O O'. unfold vtt_reader_string, vtt_read. rewrite !(string_lines_app a) by now apply blank_whole.
  rewrite !lines_then by (eapply Forall_impl; [|eassumption]; intros l X; now apply other_clean).
  destruct (blank_lines a A) as (la & blank & -> & _ & BL). rewrite <- !app_assoc. cbn [app]. apply (vloop_names la blank names names' (lines_of_string b)); [exact BL|now apply other_quiet..].
Qed.

(** * SSA *)

Lemma field_ignored f ev k v : ~ In k shown_fields -> event_field f ev k v = Ok ev.
Proof.
  intros N. assert (K : forall x, In x shown_fields -> str_eqb k x = false).
  { intros x I. destruct (str_eqb k x) eqn:E; [|reflexivity]. apply EqualityProofs.str_eqb_true in E. subst x. contradiction. }
  unfold event_field. destruct ev as [sub st l rt out]. rewrite !K by (unfold shown_fields; cbn [In]; auto 10). reflexivity.
Qed.
Lemma fields_same f ks vs vs' : other_values ks vs vs' -> forall ev, event_fields f ev (combine ks vs) = event_fields f ev (combine ks vs').
Proof.
  induction 1 as [|k v v' ks vs vs' [->|N] O IH]; intros ev; [reflexivity| |]; cbn [combine event_fields].
  - destruct (event_field f ev k v') as [ev'| |]; cbn [bind]; auto.
  - rewrite !field_ignored by exact N. cbn [bind]. apply IH.
Qed.
Lemma other_lengths ks vs vs' : other_values ks vs vs' -> length vs = length ks /\ length vs' = length ks.
Proof. induction 1 as [|k v v' ks vs vs' _ O [IH1 IH2]]; cbn [length]; split; congruence. Qed.
Lemma dialogue_same f ks vs vs' body body' : sr_event_format f = ks -> other_values ks vs vs' -> field_values (length vs) body vs -> field_values (length vs') body' vs' ->
  dialogue f body = dialogue f body'.
Proof.
  intros <- O V V'. destruct (other_lengths _ _ _ O) as [L L']. rewrite L in V. rewrite L' in V'.
  destruct (sr_event_format f) as [|k ks] eqn:EF; [unfold dialogue; now rewrite EF|]. rewrite <- EF in *.
  assert (NE : sr_event_format f <> []) by now rewrite EF.
  destruct (dialogue_cases f body NE) as [(ws & W & ->)|[N _]]; [|now apply N in V].
  destruct (dialogue_cases f body' NE) as [(ws' & W' & ->)|[N _]]; [|now apply N in V'].
  rewrite (field_values_unique _ _ _ _ W V), (field_values_unique _ _ _ _ W' V'). now rewrite (fields_same f _ _ _ O).
Qed.
Lemma line_of_dialogue f l body body' : sr_part f = EVENTS -> line_body l (lit "Dialogue:" ++ body) -> keyed (lit "Dialogue:" ++ body) (lit "Dialogue") body' ->
  ssa_line f l = let* raws := dialogue f body' in Ok (with_subs (sr_subs f ++ raws) f).
Proof.
  intros P LB (r & E & _ & T). destruct f as [p rx ry ss sf ef subs]. cbn [sr_part] in P. subst p. apply line_body_iff in LB. apply SsaTextProofs.trim_iff in T.
  change (lit "Dialogue:" ++ body) with (lit "Dialogue" ++ ":"%char :: body) in E. apply app_inv_head in E. injection E as <-.
  unfold ssa_line. rewrite LB. cbn [sr_subs]. rewrite <- T.
  assert (F : find_sub (lit "Dialogue:" ++ body) (lit ":") = Some 8%nat) by now destruct body.
  assert (S1 : starts_with (lit "Dialogue:" ++ body) (lit ";") || is_nil (lit "Dialogue:" ++ body) = false) by now destruct body.
  assert (S2 : starts_with (lit "Dialogue:" ++ body) (lit "[") = false) by now destruct body.
  rewrite S1, S2, F. change (str_eqb (firstn 8 (lit "Dialogue:" ++ body)) (lit "Format")) with false.
  change (str_eqb (firstn 8 (lit "Dialogue:" ++ body)) (lit "Dialogue")) with true. cbv beta iota zeta.
  change (skipn (8 + 1) (lit "Dialogue:" ++ body)) with body. reflexivity.
Qed.
Lemma ssa_names ks vs vs' a c c' b : events_so_far ks a -> other_values ks vs vs' -> dialogue_with vs c -> dialogue_with vs' c' ->
  ssa_reader_string (a ++ c ++ b) = ssa_reader_string (a ++ c' ++ b).
Proof.
  intros EV O D D'. destruct (dialogue_lines _ _ D) as (l & body & N & -> & DL & LB & body1 & K & FV). destruct (dialogue_lines _ _ D') as (l' & body' & N' & -> & DL' & LB' & body1' & K' & FV').
  destruct (events_state _ _ ssa_init EV) as [W _]. rewrite <- !app_assoc. unfold ssa_reader_string. rewrite !(string_lines_app a) by exact W. rewrite !one_line by assumption.
  unfold ssa_read. rewrite !ssa_lines_app. destruct (ssa_lines ssa_init (lines_of_string a)) as [F| |] eqn:S; cbn [bind]; try reflexivity.
  destruct (events_state _ _ F EV) as [_ ST]. destruct (ST S) as [PF EF]. cbn [ssa_lines].
  rewrite (line_of_dialogue F l body body1 PF LB K), (line_of_dialogue F l' body' body1' PF LB' K'). now rewrite (dialogue_same F ks vs vs' body1 body1' EF O FV FV').
Qed.

(** * Binary STL *)

(** Blocks that are the same from their times on. *)
Definition same_from (b b' : str) : Prop := exists p p' q, b = p ++ q /\ b' = p' ++ q /\ length p = 5%nat /\ length p' = 5%nat /\ length q = 123%nat.
Lemma from_int b b' i : same_from b b' -> (5 <= i)%nat -> get_int b' i = get_int b i.
Proof. intros (p & p' & q & -> & -> & P & P' & _) I. unfold get_int. rewrite !app_nth2 by lia. now rewrite P, P'. Qed.
Lemma from_string b b' i n : same_from b b' -> (5 <= i)%nat -> get_string b' i n = get_string b i n.
Proof.
  intros (p & p' & q & -> & -> & P & P' & _) I. unfold get_string. rewrite !skipn_app. rewrite !(skipn_all2 (n := i)) by lia. now rewrite P, P'.
Qed.
Lemma from_block g b b' : same_from b b' -> block_res g b' = block_res g b.
Proof.
  intros S. unfold block_res, tc. rewrite !(from_int b b') by (exact S || lia). now rewrite (from_string b b') by (exact S || lia).
Qed.
Lemma from_blocks g rest bs bs' : Forall2 same_from bs bs' -> forall n, blocks_res n g (List.concat bs ++ rest) = blocks_res n g (List.concat bs' ++ rest).
Proof.
  induction 1 as [|b b' bs bs' S F IH]; intros n; [reflexivity|]. destruct n as [|n]; [reflexivity|]. cbn [List.concat blocks_res]. rewrite <- !app_assoc.
  assert (L : length b = 128%nat /\ length b' = 128%nat) by (destruct S as (p & p' & q & -> & -> & P & P' & Q); rewrite !app_length, P, P', Q; split; reflexivity).
  destruct L as [L L'].
  rewrite (proj2 (read_block_iff 128 "TTI" (b ++ _) b (List.concat bs ++ rest)) (conj eq_refl L)).
  rewrite (proj2 (read_block_iff 128 "TTI" (b' ++ _) b' (List.concat bs' ++ rest)) (conj eq_refl L')). cbn [bind fst snd].
  now rewrite (from_block g b b' S), IH.
Qed.
Lemma from_file h h' head bs bs' rest : length head = 1024%nat -> Forall2 same_from bs bs' ->
  snd (stl_binary_read (head ++ List.concat bs ++ rest) (after h)) = snd (stl_binary_read (head ++ List.concat bs' ++ rest) (after h')).
Proof.
  intros L F. rewrite (proj1 (read_ok _ (after h') (after_reached h'))), (proj1 (read_ok _ (after h) (after_reached h))). unfold file_res.
  rewrite (proj2 (read_block_iff 1024 "GSI" (head ++ List.concat bs ++ rest) head _) (conj eq_refl L)).
  rewrite (proj2 (read_block_iff 1024 "GSI" (head ++ List.concat bs' ++ rest) head _) (conj eq_refl L)). cbn [bind fst snd].
  destruct (read_gsi head) as [g| |]; cbn [bind]; try reflexivity. now rewrite (from_blocks g rest bs bs' F).
Qed.
Lemma renumbered_from b b' : renumbered b b' -> same_from b b'.
Proof.
  intros (n & n' & q & -> & -> & N & N' & Q). exists (n ++ firstn 2 q), (n' ++ firstn 2 q), (skipn 2 q). rewrite <- !app_assoc, firstn_skipn.
  rewrite !app_length, firstn_length, skipn_length, Q, N, N'. now repeat split.
Qed.
Lemma extension_from b b' : other_extension b b' -> same_from b b'.
Proof.
  intros (n & x & x' & q & -> & -> & N & Q). exists (n ++ x :: firstn 1 q), (n ++ x' :: firstn 1 q), (skipn 1 q). rewrite <- !app_assoc. cbn [app]. rewrite firstn_skipn.
  rewrite !app_length. cbn [length]. rewrite firstn_length, skipn_length, Q, N. now repeat split.
Qed.
Lemma stl_numbers h h' head bs bs' rest : length head = 1024%nat -> Forall2 renumbered bs bs' ->
  snd (stl_binary_read (head ++ List.concat bs ++ rest) (after h)) = snd (stl_binary_read (head ++ List.concat bs' ++ rest) (after h')).
Proof. intros L F. apply from_file; [exact L|]. induction F; constructor; auto using renumbered_from. Qed.
Lemma stl_extensions h h' head bs bs' rest : length head = 1024%nat -> Forall2 other_extension bs bs' ->
  snd (stl_binary_read (head ++ List.concat bs ++ rest) (after h)) = snd (stl_binary_read (head ++ List.concat bs' ++ rest) (after h')).
Proof. intros L F. apply from_file; [exact L|]. induction F; constructor; auto using extension_from. Qed.

Definition user_block : str := sample_header "00001" "23" ++ map byte ([0; 1; 0; 254; 0; 0; 0; 1; 0; 0; 0; 2; 10; 3; 2; 0] ++ sample_text ++ repeat 0x8F 103)%Z.
Lemma user_data_shown : exists head b g subs, user_data b /\ snd (stl_binary_read (head ++ b) (after [])) = Ok (g, subs) /\ In (lit "Hi") (map r_text subs).
Proof.
  exists (firstn 1024 user_block), (skipn 1024 user_block). do 2 eexists. split; [split; vm_compute; reflexivity|]. split; [vm_compute; reflexivity|]. cbn. auto.
Qed.

(** * Files *)

Lemma no_nul_string l : ~ In (ascii_of_nat 0) l -> c_string l = l.
Proof.
  unfold c_string. induction l as [|c l IH]; intros N; [reflexivity|]. cbn [take_while]. destruct (Z.eqb_spec (code c) 0) as [E|_].
  - exfalso. apply N. left. unfold code in E. destruct c as [[] [] [] [] [] [] [] []]; try discriminate E. reflexivity.
  - cbn [negb]. rewrite IH; [reflexivity|]. intros I. apply N. now right.
Qed.
Lemma short_file_line l b : ~ In lf l -> short_line l -> Lines.lines_of_file (l ++ [lf] ++ b) = (l ++ [lf]) :: Lines.lines_of_file b.
Proof.
  intros N [L Z]. cbn [app]. rewrite short_step by assumption. rewrite no_nul_string; [reflexivity|]. intros I. apply in_app_or in I. destruct I as [I|[I|[]]]; [contradiction|discriminate I].
Qed.
Lemma blank_file_lines a : ends_blank a -> exists la blank, Lines.lines_of_file a = la ++ [blank] /\ clean_line blank = [].
Proof.
  assert (W : forall x, whole_lines (x ++ [lf])) by (intros x; right; now exists x).
  intros (x & [-> | ->]); exists (Lines.lines_of_file (x ++ [lf])).
  - exists [lf]. change [lf; lf] with ([lf] ++ [lf]). rewrite app_assoc, (file_lines_app _ (x ++ [lf]) [lf] (le_n _) (W x)). now split.
  - exists [cr; lf]. change [lf; cr; lf] with ([lf] ++ [cr; lf]). rewrite app_assoc, (file_lines_app _ (x ++ [lf]) [cr; lf] (le_n _) (W x)). now split.
Qed.
Lemma subrip_number_file a counter counter' b : a = [] \/ ends_blank a -> text_line counter -> short_line counter -> text_line counter' -> short_line counter' ->
  same_but_shown (subrip_reader_file (a ++ counter ++ [lf] ++ b)) (subrip_reader_file (a ++ counter' ++ [lf] ++ b)).
Proof.
  intros A C S C' S'. destruct (text_clean _ C) as [N X], (text_clean _ C') as [N' X']. rewrite <- clean_lf in X, X'. unfold subrip_reader_file, subrip_read. destruct A as [->|A].
  - change ([] ++ counter ++ [lf] ++ b) with (counter ++ [lf] ++ b). change ([] ++ counter' ++ [lf] ++ b) with (counter' ++ [lf] ++ b). rewrite !short_file_line by assumption.
    cbn [subrip_loop]. destruct (clean_line (counter ++ [lf])); [congruence|]. destruct (clean_line (counter' ++ [lf])); [congruence|]. apply loop_same.
  - rewrite !(file_lines_app _ a _ (le_n _) (blank_whole a A)). rewrite !short_file_line by assumption. destruct (blank_file_lines a A) as (la & blank & -> & BL).
    rewrite <- !app_assoc. now apply loop_number.
Qed.
Lemma quiet_lf ls : Forall other_line ls -> Forall quiet (map (fun l => l ++ [lf]) ls).
Proof. intros F. apply Forall_map. eapply Forall_impl; [|exact F]. intros l O. destruct (other_clean _ O) as (_ & A & B). split; now rewrite clean_lf. Qed.
Lemma file_lines_then ls b : Forall other_line ls -> Forall short_line ls -> Lines.lines_of_file (text_of_lines ls ++ b) = map (fun l => l ++ [lf]) ls ++ Lines.lines_of_file b.
Proof.
  intros O S. induction O as [|l ls O F IH]; [reflexivity|]. inversion S; subst. unfold text_of_lines in *. cbn [map List.concat]. rewrite <- !app_assoc, short_file_line; [|now apply other_clean|assumption].
  rewrite IH by assumption. reflexivity.
Qed.
Lemma vtt_names_file a names names' b : ends_blank a -> Forall other_line names -> Forall short_line names -> Forall other_line names' -> Forall short_line names' ->
  same_but_shown (vtt_reader_file (a ++ text_of_lines names ++ b)) (vtt_reader_file (a ++ text_of_lines names' ++ b)).
Proof.
  intros A O S O' S'. unfold vtt_reader_file, vtt_read. rewrite !(file_lines_app _ a _ (le_n _) (blank_whole a A)). rewrite !file_lines_then by assumption.
  destruct (blank_file_lines a A) as (la & blank & -> & BL). rewrite <- !app_assoc. cbn [app]. apply (vloop_names la blank); [exact BL|now apply quiet_lf..].
Qed.
Lemma ssa_names_file ks vs vs' a c c' b : events_so_far ks a -> other_values ks vs vs' -> dialogue_with vs c -> dialogue_with vs' c' ->
  SubripUseSpec.short_lines (a ++ c ++ b) -> SubripUseSpec.short_lines (a ++ c' ++ b) -> ssa_reader_file (a ++ c ++ b) = ssa_reader_file (a ++ c' ++ b).
Proof. intros E O D D' S S'. rewrite !SsaSafeProofs.ssa_file_same by assumption. now apply (ssa_names ks vs vs'). Qed.
