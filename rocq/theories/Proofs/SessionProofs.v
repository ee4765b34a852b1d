(** Nothing that the library has done before changes what it does. *)
From Coq Require Import ZArith List Bool Ascii String Lia.
From Verif.Model Require Import Base Strings Float TimeModel Types Lines Iso6937Tables Utf Iso6937 StlTables StlUtil StlText Subrip StlBinReader StlBinWriter Factory.
From Verif.Spec Require Import Outcome TextSpec Utf8Spec Iso6937Spec StlFileSpec SessionSpec.
From Verif.Proofs Require Import StringProofs UtfProofs Iso6937Proofs StlReadProofs.
Import ListNotations.
Local Open Scope Z_scope.
Local Notation length := List.length.

(** * A session is a sequence of conversions *)

Definition is_history {A : Type} (f : st A) : Prop := forall h, exists h', fst (f (after h)) = after h'.

Lemma history_ret {A : Type} (r : res A) : is_history (st_ret r).
Proof. intros h. now exists h. Qed.
Lemma history_bind {A B : Type} (e : st A) (k : A -> st B) : is_history e -> (forall a, is_history (k a)) -> is_history (st_bind e k).
Proof.
  intros E K h. destruct (E h) as (h' & E'). unfold st_bind. destruct (e (after h)) as [t [a|x|u]]; cbn [fst] in *; subst t; [apply K|now exists h'..].
Qed.
Lemma history_push sub text subs : is_history (push_text sub text subs).
Proof.
  unfold push_text. apply history_bind; [|intros w; apply history_ret]. intros h. exists (h ++ [Decode (c_string text)]).
  unfold after. now rewrite fold_left_app.
Qed.
Lemma history_chars line : forall sub i u text subs, is_history (stl_chars line sub i u text subs).
Proof.
  induction line as [|ch line IH]; intros sub i u text subs; cbn [stl_chars].
  - destruct text; [apply history_ret|]. apply history_bind; [apply history_push|intros x; apply history_ret].
  - destruct (code ch =? 143); [destruct text; [apply history_ret|]; apply history_bind; [apply history_push|intros x; apply history_ret]|].
    destruct (_ || _); [|apply IH]. apply history_bind; [apply history_push|intros x; apply IH].
Qed.
Lemma history_lines b g lines : forall j i u highest subs, is_history (stl_lines b g lines j i u highest subs).
Proof.
  induction lines as [|l lines IH]; intros j i u highest subs; cbn [stl_lines]; [apply history_ret|].
  apply history_bind; [apply history_ret|]. intros sub. apply history_bind; [apply history_chars|]. intros x. apply IH.
Qed.
Lemma history_blocks n g : forall input highest subs, is_history (stl_blocks n g input highest subs).
Proof.
  induction n as [|n IH]; intros input highest subs; cbn [stl_blocks]; [apply history_ret|].
  apply history_bind; [apply history_ret|]. intros x. apply history_bind; [apply history_ret|]. intros [|]; [|apply IH].
  apply history_bind; [apply history_lines|]. intros y. apply IH.
Qed.
Lemma history_read input : is_history (stl_binary_read input).
Proof.
  unfold stl_binary_read. apply history_bind; [apply history_ret|]. intros x. apply history_bind; [apply history_ret|]. intros g.
  apply history_bind; [apply history_blocks|]. intros y. apply history_ret.
Qed.
Lemma history_factory path content : is_history (reader_factory path content).
Proof.
  unfold reader_factory. destruct (factory_kind _ _) as [[| |]|]; try apply history_ret.
  apply history_bind; [apply history_read|]. intros x. apply history_ret.
Qed.
Lemma history_write ss a : is_history (write_stl_binary ss a).
Proof.
  intros h. unfold write_stl_binary. cbn [fst]. destruct (writer_converts ss a); [|now exists h].
  exists (h ++ [Encode []]). unfold after. rewrite fold_left_app. reflexivity.
Qed.

Lemma session_history l : exists h, after_session l = after h.
Proof.
  unfold after_session. assert (G : forall h, exists h', fold_left after_act l (after h) = after h'); [|apply G].
  induction l as [|x l IH]; intros h; cbn [fold_left]; [now exists h|].
  assert (A : exists h1, after_act (after h) x = after h1).
  { destruct x as [c|file|path content|ss a]; cbn [after_act].
    - exists (h ++ [c]). unfold after. now rewrite fold_left_app.
    - apply history_read.
    - apply history_factory.
    - apply history_write. }
  destruct A as (h1 & ->). apply IH.
Qed.

(** * Nothing depends on the history *)

Lemma session_reached l : reached (after_session l).
Proof. destruct (session_history l) as (h & ->). apply after_reached. Qed.

Lemma session_read l file : snd (stl_binary_read file (after_session l)) = snd (stl_binary_read file (after [])).
Proof. now rewrite (proj1 (read_ok file _ (session_reached l))), (proj1 (read_ok file _ (after_reached []))). Qed.

Lemma session_open l path content : snd (reader_factory path content (after_session l)) = snd (reader_factory path content (after [])).
Proof.
  unfold reader_factory. destruct (factory_kind _ _) as [[| |]|]; try reflexivity. rewrite !st_bind_snd, session_read.
  destruct (snd (stl_binary_read _ (after []))); reflexivity.
Qed.

Lemma session_decode l s : snd (iso6937_to_utf16 (after_session l) s) = snd (iso6937_to_utf16 (after []) s).
Proof. destruct (session_history l) as (h & ->). apply decode_any_history. Qed.
Lemma session_encode l w : ~ In 0 w -> snd (utf16_to_iso6937 (after_session l) w) = snd (utf16_to_iso6937 (after []) w).
Proof. destruct (session_history l) as (h & ->). apply encode_any_history. Qed.

Lemma decode_no_nul b s c rest : utf8_decode b s = (Some c, rest) -> c = 0 -> b = zero.
Proof.
  unfold utf8_decode. destruct (trail_length (code b) <? 0) eqn:N; [discriminate|]. destruct (trail_length (code b) =? 0) eqn:E.
  - intros [= <- _] Z0. apply code_inj. rewrite Z0. reflexivity.
  - destruct (utf8_trail _ _ s) as [[v|] r]; [|discriminate]. destruct (valid_codepoint v && (utf8_width v =? trail_length (code b) + 1)) eqn:W; [|discriminate].
    intros [= <- _] ->. exfalso. apply andb_true_iff in W as [_ W]. change (utf8_width 0) with 1 in W. lia.
Qed.
Lemma trail_rest n : forall c s r rest x, utf8_trail n c s = (r, rest) -> In x rest -> In x s.
Proof.
  induction n as [|n IH]; intros c s r rest x; cbn [utf8_trail]; [intros [= _ <-]; auto|]. destruct s as [|b t]; [intros [= _ <-]; auto|].
  destruct (is_trail (code b)); [intros E I; right; eapply IH; eassumption|intros [= _ <-]; now right].
Qed.
Lemma decode_rest b s r rest x : utf8_decode b s = (r, rest) -> In x rest -> In x s.
Proof.
  unfold utf8_decode. destruct (_ <? 0); [intros [= _ <-]; auto|]. destruct (_ =? 0); [intros [= _ <-]; auto|].
  destruct (utf8_trail _ _ s) as [[v|] r'] eqn:T.
  - destruct (_ && _); intros [= _ <-] I; eapply trail_rest; eassumption.
  - intros [= _ <-] I. eapply trail_rest; eassumption.
Qed.
Lemma wide_no_nul s : ~ In zero s -> Forall (fun c => c <> 0) (utf8_to_wide s).
Proof.
  unfold utf8_to_wide. generalize (length s) as fuel. intros fuel. revert s. induction fuel as [|k IH]; intros s N; [constructor|].
  destruct s as [|b t]; [constructor|]. cbn [utf8_to_wide_fuel]. destruct (utf8_decode b t) as [[c|] rest] eqn:D.
  - constructor.
    + intros C. apply N. left. eapply decode_no_nul; eassumption.
    + apply IH. intros I. apply N. right. eapply decode_rest; eassumption.
  - apply IH. intros I. apply N. right. eapply decode_rest; eassumption.
Qed.

Lemma blocks_text_any t t' bs : reached t -> reached t' -> Forall (fun k => ~ In zero (b_text k)) bs ->
  forall i u, tti_blocks_text t bs i u = tti_blocks_text t' bs i u.
Proof.
  intros R R' F. induction F as [|k bs N F IH]; intros i u; cbn [tti_blocks_text]; [reflexivity|].
  rewrite (encode_pure t _ R (wide_no_nul _ N)), (encode_pure t' _ R' (wide_no_nul _ N)), IH. reflexivity.
Qed.
Lemma lines_text_any t t' ls : reached t -> reached t' -> Forall (fun l => Forall (fun k => ~ In zero (b_text k)) (l_blocks (fst l))) ls ->
  forall last i u, tti_lines_text t ls last i u = tti_lines_text t' ls last i u.
Proof.
  intros R R' F. induction F as [|[j vp] ls N F IH]; intros last i u; cbn [tti_lines_text]; [reflexivity|]. cbn [fst] in N.
  rewrite (blocks_text_any t t' (l_blocks j) R R' N). destruct (tti_blocks_text t' (l_blocks j) i u) as [[here i'] u']. now rewrite IH.
Qed.
Lemma combine_first {A B : Type} (P : A -> Prop) (l : list A) : Forall P l -> forall m : list B, Forall (fun x => P (fst x)) (combine l m).
Proof. induction 1 as [|a l A1 F IH]; intros [|b m]; constructor; auto. Qed.
Lemma subtitles_any t t' fps ss : reached t -> reached t' -> without_nul ss -> forall buf, tti_subtitles t ss fps buf = tti_subtitles t' ss fps buf.
Proof.
  intros R R' F. induction F as [|s ss N F IH]; intros buf; cbn [tti_subtitles]; [reflexivity|].
  assert (E : tti_subtitle t s fps buf = tti_subtitle t' s fps buf).
  { unfold tti_subtitle, tti_text. destruct (mapM stl_vertical_position (s_lines s)) as [vps| |]; cbn [bind]; [|reflexivity..].
    rewrite (lines_text_any t t' (combine (s_lines s) vps) R R'); [reflexivity|].
    apply (combine_first (fun l => Forall (fun k => ~ In zero (b_text k)) (l_blocks l))). exact N. }
  rewrite E. destruct (tti_subtitle t' s fps buf) as [x| |]; cbn [bind]; [|reflexivity..]. now rewrite IH.
Qed.

Lemma ensure_reached t : reached t -> reached (ensure t).
Proof. intros R. right. now apply ensure_grown. Qed.

Lemma session_write l ss a : without_nul ss -> snd (write_stl_binary ss a (after_session l)) = snd (write_stl_binary ss a (after [])).
Proof.
  intros N. unfold write_stl_binary, make_tti_blocks. cbn [snd]. destruct (writer_asserts a) as [[]| |]; cbn [bind]; [|reflexivity..].
  assert (R : forall t, reached t -> reached (if writer_converts ss a then ensure t else t)) by (intros t R; destruct (writer_converts ss a); [now apply ensure_reached|exact R]).
  rewrite (subtitles_any _ (if writer_converts ss a then ensure (after []) else after []) (w_fps a) ss (R _ (session_reached l)) (R _ (after_reached [])) N).
  reflexivity.
Qed.
