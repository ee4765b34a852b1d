(** The pieces of text that readers give. *)
From Coq Require Import ZArith Lia List Bool Ascii String.
From Verif.Model Require Import Base Float TimeModel Types Lines Ssa Subrip WebVtt StlText StlBinReader.
From Verif.Spec Require Import Outcome TextSpec LinesSpec Utf8Spec StlFileSpec RawSpec SsaTagSpec SubripSpec SubripUseSpec WebVttSpec SsaSpec CollectReadSpec TextFileSpec PieceSpec.
From Verif.Spec Require StlTextSpec.
From Verif.Proofs Require Import LinesProofs SubripProofs WebVttProofs.
From Verif.Proofs Require StringProofs StlTextProofs StlReadProofs SsaProofs.
Import ListNotations.
Local Open Scope Z_scope.
Local Notation length := List.length.

(** * What is taken from a text *)

Lemma taken_refl s : taken_from s s. Proof. induction s; constructor; assumption. Qed.
Lemma taken_none s : taken_from s []. Proof. induction s; constructor; assumption. Qed.
Lemma taken_app s t s' t' : taken_from s t -> taken_from s' t' -> taken_from (s ++ s') (t ++ t').
Proof. induction 1; intros K; cbn [app]; [exact K|constructor; auto..]. Qed.
Lemma taken_left p s t : taken_from s t -> taken_from (p ++ s) t.
Proof. intros H. apply (taken_app p [] s t); [apply taken_none|exact H]. Qed.
Lemma taken_right p s t : taken_from s t -> taken_from (s ++ p) t.
Proof. intros H. rewrite <- (app_nil_r t). apply taken_app; [exact H|apply taken_none]. Qed.
Lemma taken_trans s t : taken_from s t -> forall u, taken_from t u -> taken_from s u.
Proof.
  induction 1 as [|c s t H IH|c s t H IH]; intros u U.
  - exact U.
  - inversion U; subst; [constructor; auto|apply taken_away; auto].
  - apply taken_away. auto.
Qed.
Lemma taken_in s t c : taken_from s t -> In c t -> In c s.
Proof. induction 1; cbn [In]; intuition. Qed.
Lemma taken_concat ss ts : Forall2 taken_from ss ts -> taken_from (List.concat ss) (List.concat ts).
Proof. induction 1; cbn [List.concat]; [constructor|]. now apply taken_app. Qed.
Lemma texts_app a b : texts (a ++ b) = texts a ++ texts b.
Proof. unfold texts. now rewrite map_app, concat_app. Qed.
Lemma texts_concat rawss : texts (List.concat rawss) = List.concat (map texts rawss).
Proof. induction rawss as [|r rawss IH]; [reflexivity|]. cbn [List.concat map]. now rewrite texts_app, IH. Qed.
Lemma texts_piece text r : texts (with_piece text r) = text.
Proof. destruct text; [reflexivity|]. cbn. now rewrite app_nil_r. Qed.
Lemma texts_in r raws c : In r raws -> In c (r_text r) -> In c (texts raws).
Proof. intros I J. unfold texts. apply in_concat. exists (r_text r). split; [now apply in_map|exact J]. Qed.

Lemma lines_taken s ls : text_lines s ls -> taken_from s (List.concat ls).
Proof. induction 1 as [|l _ _|l rest ls _ _ IH]; cbn [List.concat]; [constructor|rewrite app_nil_r; apply taken_refl|]. apply taken_app; [apply taken_refl|now apply taken_away]. Qed.
Lemma lines_clean s ls : text_lines s ls -> Forall (fun l => ~ In lf l) ls.
Proof. induction 1; constructor; auto. Qed.
Lemma cleaned_taken l l' : cleaned l l' -> taken_from l l'.
Proof. intros (u & ends & -> & _ & _ & [->|(_ & ->)]); apply taken_right; [apply taken_left|]; apply taken_refl. Qed.
Lemma cleaneds_taken ls ls' : Forall2 cleaned ls ls' -> taken_from (List.concat ls) (List.concat ls').
Proof. intros F. apply taken_concat. induction F; constructor; [now apply cleaned_taken|assumption]. Qed.
Lemma join_taken sep parts : taken_from (join sep parts) (List.concat parts).
Proof.
  induction parts as [|p [|q parts] IH]; [constructor|cbn; rewrite app_nil_r; apply taken_refl|]. cbn [join List.concat] in *.
  apply taken_app; [apply taken_refl|]. now apply taken_left.
Qed.
Lemma parts_taken sep text parts : parts_of sep text parts -> taken_from text (List.concat parts).
Proof. intros (_ & -> & _). apply join_taken. Qed.
Lemma trimmed_taken s t : trimmed s t -> taken_from s t.
Proof. intros (a & b & -> & _). apply taken_left, taken_right, taken_refl. Qed.

(** One line, for all readers that go by lines. *)
Lemma one_lines s ls raws : text_lines s ls -> taken_from (List.concat ls) (texts raws) -> Forall one_line raws.
Proof.
  intros TL T. apply Forall_forall. intros r I J. pose proof (texts_in r raws lf I J) as K. apply (taken_in _ _ _ T) in K. apply in_concat in K.
  destruct K as (l & Il & K). apply lines_clean in TL. rewrite Forall_forall in TL. now apply (TL l).
Qed.

(** * SubRip *)

Lemma tag_taken s tok rest : tag_at s tok rest -> taken_from s rest.
Proof.
  intros [p name tok' rest' _ _|p s' body rest' _ U|s' body rest' U]; [apply taken_left, taken_refl| |].
  - apply taken_left. destruct U; [|apply taken_none]. apply taken_left, taken_away, taken_refl.
  - do 2 apply taken_away. destruct U; [|apply taken_none]. apply taken_left, taken_away, taken_refl.
Qed.
Lemma tag_no_char s tok rest c : tag_at s tok rest -> tok <> TChar c.
Proof.
  intros [p name tok' rest' I _|p s' body rest' _ _|s' body rest' _]; try discriminate. intros ->. cbn [In simple_tags] in I.
  repeat destruct I as [I|I]; try discriminate I. exact I.
Qed.
Lemma pieces_taken line toks : lexed line toks -> forall r cs text ps r' last, pieces r cs text toks ps r' last -> taken_from (text ++ line) (texts ps ++ last).
Proof.
  induction 1 as [|s tok rest toks T L IH|c s toks N L IH]; intros r cs text ps r' last P.
  - inversion P; subst. rewrite app_nil_r. apply taken_refl.
  - pose proof (fun c => tag_no_char s tok rest c T) as NC. apply tag_taken in T as T'. inversion P; subst.
    + exfalso. eapply NC; reflexivity.
    + rewrite texts_app, texts_piece, <- app_assoc. apply taken_app; [apply taken_refl|]. apply (taken_trans _ _ T'). change rest with ([] ++ rest). eapply IH; eassumption.
    + apply (taken_trans _ (text ++ rest)); [apply taken_app; [apply taken_refl|exact T']|]. eapply IH; eassumption.
  - inversion P as [|? ? ? ? ? ? ? ? P'|? ? ? ? ? ? ? ? ? ? RS P'|]; subst.
    + apply IH in P'. rewrite <- app_assoc in P'. exact P'.
    + inversion RS.
Qed.
Lemma rtl_taken text text' : without_rtl text text' -> taken_from text text'.
Proof. intros (parts & P & ->). exact (parts_taken _ _ _ P). Qed.
Lemma rows_taken n r ls raws : rows n r ls raws -> taken_from (List.concat ls) (texts raws).
Proof.
  induction 1 as [|n r line rest toks ps r' last last' raws L P W R IH]; [constructor|]. cbn [List.concat]. rewrite !texts_app, texts_piece, app_assoc.
  apply taken_app; [|exact IH]. apply (pieces_taken _ _ L) in P. cbn [app] in P. apply (taken_trans _ _ P). apply taken_app; [apply taken_refl|now apply rtl_taken].
Qed.
Lemma liness_taken text liness : Forall2 (parts_of u2028) text liness -> taken_from (List.concat text) (List.concat (List.concat liness)).
Proof. induction 1 as [|l parts text liness P F IH]; [constructor|]. cbn [List.concat]. rewrite concat_app. apply taken_app; [exact (parts_taken _ _ _ P)|exact IH]. Qed.
Definition cue_words (c : cue) : str := List.concat (cue_text c).
Lemma cue_taken c raws : cue_subtitles c raws -> taken_from (cue_words c) (texts raws).
Proof. intros (liness & F & R). apply (taken_trans _ _ (liness_taken _ _ F)). exact (rows_taken _ _ _ _ R). Qed.
Lemma cues_words ls cs : cues_in ls cs -> taken_from (List.concat ls) (List.concat (map cue_words cs)).
Proof.
  induction 1 as [|ls cs C IH|counter N|counter timing from to text rest cs N T F E C IH]; cbn [List.concat map app]; [constructor|exact IH|apply taken_none|].
  do 2 apply taken_left. rewrite concat_app. apply taken_app; [apply taken_refl|exact IH].
Qed.
Lemma words_taken {A B : Type} (R : A -> B -> Prop) (f : A -> str) (g : B -> str) la lb : (forall a b, R a b -> taken_from (f a) (g b)) -> Forall2 R la lb ->
  taken_from (List.concat (map f la)) (List.concat (map g lb)).
Proof. intros H. induction 1; cbn [map List.concat]; [constructor|]. apply taken_app; auto. Qed.
Lemma subrip_lines_taken ls raws : subrip_lines ls raws -> taken_from (List.concat ls) (texts raws).
Proof.
  intros (ls' & cs & rawss & C & CU & F & ->). apply (taken_trans _ _ (cleaneds_taken _ _ C)). apply (taken_trans _ _ (cues_words _ _ CU)).
  rewrite texts_concat. exact (words_taken _ _ _ _ _ cue_taken F).
Qed.
Theorem subrip_taken s raws : subrip_reader_string s = Ok raws -> taken_from s (texts raws).
Proof. intros E. apply subrip_string_iff in E. destruct E as (ls & TL & L). exact (taken_trans _ _ (lines_taken _ _ TL) _ (subrip_lines_taken _ _ L)). Qed.
Theorem subrip_one_line s raws : subrip_reader_string s = Ok raws -> Forall one_line raws.
Proof. intros E. apply subrip_string_iff in E. destruct E as (ls & TL & L). exact (one_lines _ _ _ TL (subrip_lines_taken _ _ L)). Qed.

Lemma piece_some text r : Forall some_text (with_piece text r).
Proof. destruct text; constructor; [discriminate|constructor]. Qed.
Lemma pieces_some r cs tx toks ps r' last : pieces r cs tx toks ps r' last -> Forall some_text ps.
Proof. induction 1; try assumption; [constructor|]. apply Forall_app. split; [apply piece_some|assumption]. Qed.
Lemma rows_some n r ls raws : rows n r ls raws -> Forall some_text raws.
Proof. induction 1 as [|n r line rest toks ps r' last last' raws L P W R IH]; [constructor|]. repeat (apply Forall_app; split); [now apply pieces_some in P|apply piece_some|exact IH]. Qed.
Lemma concat_forall {A : Type} (P : A -> Prop) ls : Forall (Forall P) ls -> Forall P (List.concat ls).
Proof. induction 1; cbn [List.concat]; [constructor|]. apply Forall_app. now split. Qed.
Lemma forall2_all {A B : Type} (R : A -> B -> Prop) (Q : B -> Prop) la lb : (forall a b, R a b -> Q b) -> Forall2 R la lb -> Forall Q lb.
Proof. intros H. induction 1; constructor; eauto. Qed.
Lemma forall2_r {A B : Type} (R : A -> B -> Prop) (P : A -> Prop) (Q : B -> Prop) la lb : (forall a b, P a -> R a b -> Q b) -> Forall P la -> Forall2 R la lb -> Forall Q lb.
Proof. intros H FP F. induction F; constructor; inversion FP; subst; eauto. Qed.
Theorem subrip_some_text s raws : subrip_reader_string s = Ok raws -> Forall some_text raws.
Proof.
  intros E. apply subrip_string_iff in E. destruct E as (ls & _ & ls' & cs & rawss & _ & _ & F & ->). apply concat_forall. revert F. apply forall2_all.
  intros c raws (liness & _ & R). exact (rows_some _ _ _ _ R).
Qed.

(** * WebVTT *)

Lemma plain_texts from to rs : forall n, texts (plain_rows from to n rs) = List.concat rs.
Proof. induction rs as [|r rs IH]; intros n; [reflexivity|]. cbn [plain_rows List.concat]. change (r ++ texts (plain_rows from to (n + 1) rs) = r ++ List.concat rs). now rewrite IH. Qed.
Lemma vtt_cue_taken c raws : vtt_subtitles c raws -> taken_from (cue_words c) (texts raws).
Proof. intros (rs & (liness & F & ->) & ->). rewrite plain_texts. exact (liness_taken _ _ F). Qed.
Lemma vtt_words ls cs : vtt_cues ls cs -> taken_from (List.concat ls) (List.concat (map cue_words cs)).
Proof.
  induction 1 as [|l ls cs N A C IH|l comment rest cs N F E C IH|timing from to text rest cs N A T F E C IH]; cbn [List.concat map app]; [constructor|now apply taken_left| |];
    apply taken_left; rewrite concat_app; [now apply taken_left|]. apply taken_app; [apply taken_refl|exact IH].
Qed.
Lemma vtt_lines_taken ls raws : vtt_lines ls raws -> taken_from (List.concat ls) (texts raws).
Proof.
  intros [|h h' ls' ls'' cs rawss CH B C CU F]; [constructor|]. cbn [List.concat]. apply taken_left. apply (taken_trans _ _ (cleaneds_taken _ _ C)).
  apply (taken_trans _ _ (vtt_words _ _ CU)). rewrite texts_concat. exact (words_taken _ _ _ _ _ vtt_cue_taken F).
Qed.
Theorem vtt_taken s raws : vtt_reader_string s = Ok raws -> taken_from s (texts raws).
Proof. intros E. apply vtt_string_iff in E. destruct E as (ls & TL & L). exact (taken_trans _ _ (lines_taken _ _ TL) _ (vtt_lines_taken _ _ L)). Qed.
Theorem vtt_one_line s raws : vtt_reader_string s = Ok raws -> Forall one_line raws.
Proof. intros E. apply vtt_string_iff in E. destruct E as (ls & TL & L). exact (one_lines _ _ _ TL (vtt_lines_taken _ _ L)). Qed.

Lemma no_part sep text parts : ~ contains sep text -> parts_of sep text parts -> parts = [text].
Proof.
  intros N (H & E & _). destruct parts as [|p [|q parts]]; [contradiction|cbn in E; now subst|]. exfalso. apply N. subst. cbn [join]. exists p, (join sep (q :: parts)). reflexivity.
Qed.
Lemma plain_rows_all (P : str -> Prop) from to rs : Forall P rs -> forall n, Forall (fun r => P (r_text r)) (plain_rows from to n rs).
Proof. induction 1; intros n; cbn [plain_rows]; constructor; [assumption|auto]. Qed.
(** What holds for every line of the file that can be text holds for the text of cues. *)
Lemma vtt_cues_text (P : str -> Prop) ls cs : vtt_cues ls cs -> Forall P ls -> Forall (fun c => Forall (fun l => P l /\ l <> []) (cue_text c)) cs.
Proof.
  induction 1 as [|l ls cs N A C IH|l comment rest cs N F E C IH|timing from to text rest cs N A T F E C IH]; intros H; [constructor|inversion H; auto| |];
    inversion H as [|? ? _ H']; subst; apply Forall_app in H'; destruct H' as [H1 H2]; [auto|]. constructor; [|auto].
  apply Forall_forall. intros l I. rewrite Forall_forall in H1, F. split; auto.
Qed.
Lemma cues_text (P : str -> Prop) ls cs : cues_in ls cs -> Forall P ls -> Forall (fun c => Forall (fun l => P l /\ l <> []) (cue_text c)) cs.
Proof.
  induction 1 as [|ls cs C IH|counter N|counter timing from to text rest cs N T F E C IH]; intros H; [constructor|inversion H; auto|constructor|].
  inversion H as [|? ? _ H']; subst. inversion H' as [|? ? _ H'']; subst. apply Forall_app in H''. destruct H'' as [H1 H2]. constructor; [|auto].
  apply Forall_forall. intros l I. rewrite Forall_forall in H1, F. split; auto.
Qed.
Lemma no_contains_part sep a p b : ~ contains sep (a ++ p ++ b) -> ~ contains sep p.
Proof. intros N (x & y & ->). apply N. exists (a ++ x), (y ++ b). now rewrite <- !app_assoc. Qed.
Theorem vtt_some_text s raws : ~ contains u2028 s -> vtt_reader_string s = Ok raws -> Forall some_text raws.
Proof.
  intros N E. apply vtt_string_iff in E. destruct E as (ls & TL & L).
  assert (NL : Forall (fun l => ~ contains u2028 l) ls).
  { clear -TL N. induction TL as [|l _ _|l rest ls _ TL IH]; constructor; auto.
    - apply (no_contains_part u2028 [] l (lf :: rest)). exact N.
    - apply IH. apply (no_contains_part u2028 (l ++ [lf]) rest []). now rewrite app_nil_r, <- app_assoc. }
  destruct L as [|h h' ls ls' cs rawss CH B C CU F]; [constructor|]. inversion NL as [|? ? _ NL']; subst.
  assert (NC : Forall (fun l => ~ contains u2028 l) ls').
  { refine (forall2_r _ _ _ _ _ _ NL' C). intros a b NA (u & ends & -> & _ & _ & [->|(_ & ->)]); [|now apply (no_contains_part u2028 [] u ends)].
    apply (no_contains_part u2028 bom b ends). now rewrite <- app_assoc in NA. }
  apply (vtt_cues_text _ _ _ CU) in NC. apply concat_forall. refine (forall2_r _ _ _ _ _ _ NC F). intros c raws K (rs & (liness & FL & ->) & ->).
  apply (plain_rows_all (fun t => t <> [])). apply concat_forall. refine (forall2_r _ _ _ _ _ _ K FL). intros l parts (A & X) P. rewrite (no_part _ _ _ A P). constructor; [exact X|constructor].
Qed.

(** * Text STL *)

Lemma stl_pieces_taken r s r' ps : StlTextSpec.pieces r s r' ps -> taken_from s (texts ps).
Proof.
  induction 1 as [r|r n c s r' ps B V P IH|r x c r1 s r' ps C T P IH|r c C|r t s r' ps N F E P IH].
  - constructor.
  - now apply taken_away.
  - now do 2 apply taken_away.
  - apply taken_none.
  - exact (taken_app t t s (texts ps) (taken_refl t) IH).
Qed.
Lemma stl_line_taken r l r' rs : StlTextSpec.line_means r l r' rs -> taken_from l (texts rs).
Proof.
  intros L. destruct L as [l v _|l v b _ _|l v b _ _|l v b _ _|l v n _ _|l name v _ _|l start finish from to text r' rs S F T P|l start finish text _ _|l _ _]; try apply taken_none.
  destruct S as (_ & _ & _ & f & x & t & (-> & _ & _) & _). apply taken_left, taken_away, taken_left, taken_away. now apply stl_pieces_taken in P.
Qed.
Lemma stl_lines_taken r ls r' raws : StlTextSpec.lines_mean r ls r' raws -> taken_from (List.concat ls) (texts raws).
Proof.
  induction 1 as [r|r l l' r1 rs ls r2 rss T L M IH]; [constructor|]. cbn [List.concat]. rewrite texts_app. apply taken_app; [|exact IH].
  apply (taken_trans _ _ (trimmed_taken _ _ T)). now apply stl_line_taken in L.
Qed.
Lemma complete_taken s ls : StlTextSpec.complete_lines s ls -> taken_from s (List.concat ls).
Proof. induction 1 as [s _|l rest ls _ _ IH]; cbn [List.concat]; [apply taken_none|]. apply taken_app; [apply taken_refl|now apply taken_away]. Qed.
Lemma complete_clean s ls : StlTextSpec.complete_lines s ls -> Forall (fun l => ~ In lf l) ls.
Proof. induction 1; constructor; auto. Qed.
Theorem stl_text_taken s raws : stl_text_read true s = Ok raws -> taken_from s (texts raws).
Proof. intros E. apply StlTextProofs.text_stl_iff in E. destruct E as (ls & r & C & L). exact (taken_trans _ _ (complete_taken _ _ C) _ (stl_lines_taken _ _ _ _ L)). Qed.
Theorem stl_text_one_line s raws : stl_text_read true s = Ok raws -> Forall one_line raws.
Proof.
  intros E. apply StlTextProofs.text_stl_iff in E. destruct E as (ls & r & C & L). apply stl_lines_taken in L. apply Forall_forall. intros x I J.
  pose proof (taken_in _ _ _ L (texts_in x raws lf I J)) as K. apply in_concat in K. destruct K as (l & Il & K). apply complete_clean in C. rewrite Forall_forall in C. now apply (C l).
Qed.
Lemma stl_pieces_some r s r' ps : StlTextSpec.pieces r s r' ps -> Forall some_text ps.
Proof. induction 1; try assumption; constructor; assumption. Qed.
Theorem stl_text_some_text s raws : stl_text_read true s = Ok raws -> Forall some_text raws.
Proof.
  intros E. apply StlTextProofs.text_stl_iff in E. destruct E as (ls & r & _ & L). revert L. generalize StlTextSpec.new_look. intros r0.
  induction 1 as [r1|r1 l l' r2 rs ls r3 rss T L M IH]; [constructor|]. apply Forall_app. split; [|exact IH].
  destruct L; try constructor. eapply stl_pieces_some; eassumption.
Qed.

(** * SSA *)

Definition items_text (its : list item) : str := flat_map (fun i => match i with Char c => [c] | _ => [] end) its.
Lemma tags_text tags : items_text (map Tag tags) = [].
Proof. induction tags; [reflexivity|assumption]. Qed.
Lemma items_taken s its : ssa_text s its -> taken_from s (items_text its).
Proof.
  induction 1 as [|c s its A B C S IH|c s its L S IH|c s its B S IH|c s its B S IH| |body tags s its N B S IH|body tags last N B].
  - constructor.
  - now apply taken_kept.
  - now apply taken_away.
  - now do 2 apply taken_away.
  - now do 2 apply taken_away.
  - apply taken_none.
  - unfold items_text. rewrite flat_map_app. fold (items_text (map Tag tags)). rewrite tags_text. apply taken_away, taken_left, taken_away. exact IH.
  - rewrite tags_text. apply taken_none.
Qed.
Lemma cut_texts c z r tx its ps : cut_up c z r tx its ps -> texts ps = tx ++ items_text its.
Proof.
  induction 1 as [r text|r text x its ps C IH|r text t r1 its ps O C IH|r text r1 its ps B C IH].
  - rewrite texts_piece. cbn. now rewrite app_nil_r.
  - rewrite IH, <- app_assoc. reflexivity.
  - now rewrite texts_app, texts_piece, IH.
  - now rewrite texts_app, texts_piece, IH.
Qed.
Lemma finished_texts base n z ps raws : Forall2 (finished base n z) ps raws -> texts raws = texts ps.
Proof. induction 1 as [|p r ps raws (ref & q & _ & _ & ->) F IH]; [reflexivity|]. change (r_text p ++ texts raws = r_text p ++ texts ps). now rewrite IH. Qed.
Lemma ssa_text_taken c base s raws : r_text base = [] -> text_subtitles c base s raws -> taken_from s (texts raws).
Proof.
  intros B (its & r & n & ps & S & _ & _ & C & F). rewrite (finished_texts _ _ _ _ _ F), (cut_texts _ _ _ _ _ _ C), B. now apply items_taken.
Qed.
Lemma event_taken f ev key v ev' : event_entry f ev key v ev' -> r_text (ev_sub ev) = [] ->
  r_text (ev_sub ev') = [] /\ exists new, ev_out ev' = ev_out ev ++ new /\ taken_from v (texts new).
Proof.
  intros E T. assert (Z0 : forall l : list raw, exists new, l = l ++ new /\ taken_from v (texts new)) by (intros l; exists []; rewrite app_nil_r; split; [reflexivity|apply taken_none]).
  destruct E; try (split; [exact T|apply Z0]). split; [exact T|]. exists raws. split; [reflexivity|]. eapply ssa_text_taken; eassumption.
Qed.
Lemma events_taken f kvs : forall ev ev', in_turn (event_step f) ev kvs ev' -> r_text (ev_sub ev) = [] ->
  exists new, ev_out ev' = ev_out ev ++ new /\ taken_from (List.concat (map snd kvs)) (texts new).
Proof.
  intros ev ev' H. induction H as [ev|ev kv ev1 kvs ev2 (v & T & E) H IH]; intros N.
  - exists []. rewrite app_nil_r. split; [reflexivity|constructor].
  - destruct (event_taken _ _ _ _ _ E N) as (N1 & new & E1 & K1). destruct (IH N1) as (new' & E2 & K2). exists (new ++ new'). split; [now rewrite E2, E1, app_assoc|].
    cbn [map List.concat]. rewrite texts_app. apply taken_app; [|exact K2]. exact (taken_trans _ _ (trimmed_taken _ _ T) _ K1).
Qed.
Lemma combine_values {A B : Type} (ks : list A) (vs : list B) : length vs = length ks -> map snd (combine ks vs) = vs.
Proof. revert vs. induction ks as [|k ks IH]; intros [|v vs] E; try discriminate; [reflexivity|]. cbn. f_equal. apply IH. now injection E. Qed.
Lemma dialogue_taken f body raws : dialogue_line f body raws -> taken_from body (texts raws).
Proof.
  intros (_ & vs & ev & (L & -> & _) & H & ->). apply events_taken in H; [|reflexivity]. destruct H as (new & -> & K). rewrite (combine_values _ _ L) in K.
  exact (taken_trans _ _ (join_taken _ _) _ K).
Qed.
Lemma line_body_taken line l : line_body line l -> taken_from line l.
Proof. intros (u & T & [->|(_ & ->)]); apply (taken_trans _ _ (trimmed_taken _ _ T)); [apply taken_left|]; apply taken_refl. Qed.
Lemma keyed_taken l key body : keyed l key body -> taken_from l body.
Proof. intros (rest & -> & _ & T). apply taken_left, taken_away. now apply trimmed_taken. Qed.
Lemma ssa_line_taken f line f' : ssa_line_read f line f' -> exists new, sr_subs f' = sr_subs f ++ new /\ taken_from line (texts new).
Proof.
  assert (Z0 : forall line (l : list raw), exists new, l = l ++ new /\ taken_from line (texts new)) by (intros line0 l; exists []; rewrite app_nil_r; split; [reflexivity|apply taken_none]).
  intros [f0 line0 _|f0 line0 s _|f0 line0 h p _ _|f0 line0 s _ _|f0 line0 l key body f1 B _ K E]; try apply Z0.
  destruct E; try apply Z0. exists raws. split; [reflexivity|]. apply (taken_trans _ _ (line_body_taken _ _ B)). apply (taken_trans _ _ (keyed_taken _ _ _ K)).
  now apply dialogue_taken in H.
Qed.
Lemma ssa_lines_taken ls : forall f f', in_turn ssa_line_read f ls f' -> exists new, sr_subs f' = sr_subs f ++ new /\ taken_from (List.concat ls) (texts new).
Proof.
  intros f f' H. induction H as [f|f l f1 ls f2 R H IH].
  - exists []. rewrite app_nil_r. split; [reflexivity|constructor].
  - destruct (ssa_line_taken _ _ _ R) as (new & E1 & K1), IH as (new' & E2 & K2). exists (new ++ new'). split; [now rewrite E2, E1, app_assoc|].
    cbn [List.concat]. rewrite texts_app. now apply taken_app.
Qed.
Theorem ssa_taken s raws : ssa_reader_string s = Ok raws -> taken_from s (texts raws).
Proof.
  intros E. apply SsaProofs.ssa_string_iff in E. destruct E as (ls & f & TL & H & ->). apply ssa_lines_taken in H. destruct H as (new & -> & K).
  exact (taken_trans _ _ (lines_taken _ _ TL) _ K).
Qed.
Theorem ssa_one_line s raws : ssa_reader_string s = Ok raws -> Forall one_line raws.
Proof.
  intros E. apply SsaProofs.ssa_string_iff in E. destruct E as (ls & f & TL & H & ->). apply ssa_lines_taken in H. destruct H as (new & -> & K).
  exact (one_lines _ _ _ TL K).
Qed.

(** What holds for the pieces of every text of a dialogue, where the text is part of a line, holds for all pieces. *)
Definition text_in_line (line x : str) : Prop :=
  exists l key body vs v, line_body line l /\ keyed l key body /\ field_values (length vs) body vs /\ In v vs /\ trimmed v x.
Lemma ssa_pieces (P : raw -> Prop) ls : (forall line x c base raws, In line ls -> text_in_line line x -> r_text base = [] -> text_subtitles c base x raws -> Forall P raws) ->
  forall f f', in_turn ssa_line_read f ls f' -> Forall P (sr_subs f) -> Forall P (sr_subs f').
Proof.
  intros HP f f' H. induction H as [f|f line f1 ls f2 R H IH]; intros F; [exact F|]. apply IH; [intros line0 x c base raws I; apply (HP line0); now right|].
  destruct R as [f0 line0 _|f0 line0 s _|f0 line0 h p _ _|f0 line0 s _ _|f0 line0 l key body f1 B _ K E]; try exact F.
  destruct E as [x y ss sf ef subs body v _|x y ss sf ef subs body v _|x y ss sf ef subs body|x y ss sf ef subs body st _ _|x y ss sf ef subs body parts keys _ _|x y ss sf ef subs body raws D|f body key _]; try exact F.
  cbn [sr_subs] in *. apply Forall_app. split; [exact F|]. destruct D as (_ & vs & ev & FV & T & ->).
  assert (HV : forall v x0 c base raws, In v vs -> trimmed v x0 -> r_text base = [] -> text_subtitles c base x0 raws -> Forall P raws).
  { intros v x0 c base raws I TV. apply (HP line0); [now left|]. exists l, (lit "Dialogue"), body, vs, v. destruct FV as (L & FV). split; [exact B|]. split; [exact K|].
    split; [|now split]. split; [reflexivity|exact FV]. }
  clear -HV T FV. destruct FV as (L & _ & _).
  assert (G : forall kvs ev ev', in_turn (event_step (mkSsa EVENTS x y ss sf ef subs)) ev kvs ev' -> (forall kv, In kv kvs -> In (snd kv) vs) -> r_text (ev_sub ev) = [] -> Forall P (ev_out ev) -> Forall P (ev_out ev')).
  { intros kvs ev0 ev' H. induction H as [ev0|ev0 kv ev1 kvs ev2 (v & TV & E) H IH]; intros I N F; [exact F|]. pose proof (event_taken _ _ _ _ _ E N) as (N1 & _).
    apply IH; [intros kv' I'; apply I; now right|exact N1|]. destruct E; try exact F. cbn [ev_out] in *. apply Forall_app. split; [exact F|].
    eapply HV; [apply I; now left|exact TV|exact N|eassumption]. }
  apply (G _ _ _ T); [|reflexivity|constructor]. intros [k v] I. apply in_combine_r in I. exact I.
Qed.
Lemma cut_some c z r tx its ps : cut_up c z r tx its ps -> Forall some_text ps.
Proof. induction 1; try assumption; [apply piece_some|apply Forall_app; split; [apply piece_some|assumption]..]. Qed.
Theorem ssa_some_text s raws : ssa_reader_string s = Ok raws -> Forall some_text raws.
Proof.
  intros E. apply SsaProofs.ssa_string_iff in E. destruct E as (ls & f & TL & H & ->). refine (ssa_pieces some_text ls _ _ _ H _); [|constructor].
  intros line x c base raws _ _ _ (its & r & n & ps & _ & _ & _ & C & F). apply cut_some in C. refine (forall2_r _ _ _ _ _ _ C F). intros a b A (ref & q & _ & _ & ->). exact A.
Qed.
