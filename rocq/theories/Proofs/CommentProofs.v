(** Comments, notes and empty lines do not matter. *)
From Coq Require Import ZArith List Bool Ascii String Lia.
From Verif.Model Require Import Base Strings Float TimeModel Types Lines Subrip WebVtt Ssa StlText.
From Verif.Spec Require Import Outcome TextSpec LinesSpec RawSpec SubripSpec StopSpec SubripUseSpec WebVttSpec SsaSpec StlTextSpec TextFileSpec JoinSpec CommentSpec.
From Verif.Proofs Require Import StringProofs LinesProofs SsaTextProofs SsaTagProofs SubripProofs SubripStopProofs SubripUseProofs WebVttProofs SsaProofs StlTextProofs TextFileProofs JoinProofs.
Import ListNotations.
Local Notation length := List.length.

Lemma of_lines_whole ls s : of_lines ls s -> whole_lines s.
Proof.
  intros [_ ->]. destruct ls as [|l ls _] using rev_ind; [now left|]. right.
  exists (List.concat (map (fun l => l ++ [lf]) ls) ++ l). rewrite map_app, concat_app. cbn. now rewrite app_nil_r, app_assoc.
Qed.
Lemma of_lines_lines ls s : of_lines ls s -> text_lines s ls.
Proof.
  intros [F ->]. induction F as [|l ls N F IH]; [constructor|]. cbn [map List.concat]. rewrite <- app_assoc. cbn [app]. now constructor.
Qed.
Lemma of_lines_complete ls s : of_lines ls s -> complete_lines s ls.
Proof.
  intros [F ->]. induction F as [|l ls N F IH]; [constructor; intros []|]. cbn [map List.concat]. rewrite <- app_assoc. cbn [app]. now constructor.
Qed.

(** * SSA *)

Definition ssa_mark (mark : str) : Prop := mark = lit ";" \/ mark = lit "Comment:".
Lemma ssa_comment mark f l : ssa_mark mark -> comment_line mark l -> ssa_line f l = Ok f.
Proof.
  intros M (l' & T & C). apply ssa_line_iff. destruct C as [->|(rest & ->)].
  - apply line_blank. exists []. split; [exact T|]. right. split; [|reflexivity]. intros (x & G). discriminate G.
  - destruct M as [->| ->].
    + eapply line_comment. eexists. split; [exact T|]. right. split; [|reflexivity]. intros (x & G). discriminate G.
    + apply (line_keyed f l (lit "Comment:" ++ rest) (lit "Comment") (trim rest)).
      * eexists. split; [exact T|]. right. split; [|reflexivity]. intros (x & G). discriminate G.
      * intros G. cbn in G. destruct G; discriminate.
      * exists rest. split; [reflexivity|]. split; [intros I; cbn in I; intuition discriminate|]. now apply trim_iff.
      * apply entry_unknown. destruct (sr_part f); cbn; intuition discriminate.
Qed.
Lemma ssa_lines_app a : forall f b, ssa_lines f (a ++ b) = bind (ssa_lines f a) (fun f' => ssa_lines f' b).
Proof.
  induction a as [|l a IH]; intros f b; [reflexivity|]. cbn [app ssa_lines]. destruct (ssa_line f l); cbn [bind]; auto.
Qed.
Lemma ssa_comment_lines mark ls f : ssa_mark mark -> Forall (comment_line mark) ls -> ssa_lines f ls = Ok f.
Proof. intros M. induction 1 as [|l ls C F IH]; [reflexivity|]. cbn [ssa_lines]. rewrite (ssa_comment mark f l M C). exact IH. Qed.
Lemma ssa_comments mark a c b : mark = lit ";" \/ mark = lit "Comment:" -> whole_lines a -> comments mark c -> ssa_reader_string (a ++ c ++ b) = ssa_reader_string (a ++ b).
Proof.
  intros M W (ls & O & C). unfold ssa_reader_string, ssa_read. rewrite !string_lines_app; [|exact W|exact (of_lines_whole _ _ O)|exact W].
  apply of_lines_lines, lines_of_string_iff in O. rewrite O. rewrite !ssa_lines_app.
  destruct (ssa_lines ssa_init (lines_of_string a)) as [f|e|u]; cbn [bind]; try reflexivity.
  rewrite ssa_lines_app, (ssa_comment_lines mark _ _ M C). reflexivity.
Qed.

(** * Text STL *)

Lemma complete_join a la : complete_lines a la -> whole_lines a -> forall b lb, complete_lines b lb -> complete_lines (a ++ b) (la ++ lb).
Proof.
  induction 1 as [s N|l rest ls N T IH]; intros W b lb B.
  - apply whole_free in W; [|exact N]. now subst.
  - rewrite <- app_assoc. cbn [app]. constructor; [exact N|]. apply IH; [|exact B]. apply whole_after in W. now apply whole_cons in W.
Qed.
Lemma getlines_join a b : whole_lines a -> getlines (length (a ++ b)) (a ++ b) = getlines (length a) a ++ getlines (length b) b.
Proof. intros W. apply getlines_iff; [lia|]. apply complete_join; [|exact W|]; eapply getlines_iff; try reflexivity; lia. Qed.
Lemma stl_comment sub subs l : comment_line (lit "//") l -> stlt_line sub subs l = Ok (sub, subs).
Proof.
  intros (l' & T & C). unfold stlt_line. apply trim_iff in T. rewrite T. destruct C as [->|(rest & ->)]; [reflexivity|]. now rewrite starts_with_app.
Qed.
Lemma stl_comment_lines ls more : Forall (comment_line (lit "//")) ls -> forall sub subs, stlt_lines sub subs (ls ++ more) = stlt_lines sub subs more.
Proof. induction 1 as [|l ls C F IH]; intros sub subs; [reflexivity|]. cbn [app stlt_lines]. rewrite (stl_comment sub subs l C). cbn [bind]. apply IH. Qed.
Lemma stl_lines_drop a ls more : Forall (comment_line (lit "//")) ls -> forall sub subs, stlt_lines sub subs (a ++ ls ++ more) = stlt_lines sub subs (a ++ more).
Proof.
  intros C. induction a as [|l a IH]; intros sub subs; [exact (stl_comment_lines ls more C sub subs)|]. cbn [app stlt_lines].
  destruct (stlt_line sub subs l) as [[s t]|e|u]; cbn [bind]; auto.
Qed.
Lemma text_stl_comments good a c b : whole_lines a -> comments (lit "//") c -> stl_text_read good (a ++ c ++ b) = stl_text_read good (a ++ b).
Proof.
  intros W (ls & O & C). unfold stl_text_read. destruct good; [|reflexivity].
  rewrite !getlines_join; [|exact W|exact (of_lines_whole _ _ O)|exact W].
  apply of_lines_complete, (getlines_iff (length c)) in O; [|lia]. rewrite O. now apply stl_lines_drop.
Qed.

(** * SubRip *)

Lemma blank_cleaned l : l = [] \/ l = [cr] -> cleaned l [].
Proof.
  intros H. assert (N1 : ~ ends_in line_end []) by (intros (u & v & G & _); now destruct u).
  assert (N2 : ~ begins_with bom []) by (intros (u & G); discriminate G).
  destruct H as [->| ->]; [exists [], []|exists [], [cr]]; repeat (split; auto); repeat constructor; now right.
Qed.
Lemma blanks_read c : blank_lines c -> subrip_reader_string c = Ok [].
Proof.
  intros (ls & O & B). apply subrip_string_iff. exists ls. split; [now apply of_lines_lines|].
  exists (map (fun _ => []) ls), [], []. split; [|split; [|split; [constructor|reflexivity]]].
  - clear O. induction B as [|l ls L B IH]; constructor; [now apply blank_cleaned|exact IH].
  - clear O B. induction ls; constructor. assumption.
Qed.
Lemma blanks_end a c : ends_blank a -> blank_lines c -> ends_blank (a ++ c).
Proof.
  intros E (ls & [_ ->] & B). unfold str in *. destruct ls as [|l ls _] using rev_ind; [now rewrite app_nil_r|].
  assert (E1 : exists y, a ++ List.concat (map (fun l => l ++ [lf]) ls) = y ++ [lf]).
  { destruct ls as [|k ls _] using rev_ind.
    - cbn. rewrite app_nil_r. destruct E as (x & [->| ->]); [exists (x ++ [lf])|exists (x ++ [lf; cr])]; now rewrite <- app_assoc.
    - rewrite map_app, concat_app. cbn. rewrite app_nil_r, !app_assoc. eauto. }
  destruct E1 as (y & Y). rewrite map_app, concat_app, app_assoc, Y. apply Forall_app in B as [_ B]. inversion B as [|? ? L _]; subst.
  exists y. cbn. rewrite app_nil_r, <- app_assoc. cbn. destruct L as [->| ->]; [now left|now right].
Qed.
Lemma subrip_blanks a c b r : ends_blank a -> blank_lines c -> (subrip_reader_string (a ++ c ++ b) = Ok r <-> subrip_reader_string (a ++ b) = Ok r).
Proof.
  intros E B. rewrite app_assoc, (subrip_joined (a ++ c) b r (blanks_end a c E B)), (subrip_joined a b r E). split.
  - intros (ra & rb & A & Q & ->). apply (subrip_joined a c ra E) in A as (ra' & rc & A & C & ->). rewrite (blanks_read c B) in C. injection C as <-.
    rewrite app_nil_r. eauto.
  - intros (ra & rb & A & Q & ->). exists ra, rb. split; [|now split]. apply (subrip_joined a c ra E). exists ra, []. split; [exact A|].
    split; [now apply blanks_read|now rewrite app_nil_r].
Qed.

(** * WebVTT *)

Lemma vtt_note_dropped l comment lb c : is_note l -> Forall (fun k => k <> []) comment -> (vtt_cues (l :: comment ++ [] :: lb) c <-> vtt_cues lb c).
Proof.
  assert (N1 : ~ is_note []) by (intros (x & G); discriminate G).
  assert (N2 : ~ has_arrow []) by (intros (x & y & G); destruct x; discriminate G).
  intros N F. split.
  - intros Q. inversion Q; subst; try contradiction.
    match goal with H1 : ?x ++ ?y = comment ++ [] :: lb, H2 : Forall _ ?x, H3 : ends_or_blank ?y |- _ =>
      destruct (text_unique comment x ([] :: lb) y (eq_sym H1) F H2 (or_intror (ex_intro _ lb eq_refl)) H3) as [EQ1 EQ2] end; subst.
    match goal with H4 : vtt_cues ([] :: lb) _ |- _ => inversion H4; subst; auto; contradiction end.
  - intros Q. apply vtt_note; auto; [right; eauto|]. now constructor.
Qed.
Lemma vtt_joint L c la lb : L = la ++ [] :: lb -> (vtt_cues L c <-> exists ca cb, vtt_cues (la ++ [[]]) ca /\ vtt_cues lb cb /\ c = ca ++ cb).
Proof.
  intros ->. split; [intros H; now apply (vtt_split _ _ H)|]. intros (ca & cb & A & B & ->). now apply (vtt_join _ _ A).
Qed.
Lemma vtt_notes a c b r : ends_blank a -> note_block c -> (vtt_reader_string (a ++ c ++ b) = Ok r <-> vtt_reader_string (a ++ b) = Ok r).
Proof.
  intros E (lc & l & comment & O & FC & N & NB).
  destruct (joined_lines a (c ++ b) E) as (la & blank & lcb & TA & NE & C & TCB & T).
  destruct (has_lines b) as (lb & TB).
  pose proof (lines_app c lc (of_lines_lines _ _ O) (of_lines_whole _ _ O) b lb TB) as TCB'.
  rewrite (file_lines _ _ _ TCB TCB') in T. clear lcb TCB TCB'.
  assert (WA : whole_lines a) by (right; destruct E as (x & [->| ->]); [exists (x ++ [lf])|exists (x ++ [lf; cr])]; now rewrite <- app_assoc).
  pose proof (lines_app a _ TA WA b lb TB) as T2. rewrite <- app_assoc in T2. cbn [app] in T2.
  destruct la as [|ha la]; [congruence|]. cbn [app] in T, T2.
  rewrite !vtt_string_iff, (vtt_lines_of_file _ _ T), (vtt_lines_of_file _ _ T2), !vtt_lines_headed.
  assert (ST : forall h' cs rawss la' lb',
    (Forall2 cleaned la la' /\ Forall2 cleaned lb lb' /\ vtt_cues (la' ++ [] :: (l :: comment ++ [[]]) ++ lb') cs /\ Forall2 vtt_subtitles cs rawss /\ cleaned ha h') <->
    (Forall2 cleaned la la' /\ Forall2 cleaned lb lb' /\ vtt_cues (la' ++ [] :: lb') cs /\ Forall2 vtt_subtitles cs rawss /\ cleaned ha h')).
  { intros h' cs rawss la' lb'. rewrite (vtt_joint _ _ la' ((l :: comment ++ [[]]) ++ lb') eq_refl), (vtt_joint _ _ la' lb' eq_refl).
    replace ((l :: comment ++ [[]]) ++ lb') with (l :: comment ++ [] :: lb') by (cbn [app]; now rewrite <- app_assoc).
    setoid_rewrite (vtt_note_dropped l comment lb' _ N NB). tauto. }
  split; intros (h' & L & cs & rawss & CA & HA & F & Q & S & ->).
  - apply cleaned_joined in F as (la' & lx & F1 & F2 & ->); [|exact C]. apply Forall2_app_inv_l in F2 as (lc' & lb' & F2 & F3 & ->).
    rewrite (cleaned_unique _ _ _ F2 FC) in Q. destruct (proj1 (ST h' cs rawss la' lb')) as (_ & _ & Q' & _); [auto|].
    exists h', (la' ++ [] :: lb'), cs, rawss. repeat (split; [assumption|]). split; [|auto]. apply cleaned_joined; eauto.
  - apply cleaned_joined in F as (la' & lb' & F1 & F3 & ->); [|exact C].
    destruct (proj2 (ST h' cs rawss la' lb')) as (_ & _ & Q' & _); [auto|].
    exists h', (la' ++ [] :: (l :: comment ++ [[]]) ++ lb'), cs, rawss. repeat (split; [assumption|]). split; [|auto]. apply cleaned_joined; [exact C|].
    exists la', ((l :: comment ++ [[]]) ++ lb'). split; [exact F1|]. split; [|reflexivity]. now apply Forall2_app.
Qed.
