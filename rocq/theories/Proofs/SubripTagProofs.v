(** Override tags and right-to-left marks in SubRip text, as they are treated. *)
From Coq Require Import ZArith List Bool Ascii String Lia.
From Verif.Model Require Import Base Strings TimeModel Types Lines Subrip Ssa.
From Verif.Spec Require Import Outcome TextSpec Utf8Spec LinesSpec RawSpec SsaTagSpec SubripSpec SubripUseSpec SubripTagSpec.
From Verif.Proofs Require Import StringProofs LinesProofs SubripProofs SubripUseProofs.
Import ListNotations.
Local Open Scope Z_scope.
Local Notation length := List.length.

(** * Override tags *)

Lemma mixed_pieces toks bodies text : mixed toks bodies text -> forall r cs r2 tx, overrides r bodies r2 -> pieces r cs tx toks [] r2 (tx ++ text).
Proof.
  induction 1 as [|c toks bodies text M IH|body toks bodies text M IH]; intros r cs r2 tx O.
  - inversion O; subst. rewrite app_nil_r. constructor.
  - apply pieces_char. replace (tx ++ c :: text) with ((tx ++ [c]) ++ text) by now rewrite <- app_assoc. now apply IH.
  - inversion O as [|? ? r1 ? ? O1 O2]; subst. eapply pieces_ssa; [exact O1|]. now apply IH.
Qed.
Theorem tags_anywhere s from to row toks bodies text text' r2 : file_cues s [mkCue from to [row]] -> ~ contains u2028 row ->
  lexed row toks -> mixed toks bodies text -> without_rtl text text' -> text' <> [] -> overrides (cue_look from to) bodies r2 ->
  subrip_reader_string s = Ok [with_text text' r2].
Proof.
  intros FC N1 L M W NE O. apply subrip_string_iff, subrip_file_cues. exists [mkCue from to [row]], [[with_text text' r2]]. split; [exact FC|]. split; [|reflexivity].
  constructor; [|constructor]. apply cue_subtitles_rows. exists [row]. split; [exists [[row]]; split; [|reflexivity]; constructor; [now apply parts_one|constructor]|].
  replace [with_text text' r2] with ([] ++ with_piece text' r2 ++ []) by (destruct text'; [congruence|reflexivity]).
  eapply rows_more; [exact L| |exact W|constructor]. exact (mixed_pieces _ _ _ M (cue_look from to) [all_white] r2 [] O).
Qed.

(** * Right-to-left marks *)

Definition in_front (t s : str) : Prop := contains (t ++ ["<"%char]) s \/ contains (t ++ ["{"%char]) s.
Lemma in_front_trans t a b : in_front t a -> contains a b -> in_front t b.
Proof. intros [H|H] C; [left|right]; eapply contains_trans; eassumption. Qed.
Lemma suffix_in (a b : str) : contains b (a ++ b).
Proof. exists a, []. now rewrite app_nil_r. Qed.
Lemma same_letter_mark c d : same_letter c d -> d = "<"%char \/ d = "{"%char -> c = d.
Proof.
  intros [E|(k & K & H)] D; [exact E|]. exfalso. destruct D as [-> | ->]; [change (char_code "<"%char) with 60 in H|change (char_code "{"%char) with 123 in H]; lia.
Qed.
Lemma tag_front s tok rest : tag_at s tok rest -> (exists p, s = "<"%char :: p \/ s = "{"%char :: p) /\ contains rest s /\ ((exists body, tok = TSsa body) -> contains ["{"%char; bslash] s) /\ (forall c, tok <> TChar c).
Proof.
  intros [p name tok' rest' I S|p s' body rest' S U|s' body rest' U].
  - assert (K : (exists n, lit name = "<"%char :: n \/ lit name = "{"%char :: n) /\ (forall b, tok' <> TSsa b) /\ (forall c, tok' <> TChar c)).
    { repeat (destruct I as [E|I]; [injection E as <- <-; split; [eexists; ((left; reflexivity) || (right; reflexivity))|split; discriminate]|]). destruct I. }
    destruct K as ((n & K) & NS & NC). split.
    + destruct K as [K|K]; rewrite K in S; inversion S as [|c d p' ? L]; subst; cbn [app]; (apply same_letter_mark in L; [|auto]); subst c; eauto.
    + split; [apply suffix_in|]. split; [intros (b & ->); exfalso; now apply (NS b)|exact NC].
  - split.
    + change (lit "<font") with ("<"%char :: lit "font") in S. inversion S as [|c d p' ? L]; subst; cbn [app]; (apply same_letter_mark in L; [|auto]); subst c; eauto.
    + split; [|split; [intros (b & E); discriminate E|discriminate]]. destruct U as [body rest' _|body _]; [|exists (p ++ body), []; now rewrite !app_nil_r].
      exists (p ++ body ++ [">"%char]), []. rewrite app_nil_r. rewrite <- !app_assoc. reflexivity.
  - split; [eauto|]. split; [|split; [intros _; exists [], s'; reflexivity|discriminate]]. destruct U as [body rest' _|body _].
    + exists ("{"%char :: bslash :: body ++ ["}"%char]), []. rewrite app_nil_r. cbn [app]. now rewrite <- app_assoc.
    + exists ("{"%char :: bslash :: body), []. now rewrite !app_nil_r.
Qed.
Lemma piece_places r cs tx toks ps r' last : pieces r cs tx toks ps r' last -> forall rem, lexed rem toks -> ~ contains ["{"%char; bslash] rem ->
  (forall x, In x ps -> in_front (r_text x) (tx ++ rem)) /\ contains last (tx ++ rem).
Proof.
  induction 1 as [r cs text|r cs text c toks ps r' last P IH|r cs text tok r1 cs1 toks ps r' last R P IH|r cs text body r1 toks ps r' last O P IH]; intros rem L N.
  - inversion L; subst. split; [intros x []|]. exists [], []. now rewrite app_nil_r.
  - inversion L as [|? ? ? ? T|? s' ? NT L']; subst.
    + exfalso. apply tag_front in T as (_ & _ & _ & T). now apply (T c).
    + destruct (IH s' L') as (A & B); [intros C; apply N; eapply contains_trans; [exact C|]; exact (suffix_in [c] s')|].
      replace (text ++ c :: s') with ((text ++ [c]) ++ s') by now rewrite <- app_assoc. now split.
  - inversion L as [|? ? rest ? T L'|? s' ? NT L']; subst; [|inversion R]. destruct (tag_front _ _ _ T) as ((p & F) & C & _).
    destruct (IH rest L') as (A & B); [intros C'; apply N; eapply contains_trans; eassumption|]. cbn [app] in A, B.
    assert (CR : contains rest (text ++ rem)) by (eapply contains_trans; [exact C|apply suffix_in]).
    split; [|eapply contains_trans; eassumption]. intros x I. apply in_app_iff in I as [I|I]; [|eapply in_front_trans; [now apply A|exact CR]].
    destruct text as [|c text]; [destruct I|]. destruct I as [<-|[]]. change (r_text (with_text (c :: text) r)) with (c :: text).
    destruct F as [-> | ->]; [left|right]; exists [], p; rewrite <- !app_assoc; reflexivity.
  - inversion L as [|? ? rest ? T L'|]; subst. destruct (tag_front _ _ _ T) as (_ & _ & H & _). exfalso. apply N. apply H. now exists body.
Qed.
Lemma rows_marks n r lines raws : rows n r lines raws -> (forall row, In row lines -> ~ contains ["{"%char; bslash] row /\ ~ contains [b226; b226] row /\ ~ contains [b226; b128; b226] row) ->
  forall x, In x raws -> contains u202b (r_text x) -> exists row, In row lines /\ in_front (r_text x) row.
Proof.
  induction 1 as [n r|n r line rest toks ps r' last last' raws L P W R IH]; intros O x I C; [destruct I|].
  destruct (O line (or_introl eq_refl)) as (N2 & N3 & N4). destruct (piece_places _ _ _ _ _ _ _ P line L N2) as (A & B). cbn [app] in A, B.
  apply in_app_iff in I as [I|I]; [exists line; split; [now left|now apply A]|]. apply in_app_iff in I as [I|I].
  - exfalso. apply removal_complete in W; [|intros Q; apply N3; eapply contains_trans; eassumption|intros Q; apply N4; eapply contains_trans; eassumption]. destruct last'; [destruct I|]. destruct I as [<-|[]]. now apply W.
  - destruct (IH (fun row J => O row (or_intror J)) x I C) as (row & J & K). exists row. split; [now right|exact K].
Qed.
Theorem marks_in_front s w raws x : utf8 s w -> ~ contains ["{"%char; bslash] s -> subrip_reader_string s = Ok raws -> In x raws -> contains u202b (r_text x) ->
  contains (r_text x ++ ["<"%char]) s \/ contains (r_text x ++ ["{"%char]) s.
Proof.
  intros U N R I M. destruct (utf8_no_double s w U) as [D1 D2]. apply subrip_string_iff, subrip_file_cues in R. destruct R as (cs & rawss & FC & S & ->).
  apply in_concat in I. destruct I as (raws & J1 & J2). destruct (Forall2_in_r _ _ _ _ S J1) as (c & K & CS). apply cue_subtitles_rows in CS. destruct CS as (rs & CR & RW).
  destruct (rows_marks _ _ _ _ RW) with (x := x) as (row & IR & F); [|exact J2|exact M|].
  - intros row IR. pose proof (file_rows _ _ _ _ _ FC K CR IR) as C. split; [|split]; intros Q; [apply N|apply D1|apply D2]; now apply (contains_trans _ row).
  - exact (in_front_trans _ _ _ F (file_rows _ _ _ _ _ FC K CR IR)).
Qed.
