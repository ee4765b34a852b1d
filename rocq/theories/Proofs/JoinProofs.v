(** SubRip and WebVTT files put one behind the other. *)
From Coq Require Import ZArith List Bool Ascii String Lia.
From Verif.Model Require Import Base Strings Float TimeModel Types Lines Subrip WebVtt.
From Verif.Spec Require Import Outcome TextSpec LinesSpec RawSpec SubripSpec StopSpec SubripUseSpec WebVttSpec JoinSpec.
From Verif.Proofs Require Import LinesProofs SubripProofs SubripStopProofs SubripUseProofs WebVttProofs TextFileProofs.
Import ListNotations.
Local Notation length := List.length.

(** * Lines *)

Lemma text_lines_app a la b lb : text_lines (a ++ [lf]) la -> text_lines b lb -> text_lines (a ++ lf :: b) (la ++ lb).
Proof.
  intros A. remember (a ++ [lf]) as s eqn:E. revert a E. induction A as [|l N1 N2|l rest ls N A IH]; intros a E B.
  - now destruct a.
  - exfalso. apply N2. rewrite E. apply in_or_app. right. now left.
  - destruct rest as [|c rest] using rev_ind; [|clear IHrest].
    + apply app_inj_tail in E as [-> _]. inversion A as [|? G ?|? ? ? ? ? G]; subst; [|congruence|now destruct l; discriminate G].
      cbn [app]. now constructor.
    + replace (l ++ lf :: rest ++ [c]) with ((l ++ lf :: rest) ++ [c]) in E by now rewrite <- app_assoc.
      apply app_inj_tail in E as [<- ->]. rewrite <- app_assoc. cbn [app]. constructor; [exact N|]. now apply IH.
Qed.
Lemma text_lines_end a la l : ~ In lf l -> text_lines (a ++ [lf]) la -> text_lines (a ++ lf :: l ++ [lf]) (la ++ [l]).
Proof. intros N A. apply text_lines_app; [exact A|]. constructor; [exact N|constructor]. Qed.
Lemma has_lines s : exists ls, text_lines s ls.
Proof. exists (lines_of_string s). now apply lines_of_string_iff. Qed.
(** The lines of the two files. *)
Lemma joined_lines a b : ends_blank a -> exists la blank lb, text_lines a (la ++ [blank]) /\ la <> [] /\ cleaned blank [] /\ text_lines b lb /\
  text_lines (a ++ b) (la ++ blank :: lb).
Proof.
  intros (x & H). destruct (has_lines (x ++ [lf])) as (la & A). destruct (has_lines b) as (lb & B).
  assert (NE : la <> []) by (intros ->; inversion A as [G| |]; now destruct x).
  assert (H' : exists l : str, ~ In lf l /\ cleaned l [] /\ a = x ++ lf :: l ++ [lf]).
  { destruct H as [->| ->].
    - exists []. split; [auto|]. split; [|reflexivity]. exists [], []. repeat split; auto; [intros (u & v & G & _); now destruct u|].
      right. split; [|reflexivity]. intros (u & G). discriminate G.
    - exists [cr]. split; [intros [G|[]]; discriminate G|]. split; [|reflexivity]. exists [], [cr]. split; [reflexivity|].
      split; [repeat constructor; now right|]. split; [intros (u & v & G & _); now destruct u|].
      right. split; [|reflexivity]. intros (u & G). discriminate G. }
  destruct H' as (l & N & C & ->). exists la, l, lb. split; [now apply text_lines_end|]. split; [exact NE|]. split; [exact C|]. split; [exact B|].
  unfold str in *. assert (E1 : la ++ l :: lb = (la ++ [l]) ++ lb) by now rewrite <- app_assoc.
  assert (E2 : (x ++ lf :: l ++ [lf]) ++ b = (x ++ lf :: l) ++ lf :: b) by (rewrite <- !app_assoc; cbn; now rewrite <- app_assoc).
  assert (E3 : (x ++ lf :: l) ++ [lf] = x ++ lf :: l ++ [lf]) by now rewrite <- app_assoc.
  rewrite E1, E2. apply (text_lines_app (x ++ lf :: l) (la ++ [l])); [|exact B]. rewrite E3. now apply text_lines_end.
Qed.
Lemma cleaned_joined la blank lb L : cleaned blank [] -> (Forall2 cleaned (la ++ blank :: lb) L <-> exists la' lb', Forall2 cleaned la la' /\ Forall2 cleaned lb lb' /\ L = la' ++ [] :: lb').
Proof.
  intros C. split.
  - intros F. apply Forall2_app_inv_l in F as (la' & R & F1 & F2 & ->). inversion F2 as [|? e ? lb' G F3]; subst. exists la', lb'.
    split; [exact F1|]. split; [exact F3|]. f_equal. f_equal.
    assert (U : [e] = [[]]) by (apply (cleaned_unique [blank]); repeat constructor; assumption). now injection U.
  - intros (la' & lb' & F1 & F2 & ->). apply Forall2_app; [exact F1|]. now constructor.
Qed.
Lemma split_text (text rest la lb : list str) : Forall (fun l => l <> []) text -> text ++ rest = la ++ [] :: lb ->
  exists la', la = text ++ la' /\ rest = la' ++ [] :: lb.
Proof.
  revert la. induction text as [|t text IH]; intros la F E; [now exists la|]. inversion F as [|? ? N F']; subst.
  destruct la as [|l la]; cbn [app] in E; injection E as E1 E; [congruence|]. subst l.
  destruct (IH la F' E) as (la' & -> & ->). now exists la'.
Qed.
Lemma blank_rest (la' lb lb' : list str) : (la' ++ [] :: lb = [] \/ exists more, la' ++ [] :: lb = [] :: more) ->
  la' ++ [] :: lb' = [] \/ exists more, la' ++ [] :: lb' = [] :: more.
Proof. destruct la' as [|l la']; cbn [app]; intros [G|(m & G)]; try discriminate G; right; [eauto|]. injection G as -> _. eauto. Qed.

(** * SubRip *)

Lemma no_fields fs : fields [] fs -> (length fs <= 1)%nat.
Proof. intros F. apply fields_iff in F. rewrite <- F. vm_compute. repeat constructor. Qed.
Lemma timing_not_blank sep l from to : timing_line sep l from to -> l <> [].
Proof. intros (f0 & f1 & f2 & m & F & _) ->. apply no_fields in F. cbn [List.length] in F. lia. Qed.
Lemma cues_split L c : cues_in L c -> forall la lb, L = la ++ [] :: lb -> exists ca cb, cues_in (la ++ [[]]) ca /\ cues_in lb cb /\ c = ca ++ cb.
Proof.
  induction 1 as [|ls cs H IH|counter N|counter timing from to text rest cs N T F B H IH]; intros la lb E.
  - now destruct la.
  - destruct la as [|l la]; cbn [app] in E.
    + injection E as ->. exists [], cs. split; [repeat constructor|]. now split.
    + injection E as <- ->. destruct (IH la lb eq_refl) as (ca & cb & A & B & ->). exists ca, cb. split; [cbn [app]; now constructor|]. now split.
  - destruct la as [|l la]; cbn [app] in E; injection E as E1 E2; [congruence|]. now destruct la.
  - destruct la as [|l la]; cbn [app] in E; injection E as E1 E; [congruence|]. subst l.
    destruct la as [|l la]; cbn [app] in E; injection E as E1 E; [now apply timing_not_blank in T|]. subst l.
    destruct (split_text _ _ _ _ F E) as (la' & -> & ->). destruct (IH la' lb eq_refl) as (ca & cb & A & D & ->).
    exists (mkCue from to text :: ca), cb. split; [|now split]. cbn [app]. rewrite <- app_assoc. constructor; auto. now apply (blank_rest la' lb).
Qed.
Lemma cues_join L c : cues_in L c -> forall la lb cb, L = la ++ [[]] -> cues_in lb cb -> cues_in (la ++ [] :: lb) (c ++ cb).
Proof.
  induction 1 as [|ls cs H IH|counter N|counter timing from to text rest cs N T F B H IH]; intros la lb cb E D.
  - now destruct la.
  - destruct la as [|l la]; cbn [app] in E.
    + injection E as ->. inversion H; subst. cbn [app]. now constructor.
    + injection E as <- ->. cbn [app]. constructor. now apply IH.
  - destruct la as [|l la]; cbn [app] in E; [injection E as E1; congruence|injection E as E1 E2]. now destruct la.
  - destruct la as [|l la]; cbn [app] in E; injection E as E1 E; [congruence|]. subst l.
    destruct la as [|l la]; cbn [app] in E; injection E as E1 E; [now apply timing_not_blank in T|]. subst l.
    destruct (split_text _ _ _ _ F E) as (la' & -> & ->). cbn [app]. rewrite <- app_assoc. constructor; auto. now apply (blank_rest la' []).
Qed.
Lemma lines_of_file s ls : text_lines s ls -> forall raws, subrip_file s raws <-> subrip_lines ls raws.
Proof. intros T raws. split; [intros (ls' & T' & H); now rewrite (file_lines _ _ _ T T')|intros H; now exists ls]. Qed.
Lemma subrip_joined a b r : ends_blank a ->
  (subrip_reader_string (a ++ b) = Ok r <-> exists ra rb, subrip_reader_string a = Ok ra /\ subrip_reader_string b = Ok rb /\ r = ra ++ rb).
Proof.
  intros E. destruct (joined_lines a b E) as (la & blank & lb & TA & _ & C & TB & T).
  rewrite subrip_string_iff. setoid_rewrite subrip_string_iff. rewrite (lines_of_file _ _ T).
  setoid_rewrite (lines_of_file _ _ TA). setoid_rewrite (lines_of_file _ _ TB). unfold subrip_lines. split.
  - intros (L & cs & rawss & F & Q & S & ->). apply cleaned_joined in F as (la' & lb' & F1 & F2 & ->); [|exact C].
    destruct (cues_split _ _ Q la' lb' eq_refl) as (ca & cb & QA & QB & ->). apply Forall2_app_inv_l in S as (ra & rb & SA & SB & ->).
    exists (List.concat ra), (List.concat rb). split; [|split; [|apply concat_app]].
    + exists (la' ++ [[]]), ca, ra. split; [apply Forall2_app; auto|]. auto.
    + exists lb', cb, rb. auto.
  - intros (ra & rb & (LA & ca & ra' & FA & QA & SA & ->) & (lb' & cb & rb' & FB & QB & SB & ->) & ->).
    apply (cleaned_joined la blank [] LA) in FA as (la' & e & F1 & F2 & ->); [|exact C]. inversion F2; subst.
    exists (la' ++ [] :: lb'), (ca ++ cb), (ra' ++ rb'). split; [apply cleaned_joined; [exact C|]; eauto|].
    split; [now apply (cues_join _ _ QA)|]. split; [now apply Forall2_app|]. symmetry. apply concat_app.
Qed.

(** * WebVTT *)

Lemma vtt_split L c : vtt_cues L c -> forall la lb, L = la ++ [] :: lb -> exists ca cb, vtt_cues (la ++ [[]]) ca /\ vtt_cues lb cb /\ c = ca ++ cb.
Proof.
  assert (N1 : ~ is_note []) by (intros (x & G); discriminate G).
  assert (N2 : ~ has_arrow []) by (intros (x & y & G); destruct x; discriminate G).
  induction 1 as [|l ls cs A1 A2 H IH|l comment rest cs A F B H IH|timing from to text rest cs A1 A2 T F B H IH]; intros la lb E.
  - now destruct la.
  - destruct la as [|k la]; cbn [app] in E; injection E as E1 E; subst.
    + exists [], cs. split; [repeat constructor; auto|]. now split.
    + destruct (IH la lb eq_refl) as (ca & cb & A & B & ->). exists ca, cb. split; [cbn [app]; now constructor|]. now split.
  - destruct la as [|k la]; cbn [app] in E; injection E as E1 E; subst; [contradiction|].
    destruct (split_text _ _ _ _ F E) as (la' & -> & ->). destruct (IH la' lb eq_refl) as (ca & cb & G & D & ->).
    exists ca, cb. split; [|now split]. cbn [app]. rewrite <- app_assoc. apply vtt_note; auto. now apply (blank_rest la' lb).
  - destruct la as [|k la]; cbn [app] in E; injection E as E1 E; subst; [contradiction|].
    destruct (split_text _ _ _ _ F E) as (la' & -> & ->). destruct (IH la' lb eq_refl) as (ca & cb & G & D & ->).
    exists (mkCue from to text :: ca), cb. split; [|now split]. cbn [app]. rewrite <- app_assoc. apply vtt_cue; auto. now apply (blank_rest la' lb).
Qed.
Lemma vtt_join L c : vtt_cues L c -> forall la lb cb, L = la ++ [[]] -> vtt_cues lb cb -> vtt_cues (la ++ [] :: lb) (c ++ cb).
Proof.
  assert (N1 : ~ is_note []) by (intros (x & G); discriminate G).
  assert (N2 : ~ has_arrow []) by (intros (x & y & G); destruct x; discriminate G).
  induction 1 as [|l ls cs A1 A2 H IH|l comment rest cs A F B H IH|timing from to text rest cs A1 A2 T F B H IH]; intros la lb cb E D.
  - now destruct la.
  - destruct la as [|k la]; cbn [app] in E; injection E as E1 E; subst.
    + inversion H; subst. cbn [app]. now constructor.
    + cbn [app]. constructor; auto.
  - destruct la as [|k la]; cbn [app] in E; injection E as E1 E; subst; [contradiction|].
    destruct (split_text _ _ _ _ F E) as (la' & -> & ->). cbn [app]. rewrite <- app_assoc. apply vtt_note; auto. now apply (blank_rest la' []).
  - destruct la as [|k la]; cbn [app] in E; injection E as E1 E; subst; [contradiction|].
    destruct (split_text _ _ _ _ F E) as (la' & -> & ->). cbn [app]. rewrite <- app_assoc. apply vtt_cue; auto. now apply (blank_rest la' []).
Qed.
Lemma header_not_note h : begins_with (lit "WEBVTT") h -> ~ is_note h.
Proof. intros (x & ->) (y & G). discriminate G. Qed.
Lemma vtt_header h ls cs : begins_with (lit "WEBVTT") h -> ~ has_arrow h -> (vtt_cues (h :: ls) cs <-> vtt_cues ls cs).
Proof.
  intros H N. split; [|intros Q; constructor; auto using header_not_note].
  intros Q. inversion Q; subst; auto; exfalso; [now apply (header_not_note h)|contradiction].
Qed.
Lemma vtt_lines_of_file s ls : text_lines s ls -> forall raws, vtt_file s raws <-> vtt_lines ls raws.
Proof. intros T raws. split; [intros (ls' & T' & H); now rewrite (file_lines _ _ _ T T')|intros H; now exists ls]. Qed.
Lemma vtt_lines_headed h ls raws : vtt_lines (h :: ls) raws <-> exists h' ls' cs rawss, cleaned h h' /\ begins_with (lit "WEBVTT") h' /\ Forall2 cleaned ls ls' /\
  vtt_cues ls' cs /\ Forall2 vtt_subtitles cs rawss /\ raws = List.concat rawss.
Proof.
  split; [intros H; inversion H; subst; do 4 eexists; repeat (split; [eassumption|]); reflexivity|].
  intros (h' & ls' & cs & rawss & A & B & C & D & E & ->). econstructor; eassumption.
Qed.
Lemma vtt_joined a b r : ends_blank a -> headed b ->
  (vtt_reader_string (a ++ b) = Ok r <-> exists ra rb, vtt_reader_string a = Ok ra /\ vtt_reader_string b = Ok rb /\ r = ra ++ rb).
Proof.
  intros E (hb & lb & hb' & TB & CB & HB & NB). destruct (joined_lines a b E) as (la & blank & lb2 & TA & NE & C & TB2 & T).
  rewrite (file_lines _ _ _ TB2 TB) in T. clear lb2 TB2. destruct la as [|ha la]; [congruence|]. cbn [app] in TA, T.
  rewrite vtt_string_iff. setoid_rewrite vtt_string_iff. rewrite (vtt_lines_of_file _ _ T).
  setoid_rewrite (vtt_lines_of_file _ _ TA). setoid_rewrite (vtt_lines_of_file _ _ TB). setoid_rewrite vtt_lines_headed. split.
  - intros (ha' & L & cs & rawss & CA & HA & F & Q & S & ->). apply cleaned_joined in F as (la' & lb' & F1 & F2 & ->); [|exact C].
    inversion F2 as [|? h2 ? lb'' G2 F3]; subst.
    assert (U : [h2] = [hb']) by (apply (cleaned_unique [hb]); repeat constructor; assumption). injection U as ->.
    destruct (vtt_split _ _ Q la' _ eq_refl) as (ca & cb & QA & QB & ->). apply Forall2_app_inv_l in S as (ra & rb & SA & SB & ->).
    apply vtt_header in QB; [|exact HB|exact NB].
    exists (List.concat ra), (List.concat rb). split; [|split; [|apply concat_app]].
    + exists ha', (la' ++ [[]]), ca, ra. split; [exact CA|]. split; [exact HA|]. split; [apply Forall2_app; auto|]. auto.
    + exists hb', lb'', cb, rb. auto 10.
  - intros (ra & rb & (ha' & LA & ca & ra' & CA & HA & FA & QA & SA & ->) & (h2 & lb' & cb & rb' & _ & _ & FB & QB & SB & ->) & ->).
    apply (cleaned_joined la blank [] LA) in FA as (la' & e & F1 & F2 & ->); [|exact C]. inversion F2; subst.
    exists ha', (la' ++ [] :: hb' :: lb'), (ca ++ cb), (ra' ++ rb'). split; [exact CA|]. split; [exact HA|].
    split; [apply cleaned_joined; [exact C|]; exists la', (hb' :: lb'); split; [exact F1|]; split; [now constructor|reflexivity]|].
    split; [apply (vtt_join _ _ QA); [reflexivity|]; now apply vtt_header|]. split; [now apply Forall2_app|]. symmetry. apply concat_app.
Qed.
