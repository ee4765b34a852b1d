(** What is proved of texts, for files that are read one buffer at a time. *)
From Coq Require Import ZArith List Bool Ascii String Lia.
From Verif.Model Require Import Base Strings Float TimeModel Types Lines Subrip WebVtt Ssa Collect.
From Verif.Spec Require Import Outcome TextSpec StlFileSpec LinesSpec RawSpec SubripSpec SsaTagSpec SubripUseSpec WebVttSpec TextFileSpec JoinSpec CollectSpec CollectReadSpec ColourRangeSpec.
From Verif.Proofs Require Import LinesProofs SubripUseProofs WebVttProofs TextFileProofs PieceUtf8Proofs ColourRangeProofs CollectReadProofs JoinProofs.
From Verif.Model Require Import Lines.
Import ListNotations.
Local Notation length := List.length.

(** * Rates and colours *)

Lemma subrip_file_ms s raws : subrip_reader_file s = Ok raws -> Forall (clocked milliseconds_rate) raws.
Proof. intros E. destruct (subrip_any_file s) as (bs & ls & _ & _ & S). apply (same_success _ _ _ S) in E. exact (subrip_ms _ _ E). Qed.
Lemma vtt_file_ms s raws : vtt_reader_file s = Ok raws -> Forall (clocked milliseconds_rate) raws.
Proof. intros E. destruct (vtt_any_file s) as (bs & ls & _ & _ & S). apply (same_success _ _ _ S) in E. exact (vtt_ms _ _ E). Qed.
Lemma vtt_file_colours s raws : vtt_reader_file s = Ok raws -> Forall colours_ok raws.
Proof. intros E. destruct (vtt_any_file s) as (bs & ls & _ & _ & S). apply (same_success _ _ _ S) in E. exact (vtt_colours _ _ E). Qed.
Lemma ssa_file_almost s raws : ssa_reader_file s = Ok raws -> Forall colours_almost_ok raws.
Proof. intros E. destruct (ssa_any_file s) as (bs & ls & _ & _ & S). rewrite S in E. exact (ssa_almost _ _ E). Qed.

(** * What is in the lines is in the file *)

Lemma buffer_line_in b l : buffer_line b l -> contains l b.
Proof. intros (_ & _ & [->|[->|(z & ->)]]); [exists [], []; now rewrite app_nil_r|exists [], [lf]; reflexivity|exists [], (ascii_of_nat 0 :: z); reflexivity]. Qed.
Lemma contains_trans a b c : contains a b -> contains b c -> contains a c.
Proof. intros (x & y & ->) (u & v & ->). exists (u ++ x), (y ++ v). now rewrite <- !app_assoc. Qed.
Lemma in_concat_in b bs : In b bs -> contains b (List.concat bs).
Proof.
  induction bs as [|c bs IH]; [intros []|]. intros [->|I]; [exists [], (List.concat bs); reflexivity|]. destruct (IH I) as (x & y & E). exists (c ++ x), y.
  cbn [List.concat]. rewrite E. now rewrite <- app_assoc.
Qed.
Lemma lines_in_file s bs ls : buffers s bs -> Forall2 buffer_line bs ls -> Forall (fun l => contains l s) ls.
Proof.
  intros B F. rewrite (buffers_taken _ _ B). assert (K : Forall (fun l => exists b, In b bs /\ buffer_line b l) ls).
  { clear B. induction F as [|b l bs ls L F IH]; constructor; [exists b; split; [now left|exact L]|]. eapply Forall_impl; [|exact IH]. intros x (c & I & J). exists c. split; [now right|exact J]. }
  eapply Forall_impl; [|exact K]. intros l (b & I & L). exact (contains_trans _ _ _ (buffer_line_in _ _ L) (in_concat_in _ _ I)).
Qed.
(** Something without a newline in the text of lines is in one of them. *)
Lemma within_one ls : forall before d after, text_of_lines ls = before ++ d ++ after -> d <> [] -> ~ In lf d -> exists l, In l ls /\ contains d l.
Proof.
  induction ls as [|l ls IH]; intros before d after E NE N.
  - destruct before; [destruct d; [congruence|discriminate E]|discriminate E].
  - unfold text_of_lines in E. cbn [map List.concat] in E. rewrite <- app_assoc in E. cbn [app] in E. fold (text_of_lines ls) in E.
    apply app_eq_app in E as (m & [(E1 & E2)|(E1 & E2)]).
    + (* l = before ++ m *) apply app_eq_app in E2 as (k & [(F1 & F2)|(F1 & F2)]).
      * destruct k as [|x k]; [rewrite app_nil_r in F1; subst d|exfalso; cbn in F2; injection F2 as <- F2; apply N; rewrite F1; apply in_or_app; right; now left].
        exists l. split; [now left|]. exists before, []. now rewrite app_nil_r.
      * exists l. split; [now left|]. exists before, k. now rewrite E1, F1.
    + (* before = l ++ m *) destruct m as [|x m]; cbn [app] in E2.
      * destruct d as [|y d]; [congruence|]. injection E2 as <- E2. exfalso. apply N. now left.
      * injection E2 as <- E2. destruct (IH m d after E2 NE N) as (l' & I & C). exists l'. split; [now right|exact C].
Qed.
Lemma digits_no_lf d : Forall is_digit_char d -> ~ In lf d.
Proof. intros F I. rewrite Forall_forall in F. apply F in I. destruct I as (n & R & E). change (char_code lf) with 10%Z in E. lia. Qed.
Lemma short_in_lines s bs ls : buffers s bs -> Forall2 buffer_line bs ls -> short_numbers s -> short_numbers (text_of_lines ls).
Proof.
  intros B F S before d after E D. destruct d as [|x d]; [cbn; lia|]. set (y := x :: d) in *.
  destruct (within_one ls before y after E) as (l & I & C); [discriminate|now apply digits_no_lf|].
  pose proof (lines_in_file s bs ls B F) as K. rewrite Forall_forall in K. destruct (contains_trans _ _ _ C (K l I)) as (u & v & E2). exact (S u y v E2 D).
Qed.
Lemma subrip_file_collectable s raws : short_numbers s -> subrip_reader_file s = Ok raws -> collectable raws.
Proof. intros N E. destruct (subrip_any_file s) as (bs & ls & B & F & S). apply (same_success _ _ _ S) in E. exact (subrip_collectable _ _ (short_in_lines _ _ _ B F N) E). Qed.
Lemma vtt_file_collectable s raws : short_numbers s -> vtt_reader_file s = Ok raws -> collectable raws.
Proof. intros N E. destruct (vtt_any_file s) as (bs & ls & B & F & S). apply (same_success _ _ _ S) in E. exact (vtt_collectable _ _ (short_in_lines _ _ _ B F N) E). Qed.

(** * Files put one behind the other *)

Definition chomped (a b : str) : Prop := a = b \/ a = b ++ [lf].
Lemma text_of_app a b : text_of_lines (a ++ b) = text_of_lines a ++ text_of_lines b.
Proof. unfold text_of_lines. rewrite map_app. apply concat_app. Qed.
Lemma lines_free bs ls : Forall2 buffer_line bs ls -> Forall (fun l => ~ In lf l) ls.
Proof. induction 1 as [|b l bs ls (_ & N & _) F IH]; constructor; assumption. Qed.
Lemma text_lines_of ls : Forall (fun l => ~ In lf l) ls -> lines_of_string (text_of_lines ls) = ls.
Proof. intros F. apply lines_of_string_iff. now apply lines_text. Qed.
Lemma chomped_clean la lb : Forall2 chomped la lb -> Forall2 (fun a b => clean_line a = clean_line b) la lb.
Proof. intros F. eapply Forall2_weaken; [|exact F]. intros a b [->| ->]; [reflexivity|apply clean_lf]. Qed.
Lemma file_chomped s : exists bs ls, buffers s bs /\ Forall2 buffer_line bs ls /\ Forall (fun l => ~ In lf l) ls /\ Forall2 chomped (lines_of_file s) ls.
Proof. destruct (file_as_lines s) as (bs & ls & B & L & _ & F). exists bs, ls. split; [exact B|]. split; [exact L|]. split; [exact (lines_free _ _ L)|exact F]. Qed.
Lemma blank_whole a : ends_blank a -> whole_lines a.
Proof. intros (x & [->| ->]); right; [exists (x ++ [lf])|exists (x ++ [lf; cr])]; now rewrite <- app_assoc. Qed.
Lemma some_line x : lines_of_file (x ++ [lf]) <> [].
Proof.
  destruct (file_chomped (x ++ [lf])) as (bs & ls & B & L & _ & F). intros E. rewrite E in F. inversion F; subst. inversion L; subst.
  apply buffers_taken in B. destruct x; discriminate B.
Qed.
Lemma text_last ls : ls <> [] -> exists t, text_of_lines ls = t ++ [lf].
Proof.
  intros NE. destruct (exists_last NE) as (m & l & ->). exists (text_of_lines m ++ l). rewrite text_of_app. unfold text_of_lines at 2. cbn [map List.concat].
  now rewrite app_nil_r, app_assoc.
Qed.
Lemma blank_text a ls : ends_blank a -> Forall (fun l => ~ In lf l) ls -> Forall2 chomped (lines_of_file a) ls -> ends_blank (text_of_lines ls).
Proof.
  intros (x & H) N F. assert (K : exists e, (e = [] \/ e = [cr]) /\ lines_of_file a = lines_of_file (x ++ [lf]) ++ [e ++ [lf]]).
  { destruct H as [->| ->]; [exists []; split; [now left|]|exists [cr]; split; [now right|]].
    - change [lf; lf] with ([lf] ++ [lf]). rewrite app_assoc, (file_lines_app (length (x ++ [lf]))); [reflexivity|lia|]. right. now exists x.
    - change [lf; cr; lf] with ([lf] ++ [cr; lf]). rewrite app_assoc, (file_lines_app (length (x ++ [lf]))); [reflexivity|lia|]. right. now exists x. }
  destruct K as (e & He & E). rewrite E in F. apply Forall2_app_inv_l in F as (la & lb & F1 & F2 & ->). inversion F2 as [|? l ? q C F3]; subst. inversion F3; subst.
  assert (NE : la <> []) by (intros ->; inversion F1 as [G|]; symmetry in G; exact (some_line x G)).
  destruct (text_last la NE) as (t & T). rewrite text_of_app, T. unfold text_of_lines. cbn [map List.concat]. rewrite app_nil_r.
  assert (L : l = e).
  { destruct C as [C|C]; [|now apply app_inj_tail in C as [-> _]]. exfalso. rewrite Forall_forall in N. apply (N l); [apply in_or_app; right; now left|].
    rewrite <- C. apply in_or_app. right. now left. }
  subst l. exists t. destruct He as [->| ->]; [left|right]; now rewrite <- app_assoc.
Qed.
Lemma same_success_iff a b : same_outcome a b -> forall x, a = Ok x <-> b = Ok x.
Proof. intros S x. split; [now apply same_success|]. apply same_success. now apply same_sym. Qed.
Lemma subrip_file_joined a b r : ends_blank a ->
  (subrip_reader_file (a ++ b) = Ok r <-> exists ra rb, subrip_reader_file a = Ok ra /\ subrip_reader_file b = Ok rb /\ r = ra ++ rb).
Proof.
  intros H. destruct (file_chomped a) as (ba & la & _ & _ & Na & Fa). destruct (file_chomped b) as (bb & lb & _ & _ & Nb & Fb).
  assert (S : forall s ls, Forall (fun l => ~ In lf l) ls -> Forall2 chomped (lines_of_file s) ls -> forall x, subrip_reader_file s = Ok x <-> subrip_reader_string (text_of_lines ls) = Ok x).
  { intros s ls N F. apply same_success_iff. unfold subrip_reader_file, subrip_reader_string. rewrite text_lines_of by exact N. apply subrip_lines_same. now apply chomped_clean. }
  rewrite (S (a ++ b) (la ++ lb)); [|now apply Forall_app|rewrite (file_lines_app (length a)); [now apply Forall2_app|lia|now apply blank_whole]].
  rewrite text_of_app. rewrite (subrip_joined _ _ _ (blank_text _ _ H Na Fa)). split; intros (ra & rb & A & B & E); exists ra, rb; (split; [|split; [|exact E]]).
  - now apply (S a la).
  - now apply (S b lb).
  - now apply (S a la).
  - now apply (S b lb).
Qed.

(** The first line of a file and what comes of it. *)
Definition front (p l : str) : Prop := exists q, l = p ++ q /\ (q = [] \/ length p = 255%nat \/ exists z, q = ascii_of_nat 0 :: z).
Lemma before_lf (a b x y : str) : ~ In lf a -> ~ In lf x -> a ++ lf :: b = x ++ lf :: y -> a = x.
Proof.
  intros N M E. apply app_eq_app in E as (m & [(E1 & E2)|(E1 & E2)]); (destruct m as [|c m]; [now rewrite app_nil_r in E1|]); exfalso; injection E2 as <- _;
    [apply N; rewrite E1|apply M; rewrite E1]; apply in_or_app; right; now left.
Qed.
Lemma first_front s l rest b bs p : text_lines s (l :: rest) -> buffers s (b :: bs) -> buffer_line b p -> front p l.
Proof.
  intros T B (N0 & N & H).
  assert (K : b = l \/ b = l ++ [lf] \/ exists q, l = b ++ q /\ length b = 255%nat).
  { inversion T as [|l0 NE NL|l0 r0 ls NL T']; subst; inversion B as [|l1 r1 bs1 N1 L1 B1 E1|l1 r1 bs1 N1 L1 B1 E1|l1 NE1 N1 L1]; subst.
    - exfalso. apply NL. apply in_or_app. right. now left.
    - right. right. exists r1. now split.
    - now left.
    - right. left. f_equal. eapply before_lf; eassumption.
    - right. right. apply app_eq_app in E1 as (m & [(E2 & E3)|(E2 & E3)]).
      + destruct m as [|c m]; [rewrite app_nil_r in E2; exists []; rewrite app_nil_r; now split|]. exfalso. injection E3 as <- _. apply N1. rewrite E2. apply in_or_app. right. now left.
      + exists m. now split.
    - exfalso. apply N1. apply in_or_app. right. now left. }
  assert (NL : ~ In lf l) by (inversion T; assumption).
  destruct H as [->|[->|(z & ->)]].
  - destruct K as [->|[->|(q & -> & L)]]; [exists []; rewrite app_nil_r; split; [reflexivity|now left]| |exists q; split; [reflexivity|right; now left]].
    exfalso. apply N. apply in_or_app. right. now left.
  - exists []. rewrite app_nil_r. split; [|now left]. destruct K as [<-|[E|(q & -> & _)]]; [|now apply app_inj_tail in E as [-> _]|].
    + exfalso. apply NL. apply in_or_app. right. now left.
    + exfalso. apply NL. apply in_or_app. left. apply in_or_app. right. now left.
  - destruct K as [<-|[E|(q & -> & L)]].
    + eexists. split; [reflexivity|]. right. right. now eexists.
    + destruct z as [|c z]; [apply app_inj_tail in E as [_ E]; discriminate E|]. destruct (exists_last (l := c :: z)) as (z' & y & E2); [discriminate|]. rewrite E2 in E.
      change (ascii_of_nat 0 :: z' ++ [y]) with ((ascii_of_nat 0 :: z') ++ [y]) in E. rewrite app_assoc in E. apply app_inj_tail in E as [<- _].
      eexists. split; [reflexivity|]. right. right. now eexists.
    + rewrite <- app_assoc. eexists. split; [reflexivity|]. right. right. now eexists.
Qed.
Lemma front_begins p l w : front p l -> begins_with w l -> ~ In (ascii_of_nat 0) w -> (length w <= 255)%nat -> begins_with w p.
Proof.
  intros (q & -> & H) (r & E) N L. apply app_eq_app in E as (m & [(E1 & E2)|(E1 & E2)]); [now exists m|].
  destruct H as [->|[H|(z & ->)]].
  - symmetry in E2. apply app_eq_nil in E2 as [-> _]. exists []. rewrite app_nil_r in *. now symmetry.
  - assert (length m = 0%nat) by (rewrite E1, app_length in L; lia). destruct m; [|discriminate]. exists []. rewrite app_nil_r in *. now symmetry.
  - destruct m as [|c m]; [exists []; rewrite app_nil_r in *; now symmetry|]. injection E2 as <- _. exfalso. apply N. rewrite E1. apply in_or_app. right. now left.
Qed.
Lemma arrow_end u ends : Forall line_end ends -> has_arrow (u ++ ends) -> has_arrow u.
Proof.
  intros F (x & y & E). revert y E. induction ends as [|c ends IH] using rev_ind; intros y E; [rewrite app_nil_r in E; now exists x, y|].
  apply Forall_app in F as [F Fc]. inversion Fc as [|? ? C _]; subst. destruct y as [|d y _] using rev_ind.
  - exfalso. rewrite app_nil_r, app_assoc in E. change (lit "-->") with (lit "--" ++ lit ">") in E. rewrite app_assoc in E. apply app_inj_tail in E as [_ ->]. destruct C; discriminate.
  - rewrite !app_assoc in E. apply app_inj_tail in E as [E ->]. apply (IH F y). rewrite E. now rewrite <- app_assoc.
Qed.
Lemma front_headed p l l' : front p l -> cleaned l l' -> begins_with (lit "WEBVTT") l' -> ~ has_arrow l' ->
  exists p', cleaned p p' /\ begins_with (lit "WEBVTT") p' /\ ~ has_arrow p'.
Proof.
  intros F (u & ends & -> & Fe & Nu & H) (t & ->) NA. exists (clean_line p). assert (C : cleaned p (clean_line p)) by now apply clean_line_iff. split; [exact C|].
  destruct C as (v & ends' & E & Fe' & Nv & Hv).
  assert (Bu : exists w, (w = bom ++ lit "WEBVTT" \/ w = lit "WEBVTT" /\ ~ begins_with bom u) /\ u = w ++ t).
  { destruct H as [->|[NB E']]; [exists (bom ++ lit "WEBVTT"); split; [now left|now rewrite <- app_assoc]|exists (lit "WEBVTT"); split; [right; now split|now symmetry]]. }
  destruct Bu as (w & Hw & ->).
  assert (Bp : begins_with w p).
  { apply (front_begins p _ w F); [exists (t ++ ends); now rewrite <- app_assoc| |]; destruct Hw as [->|[-> _]]; try (vm_compute; lia); vm_compute; intuition discriminate. }
  destruct Bp as (t1 & ->).
  assert (Bv : exists t2, v = w ++ t2).
  { destruct (app_eq_app _ _ _ _ E) as (m & [(E1 & E2)|(E1 & E2)]); [|now exists m].
    destruct m as [|c m _] using rev_ind; [rewrite app_nil_r in E1; exists []; rewrite app_nil_r; now symmetry|]. exfalso.
    rewrite E2 in Fe'. rewrite Forall_app in Fe'. destruct Fe' as [Fe' _]. apply Forall_app in Fe' as [_ Fc]. apply Forall_inv in Fc. rename Fc into G.
    rewrite app_assoc in E1. destruct Hw as [->|[-> _]].
    - change (bom ++ lit "WEBVTT") with ((bom ++ lit "WEBVT") ++ lit "T") in E1. apply app_inj_tail in E1 as [_ <-]. destruct G; discriminate.
    - change (lit "WEBVTT") with (lit "WEBVT" ++ lit "T") in E1. apply app_inj_tail in E1 as [_ <-]. destruct G; discriminate. }
  destruct Bv as (t2 & ->). rewrite <- app_assoc in E. apply app_inv_head in E. subst t1. destruct F as (q & E & _). rewrite <- !app_assoc in E. apply app_inv_head in E.
  assert (CV : clean_line ((w ++ t2 ++ ends')) = lit "WEBVTT" ++ t2).
  { destruct Hw as [->|[-> NB]].
    - destruct Hv as [Hv|[Hv _]]; [rewrite <- app_assoc in Hv; apply app_inv_head in Hv; now symmetry|exfalso; apply Hv; exists (lit "WEBVTT" ++ t2); now rewrite <- app_assoc].
    - destruct Hv as [Hv|[_ Hv]]; [exfalso; vm_compute in Hv; discriminate Hv|exact Hv]. }
  rewrite CV. split; [now exists t2|]. intros (x & y & A). apply NA. apply (arrow_end _ ends Fe). rewrite <- app_assoc, E. rewrite app_assoc. rewrite A. exists x, (y ++ ends' ++ q). now rewrite <- !app_assoc.
Qed.
Lemma headed_text b bs ls : headed b -> buffers b bs -> Forall2 buffer_line bs ls -> headed (text_of_lines ls).
Proof.
  intros (l & rest & l' & T & C & W & A) B F. pose proof (lines_free _ _ F) as N. destruct F as [|b1 p bs ls L F].
  - exfalso. apply buffers_taken in B. cbn in B. subst b. apply lines_of_string_iff in T. discriminate T.
  - destruct (front_headed p l l') as (p' & Cp & Wp & Ap); [eapply first_front; eassumption|exact C|exact W|exact A|]. exists p, ls, p'. split; [now apply lines_text|]. now split.
Qed.
Lemma vtt_file_joined a b r : ends_blank a -> headed b ->
  (vtt_reader_file (a ++ b) = Ok r <-> exists ra rb, vtt_reader_file a = Ok ra /\ vtt_reader_file b = Ok rb /\ r = ra ++ rb).
Proof.
  intros H Hb. destruct (file_chomped a) as (ba & la & _ & _ & Na & Fa). destruct (file_chomped b) as (bb & lb & Bb & Lb & Nb & Fb).
  assert (S : forall s ls, Forall (fun l => ~ In lf l) ls -> Forall2 chomped (lines_of_file s) ls -> forall x, vtt_reader_file s = Ok x <-> vtt_reader_string (text_of_lines ls) = Ok x).
  { intros s ls N F. apply same_success_iff. unfold vtt_reader_file, vtt_reader_string. rewrite text_lines_of by exact N. apply vtt_lines_same. now apply chomped_clean. }
  rewrite (S (a ++ b) (la ++ lb)); [|now apply Forall_app|rewrite (file_lines_app (length a)); [now apply Forall2_app|lia|now apply blank_whole]].
  rewrite text_of_app. rewrite (vtt_joined _ _ _ (blank_text _ _ H Na Fa) (headed_text _ _ _ Hb Bb Lb)). split; intros (ra & rb & A & B & E); exists ra, rb; (split; [|split; [|exact E]]).
  - now apply (S a la).
  - now apply (S b lb).
  - now apply (S a la).
  - now apply (S b lb).
Qed.
