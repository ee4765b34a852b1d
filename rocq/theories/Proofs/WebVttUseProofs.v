(** Consequences for users of the WebVTT reader. *)
From Coq Require Import ZArith List Bool Ascii String Lia.
From Verif.Model Require Import Base Strings Float TimeModel Types Lines RawConvert Compose Ssa Subrip WebVtt.
From Verif.Spec Require Import Outcome TextSpec LinesSpec RawSpec SubripSpec StopSpec SubripUseSpec WebVttSpec.
From Verif.Proofs Require Import StringProofs Iso6937Proofs LinesProofs SubripProofs SubripStopProofs SubripUseProofs WebVttProofs.
Import ListNotations.
Local Open Scope Z_scope.
Local Notation length := List.length.

(** * Rendered files *)

Lemma not_note l c r : l = c :: r -> c <> "N"%char -> ~ is_note l.
Proof. intros -> N (x & E). injection E as E _. congruence. Qed.
Lemma time_not_note sep f t from to : time_sep sep -> cue_time sep f from -> cue_time sep t to -> ~ is_note (f ++ lit " --> " ++ t) /\ has_arrow (f ++ lit " --> " ++ t).
Proof.
  intros TS F T. pose proof (cue_time_chars _ _ _ TS F) as [CF NF]. split.
  - destruct f as [|c f]; [congruence|]. apply (not_note _ c (f ++ lit " --> " ++ t)); [reflexivity|]. rewrite Forall_forall in CF. specialize (CF c (or_introl eq_refl)).
    intros ->. destruct CF as [[D|[D|D]]|[D|[D|D]]]; try discriminate D.
  - exists (f ++ [space]), ([space] ++ t). now rewrite <- app_assoc.
Qed.
Lemma text_block e2 e3 text s ls ls' : Forall (fun l => l <> [] /\ unchanged l) text -> line_break e2 -> line_break e3 -> text_lines s ls -> Forall2 cleaned ls ls' ->
  exists ls1, text_lines (List.concat (map (fun l => l ++ e2) text) ++ e3 ++ s) ls1 /\ Forall2 cleaned ls1 (text ++ [] :: ls').
Proof.
  intros PT L2 L3 T F. assert (NE : unchanged []) by (repeat split; [intros []|intros (b & c & E & _); now destruct b|intros (r & E); discriminate]).
  destruct (add_line [] e3 s ls ls' NE L3 T F) as (x0 & ls0 & T0 & F0 & _). cbn [app] in T0.
  induction PT as [|l text (_ & U) PT (ls1 & T1 & F1)]; cbn [map List.concat app]; [now exists (x0 :: ls0)|].
  destruct (add_line l e2 _ ls1 _ U L2 T1 F1) as (x & ls2 & T2 & F2 & _). exists (x :: ls2). split; [|exact F2]. now rewrite <- !app_assoc.
Qed.
Lemma body_lines cs s : vtt_body cs s -> exists ls ls', text_lines s ls /\ Forall2 cleaned ls ls' /\ vtt_cues ls' cs /\ Forall (fun c => Forall vtt_plain (cue_text c)) cs.
Proof.
  destruct blank_plain as [BN BA].
  induction 1 as [|l e cs s (U & N & A) LB S (ls & ls' & T & F & C & P)|l comment e1 e2 e3 cs s U N FC L1 L2 L3 S (ls & ls' & T & F & C & P)
                 |from to f t text e1 e2 e3 cs s CF CT PT L1 L2 L3 S (ls & ls' & T & F & C & P)].
  - exists [], []. repeat split; constructor.
  - destruct (add_line l e s ls ls' U LB T F) as (x & ls2 & T2 & F2 & _). exists (x :: ls2), (l :: ls'). repeat split; try assumption. now constructor.
  - destruct (text_block e2 e3 comment s ls ls' FC L2 L3 T F) as (ls1 & T1 & F1). destruct (add_line l e1 _ ls1 _ U L1 T1 F1) as (x & ls2 & T2 & F2 & _).
    exists (x :: ls2), (l :: comment ++ [] :: ls'). repeat split; try assumption. apply vtt_note; [exact N| |right; now exists ls'|now constructor].
    eapply Forall_impl; [|exact FC]. now intros y [Y _].
  - assert (PT' : Forall (fun l => l <> [] /\ unchanged l) text) by (eapply Forall_impl; [|exact PT]; now intros y (Y & Z & _)).
    destruct (text_block e2 e3 text s ls ls' PT' L2 L3 T F) as (ls1 & T1 & F1).
    destruct (time_line "."%char f t from to (or_intror eq_refl) CF CT) as [UT TL]. destruct (time_not_note "."%char f t from to (or_intror eq_refl) CF CT) as [TN TA].
    destruct (add_line _ e1 _ ls1 _ UT L1 T1 F1) as (x & ls2 & T2 & F2 & _). exists (x :: ls2), ((f ++ lit " --> " ++ t) :: text ++ [] :: ls').
    split; [now rewrite <- !app_assoc in T2|]. split; [exact F2|]. split; [|constructor; assumption].
    apply vtt_cue; try assumption; [|right; now exists ls'|now constructor]. eapply Forall_impl; [|exact PT]. now intros y (Y & _).
Qed.
Lemma bom_end l : l <> [] -> ~ ends_in line_end l -> ~ ends_in line_end (bom ++ l).
Proof.
  intros N E (b & c & Q & L). destruct (exists_last N) as (l' & z & ->). rewrite app_assoc in Q. apply app_inj_tail in Q. destruct Q as [_ <-]. apply E. now exists l', z.
Qed.
Lemma marked_line mark l e rest ls : mark = [] \/ mark = bom -> l <> [] -> unchanged l -> line_break e -> text_lines rest ls ->
  exists x, text_lines (mark ++ l ++ e ++ rest) (x :: ls) /\ cleaned x l.
Proof.
  intros [->| ->] N (U1 & U2 & U3) LB T.
  - destruct LB as [->| ->].
    + exists l. split; [now apply lines_more|]. apply cleaned_unchanged. now repeat split.
    + exists (l ++ [cr]). split; [|apply cleaned_cr; now repeat split]. cbn [app]. replace (l ++ cr :: lf :: rest) with ((l ++ [cr]) ++ lf :: rest) by now rewrite <- app_assoc.
      apply lines_more; [|exact T]. rewrite in_app_iff. intros [I|[I|[]]]; [contradiction|discriminate].
  - pose proof (bom_end l N U2) as BE. assert (NL : ~ In lf (bom ++ l)) by (rewrite in_app_iff; intros [I|I]; [cbn in I; intuition discriminate|contradiction]).
    destruct LB as [->| ->].
    + exists (bom ++ l). split; [rewrite app_assoc; now apply lines_more|]. exists (bom ++ l), []. rewrite app_nil_r. repeat split; [constructor|exact BE|now left].
    + exists ((bom ++ l) ++ [cr]). split.
      * replace (bom ++ l ++ [cr; lf] ++ rest) with (((bom ++ l) ++ [cr]) ++ lf :: rest) by now rewrite <- !app_assoc.
        apply lines_more; [|exact T]. rewrite in_app_iff. intros [I|[I|[]]]; [contradiction|discriminate].
      * exists (bom ++ l), [cr]. repeat split; [constructor; [now right|constructor]|exact BE|now left].
Qed.
Lemma plain_vtt_cue c : Forall vtt_plain (cue_text c) -> vtt_subtitles c (plain_cue c).
Proof.
  intros F. exists (cue_text c). split; [|reflexivity]. exists (map (fun l => [l]) (cue_text c)). split.
  - induction F as [|l ls (_ & _ & P) F IH]; cbn [map]; constructor; [now apply parts_one|exact IH].
  - induction (cue_text c) as [|l ls IH]; [reflexivity|]. cbn. f_equal. apply IH. now inversion F.
Qed.
Theorem rendered_file cs s : vtt_text cs s -> vtt_reader_string s = Ok (List.concat (map plain_cue cs)).
Proof.
  intros (mark & h & e & body & -> & M & U & LB & B). apply vtt_string_iff. destruct (body_lines cs body B) as (ls & ls' & T & F & C & P).
  destruct (marked_line mark (lit "WEBVTT" ++ h) e body ls M ltac:(discriminate) U LB T) as (x & TX & CX). exists (x :: ls). split; [exact TX|].
  apply (vtt_headed x (lit "WEBVTT" ++ h) ls ls' cs (map plain_cue cs)); try assumption; [now exists h|].
  clear -P. induction P; cbn [map]; constructor; [now apply plain_vtt_cue|assumption].
Qed.

(** * The header *)

Theorem header_error s : vtt_reader_string s = Throw EWebVttHeader <-> exists l ls l', text_lines s (l :: ls) /\ cleaned l l' /\ ~ begins_with (lit "WEBVTT") l'.
Proof.
  rewrite vtt_string_throws. split.
  - intros (ls & T & before & l & after & before' & l' & raws & p & ctx & next & -> & CB & CL & V & NX & _ & _ & LS). inversion LS; subst.
    assert (Q : before' = []); [|subst before'; inversion CB; subst; now exists l, after, l'].
    clear -NX. remember AtHeader as p eqn:P. destruct NX; try discriminate P. reflexivity.
  - intros (l & ls & l' & T & CL & B). exists (l :: ls). split; [exact T|]. exists [], l, ls, [], l', [], AtHeader, [l'], (firstn 2 ls).
    split; [reflexivity|]. split; [constructor|]. split; [exact CL|]. split; [constructor|]. split; [constructor|].
    split; [exists []; repeat split; [cbn; lia|now left]|]. split; [now apply upcoming_iff|now constructor].
Qed.

(** * Safety *)

Lemma fault_field sep l o : timing_fault sep l o -> o = None -> exists fs f, fields l fs /\ In f fs /\ time_overflows sep f.
Proof.
  intros [? ? ? ? ? ? ? ? ?|? ? ? ? ? ? ? ? ?|? f0 f1 f2 more F LM R|? ? ? ? ? ? ? ? ? ? ?|? f0 f1 f2 more from F LM CU R]; try discriminate; intros _.
  - exists (f0 :: f1 :: f2 :: more), f0. repeat split; [exact F|now left|exact R].
  - exists (f0 :: f1 :: f2 :: more), f2. repeat split; [exact F|right; right; now left|exact R].
Qed.
Theorem vtt_undefined_why s u : vtt_reader_string s = Undef u -> u = UbIntOverflow /\
  exists ls l l' fs f, text_lines s ls /\ In l ls /\ cleaned l l' /\ has_arrow l' /\ fields l' fs /\ In f fs /\ time_overflows "."%char f.
Proof.
  intros E. apply vtt_string_undefined in E. destruct E as (ls & T & before & l & after & before' & l' & raws & p & ctx & next & -> & CB & CL & V & NX & _ & _ & LS).
  inversion LS as [| |? N A TF]; subst. split; [reflexivity|]. destruct (fault_field _ _ _ TF eq_refl) as (fs & f & F & I & O).
  exists (before ++ l :: after), l, l', fs, f. repeat split; try assumption. rewrite in_app_iff. right. now left.
Qed.
Theorem vtt_throws_what s e : vtt_reader_string s = Throw e -> e = EWebVttHeader \/ exists saw why ctx, e = EWebVtt saw why ctx.
Proof.
  intros E. apply vtt_string_throws in E. destruct E as (ls & T & before & l & after & before' & l' & raws & p & ctx & next & _ & _ & _ & _ & _ & _ & _ & LS).
  inversion LS; subst; [now left|right; now eexists _, _, _].
Qed.
Theorem vtt_safe s : short_numbers s -> defined (vtt_reader_string s).
Proof.
  intros SN u E. destruct (vtt_undefined_why s u E) as (_ & ls & l & l' & fs & f & T & I & CL & _ & F & J & O). apply (short_time s f "."%char); [exact SN| |exact O].
  apply (contains_trans f l'); [now apply (fields_in l' fs)|]. apply (contains_trans l' l); [now apply cleaned_in|now apply (text_lines_in s ls)].
Qed.

(** * Errors *)

Lemma fault_saw sep l saw why more : timing_fault sep l (Some (saw, why, more)) -> contains saw l.
Proof.
  intros TF. inversion TF as [? body k fs F L3 L7 EL NE|? f0 f1 f2 mo why' F LM R| |? f0 f1 f2 mo from why' F LM CU R|]; subst.
  - now exists [], (repeat space k).
  - apply (fields_in l _ saw F). now left.
  - apply (fields_in l _ saw F). right. right. now left.
Qed.
Theorem vtt_error_place s saw why ctx : vtt_reader_string s = Throw (EWebVtt saw why ctx) -> vtt_error_points s saw ctx.
Proof.
  intros E. apply vtt_string_throws in E. destruct E as (ls & T & before & l & after & before' & l' & raws & p & c & next & -> & CB & CL & _ & _ & RE & UP & LS).
  inversion LS as [|? saw' why' more N A TF|]; subst. exists before, l, after, before', l', c. repeat split; try assumption; [now apply fault_saw in TF|].
  destruct more; [right; exists next; now split|left; now rewrite app_nil_r].
Qed.

(** * Files *)

Lemma vloop_same ls ls' st ctx rs subs : Forall2 (fun a b => clean_line a = clean_line b) ls ls' ->
  same_outcome (vtt_loop ls st ctx rs subs) (vtt_loop ls' st ctx rs subs).
Proof.
  intros F. revert st ctx rs subs. induction F as [|a b ls ls' E F IH]; intros st ctx rs subs; [constructor|]. rewrite !vloop_round, E.
  set (l := clean_line b). set (c := push_context ctx l). unfold vround. destruct st.
  - destruct (starts_with _ _); cbn [bind fst snd]; [apply IH|constructor].
  - destruct (starts_with _ _); cbn [bind fst snd]; [apply IH|]. destruct (is_some _); cbn [bind fst snd]; [|apply IH].
    destruct (treads _ _) as [[[[saw why] m]|[from to]]|e|u]; cbn [bind fst snd]; try apply IH; try apply same_refl. constructor.
    assert (SC : Forall2 same_line c c) by (clear; induction c; constructor; [apply same_line_refl|assumption]). destruct m; [|exact SC].
    unfold error_context. apply Forall2_app; [exact SC|]. destruct F as [|x y ? ? XY [|x' y' ? ? XY' F]]; cbn [firstn]; repeat constructor; now apply same_clean.
  - destruct l as [|ch l]; cbn [bind fst snd]; [apply IH|]. destruct (vtt_sub_lines _ _ _) as [[q qs]| |]; cbn [bind fst snd]; try apply same_refl. apply IH.
  - destruct l as [|ch l]; cbn [bind fst snd]; apply IH.
Qed.
Theorem vtt_file_same s : short_lines s -> same_outcome (vtt_reader_file s) (vtt_reader_string s).
Proof.
  intros (NN & ls & T & F). unfold vtt_reader_file, vtt_reader_string, vtt_read. apply vloop_same.
  pose proof (proj2 (lines_of_string_iff s ls) T) as E. rewrite E. pose proof (file_string_lines (length s) s ls (le_n _) T NN F) as G. unfold lines_of_file.
  clear -G. induction G as [|a b x y H G IH]; constructor; [|exact IH]. destruct H as [->| ->]; [reflexivity|apply clean_lf].
Qed.

(** * Standard timing lines *)

Lemma nonneg d v : numeral d v -> 0 <= v.
Proof. intros N. now apply numeral_digits in N. Qed.
Lemma standard_cue_time f t : standard_time true f t -> is_int (t_seconds t) -> cue_time "."%char f t.
Proof.
  intros S. inversion S as [|hs s h m sec ms NH LH (mm & ss & ttt & -> & (Nm & Lm) & (Ns & Ls) & (Nt & Lt) & M60 & S60)]; subst. cbn [t_seconds]. intros I.
  pose proof (nonneg _ _ NH). pose proof (nonneg _ _ Nm). pose proof (nonneg _ _ Ns). pose proof (nonneg _ _ Nt).
  assert (T1000 : ms < 1000). { apply numeral_bound in Nt. rewrite Lt in Nt. exact Nt. }
  exists h, m, sec, ms. split; [|split; [unfold time_fits, is_int in *; lia|reflexivity]].
  exists hs, mm, ss, ttt. split; [reflexivity|]. split; [|split; [|split]]; apply integer_plain; try assumption; unfold is_int in *; lia.
Qed.

Lemma ends_app P a b : b <> [] -> ~ ends_in P b -> ~ ends_in P (a ++ b).
Proof. intros N E (x & c & Q & L). destruct (exists_last N) as (b' & z & ->). rewrite app_assoc in Q. apply app_inj_tail in Q. destruct Q as [_ <-]. apply E. now exists b', z. Qed.
Lemma settings_fields settings st : settings_text settings st -> forall t, t <> [] -> ~ In space t -> ~ In lf t -> ~ ends_in line_end t ->
  spaced (t ++ st) (t :: settings) /\ ~ ends_in (eq space) (t ++ st) /\ ~ In lf (t ++ st) /\ ~ ends_in line_end (t ++ st).
Proof.
  induction 1 as [|n s rest st (name & value & Q & _ & _ & NS & (U1 & U2 & U3)) ST IH]; intros t N1 N2 N3 N4.
  - rewrite app_nil_r. split; [now constructor|]. split; [|now split]. intros (b & c & E & <-). apply N2. rewrite E, in_app_iff. right. now left.
  - assert (NE : s <> []) by (rewrite Q; destruct name; discriminate). destruct (IH s NE NS U1 U2) as (S1 & S2 & S3 & S4).
    assert (NN : s ++ st <> []) by (destruct s; [congruence|discriminate]). split; [|split; [|split]].
    + apply spaced_more; [exact N2| |exact S1]. intros (r & E). destruct s as [|c s]; [congruence|]. injection E as -> _. apply NS. now left.
    + rewrite app_assoc. now apply ends_app.
    + rewrite !in_app_iff in *. intros [I|[I|I]]; [contradiction| |tauto]. apply repeat_spec in I. discriminate.
    + rewrite app_assoc. now apply ends_app.
Qed.
Theorem standard_read settings l from to text : standard_timing true settings l from to -> (length settings = 0%nat \/ length settings = 4%nat) ->
  is_int (t_seconds from) -> is_int (t_seconds to) -> vtt_plain text -> vtt_reader_string (one_cue l text) = Ok [styled_raw from to 0 plain_look text].
Proof.
  intros (f & t & j & k & st & EL & SF & ST & SS) LS IF IT (TN & TU & TP). apply standard_cue_time in SF; [|exact IF]. apply standard_cue_time in ST; [|exact IT].
  pose proof (cue_time_chars _ _ _ (or_intror eq_refl) SF) as [CF NF]. pose proof (cue_time_chars _ _ _ (or_intror eq_refl) ST) as [CT NT]. rewrite Forall_forall in CF, CT.
  assert (TC : forall s, (forall c, In c s -> time_char c) -> ~ In space s /\ ~ In lf s /\ ~ ends_in line_end s).
  { intros s C. split; [|split].
    - intros I. apply C in I. apply time_char_not in I. destruct I as [N _]. congruence.
    - intros I. apply C in I. apply time_char_not in I. destruct I as (_ & N & _). congruence.
    - intros (b & c & E & L). assert (I : In c s) by (rewrite E, in_app_iff; right; now left). apply C in I. apply time_char_not in I. destruct I as (_ & N & M & _). destruct L; congruence. }
  destruct (TC f CF) as (F1 & F2 & F3). destruct (TC t CT) as (T1 & T2 & T3). destruct (settings_fields settings st SS t NT T1 T2 T3) as (S1 & S2 & S3 & S4).
  assert (TSN : t ++ st <> []) by (destruct t; [congruence|discriminate]).
  assert (U : unchanged l).
  { split; [|split].
    - rewrite EL, !in_app_iff in *. intros [I|[I|[I|[I|I]]]]; [contradiction|apply repeat_spec in I; discriminate|cbn in I; intuition discriminate|apply repeat_spec in I; discriminate|tauto].
    - rewrite EL, (app_assoc f), (app_assoc (f ++ _)), (app_assoc ((f ++ _) ++ _)). now apply ends_app.
    - intros (r & E). rewrite EL in E. destruct f as [|c f]; [congruence|]. injection E as E _. assert (I : In c (c :: f)) by now left. apply CF in I. apply time_char_not in I.
      destruct I as (_ & _ & _ & L). rewrite E in L. unfold char_code in L. rewrite nat_ascii_embedding in L; lia. }
  assert (TL : timing_line "."%char l from to).
  { exists f, (lit "-->"), t, settings. split; [|split; [exact LS|now split]]. exists l, 0%nat. cbn [repeat]. rewrite app_nil_r. split; [reflexivity|]. split.
    - rewrite EL, (app_assoc f), (app_assoc (f ++ _)), (app_assoc ((f ++ _) ++ _)). now apply ends_app.
    - rewrite EL. apply spaced_more; [exact F1|intros (r & E); discriminate|]. apply spaced_more; [cbn; intuition discriminate| |exact S1].
      intros (r & E). destruct t as [|c t]; [congruence|]. injection E as -> _. apply T1. now left. }
  assert (AR : has_arrow l) by (rewrite EL; exists (f ++ repeat space (S j)), (repeat space (S k) ++ t ++ st); now rewrite <- !app_assoc).
  assert (NO : ~ is_note l).
  { rewrite EL. destruct f as [|c f]; [congruence|]. apply (not_note _ c (f ++ repeat space (S j) ++ lit "-->" ++ repeat space (S k) ++ t ++ st)); [reflexivity|].
    specialize (CF c (or_introl eq_refl)). intros ->. destruct CF as [[D|[D|D]]|[D|[D|D]]]; discriminate D. }
  assert (NE : unchanged []) by (repeat split; [intros []|intros (b & c & E & _); now destruct b|intros (r & E); discriminate]).
  assert (UW : unchanged (lit "WEBVTT")).
  { split; [cbn; intuition discriminate|]. split; [|intros (r & E); discriminate]. intros (b & c & E & L). change (lit "WEBVTT") with (lit "WEBVT" ++ ["T"%char]) in E.
    apply app_inj_tail in E. destruct E as [_ <-]. destruct L; discriminate. }
  apply vtt_string_iff. exists [lit "WEBVTT"; []; l; text]. split.
  - unfold one_cue. cbn [join]. change [lf] with ([] ++ [lf]). apply (lines_more (lit "WEBVTT")); [apply UW|]. apply (lines_more []); [apply NE|]. apply (lines_more l); [apply U|].
    apply lines_last; [exact TN|apply TU].
  - change [styled_raw from to 0 plain_look text] with (List.concat [plain_cue (mkCue from to [text])]).
    apply (vtt_headed _ (lit "WEBVTT") _ [[]; l; text] [mkCue from to [text]]).
    + now apply cleaned_unchanged.
    + now exists [].
    + repeat constructor; now apply cleaned_unchanged.
    + destruct blank_plain. apply vtt_other; try assumption. apply (vtt_cue l from to [text] [] []); try assumption; [now constructor|now left|constructor].
    + constructor; [|constructor]. apply plain_vtt_cue. cbn. constructor; [exact (conj TN (conj TU TP))|constructor].
Qed.

(** * Standard timing lines that are refused *)

Lemma standard_chars hours f t : standard_time hours f t -> Forall time_char f /\ f <> [].
Proof.
  assert (N : forall s v, numeral s v -> Forall time_char s).
  { intros s v NS. apply numeral_digits in NS. destruct NS as (F & _). eapply Forall_impl; [|exact F]. intros c C. left. now left. }
  assert (M : forall s m sec ms, minutes_time s m sec ms -> Forall time_char s /\ s <> []).
  { intros s m sec ms (mm & ss & ttt & -> & (Nm & _) & (Ns & _) & (Nt & _) & _). split; [|destruct mm; discriminate].
    apply Forall_app. split; [now apply N in Nm|]. constructor; [right; now left|]. apply Forall_app. split; [now apply N in Ns|].
    constructor; [right; right; now right|]. now apply N in Nt. }
  intros [s m sec ms MT|hs s h m sec ms NH _ MT]; [now apply M in MT|]. destruct (M _ _ _ _ MT) as [A B]. split; [|destruct hs; discriminate].
  apply Forall_app. split; [now apply N in NH|]. constructor; [right; now left|exact A].
Qed.
Lemma timing_shape hours settings l from to : standard_timing hours settings l from to ->
  exists f t, standard_time hours f from /\ standard_time hours t to /\ unchanged l /\ fields l (f :: lit "-->" :: t :: settings) /\
    ~ ends_in (eq space) l /\ has_arrow l /\ ~ is_note l.
Proof.
  intros (f & t & j & k & st & EL & SF & ST & SS). exists f, t. split; [exact SF|]. split; [exact ST|].
  destruct (standard_chars _ _ _ SF) as [CF NF]. destruct (standard_chars _ _ _ ST) as [CT NT]. rewrite Forall_forall in CF, CT.
  assert (TC : forall s, (forall c, In c s -> time_char c) -> ~ In space s /\ ~ In lf s /\ ~ ends_in line_end s).
  { intros s C. split; [|split].
    - intros I. apply C in I. apply time_char_not in I. destruct I as [N _]. congruence.
    - intros I. apply C in I. apply time_char_not in I. destruct I as (_ & N & _). congruence.
    - intros (b & c & E & L). assert (I : In c s) by (rewrite E, in_app_iff; right; now left). apply C in I. apply time_char_not in I. destruct I as (_ & N & M & _). destruct L; congruence. }
  destruct (TC f CF) as (F1 & F2 & F3). destruct (TC t CT) as (T1 & T2 & T3). destruct (settings_fields settings st SS t NT T1 T2 T3) as (S1 & S2 & S3 & S4).
  assert (TSN : t ++ st <> []) by (destruct t; [congruence|discriminate]).
  assert (ES : ~ ends_in (eq space) l) by (rewrite EL, (app_assoc f), (app_assoc (f ++ _)), (app_assoc ((f ++ _) ++ _)); now apply ends_app).
  split; [|split; [|split; [exact ES|split]]].
  - split; [|split].
    + rewrite EL, !in_app_iff in *. intros [I|[I|[I|[I|I]]]]; [contradiction|apply repeat_spec in I; discriminate|cbn in I; intuition discriminate|apply repeat_spec in I; discriminate|tauto].
    + rewrite EL, (app_assoc f), (app_assoc (f ++ _)), (app_assoc ((f ++ _) ++ _)). now apply ends_app.
    + intros (r & E). rewrite EL in E. destruct f as [|c f]; [congruence|]. injection E as E _. assert (I : In c (c :: f)) by now left. apply CF in I. apply time_char_not in I.
      destruct I as (_ & _ & _ & L). rewrite E in L. unfold char_code in L. rewrite nat_ascii_embedding in L; lia.
  - exists l, 0%nat. cbn [repeat]. rewrite app_nil_r. split; [reflexivity|]. split; [exact ES|].
    rewrite EL. apply spaced_more; [exact F1|intros (r & E); discriminate|]. apply spaced_more; [cbn; intuition discriminate| |exact S1].
    intros (r & E). destruct t as [|c t]; [congruence|]. injection E as -> _. apply T1. now left.
  - rewrite EL. exists (f ++ repeat space (S j)), (repeat space (S k) ++ t ++ st). now rewrite <- !app_assoc.
  - rewrite EL. destruct f as [|c f]; [congruence|]. apply (not_note _ c (f ++ repeat space (S j) ++ lit "-->" ++ repeat space (S k) ++ t ++ st)); [reflexivity|].
    specialize (CF c (or_introl eq_refl)). intros ->. destruct CF as [[D|[D|D]]|[D|[D|D]]]; discriminate D.
Qed.
Lemma no_colon_numeral s v : numeral s v -> no_colon s.
Proof.
  intros N I. assert (D : forall s v, numeral s v -> forall c, In c s -> exists d, dec_digit c d).
  { induction 1 as [c d D|s' v' c d _ IH D]; intros x X; [destruct X as [<-|[]]; now exists d|]. rewrite in_app_iff in X. destruct X as [X|[<-|[]]]; [now apply IH|now exists d]. }
  destruct (D s v N _ I) as (d & B & E). change (char_code ":"%char) with 58 in E. lia.
Qed.
Lemma count_colons a b c (s : str) : s = two_colons a b c -> (2 <= count_occ ascii_dec s ":"%char)%nat.
Proof. intros ->. unfold two_colons. rewrite count_occ_app. cbn [count_occ]. destruct (ascii_dec ":" ":"); [|congruence]. rewrite count_occ_app. cbn [count_occ]. destruct (ascii_dec ":" ":"); [lia|congruence]. Qed.
Lemma short_refused f t : standard_time false f t -> time_refused "."%char f (lit "time in the format h:m:s,ms").
Proof.
  intros S. inversion S as [s m sec ms (mm & ss & ttt & -> & (Nm & _) & (Ns & _) & (Nt & _) & _)|]; subst. apply refused_colons. intros a b c _ _ _ E.
  apply count_colons in E. rewrite count_occ_app in E. cbn [count_occ] in E. destruct (ascii_dec ":" ":") as [_|X]; [|congruence]. rewrite count_occ_app in E.
  cbn [count_occ] in E. destruct (ascii_dec "." ":") as [X|_]; [discriminate|].
  rewrite (proj1 (count_occ_not_In ascii_dec mm ":"%char)), (proj1 (count_occ_not_In ascii_dec ss ":"%char)), (proj1 (count_occ_not_In ascii_dec ttt ":"%char)) in E;
    [lia|eapply no_colon_numeral; eassumption..].
Qed.
Theorem standard_refused hours settings l from to text : standard_timing hours settings l from to -> vtt_plain text ->
  (hours = false \/ length settings <> 0%nat /\ length settings <> 4%nat) ->
  exists saw why ctx, vtt_reader_string (one_cue l text) = Throw (EWebVtt saw why ctx).
Proof.
  intros ST (TN & TU & TP) WHY. destruct (timing_shape _ _ _ _ _ ST) as (f & t & SF & STT & U & FL & ES & AR & NO).
  assert (NE : unchanged []) by (repeat split; [intros []|intros (b & c & E & _); now destruct b|intros (r & E); discriminate]).
  assert (UW : unchanged (lit "WEBVTT")).
  { split; [cbn; intuition discriminate|]. split; [|intros (r & E); discriminate]. intros (b & c & E & L). change (lit "WEBVTT") with (lit "WEBVT" ++ ["T"%char]) in E.
    apply app_inj_tail in E. destruct E as [_ <-]. destruct L; discriminate. }
  assert (TF : exists saw why more, timing_fault "."%char l (Some (saw, why, more))).
  { destruct (Nat.eq_dec (length settings) 0) as [Z|Z], (Nat.eq_dec (length settings) 4) as [Q|Q]; try lia.
    1, 2: destruct WHY as [->|[X Y]]; [|contradiction]; exists f, (lit "time in the format h:m:s,ms"), false; eapply fault_start; [exact FL|tauto|now apply (short_refused f from)].
    exists l, (lit "a time line"), true. apply (fault_form _ l l 0%nat (f :: lit "-->" :: t :: settings)); [exact FL|cbn; lia|cbn; lia|now rewrite app_nil_r|exact ES]. }
  destruct TF as (saw & why & more & TF). destruct blank_plain as [BN BA].
  exists saw, why, ([lit "WEBVTT"; []; l] ++ if more then [text] else []). apply vtt_string_throws. exists [lit "WEBVTT"; []; l; text]. split.
  - unfold one_cue. cbn [join]. change [lf] with ([] ++ [lf]). apply (lines_more (lit "WEBVTT")); [apply UW|]. apply (lines_more []); [apply NE|]. apply (lines_more l); [apply U|].
    apply lines_last; [exact TN|apply TU].
  - exists [lit "WEBVTT"; []], l, [text], [lit "WEBVTT"; []], l, [], AtData, [lit "WEBVTT"; []; l], [text].
    split; [reflexivity|]. split; [repeat constructor; now apply cleaned_unchanged|]. split; [now apply cleaned_unchanged|].
    split; [|split; [|split; [|split]]].
    + apply (vtt_headed _ (lit "WEBVTT") _ [[]] [] []); [now apply cleaned_unchanged|now exists []|repeat constructor; now apply cleaned_unchanged| |constructor].
      apply vtt_other; try assumption. constructor.
    + apply (vnext_other [lit "WEBVTT"] []); try assumption. apply (vnext_header [] (lit "WEBVTT")). constructor.
    + exists []. repeat split; [cbn; lia|now left].
    + now apply upcoming_iff.
    + now constructor.
Qed.
