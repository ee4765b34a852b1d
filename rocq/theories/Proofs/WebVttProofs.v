(** The WebVTT reader meets its specification. *)
From Coq Require Import ZArith List Bool Ascii String Lia.
From Verif.Model Require Import Base Strings Float TimeModel Types Lines Subrip WebVtt.
From Verif.Spec Require Import Outcome TextSpec LinesSpec RawSpec SubripSpec StopSpec SubripUseSpec WebVttSpec.
From Verif.Proofs Require Import StringProofs Iso6937Proofs StlReadProofs LinesProofs SubripProofs SubripStopProofs SubripUseProofs.
Import ListNotations.
Local Open Scope Z_scope.
Local Notation length := List.length.

(** * Timing lines *)

Definition treads (sep : ascii) (l : str) : res ((str * str * bool) + (time * time)) :=
  let line := trim_right_if (is_any_of (lit " ")) l in
  let p := split_compress (is_any_of (lit " ")) line in
  if negb (Nat.eqb (length p) 3) && negb (Nat.eqb (length p) 7) then Ok (inl (line, lit "a time line", true))
  else
    let* from := convert_time (nth 0 p []) [sep] in
    match from with
    | CExpected e => Ok (inl (nth 0 p [], e, false))
    | CTime from =>
        let* to := convert_time (nth 2 p []) [sep] in
        match to with
        | CExpected e => Ok (inl (nth 2 p [], e, false))
        | CTime to => Ok (inr (from, to))
        end
    end.

Section Timing.
Variable sep : ascii.
Hypotheses (S1 : ~ number_char sep) (S2 : sep <> ":"%char).
Let CT s t := convert_time_ok sep S1 S2 s t.
Let CE s e := convert_time_expected sep S1 S2 s e.
Let CS s (o : res ctime) := @convert_time_stopped sep S1 S2 ctime s o.

(** Every timing line is read in exactly one way. *)
Inductive tcase (l : str) : res ((str * str * bool) + (time * time)) -> Prop :=
| tcase_ok from to : timing_line sep l from to -> tcase l (Ok (inr (from, to)))
| tcase_fault x : timing_fault sep l (Some x) -> tcase l (Ok (inl x))
| tcase_big : timing_fault sep l None -> tcase l (Undef UbIntOverflow).
Lemma trim_fields l : exists body k, trim_right_if (is_any_of (lit " ")) l = body /\ l = body ++ repeat space k /\ ~ ends_in (eq space) body.
Proof.
  destruct (proj1 (trim_right_iff (eq space) (is_any_of (lit " ")) l _ (fun c => conj (fun h => eq_sym (proj1 (space_iff c) h)) (fun h => proj2 (space_iff c) (eq_sym h)))) eq_refl)
      as (ends & TE & TF & TN).
  eexists _, (length ends). split; [reflexivity|]. split; [|exact TN]. rewrite TE at 1. f_equal. clear -TF.
  induction TF as [|c e C F IH]; [reflexivity|]. subst c. cbn [length repeat]. f_equal. exact IH.
Qed.
Lemma treads_case l : tcase l (treads sep l).
Proof.
  unfold treads. pose proof (proj1 (fields_iff l _) eq_refl) as F. destruct (timing_fields l) as [A1 A2]. destruct (trim_fields l) as (body & k & TB & E & NE).
  cbv zeta in A1, A2 |- *. rewrite TB in *. set (p := split_compress (is_any_of (lit " ")) body) in *. clearbody p.
  destruct (negb (Nat.eqb (length p) 3) && negb (Nat.eqb (length p) 7)) eqn:LP.
  - destruct (proj1 A1 eq_refl) as [L3 L7]. apply tcase_fault. now apply (fault_form sep l body k p).
  - destruct (proj1 A2 eq_refl) as (f0 & f1 & f2 & more & -> & LM). cbn [nth].
    destruct (convert_time f0 [sep]) as [[from|e]|e|u] eqn:E0; cbn [bind].
    + apply CT in E0. destruct (convert_time f2 [sep]) as [[to|e]|e|u] eqn:E2; cbn [bind].
      * apply CT in E2. apply tcase_ok. now exists f0, f1, f2, more.
      * apply CE in E2. apply tcase_fault. now apply (fault_finish sep l f0 f1 f2 more from).
      * assert (S : stopped (convert_time f2 [sep]) (@Throw ctime e)) by (rewrite E2; reflexivity). apply CS in S. destruct S; discriminate.
      * assert (S : stopped (convert_time f2 [sep]) (@Undef ctime u)) by (rewrite E2; reflexivity). apply CS in S. destruct S as [S O]. injection S as ->.
        apply tcase_big. now apply (fault_finish_big sep l f0 f1 f2 more from).
    + apply CE in E0. apply tcase_fault. now apply (fault_start sep l f0 f1 f2 more).
    + assert (S : stopped (convert_time f0 [sep]) (@Throw ctime e)) by (rewrite E0; reflexivity). apply CS in S. destruct S; discriminate.
    + assert (S : stopped (convert_time f0 [sep]) (@Undef ctime u)) by (rewrite E0; reflexivity). apply CS in S. destruct S as [S O]. injection S as ->.
      apply tcase_big. now apply (fault_start_big sep l f0 f1 f2 more).
Qed.
Lemma time_once s t : cue_time sep s t -> forall e, ~ time_refused sep s e.
Proof. intros C e R. apply CT in C. apply CE in R. congruence. Qed.
Lemma time_once' s t : cue_time sep s t -> ~ time_overflows sep s.
Proof.
  intros C O. apply CT in C. assert (S : stopped (convert_time s [sep]) (@Undef ctime UbIntOverflow)) by now apply CS. rewrite C in S. destruct S.
Qed.
Lemma time_once'' s e : time_refused sep s e -> ~ time_overflows sep s.
Proof.
  intros C O. apply CE in C. assert (S : stopped (convert_time s [sep]) (@Undef ctime UbIntOverflow)) by now apply CS. rewrite C in S. destruct S.
Qed.
Lemma refused_once s e e' : time_refused sep s e -> time_refused sep s e' -> e = e'.
Proof. intros A B. apply CE in A, B. congruence. Qed.
Lemma cue_time_once s t t' : cue_time sep s t -> cue_time sep s t' -> t = t'.
Proof. intros A B. apply CT in A, B. congruence. Qed.

Lemma fault_inv l o : timing_fault sep l o ->
  (exists fs, fields l fs /\ length fs <> 3%nat /\ length fs <> 7%nat /\ o = Some (trim_right_if (is_any_of (lit " ")) l, lit "a time line", true)) \/
  (exists f0 f1 f2 more, fields l (f0 :: f1 :: f2 :: more) /\ (length more = 0%nat \/ length more = 4%nat) /\
    ((exists why, time_refused sep f0 why /\ o = Some (f0, why, false)) \/ time_overflows sep f0 /\ o = None \/
     exists from, cue_time sep f0 from /\ ((exists why, time_refused sep f2 why /\ o = Some (f2, why, false)) \/ time_overflows sep f2 /\ o = None))).
Proof.
  intros [m body k fs F L3 L7 E N|m f0 f1 f2 more why F LM R|m f0 f1 f2 more F LM R|m f0 f1 f2 more from why F LM C R|m f0 f1 f2 more from F LM C R].
  - left. exists fs. repeat split; try assumption. do 2 f_equal. symmetry. f_equal.
    apply (trim_right_iff (eq space) (is_any_of (lit " ")) _ _ (fun c => conj (fun h => eq_sym (proj1 (space_iff c) h)) (fun h => proj2 (space_iff c) (eq_sym h)))).
    exists (repeat space k). split; [exact E|]. split; [|exact N]. clear. induction k; cbn; constructor; auto.
  - right. exists f0, f1, f2, more. repeat split; try assumption. left. now exists why.
  - right. exists f0, f1, f2, more. repeat split; try assumption. right. now left.
  - right. exists f0, f1, f2, more. repeat split; try assumption. right. right. exists from. split; [exact C|]. left. now exists why.
  - right. exists f0, f1, f2, more. repeat split; try assumption. right. right. exists from. split; [exact C|]. now right.
Qed.
Lemma tcase_unique l a b : tcase l a -> tcase l b -> a = b.
Proof.
  assert (FU : forall fs gs, fields l fs -> fields l gs -> fs = gs) by (intros fs gs A B; apply fields_iff in A, B; congruence).
  assert (G : forall a, tcase l a -> (exists fs, fields l fs /\ length fs <> 3%nat /\ length fs <> 7%nat /\ a = Ok (inl (trim_right_if (is_any_of (lit " ")) l, lit "a time line", true))) \/
    exists f0 f1 f2 more, fields l (f0 :: f1 :: f2 :: more) /\ (length more = 0%nat \/ length more = 4%nat) /\
    ((exists why, time_refused sep f0 why /\ a = Ok (inl (f0, why, false))) \/ time_overflows sep f0 /\ a = Undef UbIntOverflow \/
     exists from, cue_time sep f0 from /\ ((exists why, time_refused sep f2 why /\ a = Ok (inl (f2, why, false))) \/ time_overflows sep f2 /\ a = Undef UbIntOverflow \/
       exists to, cue_time sep f2 to /\ a = Ok (inr (from, to))))).
  { clear. intros a [from to (f0 & f1 & f2 & more & F & LM & T0 & T2)|x FA|FA].
    - right. exists f0, f1, f2, more. repeat split; try assumption. right. right. exists from. split; [exact T0|]. right. right. now exists to.
    - apply fault_inv in FA. destruct FA as [(fs & F & L3 & L7 & E)|(f0 & f1 & f2 & more & F & LM & D)]; [left; exists fs; injection E as ->; now repeat split|].
      right. exists f0, f1, f2, more. repeat split; try assumption. destruct D as [(why & R & E)|[(R & E)|(from & C & [(why & R & E)|(R & E)])]]; try discriminate; injection E as ->.
      + left. now exists why.
      + right. right. exists from. split; [exact C|]. left. now exists why.
    - apply fault_inv in FA. destruct FA as [(fs & F & L3 & L7 & E)|(f0 & f1 & f2 & more & F & LM & D)]; [discriminate|].
      right. exists f0, f1, f2, more. repeat split; try assumption. destruct D as [(why & R & E)|[(R & E)|(from & C & [(why & R & E)|(R & E)])]]; try discriminate.
      + right. now left.
      + right. right. exists from. split; [exact C|]. right. now left. }
  intros A B. apply G in A, B. clear G.
  destruct A as [(fs & F & L3 & L7 & ->)|(f0 & f1 & f2 & more & F & LM & A)]; destruct B as [(fs' & F' & L3' & L7' & ->)|(g0 & g1 & g2 & more' & F' & LM' & B)];
    [reflexivity|exfalso; rewrite (FU _ _ F F') in *; cbn in *; lia|exfalso; rewrite <- (FU _ _ F F') in *; cbn in *; lia|].
  pose proof (FU _ _ F F') as Q. injection Q as <- <- <- <-.
  destruct A as [(why & R & ->)|[(R & ->)|(from & C & A)]]; destruct B as [(why' & R' & ->)|[(R' & ->)|(from' & C' & B)]];
    try reflexivity;
    try (exfalso; match goal with
         | H : cue_time _ ?f _, H' : time_refused _ ?f _ |- _ => exact (time_once _ _ H _ H')
         | H : cue_time _ ?f _, H' : time_overflows _ ?f |- _ => exact (time_once' _ _ H H')
         | H : time_refused _ ?f _, H' : time_overflows _ ?f |- _ => exact (time_once'' _ _ H H')
         end).
  - now rewrite (refused_once _ _ _ R R').
  - rewrite (cue_time_once _ _ _ C C') in *.
    destruct A as [(why & R & ->)|[(R & ->)|(to & T & ->)]]; destruct B as [(why' & R' & ->)|[(R' & ->)|(to' & T' & ->)]];
      try reflexivity;
    try (exfalso; match goal with
         | H : cue_time _ ?f _, H' : time_refused _ ?f _ |- _ => exact (time_once _ _ H _ H')
         | H : cue_time _ ?f _, H' : time_overflows _ ?f |- _ => exact (time_once' _ _ H H')
         | H : time_refused _ ?f _, H' : time_overflows _ ?f |- _ => exact (time_once'' _ _ H H')
         end).
    + now rewrite (refused_once _ _ _ R R').
    + now rewrite (cue_time_once _ _ _ T T').
Qed.
Lemma treads_iff l x : treads sep l = x <-> tcase l x.
Proof. split; [intros <-; apply treads_case|intros T; exact (tcase_unique l _ _ (treads_case l) T)]. Qed.
Lemma treads_ok l from to : treads sep l = Ok (inr (from, to)) <-> timing_line sep l from to.
Proof. rewrite treads_iff. split; [inversion 1; assumption|apply tcase_ok]. Qed.
Lemma treads_fault l x : treads sep l = Ok (inl x) <-> timing_fault sep l (Some x).
Proof. rewrite treads_iff. split; [inversion 1; assumption|apply tcase_fault]. Qed.
Lemma treads_big l u : treads sep l = Undef u <-> u = UbIntOverflow /\ timing_fault sep l None.
Proof. rewrite treads_iff. split; [inversion 1; now split|intros [-> F]; now apply tcase_big]. Qed.
Lemma treads_throw l e : treads sep l <> Throw e.
Proof. intros E. apply treads_iff in E. inversion E. Qed.
End Timing.

Lemma sep_dot : ~ number_char "."%char.
Proof. intros [H|[H|H]]; discriminate. Qed.
Lemma dot_colon : "."%char <> ":"%char. Proof. discriminate. Qed.

(** * One line *)

Definition vwhere (st : vtt_state) : vtt_place := match st with VHEADER => AtHeader | VDATA => AtData | VSUBTITLE => AtCueText | VNOTE => AtNote end.
Definition vround (st : vtt_state) (ctx : list str) (rs : raw) (subs : list raw) (line : str) (rest : list str) : res (vtt_state * raw * list raw) :=
  match st with
  | VHEADER => if starts_with line (lit "WEBVTT") then Ok (VDATA, rs, subs) else Throw EWebVttHeader
  | VDATA =>
      if starts_with line (lit "NOTE") then Ok (VNOTE, rs, subs)
      else if is_some (find_sub line (lit "-->")) then
        let* x := treads "."%char line in
        match x with
        | inl (saw, why, more) => Throw (EWebVtt saw why (if (more : bool) then error_context ctx rest else ctx))
        | inr (from, to) => Ok (VSUBTITLE, set_line (Some 0) (set_to to (set_from from rs)), subs)
        end
      else Ok (VDATA, rs, subs)
  | VSUBTITLE =>
      match line with
      | [] => Ok (VDATA, rs, subs)
      | _ => let* x := vtt_sub_lines (split_lit line_separator line) rs subs in Ok (VSUBTITLE, fst x, snd x)
      end
  | VNOTE => match line with [] => Ok (VDATA, rs, subs) | _ => Ok (VNOTE, rs, subs) end
  end.
Lemma vloop_round l rest st ctx rs subs : vtt_loop (l :: rest) st ctx rs subs =
  let* x := vround st (push_context ctx (clean_line l)) rs subs (clean_line l) rest in
  vtt_loop rest (fst (fst x)) (push_context ctx (clean_line l)) (snd (fst x)) (snd x).
Proof.
  cbn [vtt_loop]. destruct st; unfold vround.
  - now destruct (starts_with _ _).
  - destruct (starts_with _ _); [reflexivity|]. destruct (is_some _); [|reflexivity]. unfold treads. cbv zeta.
    destruct (_ && _); [reflexivity|]. change (lit ".") with ["."%char]. destruct (convert_time _ _) as [[from|e]| |]; cbn [bind]; try reflexivity.
    destruct (convert_time _ _) as [[to|e]| |]; reflexivity.
  - destruct (clean_line l); [reflexivity|]. destruct (vtt_sub_lines _ _ _) as [[q qs]| |]; reflexivity.
  - now destruct (clean_line l).
Qed.

Lemma starts_begins s p : starts_with s p = true <-> begins_with p s.
Proof. apply starts_with_iff. Qed.
Lemma find_sub_some s pat n : find_sub s pat = Some n -> exists a b, s = a ++ pat ++ b.
Proof.
  revert n. induction s as [|c s IH]; intros n E; cbn [find_sub] in E.
  - destruct pat; [now exists [], []|discriminate].
  - destruct (starts_with (c :: s) pat) eqn:S; [apply starts_with_iff in S; destruct S as [rest S]; now exists [], rest|].
    destruct (find_sub s pat) as [k|]; [|discriminate]. destruct (IH k eq_refl) as (a & b & ->). now exists (c :: a), b.
Qed.
Lemma arrow_iff s : is_some (find_sub s (lit "-->")) = true <-> has_arrow s.
Proof.
  destruct (find_sub s (lit "-->")) as [n|] eqn:E; cbn [is_some].
  - split; [intros _|reflexivity]. apply find_sub_some in E. exact E.
  - split; [discriminate|]. intros (a & b & A). apply find_sub_none in E. exfalso. apply E. now exists a, b.
Qed.
Lemma note_cases l : (starts_with l (lit "NOTE") = true /\ is_note l) \/ (starts_with l (lit "NOTE") = false /\ ~ is_note l).
Proof. destruct (starts_with l (lit "NOTE")) eqn:E; [left|right]; split; try reflexivity; [now apply starts_begins|]. intros N. apply starts_begins in N. congruence. Qed.
Lemma arrow_cases l : (is_some (find_sub l (lit "-->")) = true /\ has_arrow l) \/ (is_some (find_sub l (lit "-->")) = false /\ ~ has_arrow l).
Proof. destruct (is_some (find_sub l (lit "-->"))) eqn:E; [left|right]; split; try reflexivity; [now apply arrow_iff|]. intros N. apply arrow_iff in N. congruence. Qed.
Lemma header_cases l : (starts_with l (lit "WEBVTT") = true /\ begins_with (lit "WEBVTT") l) \/ (starts_with l (lit "WEBVTT") = false /\ ~ begins_with (lit "WEBVTT") l).
Proof. destruct (starts_with l (lit "WEBVTT")) eqn:E; [left|right]; split; try reflexivity; [now apply starts_begins|]. intros N. apply starts_begins in N. congruence. Qed.

Definition vlook (rs : raw) : Prop := exists from to n t, rs = styled_raw from to n plain_look t.
Lemma vtt_sub_lines_ok rows from to n t subs : exists t', vtt_sub_lines rows (styled_raw from to n plain_look t) subs =
  Ok (styled_raw from to (n + Z.of_nat (length rows)) plain_look t', subs ++ plain_rows from to n rows).
Proof.
  revert n t subs. induction rows as [|r rows IH]; intros n t subs; cbn [vtt_sub_lines plain_rows].
  - exists t. now rewrite Z.add_0_r, app_nil_r.
  - cbv zeta. change (opt_get (v_line (r_vpos (set_text r (styled_raw from to n plain_look t))))) with (Ok n). cbn [bind].
    change (set_line (Some (n + 1)) (set_text r (styled_raw from to n plain_look t))) with (styled_raw from to (n + 1) plain_look r).
    destruct (IH (n + 1) r (subs ++ [set_text r (styled_raw from to n plain_look t)])) as (t' & ->). exists t'. rewrite <- app_assoc. cbn [app].
    replace (n + Z.of_nat (length (r :: rows))) with (n + 1 + Z.of_nat (length rows)) by (cbn [length]; lia). reflexivity.
Qed.
Lemma plain_rows_app from to n a b : plain_rows from to n (a ++ b) = plain_rows from to n a ++ plain_rows from to (n + Z.of_nat (length a)) b.
Proof.
  revert n. induction a as [|x a IH]; intros n; cbn [app plain_rows]; [now rewrite Z.add_0_r|]. rewrite IH. cbn [app]. do 2 f_equal. cbn [length]. f_equal. lia.
Qed.

(** * The whole file *)

Definition vdata (ls : list str) (raws : list raw) : Prop := exists cs rawss, vtt_cues ls cs /\ Forall2 vtt_subtitles cs rawss /\ raws = List.concat rawss.
Definition vreads (st : vtt_state) (rs : raw) (ls : list str) (raws : list raw) : Prop :=
  match st with
  | VHEADER => ls = [] /\ raws = [] \/ exists h data, ls = h :: data /\ begins_with (lit "WEBVTT") h /\ vdata data raws
  | VDATA => vdata ls raws
  | VSUBTITLE => exists text rest liness raws', ls = text ++ rest /\ Forall (fun l => l <> []) text /\ ends_or_blank rest /\ Forall2 (parts_of u2028) text liness /\
      vdata rest raws' /\ raws = plain_rows (r_from rs) (r_to rs) (match v_line (r_vpos rs) with Some n => n | None => 0 end) (List.concat liness) ++ raws'
  | VNOTE => exists comment rest, ls = comment ++ rest /\ Forall (fun l => l <> []) comment /\ ends_or_blank rest /\ vdata rest raws
  end.
Lemma vdata_nil raws : vdata [] raws <-> raws = [].
Proof.
  split; [|intros ->; exists [], []; repeat split; constructor]. intros (cs & rawss & C & F & ->). inversion C; subst; inversion F; reflexivity.
Qed.
Lemma blank_plain : ~ is_note [] /\ ~ has_arrow [].
Proof. split; [intros (r & E)|intros (a & b & E); destruct a]; discriminate. Qed.
Lemma vdata_other l ls raws : ~ is_note l -> ~ has_arrow l -> (vdata (l :: ls) raws <-> vdata ls raws).
Proof.
  intros N A. split; intros (cs & rawss & C & F & ->); exists cs, rawss; (split; [|split; [exact F|reflexivity]]).
  - inversion C; subst; try contradiction. assumption.
  - now constructor.
Qed.
Lemma vdata_note l ls raws rs : is_note l -> (vdata (l :: ls) raws <-> vreads VNOTE rs ls raws).
Proof.
  intros N. cbn [vreads]. split.
  - intros (cs & rawss & C & F & ->). inversion C as [|? ? ? NN|? comment rest ? _ FC EB C'|? ? ? ? ? ? NN]; subst; try contradiction.
    exists comment, rest. repeat split; try assumption. now exists cs, rawss.
  - intros (comment & rest & -> & FC & EB & cs & rawss & C & F & ->). exists cs, rawss. repeat split; try assumption. now apply vtt_note.
Qed.
Lemma vdata_cue l ls raws : ~ is_note l -> has_arrow l -> (vdata (l :: ls) raws <-> exists from to, timing_line "."%char l from to /\ vreads VSUBTITLE (styled_raw from to 0 plain_look []) ls raws).
Proof.
  intros N A. cbn [vreads]. split.
  - intros (cs & rawss & C & F & ->). inversion C as [|? ? ? NN NA|? ? ? ? NN|? from to text rest cs' _ _ T FT EB C']; subst; try contradiction.
    inversion F as [|? rw ? rawss' (rows & (liness & FP & ->) & ->) F']; subst. exists from, to. split; [exact T|]. exists text, rest, liness, (List.concat rawss').
    repeat split; try assumption. now exists cs', rawss'.
  - intros (from & to & T & text & rest & liness & raws' & -> & FT & EB & FP & (cs & rawss & C & F & ->) & ->).
    exists (mkCue from to text :: cs), (plain_rows from to 0 (List.concat liness) :: rawss). split; [now apply vtt_cue|]. split; [|reflexivity].
    constructor; [|exact F]. exists (List.concat liness). split; [now exists liness|reflexivity].
Qed.

Lemma vtt_loop_iff ls : forall st ctx rs subs raws, vlook rs ->
  (vtt_loop ls st ctx rs subs = Ok raws <-> exists more, raws = subs ++ more /\ vreads st rs (map clean_line ls) more).
Proof.
  induction ls as [|l ls IH]; intros st ctx rs subs raws V.
  - cbn [vtt_loop map]. transitivity (exists more : list raw, raws = subs ++ more /\ more = []).
    + split; [intros E; apply Ok_inj in E; subst; exists []; now rewrite app_nil_r|intros (more & -> & ->); now rewrite app_nil_r].
    + split; intros (more & -> & R); exists more; (split; [reflexivity|]).
      * subst more. destruct st; cbn [vreads].
        -- now left.
        -- now apply vdata_nil.
        -- exists [], [], [], []. repeat split; [constructor|now left|constructor|now apply vdata_nil].
        -- exists [], []. repeat split; [constructor|now left|now apply vdata_nil].
      * destruct st; cbn [vreads] in R.
        -- destruct R as [(_ & R)|(h & d & E & _)]; [exact R|discriminate].
        -- now apply vdata_nil in R.
        -- destruct R as (text & rest & liness & raws' & E & FT & EB & FP & D & ->). symmetry in E. apply app_eq_nil in E. destruct E as [-> ->].
           inversion FP; subst. apply vdata_nil in D. now subst.
        -- destruct R as (comment & rest & E & FT & EB & D). symmetry in E. apply app_eq_nil in E. destruct E as [-> ->]. now apply vdata_nil in D.
  - rewrite vloop_round. cbn [map]. set (c := push_context ctx (clean_line l)). clearbody c. set (l' := clean_line l). clearbody l'. set (ls' := map clean_line ls) in *.
    destruct st; unfold vround.
    + destruct (header_cases l') as [(-> & H)|(-> & H)]; cbn [bind fst snd].
      * rewrite IH by exact V. cbn [vreads]. split; intros (more & -> & R); exists more; (split; [reflexivity|]).
        -- right. now exists l', ls'.
        -- destruct R as [(R & _)|(h & d & E & _ & D)]; [discriminate|]. now injection E as <- <-.
      * split; [discriminate|]. intros (more & -> & R). cbn [vreads] in R. destruct R as [(R & _)|(h & d & E & B & D)]; [discriminate|]. injection E as <- <-. contradiction.
    + destruct (note_cases l') as [(-> & N)|(-> & N)]; cbn [bind fst snd].
      * rewrite IH by exact V. cbn [vreads]. setoid_rewrite (fun raws => vdata_note l' ls' raws rs N). reflexivity.
      * destruct (arrow_cases l') as [(-> & A)|(-> & A)]; cbn [bind fst snd].
        -- cbn [vreads]. setoid_rewrite (fun raws => vdata_cue l' ls' raws N A). destruct V as (f0 & t0 & n0 & x0 & ->).
           destruct (treads "."%char l') as [[[[saw why] m]|[from to]]|e|u] eqn:T; cbn [bind fst snd].
           ++ split; [discriminate|]. intros (more & -> & from & to & TL & _). apply (treads_ok _ sep_dot dot_colon) in TL. congruence.
           ++ apply (treads_ok _ sep_dot dot_colon) in T. change (set_line (Some 0) (set_to to (set_from from (styled_raw f0 t0 n0 plain_look x0)))) with (styled_raw from to 0 plain_look x0).
              rewrite IH by (now exists from, to, 0, x0). split; intros (more & -> & R); exists more; (split; [reflexivity|]).
              ** exists from, to. split; [exact T|exact R].
              ** destruct R as (from' & to' & T' & R). apply (treads_ok _ sep_dot dot_colon) in T, T'. rewrite T in T'. injection T' as <- <-. exact R.
           ++ now apply (treads_throw _ sep_dot dot_colon) in T.
           ++ split; [discriminate|]. intros (more & -> & from & to & TL & _). apply (treads_ok _ sep_dot dot_colon) in TL. congruence.
        -- rewrite IH by exact V. cbn [vreads]. setoid_rewrite (fun raws => vdata_other l' ls' raws N A). reflexivity.
    + destruct l' as [|ch l'].
      * cbn [bind fst snd]. rewrite IH by exact V. cbn [vreads]. destruct blank_plain as [BN BA]. split; intros (more & -> & R); exists more; (split; [reflexivity|]).
        -- exists [], ([] :: ls'), [], more. repeat split; [constructor|right; now exists ls'|constructor|now apply vdata_other].
        -- destruct R as (text & rest & liness & raws' & E & FT & EB & FP & D & ->). destruct text as [|t text]; [|injection E as <- E; inversion FT; congruence].
           inversion FP; subst. cbn [app] in E. subst rest. now apply vdata_other in D.
      * destruct V as (f0 & t0 & n0 & x0 & ->). destruct (vtt_sub_lines_ok (split_lit line_separator (ch :: l')) f0 t0 n0 x0 subs) as (x1 & ->). cbn [bind fst snd].
        rewrite IH by (now exists f0, t0, (n0 + Z.of_nat (length (split_lit line_separator (ch :: l')))), x1). cbn [vreads styled_raw r_from r_to r_vpos v_line].
        split; intros (more & -> & R).
        -- destruct R as (text & rest & liness & raws' & -> & FT & EB & FP & D & ->). eexists. split; [rewrite <- app_assoc; reflexivity|].
           exists ((ch :: l') :: text), rest, (split_lit line_separator (ch :: l') :: liness), raws'. split; [reflexivity|]. split; [constructor; [discriminate|exact FT]|]. split; [exact EB|].
           split; [constructor; [now apply line_separator_iff|exact FP]|]. split; [exact D|]. cbn [List.concat]. now rewrite plain_rows_app, <- app_assoc.
        -- destruct R as (text & rest & liness & raws' & E & FT & EB & FP & D & ->). destruct text as [|t text]; [destruct EB as [EB|(m & EB)]; subst rest; discriminate|].
           injection E as <- E. inversion FP as [|? parts ? liness' P FP']; subst. apply line_separator_iff in P. subst parts. inversion FT; subst.
           cbn [List.concat]. rewrite plain_rows_app, <- app_assoc. eexists. split; [rewrite <- app_assoc; reflexivity|]. exists text, rest, liness', raws'. repeat split; assumption.
    + destruct l' as [|ch l']; cbn [bind fst snd]; rewrite IH by exact V; cbn [vreads]; destruct blank_plain as [BN BA]; split; intros (more & -> & R); exists more; (split; [reflexivity|]).
      * exists [], ([] :: ls'). repeat split; [constructor|right; now exists ls'|now apply vdata_other].
      * destruct R as (comment & rest & E & FT & EB & D). destruct comment as [|t text]; [|injection E as <- E; inversion FT; congruence]. cbn [app] in E. subst rest. now apply vdata_other in D.
      * destruct R as (comment & rest & -> & FT & EB & D). exists ((ch :: l') :: comment), rest. repeat split; try assumption. constructor; [discriminate|exact FT].
      * destruct R as (comment & rest & E & FT & EB & D). destruct comment as [|t text]; [destruct EB as [EB|(m & EB)]; subst rest; discriminate|].
        injection E as <- E. inversion FT; subst. now exists text, rest.
Qed.

Lemma vnew : vlook (set_vref (Some TOP_OF_SUBTITLE) (set_line (Some 0) raw_default)).
Proof. eexists _, _, 0, []. reflexivity. Qed.
Theorem vtt_read_iff ls raws : vtt_read ls = Ok raws <-> vtt_lines ls raws.
Proof.
  unfold vtt_read. rewrite vtt_loop_iff by exact vnew. cbn [app vreads]. split.
  - intros (more & -> & [(E & ->)|(h & d & E & B & cs & rawss & C & F & ->)]).
    + destruct ls; [constructor|discriminate].
    + destruct ls as [|l ls]; [discriminate|]. injection E as <- <-. apply (vtt_headed l (clean_line l) ls (map clean_line ls) cs); try assumption; [now apply clean_line_iff|now apply cleaned_map].
  - intros [|h h' l l' cs rawss CH B CL C F]; [exists []; split; [reflexivity|now left]|]. eexists. split; [reflexivity|]. right. exists h', l'.
    apply clean_line_iff in CH. apply cleaned_map in CL. subst. split; [reflexivity|]. split; [exact B|]. now exists cs, rawss.
Qed.
Theorem vtt_string_iff s raws : vtt_reader_string s = Ok raws <-> vtt_file s raws.
Proof.
  unfold vtt_reader_string, vtt_file. rewrite vtt_read_iff. split.
  - intros R. exists (lines_of_string s). split; [now apply lines_of_string_iff|exact R].
  - intros (ls & L & R). apply lines_of_string_iff in L. now rewrite L.
Qed.

(** * Why reading stops *)

Lemma vround_look st ctx rs subs l rest st' rs' subs' : vlook rs -> vround st ctx rs subs l rest = Ok (st', rs', subs') -> vlook rs'.
Proof.
  intros V. unfold vround. destruct st.
  - destruct (starts_with _ _); [|discriminate]. intros E. apply Ok_inj in E. now injection E as <- <- <-.
  - destruct (starts_with _ _); [intros E; apply Ok_inj in E; now injection E as <- <- <-|]. destruct (is_some _); [|intros E; apply Ok_inj in E; now injection E as <- <- <-].
    destruct (treads _ _) as [[[[saw why] m]|[from to]]|e|u]; cbn [bind]; try discriminate. intros E. apply Ok_inj in E. injection E as <- <- <-.
    destruct V as (f0 & t0 & n0 & x0 & ->). now exists from, to, 0, x0.
  - destruct l; [intros E; apply Ok_inj in E; now injection E as <- <- <-|]. destruct V as (f0 & t0 & n0 & x0 & ->).
    destruct (vtt_sub_lines_ok (split_lit line_separator (a :: l)) f0 t0 n0 x0 subs) as (x1 & ->). cbn [bind fst snd]. intros E. apply Ok_inj in E. injection E as <- <- <-.
    now eexists _, _, _, _.
  - destruct l; intros E; apply Ok_inj in E; now injection E as <- <- <-.
Qed.
Lemma vround_next st ctx rs subs l rest st' rs' subs' seen : vtt_next seen (vwhere st) -> vround st ctx rs subs l rest = Ok (st', rs', subs') ->
  vtt_next (seen ++ [l]) (vwhere st').
Proof.
  intros C. unfold vround. destruct st; cbn [vwhere] in C.
  - destruct (starts_with _ _); [|discriminate]. intros E. apply Ok_inj in E. injection E as <- <- <-. now constructor.
  - destruct (note_cases l) as [(-> & N)|(-> & N)]; [intros E; apply Ok_inj in E; injection E as <- <- <-; now constructor|].
    destruct (arrow_cases l) as [(-> & A)|(-> & A)]; [|intros E; apply Ok_inj in E; injection E as <- <- <-; now constructor].
    destruct (treads _ _) as [[[[saw why] m]|[from to]]|e|u]; cbn [bind]; try discriminate. intros E. apply Ok_inj in E. injection E as <- <- <-. now constructor.
  - destruct l; [intros E; apply Ok_inj in E; injection E as <- <- <-; now constructor|].
    destruct (vtt_sub_lines _ _ _) as [[q qs]| |]; cbn [bind]; try discriminate. intros E. apply Ok_inj in E. injection E as <- <- <-. now constructor.
  - destruct l; intros E; apply Ok_inj in E; injection E as <- <- <-; now constructor.
Qed.
Lemma vround_rest st ctx rs subs l rest rest' x : vround st ctx rs subs l rest = Ok x -> vround st ctx rs subs l rest' = Ok x.
Proof.
  unfold vround. destruct st; auto. destruct (starts_with _ _); auto. destruct (is_some _); auto.
  destruct (treads _ _) as [[[[saw why] m]|[from to]]|e|u]; cbn [bind]; auto. discriminate.
Qed.

Definition vafter (q : vtt_place) (l : str) (p : vtt_place) : Prop :=
  match q with
  | AtHeader => p = AtData
  | AtData => (is_note l /\ p = AtNote) \/ (~ is_note l /\ has_arrow l /\ p = AtCueText) \/ (~ is_note l /\ ~ has_arrow l /\ p = AtData)
  | AtCueText => (l <> [] /\ p = AtCueText) \/ (l = [] /\ p = AtData)
  | AtNote => (l <> [] /\ p = AtNote) \/ (l = [] /\ p = AtData)
  end.
Lemma vtt_next_snoc ls l p : vtt_next (ls ++ [l]) p -> exists q, vtt_next ls q /\ vafter q l p.
Proof.
  intros C. remember (ls ++ [l]) as x eqn:E. destruct C; try (apply app_inj_tail in E; destruct E as [-> <-]; eexists; (split; [eassumption|]); cbn; tauto).
  symmetry in E. apply app_eq_nil in E. destruct E as [_ E]. discriminate.
Qed.
Lemma vtt_next_unique ls p q : vtt_next ls p -> vtt_next ls q -> p = q.
Proof.
  revert p q. induction ls as [|l ls IH] using rev_ind; intros p q C D.
  - assert (G : forall p, vtt_next [] p -> p = AtHeader); [|now rewrite (G p C), (G q D)].
    clear. intros p C. remember ([] : list str) as ls eqn:Q. destruct C; try reflexivity; symmetry in Q; apply app_cons_not_nil in Q; contradiction.
  - apply vtt_next_snoc in C, D. destruct C as (p' & C & A1), D as (q' & D & A2). rewrite (IH _ _ C D) in A1. destruct q'; cbn in A1, A2; intuition congruence.
Qed.

Lemma vround_stops {B} st ctx rs subs l rest next (o : res B) : vlook rs -> upcoming rest next ->
  (stopped (vround st ctx rs subs l rest) o <-> exists o', vtt_line_stops ctx next (vwhere st) l o' /\ stopped o' o).
Proof.
  intros V U. apply upcoming_iff in U. subst next. unfold vround. destruct st; cbn [vwhere].
  - destruct (header_cases l) as [(-> & H)|(-> & H)]; split.
    + intros [].
    + intros (o' & LS & _). inversion LS. contradiction.
    + intros S. exists (Throw EWebVttHeader). split; [now constructor|exact S].
    + intros (o' & LS & SO). inversion LS; subst. exact SO.
  - destruct (note_cases l) as [(-> & N)|(-> & N)]; [split; [intros []|intros (o' & LS & _); inversion LS; contradiction]|].
    destruct (arrow_cases l) as [(-> & A)|(-> & A)]; [|split; [intros []|intros (o' & LS & _); inversion LS; contradiction]].
    destruct (treads "."%char l) as [[[[saw why] m]|[from to]]|e|u] eqn:T; cbn [bind].
    + pose proof (proj1 (treads_fault _ sep_dot dot_colon _ _) T) as TF.
      assert (CX : (if m then error_context ctx rest else ctx) = ctx ++ (if m then firstn 2 rest else [])) by (destruct m; [reflexivity|now rewrite app_nil_r]).
      rewrite CX. split.
      * intros S. eexists. split; [apply (vstop_timing _ _ l saw why m N A TF)|exact S].
      * intros (o' & LS & SO). inversion LS as [|? saw' why' m' _ _ TF'|? _ _ TF']; subst.
        -- apply (treads_fault _ sep_dot dot_colon) in TF'. rewrite T in TF'. injection TF' as <- <- <-. exact SO.
        -- pose proof (proj2 (treads_big _ sep_dot dot_colon l UbIntOverflow) (conj eq_refl TF')). congruence.
    + split; [intros []|]. intros (o' & LS & SO). inversion LS as [|? saw' why' m' _ _ TF'|? _ _ TF']; subst.
      * apply (treads_fault _ sep_dot dot_colon) in TF'. congruence.
      * pose proof (proj2 (treads_big _ sep_dot dot_colon l UbIntOverflow) (conj eq_refl TF')). congruence.
    + now apply (treads_throw _ sep_dot dot_colon) in T.
    + pose proof (proj1 (treads_big _ sep_dot dot_colon l u) T) as [-> TF]. split.
      * intros S. exists (Undef UbIntOverflow). split; [now constructor|exact S].
      * intros (o' & LS & SO). inversion LS as [|? saw' why' m' _ _ TF'|? _ _ TF']; subst; [|exact SO]. apply (treads_fault _ sep_dot dot_colon) in TF'. congruence.
  - split; [|intros (o' & LS & _); inversion LS]. destruct l; [intros []|]. destruct V as (f0 & t0 & n0 & x0 & ->).
    destruct (vtt_sub_lines_ok (split_lit line_separator (a :: l)) f0 t0 n0 x0 subs) as (x1 & ->). intros [].
  - split; [|intros (o' & LS & _); inversion LS]. destruct l; intros [].
Qed.

Lemma vloop_prefix before : forall st ctx rs subs raws seen, vlook rs -> vtt_next seen (vwhere st) -> recent seen ctx ->
  vtt_loop before st ctx rs subs = Ok raws -> exists st' ctx' rs', vlook rs' /\ vtt_next (seen ++ map clean_line before) (vwhere st') /\
    recent (seen ++ map clean_line before) ctx' /\
    forall after, vtt_loop (before ++ after) st ctx rs subs = vtt_loop after st' ctx' rs' raws.
Proof.
  induction before as [|l before IH]; intros st ctx rs subs raws seen V C R E.
  - cbn [vtt_loop] in E. apply Ok_inj in E. subst raws. exists st, ctx, rs. cbn [map]. rewrite app_nil_r. repeat split; assumption.
  - rewrite vloop_round in E. destruct (vround _ _ _ _ _ before) as [[[st1 rs1] subs1]| |] eqn:RD; [|discriminate..]. cbn [bind fst snd] in E.
    apply (IH _ _ _ _ _ (seen ++ [clean_line l])) in E; [|now apply vround_look in RD|now apply (vround_next _ _ _ _ _ _ _ _ _ seen) in RD|now apply push_recent].
    destruct E as (st' & ctx' & rs' & V' & C' & R' & E). exists st', ctx', rs'. cbn [map]. rewrite <- app_assoc in C', R'. cbn [app] in C', R'. repeat split; try assumption.
    intros after. cbn [app]. rewrite vloop_round, (vround_rest _ _ _ _ _ _ (before ++ after) _ RD). cbn [bind fst snd]. apply E.
Qed.
Lemma vfirst_stop {B} ls (o : res B) : stopped (vtt_read ls) o -> exists before l after raws, ls = before ++ l :: after /\ vtt_read before = Ok raws /\ ~ (exists r, vtt_read (before ++ [l]) = Ok r).
Proof.
  intros S. assert (G : forall after before, ls = before ++ after -> (exists r, vtt_read before = Ok r) ->
    exists before l after raws, ls = before ++ l :: after /\ vtt_read before = Ok raws /\ ~ (exists r, vtt_read (before ++ [l]) = Ok r)).
  { induction after as [|l after IH]; intros before E (r & R).
    - rewrite app_nil_r in E. subst before. rewrite R in S. destruct S.
    - destruct (vtt_read (before ++ [l])) as [r'| |] eqn:Q.
      + apply (IH (before ++ [l])); [now rewrite <- app_assoc|]. now exists r'.
      + exists before, l, after, r. split; [exact E|]. split; [exact R|]. rewrite Q. intros (r' & D). discriminate.
      + exists before, l, after, r. split; [exact E|]. split; [exact R|]. rewrite Q. intros (r' & D). discriminate. }
  apply (G ls []); [reflexivity|]. now exists [].
Qed.
Lemma vprefix_read before raws : vtt_read before = Ok raws -> exists st ctx rs, vlook rs /\ vtt_next (map clean_line before) (vwhere st) /\
    recent (map clean_line before) ctx /\ forall after, vtt_read (before ++ after) = vtt_loop after st ctx rs raws.
Proof.
  intros R. destruct (vloop_prefix before VHEADER [] _ [] raws [] vnew) as (st & ctx & rs & V & C & RC & E).
  - constructor.
  - exists []. repeat split; [cbn; lia|now left].
  - exact R.
  - exists st, ctx, rs. cbn [app] in C, RC. repeat split; assumption.
Qed.
Theorem vtt_stops_iff {B} ls (o : res B) : stopped (vtt_read ls) o <-> exists o', vtt_stops ls o' /\ stopped o' o.
Proof.
  split.
  - intros S. destruct (vfirst_stop ls o S) as (before & l & after & raws & -> & R & NO).
    destruct (vprefix_read before raws R) as (st & ctx & rs & V & C & RC & E). rewrite E, vloop_round, stopped_bind in S.
    assert (RD : stopped (vround st (push_context ctx (clean_line l)) rs raws (clean_line l) after) o).
    { destruct S as [S|([[st1 rs1] subs1] & Q & _)]; [exact S|]. exfalso. apply NO. rewrite E, vloop_round, (vround_rest _ _ _ _ _ _ [] _ Q). cbn [bind]. now eexists. }
    apply (vround_stops _ _ _ _ _ _ (firstn 2 after)) in RD; [|exact V|now apply upcoming_iff]. destruct RD as (o' & LS & SO). exists o'. split; [|exact SO].
    exists before, l, after, (map clean_line before), (clean_line l), raws, (vwhere st), (push_context ctx (clean_line l)), (firstn 2 after).
    split; [reflexivity|]. split; [now apply cleaned_map|]. split; [now apply clean_line_iff|]. split; [now apply vtt_read_iff|]. split; [exact C|].
    split; [now apply push_recent|]. split; [now apply upcoming_iff|exact LS].
  - intros (o' & (before & l & after & before' & l' & raws & p & ctx' & next & -> & CB & CL & R & CN & RE & U & LS) & SO).
    apply cleaned_map in CB. subst before'. apply clean_line_iff in CL. subst l'. apply vtt_read_iff in R.
    destruct (vprefix_read before raws R) as (st & ctx & rs & V & C & RC & E). rewrite E, vloop_round, stopped_bind. left.
    apply (vround_stops _ _ _ _ _ _ next); [exact V|exact U|]. exists o'. split; [|exact SO].
    rewrite (vtt_next_unique _ _ _ C CN). now rewrite (recent_unique _ _ _ (push_recent _ _ (clean_line l) RC) RE).
Qed.
Lemma vtt_read_throws ls e : vtt_read ls = Throw e <-> vtt_stops ls (Throw e).
Proof.
  rewrite <- (stopped_eq (vtt_read ls) (Throw e)) by discriminate. rewrite vtt_stops_iff. split.
  - intros (o' & S & SO). assert (N : forall a, Throw e <> Ok a :> res (list raw)) by discriminate. apply (stopped_eq o' (Throw e) N) in SO. now subst o'.
  - intros S. exists (Throw e). split; [exact S|reflexivity].
Qed.
Lemma vtt_read_undefined ls u : vtt_read ls = Undef u <-> vtt_stops ls (Undef u).
Proof.
  rewrite <- (stopped_eq (vtt_read ls) (Undef u)) by discriminate. rewrite vtt_stops_iff. split.
  - intros (o' & S & SO). assert (N : forall a, Undef u <> Ok a :> res (list raw)) by discriminate. apply (stopped_eq o' (Undef u) N) in SO. now subst o'.
  - intros S. exists (Undef u). split; [exact S|reflexivity].
Qed.
Theorem vtt_string_throws s e : vtt_reader_string s = Throw e <-> exists ls, text_lines s ls /\ vtt_stops ls (Throw e).
Proof.
  unfold vtt_reader_string. rewrite vtt_read_throws. split.
  - intros R. exists (lines_of_string s). split; [now apply lines_of_string_iff|exact R].
  - intros (ls & L & R). apply lines_of_string_iff in L. now rewrite L.
Qed.
Theorem vtt_string_undefined s u : vtt_reader_string s = Undef u <-> exists ls, text_lines s ls /\ vtt_stops ls (Undef u).
Proof.
  unfold vtt_reader_string. rewrite vtt_read_undefined. split.
  - intros R. exists (lines_of_string s). split; [now apply lines_of_string_iff|exact R].
  - intros (ls & L & R). apply lines_of_string_iff in L. now rewrite L.
Qed.
