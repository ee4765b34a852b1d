(** The warnings about a text STL file. *)
From Coq Require Import ZArith Lia Bool List Ascii String.
From Verif.Model Require Import Base Strings TimeModel Types Compose StlText.
From Verif.Spec Require Import Outcome TextSpec LinesSpec SsaSpec StlTextSpec FactorySpec WarningSpec.
From Verif.Proofs Require Import StringProofs SsaTextProofs SsaProofs StlTextUseProofs StlTextProofs.
Import ListNotations.
Local Open Scope Z_scope.
Local Notation length := List.length.

Lemma line_message l : compose (lit "Unrecognised line %1") [l] = unknown_line l.
Proof.
  unfold compose, unknown_line.
  match goal with |- context [compose_parse ?f ?s] => let v := eval vm_compute in (compose_parse f s) in change (compose_parse f s) with v end.
  unfold lit. cbn [list_ascii_of_string flat_map compose_piece app]. unfold numbered_args. destruct l; cbn [filter is_nil negb]; [reflexivity|].
  change (1 <=? 0) with false. change (Z.to_nat (1 - 1)) with 0%nat. cbn [nth]. now rewrite app_nil_r.
Qed.
Lemma time_message t : compose (lit "Unrecognised time %1") [t] = unknown_time t.
Proof.
  unfold compose, unknown_time.
  match goal with |- context [compose_parse ?f ?s] => let v := eval vm_compute in (compose_parse f s) in change (compose_parse f s) with v end.
  unfold lit. cbn [list_ascii_of_string flat_map compose_piece app]. unfold numbered_args. destruct t; cbn [filter is_nil negb]; [reflexivity|].
  change (1 <=? 0) with false. change (Z.to_nat (1 - 1)) with 0%nat. cbn [nth]. now rewrite app_nil_r.
Qed.

Lemma time_quiet t a b c d : four_fields t a b c d -> stlt_time_output t = [].
Proof. intros F. apply fields_split in F. unfold stlt_time_output. now rewrite F. Qed.
Lemma time_loud t : no_time t -> stlt_time_output t = unknown_time t ++ [lf].
Proof.
  intros N. unfold stlt_time_output. rewrite time_message. destruct (split (is_any_of (lit ":")) t) as [|a [|b [|c [|d [|e f]]]]] eqn:E; try reflexivity.
  apply fields_split in E. now apply N in E.
Qed.
Lemma known_quiet t : known_time t -> stlt_time_output t = [].
Proof. intros (x & a & b & c & d & h & m & s & f & F & _). now apply (time_quiet t a b c d). Qed.
Lemma fatal_quiet t : fatal_time t -> stlt_time_output t = [].
Proof. intros [(a & b & c & d & F & _)|(a & b & c & d & h & m & s & F & _)]; now apply (time_quiet t a b c d). Qed.
Lemma known_value t : known_time t -> exists x, stlt_time t = Ok (Some x).
Proof. intros (x & F). exists x. now apply time_iff. Qed.
Lemma no_value t : no_time t -> stlt_time t = Ok None.
Proof. intros N. now apply time_iff. Qed.
Lemma fatal_value t : fatal_time t -> stlt_time t = Throw EBadLexicalCast \/ stlt_time t = Undef UbIntOverflow.
Proof. intros [F|F]; [left|right]; now apply time_iff. Qed.
Lemma time_kinds t : known_time t \/ no_time t \/ fatal_time t.
Proof.
  pose proof (time_total t) as T. destruct (stlt_time t) as [[x|]| |]; cbn [time_case] in T.
  - left. now exists x.
  - tauto.
  - right. right. left. tauto.
  - right. right. right. tauto.
Qed.

(** The output for a trimmed line. *)
Definition line_output (l : str) : str :=
  if starts_with l (lit "//") then []
  else if starts_with l (lit "$") then
    match split (is_any_of (lit "=")) l with [_; _] => [] | _ => unknown_line l ++ [lf] end
  else
    match stlt_fields l with
    | None => unknown_line l ++ [lf]
    | Some (start, finish, _) =>
        stlt_time_output start ++
        match stlt_time start with
        | Ok from => stlt_time_output finish ++
            match stlt_time finish with Ok to => if is_some from && is_some to then [] else unknown_line l ++ [lf] | _ => [] end
        | _ => []
        end
    end.
Lemma line_output_ok l : stlt_line_output l = line_output (trim l).
Proof. unfold stlt_line_output, line_output, warn. cbv zeta. rewrite line_message. reflexivity. Qed.
Lemma setting_parts l name v : setting_line l name v -> starts_with l (lit "//") = false /\ starts_with l (lit "$") = true /\
  exists a b, split (is_any_of (lit "=")) l = [a; b].
Proof.
  intros (S & n & w & -> & Nn & Nw & _). split; [destruct S as [rest E]; rewrite E; reflexivity|]. split; [now apply starts_with_iff|].
  exists n, w. apply (parts_iff "="%char). split; [discriminate|]. split; [reflexivity|]. constructor; [|constructor; [|constructor]]; rewrite contains_one; assumption.
Qed.
Lemma setting_parts_back l a b : starts_with l (lit "$") = true -> split (is_any_of (lit "=")) l = [a; b] -> setting_line l (trim a) (trim b).
Proof.
  intros S E. split; [now apply starts_with_iff|]. apply (parts_iff "="%char) in E. destruct E as (_ & -> & F).
  inversion F as [|? ? Fa F2]; subst. inversion F2 as [|? ? Fb _]; subst. rewrite contains_one in Fa, Fb.
  exists a, b. split; [reflexivity|]. split; [exact Fa|]. split; [exact Fb|]. split; now apply trim_iff.
Qed.

Lemma line_warned l ws : line_warns l ws -> line_output l = on_lines ws.
Proof.
  assert (SUB : forall start finish text, subtitle_line l start finish text ->
    starts_with l (lit "//") = false /\ starts_with l (lit "$") = false /\ stlt_fields l = Some (start, finish, text)).
  { intros start finish text S. pose proof (fields_found _ _ _ _ S). destruct S as (A & B & _). apply starts_false in A, B. auto. }
  unfold line_output, on_lines. intros H. destruct H as [C|name v S|NC NS NT|a b t S F|a b t S K F|a b t S K N|a b t S N K|a b t S N F|a b t S N1 N2]; cbn [map List.concat];
    try (destruct (SUB _ _ _ S) as (-> & -> & ->)).
  - apply starts_with_iff in C. now rewrite C.
  - destruct (setting_parts _ _ _ S) as (-> & -> & x & y & ->). reflexivity.
  - pose proof NC as NC'. apply starts_false in NC'. rewrite NC'. rewrite app_nil_r. destruct (starts_with l (lit "$")) eqn:D.
    + destruct (split (is_any_of (lit "=")) l) as [|a [|b [|c d]]] eqn:E; try reflexivity.
      now apply (setting_parts_back l a b D), NS in E.
    + apply starts_false in D. destruct (fields_kind l NC D) as [(a & b & c & S)|[-> _]]; [now apply NT in S|reflexivity].
  - rewrite (fatal_quiet _ F). destruct (fatal_value _ F) as [->| ->]; reflexivity.
  - rewrite (known_quiet _ K). destruct (known_value _ K) as (x & ->). destruct F as [F|F].
    + rewrite (known_quiet _ F). destruct (known_value _ F) as (y & ->). reflexivity.
    + rewrite (fatal_quiet _ F). destruct (fatal_value _ F) as [->| ->]; reflexivity.
  - rewrite (known_quiet _ K). destruct (known_value _ K) as (x & ->). rewrite (time_loud _ N), (no_value _ N). cbn [app is_some andb].
    now rewrite app_nil_r.
  - rewrite (time_loud _ N), (no_value _ N), (known_quiet _ K). destruct (known_value _ K) as (x & ->). cbn [app is_some andb]. now rewrite app_nil_r.
  - rewrite (time_loud _ N), (no_value _ N), (fatal_quiet _ F). destruct (fatal_value _ F) as [->| ->]; reflexivity.
  - rewrite (time_loud _ N1), (no_value _ N1), (time_loud _ N2), (no_value _ N2). cbn [app is_some andb]. now rewrite app_nil_r.
Qed.
Lemma line_warnings_exist l : exists ws, line_warns l ws.
Proof.
  destruct (starts_with l (lit "//")) eqn:C. { apply starts_with_iff in C. exists []. now apply warns_comment. }
  apply starts_false in C.
  destruct (line_kind new_look l) as [(name & v & S)|[(a & b & t & S)|(_ & N1 & N2)]].
  - exists []. now apply (warns_setting l name v).
  - destruct (time_kinds a) as [K|[N|F]]; [| |exists []; now apply (warns_fatal l a b t)];
      destruct (time_kinds b) as [K2|[N2|F2]]; eexists.
    + apply (warns_fine l a b t S K). now left.
    + now apply (warns_finish l a b t).
    + apply (warns_fine l a b t S K). now right.
    + now apply (warns_start l a b t).
    + now apply (warns_both l a b t).
    + now apply (warns_start_fatal l a b t).
  - eexists. now apply warns_unknown.
Qed.

Lemma stops_value r l o : good r -> text_stops l o -> forall x, line_step r l <> Ok x.
Proof.
  intros G S x E. pose proof (line_sound r l) as LS. destruct o as [y|e|u].
  - inversion S.
  - rewrite (LS (Throw e) G S) in E. discriminate.
  - rewrite (LS (Undef u) G S) in E. discriminate.
Qed.
Lemma goes_on_value r l : good r -> (forall o, ~ text_stops l o) -> exists r' rs, line_step r l = Ok (r', rs).
Proof.
  intros G N. pose proof (line_total r l G) as T. destruct (line_step r l) as [[r' rs]|e|u]; cbn [line_case] in T.
  - now exists r', rs.
  - now apply N in T.
  - now apply N in T.
Qed.
Lemma on_lines_app a b : on_lines (a ++ b) = on_lines a ++ on_lines b.
Proof. unfold on_lines. now rewrite map_app, concat_app. Qed.
Lemma lines_warned ls ws : file_warns ls ws -> forall r subs, good r -> stlt_lines_output r subs ls = on_lines ws.
Proof.
  induction 1 as [|l l' ls ws o T S W|l l' ls ws wss T S W H IH]; intros r subs G; cbn [stlt_lines_output].
  - reflexivity.
  - rewrite line_output_ok. apply trim_iff in T. rewrite T, (line_warned _ _ W), (line_step_ok r subs l G), T.
    pose proof (stops_value r l' o G S) as E. destruct (line_step r l') as [x| |]; [now destruct (E x)|cbn [bind]; apply app_nil_r..].
  - rewrite line_output_ok. apply trim_iff in T. rewrite T, (line_warned _ _ W), (line_step_ok r subs l G), T.
    destruct (goes_on_value r l' G S) as (r' & rs & E). rewrite E. cbn [bind fst snd].
    rewrite (IH r' (subs ++ rs) (line_good _ _ _ _ G E)). now rewrite on_lines_app.
Qed.
Lemma file_warnings_exist ls : exists ws, file_warns ls ws.
Proof.
  induction ls as [|l ls (wss & IH)]; [exists []; constructor|].
  destruct (line_warnings_exist (trim l)) as (ws & W). pose proof (line_total new_look (trim l) new_look_good) as T.
  assert (TR : trimmed l (trim l)) by now apply trim_iff.
  destruct (line_step new_look (trim l)) as [[r' rs]|e|u] eqn:E; cbn [line_case] in T.
  - exists (ws ++ wss). apply (warns_more l (trim l)); try assumption. intros o S. exact (stops_value new_look _ o new_look_good S _ E).
  - exists ws. exact (warns_stop l (trim l) ls ws _ TR T W).
  - exists ws. exact (warns_stop l (trim l) ls ws _ TR T W).
Qed.

Theorem text_warned s ws : text_stl_warnings s ws -> stl_text_output true s = on_lines ws.
Proof.
  intros (ls & C & W). apply (getlines_iff (length s)) in C; [|lia]. unfold stl_text_output. rewrite new_look_ok, C.
  exact (lines_warned ls ws W new_look [] new_look_good).
Qed.
Theorem text_warnings_exist s : exists ws, text_stl_warnings s ws.
Proof.
  destruct (file_warnings_exist (getlines (length s) s)) as (ws & W). exists ws, (getlines (length s) s). split; [|exact W].
  now apply (getlines_iff (length s)).
Qed.
Theorem no_stream_no_warning s : stl_text_output false s = [].
Proof. reflexivity. Qed.

(** The warnings about a file are determined. *)
Lemma on_lines_inj : forall a b, Forall (fun w => ~ In lf w) a -> Forall (fun w => ~ In lf w) b -> on_lines a = on_lines b -> a = b.
Proof.
  unfold on_lines. induction a as [|x a IH]; intros [|y b] A B E; cbn [map List.concat] in E.
  - reflexivity.
  - rewrite <- app_assoc in E. now destruct y.
  - rewrite <- app_assoc in E. now destruct x.
  - rewrite <- !app_assoc in E. cbn [app] in E. inversion A as [|? ? A1 A2]; subst. inversion B as [|? ? B1 B2]; subst.
    destruct (first_sep _ _ _ _ _ A1 B1 E) as [-> E2]. f_equal. now apply IH.
Qed.
Lemma trimmed_no_lf a b : trimmed a b -> ~ In lf a -> ~ In lf b.
Proof. intros T N I. apply trimmed_inside in T. destruct T as (x & y & ->). apply N, in_or_app. right. apply in_or_app. now left. Qed.
Lemma unknown_line_no_lf l : ~ In lf l -> ~ In lf (unknown_line l).
Proof. intros N I. apply in_app_or in I. destruct I as [I|I]; [|contradiction]. revert I. vm_compute. intuition discriminate. Qed.
Lemma unknown_time_no_lf l : ~ In lf l -> ~ In lf (unknown_time l).
Proof. intros N I. apply in_app_or in I. destruct I as [I|I]; [|contradiction]. revert I. vm_compute. intuition discriminate. Qed.
Lemma fields_no_lf l start finish text : subtitle_line l start finish text -> ~ In lf l -> ~ In lf start /\ ~ In lf finish.
Proof.
  intros (_ & _ & _ & from & x & to & (-> & _) & _ & T1 & T2) N. split.
  - apply (trimmed_no_lf _ _ T1). intros I. apply N. apply in_or_app. left. apply in_or_app. now left.
  - apply (trimmed_no_lf _ _ T2). intros I. apply N. apply in_or_app. right. right. apply in_or_app. now left.
Qed.
Lemma line_warns_no_lf l ws : line_warns l ws -> ~ In lf l -> Forall (fun w => ~ In lf w) ws.
Proof.
  intros H N. destruct H as [C|name v S|NC NS NT|a b t S F|a b t S K F|a b t S K N2|a b t S N1 K|a b t S N1 F|a b t S N1 N2];
    try (destruct (fields_no_lf _ _ _ _ S N)); repeat constructor; auto using unknown_line_no_lf, unknown_time_no_lf.
Qed.
Lemma file_warns_no_lf ls ws : file_warns ls ws -> Forall (fun l => ~ In lf l) ls -> Forall (fun w => ~ In lf w) ws.
Proof.
  induction 1 as [|l l' ls ws o T S W|l l' ls ws wss T S W H IH]; intros F; [constructor| |]; inversion F; subst.
  - apply (line_warns_no_lf _ _ W). now apply (trimmed_no_lf _ _ T).
  - apply Forall_app. split; [|auto]. apply (line_warns_no_lf _ _ W). now apply (trimmed_no_lf _ _ T).
Qed.
Lemma complete_no_lf s ls : complete_lines s ls -> Forall (fun l => ~ In lf l) ls.
Proof. induction 1; constructor; auto. Qed.
Theorem warnings_unique s ws ws' : text_stl_warnings s ws -> text_stl_warnings s ws' -> ws = ws'.
Proof.
  intros A B. apply on_lines_inj.
  - destruct A as (ls & C & W). exact (file_warns_no_lf _ _ W (complete_no_lf _ _ C)).
  - destruct B as (ls & C & W). exact (file_warns_no_lf _ _ W (complete_no_lf _ _ C)).
  - apply text_warned in A, B. congruence.
Qed.
