(** The messages of exceptions. *)
From Coq Require Import ZArith Lia Bool List Ascii String.
From Verif.Model Require Import Base Strings Lines Compose Exceptions.
From Verif.Spec Require Import Outcome TextSpec LinesSpec DumpSpec MessageSpec.
From Verif.Proofs Require Import StringProofs ComposeProofs ColourProofs DumpProofs.
Import ListNotations.
Local Open Scope Z_scope.

Lemma c_string_up_to s : up_to_nul s (c_string s).
Proof.
  unfold c_string. induction s as [|c s (rest & E & F & R)]; cbn [take_while].
  - exists []. repeat split; auto.
  - destruct (Z.eqb_spec (code c) 0) as [Z|Z]; cbn [negb].
    + exists (c :: s). split; [reflexivity|]. split; [constructor|]. right. exists c, s. split; [reflexivity|]. now rewrite char_code_code.
    + exists rest. split; [cbn; now f_equal|]. split; [|exact R]. constructor; [now rewrite char_code_code | exact F].
Qed.
Lemma seen_text saw : seen saw (saw_text saw).
Proof. unfold seen, saw_text. destruct saw; cbn [is_nil]; [left; auto | right; split; [discriminate|reflexivity]]. Qed.
Lemma saw_text_ne saw : saw_text saw <> [].
Proof. unfold saw_text. destruct saw; discriminate. Qed.
Lemma print_int_ne v : print_int v <> [].
Proof. pose proof (shown_int_ne _ _ (print_int_shown v)) as H. intros E. rewrite E in H. cbn in H. lia. Qed.
Lemma numbered_cons a l : a <> [] -> numbered_args (a :: l) = a :: numbered_args l.
Proof. unfold numbered_args. cbn [filter]. destruct a; [contradiction | reflexivity]. Qed.

Lemma subrip_said n saw expecting : subrip_message n saw expecting (subrip_error_message n saw expecting).
Proof.
  exists (print_int n), (saw_text saw). split; [apply print_int_shown|]. split; [apply seen_text|].
  unfold subrip_error_message, compose. remember (print_int n) as d eqn:D. remember (saw_text saw) as t eqn:T.
  assert (A : exists r, numbered_args [d; t; expecting] = d :: t :: r /\ nth 0 r [] = expecting).
  { rewrite !numbered_cons by (subst; first [apply print_int_ne | apply saw_text_ne]).
    exists (numbered_args [expecting]). split; [reflexivity|]. unfold numbered_args. cbn [filter]. now destruct expecting. }
  destruct A as (r & A & E).
  match goal with |- context [compose_parse ?f ?s] => let v := eval vm_compute in (compose_parse f s) in change (compose_parse f s) with v end.
  unfold lit. cbn [list_ascii_of_string flat_map compose_piece app]. rewrite A.
  cbn [Z.leb Z.compare Z.sub Z.opp Z.add Z.pos_sub Z.to_nat Pos.to_nat nth Pos.pred_double Z.pred_double Z.double Pos.iter_op Nat.add]. 
  change (Pos.to_nat 2) with 2%nat. change (Pos.to_nat 1) with 1%nat. cbn [nth]. rewrite E, app_nil_r. reflexivity.
Qed.
Lemma webvtt_said saw expecting : webvtt_message saw expecting (webvtt_error_message saw expecting).
Proof. exists (saw_text saw). split; [apply seen_text | reflexivity]. Qed.
Lemma assertion_said file line : file <> [] -> assertion_message file line (programming_error_message file line).
Proof.
  intros F. exists (print_int line). split; [apply print_int_shown|].
  unfold programming_error_message, compose. pose proof (print_int_ne line) as L. remember (print_int line) as d eqn:D.
  match goal with |- context [compose_parse ?f ?s] => let v := eval vm_compute in (compose_parse f s) in change (compose_parse f s) with v end.
  unfold lit. cbn [list_ascii_of_string flat_map compose_piece app]. rewrite !numbered_cons by assumption.
  change (1 <=? 0) with false. change (2 <=? 0) with false. change (Z.to_nat (1 - 1)) with 0%nat. change (Z.to_nat (2 - 1)) with 1%nat.
  cbn [nth]. rewrite app_nil_r. reflexivity.
Qed.

Lemma what_subrip n saw expecting ctx : exists m s, subrip_message n saw expecting m /\ up_to_nul m s /\ what (ESubrip n saw expecting ctx) = Some s.
Proof. eexists _, _. split; [apply subrip_said|]. split; [apply c_string_up_to|reflexivity]. Qed.
Lemma what_webvtt saw expecting ctx : exists m s, webvtt_message saw expecting m /\ up_to_nul m s /\ what (EWebVtt saw expecting ctx) = Some s.
Proof. eexists _, _. split; [apply webvtt_said|]. split; [apply c_string_up_to|reflexivity]. Qed.
Lemma what_others m : exists s, up_to_nul m s /\ what (EXml m) = Some s /\ what (EStl m) = Some s /\ what (ESsa m) = Some s.
Proof. exists (c_string m). split; [apply c_string_up_to|]. auto. Qed.
