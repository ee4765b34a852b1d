(** Line ends in files, whose lines are read into a buffer of 255 bytes. *)
From Coq Require Import ZArith Lia List Bool Ascii String.
From Verif.Model Require Import Base Strings Float TimeModel Types Lines Subrip WebVtt Ssa.
From Verif.Spec Require Import Outcome TextSpec LinesSpec SubripUseSpec TextFileSpec.
From Verif.Proofs Require Import StringProofs LinesProofs SubripUseProofs WebVttUseProofs SsaSafeProofs TextFileProofs.
Import ListNotations.
Local Notation length := List.length.

(** * One buffer after the other *)

Lemma get_shorter s l rest : get_line_file s = Some (l, rest) -> length rest < length s.
Proof.
  unfold get_line_file. destruct s as [|c s]; [discriminate|]. destruct (fgets 255 (c :: s)) as [b r] eqn:F. intros [= <- <-].
  pose proof (fgets_len _ _ _ _ F) as E. apply (f_equal (@List.length ascii)) in E. rewrite app_length in E.
  destruct b as [|x b]; [|cbn in E |- *; lia]. exfalso. destruct (fgets_cases _ _ _ _ F) as [(l & _ & X & _)|[(_ & X & _)|(_ & _ & X & _)]]; [now destruct l|discriminate|discriminate].
Qed.
Lemma fuel_any fuel : forall s, length s <= fuel -> all_lines get_line_file fuel s = lines_of_file s.
Proof.
  induction fuel as [fuel IH] using lt_wf_ind. intros s L. unfold lines_of_file. destruct fuel as [|fuel]; [destruct s; [reflexivity|cbn in L; lia]|].
  destruct s as [|c s]; [reflexivity|]. cbn [all_lines List.length]. destruct (get_line_file (c :: s)) as [[l rest]|] eqn:G; [|reflexivity].
  apply get_shorter in G. cbn in G, L. f_equal. rewrite (IH fuel ltac:(lia) rest ltac:(lia)).
  destruct (Nat.eq_dec (length s) fuel) as [->|D]; [symmetry; apply IH; lia|]. symmetry. apply IH; lia.
Qed.
Lemma lines_step s l rest : get_line_file s = Some (l, rest) -> lines_of_file s = l :: lines_of_file rest.
Proof.
  intros G. pose proof (get_shorter _ _ _ G) as L. unfold lines_of_file at 1. destruct s as [|c s]; [discriminate G|]. cbn [List.length all_lines]. rewrite G. f_equal.
  apply fuel_any. cbn in L. lia.
Qed.
Lemma short_step l rest : ~ In lf l -> length l <= 254 -> lines_of_file (l ++ lf :: rest) = c_string (l ++ [lf]) :: lines_of_file rest.
Proof.
  intros N L. apply lines_step. unfold get_line_file. rewrite fgets_short by (try assumption; lia). destruct l; reflexivity.
Qed.
Lemma fgets_full n : forall l rest, length l = n -> ~ In lf l -> fgets n (l ++ rest) = (l, rest).
Proof.
  induction n as [|n IH]; intros [|c l] rest L N; try discriminate L; [reflexivity|]. cbn [app fgets].
  assert (E : Ascii.eqb c newline = false) by (apply Ascii.eqb_neq; intros ->; apply N; now left). rewrite E, IH; [reflexivity|now injection L|]. intros I. apply N. now right.
Qed.
Lemma full_step l rest : ~ In lf l -> length l = 255 -> lines_of_file (l ++ rest) = c_string l :: lines_of_file rest.
Proof.
  intros N L. apply lines_step. unfold get_line_file. rewrite fgets_full by assumption. destruct l; [discriminate L|reflexivity].
Qed.

(** * Lines that are the same once cleaned or trimmed *)

Definition alike (a b : str) : Prop := clean_line a = clean_line b /\ trim a = trim b.
Lemma alike_refl a : alike a a. Proof. split; reflexivity. Qed.
Lemma alike_trans a b c : alike a b -> alike b c -> alike a c. Proof. intros [A B] [C D]. split; congruence. Qed.
Lemma alike_sym a b : alike a b -> alike b a. Proof. intros [A B]. split; congruence. Qed.
Lemma alike_lf a : alike (a ++ [lf]) a. Proof. split; [apply clean_lf|apply trim_lf]. Qed.
Lemma alike_cr a : alike (a ++ [cr]) a. Proof. split; [apply clean_cr|apply trim_cr]. Qed.
Lemma c_string_more a b : c_string (a ++ b) = c_string a ++ (if forallb (fun c => negb (code c =? 0)%Z) a then c_string b else []).
Proof.
  unfold c_string. induction a as [|c a IH]; [reflexivity|]. cbn [app take_while forallb]. destruct (code c =? 0)%Z; cbn [negb andb app]; [reflexivity|]. now rewrite IH.
Qed.
Lemma alike_end a b : Forall (fun c => c = cr \/ c = lf) b -> alike (c_string (a ++ b)) (c_string a).
Proof.
  intros F. rewrite c_string_more. destruct (forallb _ a); [|rewrite app_nil_r; apply alike_refl].
  assert (E : c_string b = b) by (clear a; induction F as [|c b [-> | ->] F IH]; [reflexivity|unfold c_string in *; cbn; now rewrite IH..]). rewrite E. clear E.
  induction b as [|c b IH] using rev_ind; [rewrite app_nil_r; apply alike_refl|]. apply Forall_app in F. destruct F as [F1 F2]. rewrite app_assoc. eapply alike_trans; [|apply IH, F1].
  apply Forall_inv in F2. destruct F2 as [-> | ->]; [apply alike_cr|apply alike_lf].
Qed.

Ltac ends := repeat (apply Forall_cons; [auto|]); apply Forall_nil.

(** * A file with other line ends *)

Lemma same_length_lines n : forall l s' t, length l <= n -> ~ In lf l ->
  Forall2 alike (lines_of_file s') (lines_of_file t) -> Forall2 alike (lines_of_file (l ++ lf :: s')) (lines_of_file (l ++ lf :: t)) /\
  (length l mod 255 <> 254 -> Forall2 alike (lines_of_file (l ++ cr :: lf :: s')) (lines_of_file (l ++ lf :: t))) /\
  (length l mod 255 = 254 -> Forall2 alike (lines_of_file (l ++ cr :: lf :: s')) (lines_of_file (l ++ lf :: lf :: t))).
Proof.
  induction n as [n IH] using lt_wf_ind. intros l s' t L N F.
  assert (NC : ~ In lf (l ++ [cr])) by now apply cr_no_lf. assert (EC : forall r, l ++ cr :: lf :: r = (l ++ [cr]) ++ lf :: r) by (intros r; now rewrite <- app_assoc).
  destruct (Nat.le_gt_cases (length l) 254) as [S|S].
  - split; [|split].
    + rewrite !short_step by assumption. constructor; [apply alike_refl|exact F].
    + intros D. rewrite Nat.mod_small in D by lia. rewrite EC, short_step by (rewrite ?app_length; cbn; try assumption; lia). rewrite short_step by assumption. constructor; [|exact F].
      rewrite <- app_assoc. eapply alike_trans; [apply (alike_end l); cbn [app]; ends|]. apply alike_sym, (alike_end l). ends.
    + intros D. rewrite Nat.mod_small in D by lia. rewrite EC, full_step by (rewrite ?app_length; cbn; try assumption; lia). rewrite short_step by assumption.
      constructor; [eapply alike_trans; [apply (alike_end l)|apply alike_sym, (alike_end l)]; ends|].
      change (lf :: s') with ([] ++ lf :: s'). change (lf :: t) with ([] ++ lf :: t). rewrite (short_step [] s'), (short_step [] t) by first [intros []|cbn; lia]. constructor; [apply alike_refl|exact F].
  - rewrite <- (firstn_skipn 255 l). set (a := firstn 255 l). set (b := skipn 255 l).
    assert (LA : length a = 255) by (unfold a; rewrite firstn_length; lia). assert (LB : length b = length l - 255) by apply skipn_length.
    assert (NA : ~ In lf a) by (intros I; apply N; rewrite <- (firstn_skipn 255 l); apply in_or_app; now left).
    assert (NB : ~ In lf b) by (intros I; apply N; rewrite <- (firstn_skipn 255 l); apply in_or_app; now right).
    destruct (IH (length b) ltac:(lia) b s' t (le_n _) NB F) as (H1 & H2 & H3).
    assert (M : length (a ++ b) mod 255 = length b mod 255).
    { rewrite app_length, LA. replace (255 + length b) with (length b + 1 * 255) by lia. apply Nat.mod_add. discriminate. }
    rewrite M. split; [|split]; [|intros D; specialize (H2 D)|intros D; specialize (H3 D)];
      rewrite <- !app_assoc; rewrite !(full_step a) by assumption; (constructor; [apply alike_refl|assumption]).
Qed.
Lemma alike_all ls : Forall2 alike ls ls. Proof. induction ls; constructor; [apply alike_refl|assumption]. Qed.
Lemma file_lines_alike s s' t : ends_in_file s s' t -> Forall2 alike (lines_of_file s') (lines_of_file t).
Proof.
  induction 1 as [l N|l s s' t N E IH|l s s' t N D E IH|l s s' t N D E IH]; [apply alike_all|..];
    destruct (same_length_lines (length l) l s' t (le_n _) N IH) as (H1 & H2 & H3); auto.
Qed.
Lemma ends_total s ls : text_lines s ls -> forall s', other_ends s s' -> exists t, ends_in_file s s' t.
Proof.
  induction 1 as [|l NE N|l rest ls N T IH]; intros s' O.
  - inversion O; subst. exists []. apply file_ends_last. intros [].
  - apply other_ends_free in O; [|exact N]. subst s'. exists l. now apply file_ends_last.
  - apply other_ends_app in O; [|exact N]. destruct O as (r & -> & O). inversion O as [|c' x y O'|x y O']; subst; destruct (IH _ O') as (t & E).
    + eexists. exact (file_ends_same l _ _ _ N E).
    + destruct (Nat.eq_dec (length l mod 255) 254) as [D|D]; eexists; [exact (file_ends_split l _ _ _ N D E)|exact (file_ends_added l _ _ _ N D E)].
Qed.
Theorem ends_exist s s' : other_ends s s' -> exists t, ends_in_file s s' t.
Proof. apply (ends_total s (lines_of_string s)). now apply lines_of_string_iff. Qed.

Lemma alike_clean ls ls' : Forall2 alike ls ls' -> Forall2 (fun a b => clean_line a = clean_line b) ls ls'.
Proof. apply Forall2_weaken. now intros a b []. Qed.
Lemma alike_trim ls ls' : Forall2 alike ls ls' -> Forall2 (fun a b => trim a = trim b) ls ls'.
Proof. apply Forall2_weaken. now intros a b []. Qed.

Theorem subrip_file_any_ends s s' t : ends_in_file s s' t -> same_outcome (subrip_reader_file s') (subrip_reader_file t).
Proof. intros E. unfold subrip_reader_file. apply subrip_lines_same, alike_clean. exact (file_lines_alike s s' t E). Qed.
Theorem vtt_file_any_ends s s' t : ends_in_file s s' t -> same_outcome (vtt_reader_file s') (vtt_reader_file t).
Proof. intros E. unfold vtt_reader_file. apply vtt_lines_same, alike_clean. exact (file_lines_alike s s' t E). Qed.
Theorem ssa_file_any_ends s s' t : ends_in_file s s' t -> ssa_reader_file s' = ssa_reader_file t.
Proof. intros E. unfold ssa_reader_file. apply ssa_lines_same, alike_trim. exact (file_lines_alike s s' t E). Qed.
