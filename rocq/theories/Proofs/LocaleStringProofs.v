(** Numbers written by locale_convert. *)
From Coq Require Import ZArith Lia Bool List Ascii String.
From Verif.Model Require Import Base Strings RawConvert.
From Verif.Spec Require Import TextSpec DumpSpec.
From Verif.Proofs Require Import DumpProofs.
Local Open Scope Z_scope.

Lemma int_written x : shown_int (locale_string_int x) x /\ shown_int (locale_string_long x) x.
Proof. split; apply print_int_shown. Qed.
Lemma unsigned_written x : 0 <= x -> shown_int (locale_string_ulong x) x.
Proof. intros H. left. split; [exact H|]. now apply digits_shown. Qed.
Lemma long_written x : 0 <= x < 2 ^ 63 -> shown_int (locale_string_ulonglong x) x.
Proof. intros [A B]. unfold locale_string_ulonglong. apply Z.ltb_lt in B. rewrite B. apply print_int_shown. Qed.
Lemma too_long_written x : 2 ^ 63 <= x < 2 ^ 64 -> shown_int (locale_string_ulonglong x) (x - 2 ^ 64).
Proof. intros [A B]. unfold locale_string_ulonglong. apply Z.ltb_ge in A. rewrite A. apply print_int_shown. Qed.
Lemma shown_unique s v w : shown_int s v -> shown_int s w -> v = w.
Proof.
  assert (U : forall s a b, shown_nat s a -> shown_nat s b -> a = b).
  { intros t a b [A _] [B _]. pose proof (StringProofs.numeral_digits t a A). pose proof (StringProofs.numeral_digits t b B). intuition congruence. }
  assert (M : forall d a, shown_nat ("-"%char :: d) a -> False).
  { intros d a [A _]. destruct (StringProofs.numeral_digits _ _ A) as (F & _). inversion F as [|? ? D _]. discriminate. }
  intros [[A V]|[A (d & E & V)]] [[B W]|[B (e & E' & W)]].
  - exact (U _ _ _ V W).
  - subst s. now apply M in V.
  - subst s. now apply M in W.
  - subst s. injection E' as <-. pose proof (U _ _ _ V W). lia.
Qed.
Lemma wrong_long : exists x, 0 <= x < 2 ^ 64 /\ ~ shown_int (locale_string_ulonglong x) x.
Proof.
  exists (2 ^ 63). split; [lia|]. intros H. assert (L : 2 ^ 63 <= 2 ^ 63 < 2 ^ 64) by lia. pose proof (shown_unique _ _ _ H (too_long_written _ L)). lia.
Qed.
