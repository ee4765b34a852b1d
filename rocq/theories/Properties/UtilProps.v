(** C57, C58: number conversion in any locale and String::compose.  Statements only; proofs are in theories/Proofs. *)
From Coq Require Import ZArith Lia List Ascii String.
From Verif.Model Require Import Base Strings RawConvert Compose Float.
From Verif.Spec Require Import Outcome TextSpec ComposeSpec.
From Verif.Proofs Require Import StringProofs ComposeProofs.
Import ListNotations.
Local Open Scope Z_scope.

(** C57.  Locales make no difference. *)
Theorem C57_float_any_locale : forall loc v, separator (decimal_point loc) ->
  ~ In (decimal_point loc) v \/ decimal_point loc = "."%char ->
  raw_convert_float_in loc v = raw_convert_float_in (mkLoc "."%char []) v.
Proof. exact float_any_locale. Qed.
Print Assumptions C57_float_any_locale.
Example C57_float_case : let loc := mkLoc ","%char ["."%char] in
  (separator (decimal_point loc) /\ ~ In (decimal_point loc) (lit "12.5%")) /\
  raw_convert_float_in loc (lit "12.5%") = f_lit 125 10.
Proof.
  split; [split|]; [|vm_compute; intuition congruence|vm_compute; reflexivity].
  repeat split; try (intros [? ?]); vm_compute in *; intuition congruence.
Qed.
Theorem C57_int_any_locale : forall loc v, separator (decimal_point loc) ->
  raw_convert_int_in loc v = raw_convert_int_in (mkLoc "."%char []) v.
Proof. exact int_any_locale. Qed.
Print Assumptions C57_int_any_locale.
(** An int is read from leading decimal digits. *)
Theorem C57_int_value : forall loc v s rest, separator (decimal_point loc) -> numeral s v -> is_int v ->
  (forall c r, rest = c :: r -> ~ exists d, dec_digit c d) -> raw_convert_int_in loc (s ++ rest) = Ok v.
Proof. exact int_value. Qed.
Print Assumptions C57_int_value.
Example C57_int_case : numeral (lit "042") 42.
Proof. apply (numeral_more (lit "04") 4 "2" 2); [apply (numeral_more (lit "0") 0 "4" 4); [constructor|]|]; split; vm_compute; intuition congruence. Qed.
Theorem C57_string_any_locale : forall loc v, 0 <= v -> separator (decimal_point loc) ->
  (thousands_sep loc = [] \/ exists x, In x (thousands_sep loc) /\ ~ exists d, dec_digit x d) ->
  numeral (raw_convert_string_in loc v) v.
Proof. exact string_value. Qed.
Print Assumptions C57_string_any_locale.
Example C57_string_case : let loc := mkLoc ","%char ["."%char] in
  separator (decimal_point loc) /\ (exists x, In x (thousands_sep loc) /\ ~ exists d, dec_digit x d) /\ raw_convert_string_in loc 1234567 = lit "1234567".
Proof.
  cbv zeta. split; [|split; [exists "."%char; split; [now left|]|vm_compute; reflexivity]].
  - repeat split; try (intros [? ?]); vm_compute in *; intuition congruence.
  - intros (d & A & B). change (46 = 48 + d) in B. lia.
Qed.

(** C58.  compose with arguments that are not empty. *)
Theorem C58_compose_partial : forall fmt args, Forall (fun a => a <> []) args ->
  exists ms, marks fmt ms /\ compose fmt args = List.concat (map (put args) ms).
Proof. exact compose_meaning. Qed.
Print Assumptions C58_compose_partial.
(** A format has one meaning. *)
Theorem C58_marks_unique : forall fmt ms ms', marks fmt ms -> marks fmt ms' -> ms = ms'.
Proof. exact marks_unique. Qed.
Print Assumptions C58_marks_unique.
Example C58_case : Forall (fun a => a <> []) [lit "a"; lit "b"] /\
  compose (lit "%2 of %1, 100%%") [lit "a"; lit "b"] = lit "b of a, 100%".
Proof. split; [repeat constructor; discriminate|reflexivity]. Qed.
(** An empty argument does not take its number: later arguments move down. *)
Theorem C58_compose_refuted : exists fmt args ms, marks fmt ms /\ compose fmt args <> List.concat (map (put args) ms).
Proof. exact compose_empty_wrong. Qed.
Print Assumptions C58_compose_refuted.
(** For all arguments: those that are empty are as if not given. *)
Theorem C58_compose_as_is : forall fmt ms args, marks fmt ms ->
  compose fmt args = List.concat (map (put (filter (fun a => match a with [] => false | _ => true end) args)) ms).
Proof. exact compose_any. Qed.
Print Assumptions C58_compose_as_is.
Example C58_as_is_case : compose (lit "%1, %2") [[]; lit "b"; lit "c"] = lit "b, c".
Proof. reflexivity. Qed.
