(** C81: decimal numbers.  Statements only; proofs are in theories/Proofs. *)
From Coq Require Import ZArith Reals Lra Lia List Bool Ascii String.
From Coq.Floats Require Import SpecFloat.
From Flocq Require Import Core.
From Verif.Model Require Import Base Float RawConvert.
From Verif.Spec Require Import TextSpec LinesSpec StlFileSpec SubripSpec SsaTagSpec PositionSpec NumberSpec AnyNumberSpec.
From Verif.Proofs Require Import StringProofs NumberProofs AnyNumberProofs.
Import ListNotations.
Local Open Scope R_scope.

(** C81.  A number with or without sign, fraction and exponent, up to where it ends, is read as the nearest float. *)
Theorem C81_nearest_float : forall s x rest, number s x -> ~ begins goes_on rest -> Rabs x <= bpow radix2 127 ->
  float_value (raw_convert_float (s ++ rest)) (nearest_float x).
Proof. exact number_read. Qed.
Print Assumptions C81_nearest_float.
Example C81_case : number (lit " -12.50e1") (- (IZR 1250 / 10 ^ 2 * powerRZ 10 1)) /\ ~ begins goes_on (lit " px") /\ Rabs (- (IZR 1250 / 10 ^ 2 * powerRZ 10 1)) <= bpow radix2 127.
Proof.
  assert (N : forall s, s <> [] -> Forall (fun c => Strings.is_digit c = true) s -> numeral s (Strings.dec_val s)) by exact digits_numeral.
  split; [|split].
  - change (lit " -12.50e1") with ([" "%char] ++ "-"%char :: ((lit "12" ++ "."%char :: lit "50") ++ lit "e1")). apply number_minus; [constructor; [now right|constructor]|].
    apply scientific_plain.
    + apply (decimal_fraction (lit "12") (lit "50") 1250). apply (N (lit "1250")); [discriminate|repeat constructor].
    + apply (exponent_plain "e"%char (lit "1") 1); [now left|]. apply (N (lit "1")); [discriminate|repeat constructor].
  - cbn. unfold goes_on. intros [(d & H1 & H2)|H]; [revert H2; change (char_code " "%char) with 32%Z; lia|]. repeat destruct H as [H|H]; discriminate.
  - replace (- (IZR 1250 / 10 ^ 2 * powerRZ 10 1)) with (- (125)) by (unfold powerRZ; simpl; field_simplify; lra). rewrite Rabs_Ropp, Rabs_right by lra. apply (IZR_le 125 (2 ^ 127)). now vm_compute.
Qed.

(** C81.  Any text: what it is as a number (or that it is none) and the float it gives. *)
Theorem C81_any_text : forall s minus r, float_reads s minus r -> float_for minus r (raw_convert_float s).
Proof. exact any_read. Qed.
Print Assumptions C81_any_text.
Example C81_any_text_case : float_reads (lit " 12ex") false (Value (IZR 12 * powerRZ 10 (0 - Z.of_nat 0))) /\
  float_reads (lit "-Infinite") true Nothing /\ float_reads (lit "+0X.8p1z") false (Value (IZR 8 * powerRZ 2 (1 - 4 * Z.of_nat 1))).
Proof.
  assert (N : forall s, s <> [] -> Forall (fun c => Strings.is_digit c = true) s -> numeral s (Strings.dec_val s)) by exact digits_numeral.
  assert (NW : forall w s, Strings.to_lower (lit w) = lit w -> Strings.starts_with (Strings.to_lower s) (lit w) = false -> ~ begins_word w s).
  { intros w s L F W. rewrite (yes_word w s L W) in F. discriminate. }
  assert (ND : forall s, starts_not Strings.is_digit s -> ~ begins is_digit_char s) by (intros s; apply (not_begins_digit _ _ digit_iff)).
  split; [|split].
  - apply (float_plain (lit " ") (lit "12ex")); [constructor; [now right|constructor]| | |].
    + cbn. unfold white. intros [[H1 H2]|H]; [|discriminate]. revert H1 H2. change (char_code "1"%char) with 49%Z. lia.
    + cbn. intros [H|H]; discriminate.
    + apply (reads_decimal (lit "12ex") (lit "12") 0 (lit "ex")).
      * now apply NW.
      * apply (mantissa_whole is_digit_char (lit "12") (lit "ex")); [repeat constructor; now apply digit_iff|now apply ND|cbn; congruence].
      * apply (N (lit "12")); [discriminate|repeat constructor].
      * apply (power_empty "e"%char "e"%char (lit "x")); [now left|]. intros k v rest S E. 
        pose proof (signed_found (lit "x")) as F. cbn in F. exact (F k v rest S E).
  - apply (float_minus [] (lit "Infinite")); [constructor|]. apply reads_bad_inf.
    + exists (lit "Infi"), (lit "nite"). split; [|reflexivity]. apply SubripTokenProofs.lower_all; reflexivity.
    + now apply NW.
  - apply (float_plus [] (lit "0X.8p1z")); [constructor|]. apply (reads_hex (lit "0X") (lit ".8p1z") (lit "8") 1 (lit "p1z") 8 1).
    + apply SubripTokenProofs.lower_all; reflexivity.
    + apply (mantissa_point is_hex_char [] (lit "8") (lit "p1z")); [constructor|constructor; [now apply SsaTagProofs.is_hex_char_iff|constructor]|].
      apply (not_begins_digit _ _ SsaTagProofs.is_hex_char_iff). reflexivity.
    + discriminate.
    + apply SsaTagProofs.hex_numeral_iff; split; [repeat constructor|reflexivity].
    + apply (power_some "p"%char "p"%char (lit "1") 1 (lit "z")); [now left| |now apply ND]. apply signed_plain, (N (lit "1")); [discriminate|repeat constructor].
Qed.

(** C81.  Every text is covered. *)
Theorem C81_every_text : forall s, exists minus r, float_reads s minus r.
Proof. exact any_exists. Qed.
Print Assumptions C81_every_text.
