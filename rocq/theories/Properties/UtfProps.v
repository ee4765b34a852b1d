(** C67: the conversions between UTF-8 and wide strings used around ISO 6937 and in the SubRip, WebVTT and SSA readers.
    Statements only; proofs are in theories/Proofs. *)
From Coq Require Import ZArith Lia List Ascii String.
From Verif.Model Require Import Base Utf.
From Verif.Spec Require Import Outcome TextSpec Utf8Spec.
From Verif.Proofs Require Import UtfProofs.
Import ListNotations.
Local Open Scope Z_scope.

(** C67.  Valid UTF-8 decodes to its characters and comes back as the same bytes. *)
Theorem C67_decode_is_utf8 : forall s w, utf8 s w -> utf8_to_wide s = w.
Proof. exact utf8_to_wide_ok. Qed.
Print Assumptions C67_decode_is_utf8.
Theorem C67_encode_is_utf8 : forall w, Forall scalar w -> utf8 (wide_to_utf8 w) w.
Proof. exact wide_to_utf8_ok. Qed.
Print Assumptions C67_encode_is_utf8.
Theorem C67_round_trip : forall s w, utf8 s w -> wide_to_utf8 (utf8_to_wide s) = s.
Proof. exact utf8_round_trip. Qed.
Print Assumptions C67_round_trip.
Example C67_case : exists w, utf8 (map (fun z => ascii_of_nat (Z.to_nat z)) [97; 0xC3; 0xA9; 0xE2; 0x82; 0xAC; 0xF0; 0x9F; 0x98; 0x80]) w /\
  w = [97; 0xE9; 0x20AC; 0x1F600].
Proof.
  eexists. split; [|reflexivity]. exists [[97]; [0xC3; 0xA9]; [0xE2; 0x82; 0xAC]; [0xF0; 0x9F; 0x98; 0x80]]. split; [|reflexivity].
  constructor; [exact (utf8_one 97 ltac:(lia))|]. constructor; [exact (utf8_two 3 41 ltac:(unfold six; lia) ltac:(lia))|].
  constructor; [exact (utf8_three 2 2 44 ltac:(unfold six; lia) ltac:(unfold six; lia) ltac:(lia) ltac:(unfold scalar; lia))|].
  constructor; [exact (utf8_four 0 31 24 0 ltac:(unfold six; lia) ltac:(unfold six; lia) ltac:(unfold six; lia) ltac:(lia))|]. constructor.
Qed.

(** A wide character that is not a Unicode scalar value is left out. *)
Theorem C67_invalid_left_out : forall p c q, ~ scalar c -> wide_to_utf8 (p ++ c :: q) = wide_to_utf8 (p ++ q).
Proof. exact wide_to_utf8_invalid. Qed.
Print Assumptions C67_invalid_left_out.
Example C67_invalid_case : ~ scalar 0xD800.
Proof. unfold scalar. lia. Qed.

(** Whatever the bytes, decoding gives characters, so re-encoding gives valid UTF-8. *)
Theorem C67_decode_gives_characters : forall s, Forall scalar (utf8_to_wide s).
Proof. exact utf8_to_wide_scalars. Qed.
Print Assumptions C67_decode_gives_characters.

(** All bytes: characters are decoded, everything else is left out, a broken character together with the byte that breaks it. *)
Theorem C67_any_bytes : forall s w, utf8_to_wide s = w <-> utf8_reads (map char_code s) w.
Proof. exact wide_iff. Qed.
Print Assumptions C67_any_bytes.
Example C67_any_case : utf8_reads [0x80; 97; 0xE2; 0x82; 98; 99; 0xC3] [97; 99].
Proof.
  apply reads_stray; [unfold followers; lia|]. apply (reads_char 97 [97]); [apply utf8_one; lia|].
  apply (reads_broken 0xE2 2 [0x82] 98); [unfold followers; lia|cbn; lia|repeat constructor; unfold trailing; lia|unfold trailing; lia|].
  apply (reads_char 99 [99]); [apply utf8_one; lia|]. apply (reads_cut 0xC3 1 []); [unfold followers; lia|cbn; lia|constructor].
Qed.
