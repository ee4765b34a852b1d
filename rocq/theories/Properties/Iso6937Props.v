(** C15-C19, C65: ISO 6937 conversion.  [after h] is the state of the process after any sequence [h] of conversions.
    Statements only; proofs are in theories/Proofs. *)
From Coq Require Import ZArith Lia List Ascii String.
From Verif.Model Require Import Base Utf Iso6937.
From Verif.Spec Require Import Outcome TextSpec UnicodeSpec Iso6937Spec.
From Verif.Proofs Require Import Iso6937Proofs StrayProofs.
Import ListNotations.
Local Open Scope Z_scope.

(** C15.  Representable text survives, whatever ran before the encoding and before the decoding. *)
Theorem C15_iso6937_round_trip : forall h1 h2 w, Forall representable w ->
  snd (iso6937_to_utf16 (after h2) (snd (utf16_to_iso6937 (after h1) w))) = Ok w.
Proof. exact round_trip_representable. Qed.
Print Assumptions C15_iso6937_round_trip.
Example C15_representable_case : Forall representable [72; 0xE9; 0x2019; 0x17E; 36].
Proof.
  repeat (apply Forall_cons || apply Forall_nil); eexists.
  - apply glyph_ascii. lia.
  - eapply (glyph_accented 0xC2 0x301 101); cbn; intuition congruence.
  - apply glyph_right with (b := 0xB9). cbn. tauto.
  - eapply (glyph_accented 0xCF 0x30C 122); cbn; intuition congruence.
  - apply glyph_ascii. lia.
Qed.

(** Any other text: substitutes for the substituted characters, nothing for those that cannot be written. *)
Theorem C15_iso6937_substitutes : forall h1 h2 w, Forall (fun c => c <> 0 /\ ~ lone_mark c) w ->
  exists parts, Forall2 survives w parts /\
  snd (iso6937_to_utf16 (after h2) (snd (utf16_to_iso6937 (after h1) w))) = Ok (List.concat parts).
Proof. exact round_trip. Qed.
Print Assumptions C15_iso6937_substitutes.
Example C15_substitutes_case : Forall (fun c => c <> 0 /\ ~ lone_mark c) [0x201E; 97; 0x2014; 0x4E00].
Proof. repeat constructor; try discriminate; vm_compute; intuition discriminate. Qed.

(** C16.  No control codes, in any history as long as the text has no U+0000, and in a fresh process for any text. *)
Theorem C16_no_control_codes_partial : forall h w, ~ In 0 w ->
  Forall (fun b => ~ control_code b) (bytes (snd (utf16_to_iso6937 (after h) w))).
Proof. exact encode_no_control. Qed.
Print Assumptions C16_no_control_codes_partial.
Theorem C16_no_control_codes_fresh_partial : forall w,
  Forall (fun b => ~ control_code b) (bytes (snd (utf16_to_iso6937 (after []) w))).
Proof. exact encode_no_control_fresh. Qed.
Print Assumptions C16_no_control_codes_fresh_partial.
(** After a stray byte has been decoded, U+0000 is written as that byte. *)
Theorem C16_no_control_codes_refuted : exists h w b,
  In b (bytes (snd (utf16_to_iso6937 (after h) w))) /\ control_code b.
Proof. exact stray_byte_injection. Qed.
Print Assumptions C16_no_control_codes_refuted.

(** In every process the bytes written are these, and a control code is always a byte that has been decoded before and has no
    meaning. *)
Theorem C16_as_is : forall h w, exists bss,
  Forall2 (fun c bs => (c <> 0 -> written c bs) /\ (c = 0 -> nul_written h bs)) w bss /\
  bytes (snd (utf16_to_iso6937 (after h) w)) = List.concat bss.
Proof. exact encode_as_is. Qed.
Print Assumptions C16_as_is.
Theorem C16_only_strays : forall h w b, In b (bytes (snd (utf16_to_iso6937 (after h) w))) -> control_code b ->
  In 0 w /\ exists d, stray h d b.
Proof. exact control_as_is. Qed.
Print Assumptions C16_only_strays.
Example C16_as_is_case : let h := [Decode [chr 0x41; chr 0xC1; chr 0x7F; chr 0x8F; chr 0x07]; Encode [0x41]] in
  bytes (snd (utf16_to_iso6937 (after h) [0x41; 0])) = [0x41; 0x8F] /\ control_code 0x8F /\ stray h None 7.
Proof.
  cbv zeta. split; [vm_compute; reflexivity|]. split; [right; lia|]. eexists. split; [left; reflexivity|].
  assert (G : forall b, In b [7; 0x8F] -> forall c, ~ glyph [b] c) by (intros b I; apply glyph_value_none; destruct I as [<-|[<-|[]]]; vm_compute; reflexivity).
  change (bytes _) with [0x41; 0xC1; 0x7F; 0x8F; 0x07]. apply comes_later; [lia|unfold is_accent_byte; lia|intros a [=]|].
  apply comes_accent; [unfold is_accent_byte; lia|]. apply comes_later; [lia|unfold is_accent_byte; lia|intros a [= <-]; now left|].
  apply comes_later; [lia|unfold is_accent_byte; lia|intros a [=]|]. apply comes_here; [lia|unfold is_accent_byte; lia|]. exact (G 7 (or_introl eq_refl)).
Qed.

(** C17.  Conversions do not depend on history, U+0000 excepted. *)
Theorem C17_decode_any_history : forall h s, snd (iso6937_to_utf16 (after h) s) = snd (iso6937_to_utf16 (after []) s).
Proof. exact decode_any_history. Qed.
Print Assumptions C17_decode_any_history.
Theorem C17_encode_any_history : forall h w, ~ In 0 w ->
  snd (utf16_to_iso6937 (after h) w) = snd (utf16_to_iso6937 (after []) w).
Proof. exact encode_any_history. Qed.
Print Assumptions C17_encode_any_history.
Theorem C17_nul_is_affected : exists h, snd (utf16_to_iso6937 (after h) [0]) <> snd (utf16_to_iso6937 (after []) [0]).
Proof. exact nul_history. Qed.
Print Assumptions C17_nul_is_affected.

(** C18.  Decoding is undefined exactly when an unassigned accent (C9, CC) comes directly before a character. *)
Theorem C18_decode_safe_partial : forall h s,
  ~ defined (snd (iso6937_to_utf16 (after h) s)) <-> unassigned_accent_used (bytes s).
Proof. exact decode_undefined_iff. Qed.
Print Assumptions C18_decode_safe_partial.
Theorem C18_decode_safe_refuted : exists s, ~ defined (snd (iso6937_to_utf16 (after []) s)).
Proof. exact decode_undefined. Qed.
Print Assumptions C18_decode_safe_refuted.
Example C18_safe_case : ~ unassigned_accent_used (bytes (lit "abc")).
Proof.
  rewrite <- (C18_decode_safe_partial []). intros N. apply N. vm_compute. discriminate.
Qed.

(** C19.  Encoding works character by character; what each character is written as; what is dropped. *)
Theorem C19_encode_append : forall h u v, snd (utf16_to_iso6937 (after h) (u ++ v)) =
  snd (utf16_to_iso6937 (after h) u) ++ snd (utf16_to_iso6937 (after h) v).
Proof. exact encode_app. Qed.
Print Assumptions C19_encode_append.
Theorem C19_encode_written : forall h w, Forall (fun c => c <> 0) w ->
  exists bss, Forall2 written w bss /\ bytes (snd (utf16_to_iso6937 (after h) w)) = List.concat bss.
Proof. exact encode_written. Qed.
Print Assumptions C19_encode_written.
Example C19_written_case : Forall (fun c => c <> 0) [36; 0x201E; 0x300; 0x4E00].
Proof. repeat constructor; discriminate. Qed.
Theorem C19_encode_length : forall h w, ~ In 0 w -> (List.length (snd (utf16_to_iso6937 (after h) w)) <= 2 * List.length w)%nat.
Proof. exact encode_length. Qed.
Print Assumptions C19_encode_length.
Theorem C19_encode_dropped : forall h c, c <> 0 ->
  (snd (utf16_to_iso6937 (after h) [c]) = [] <-> ~ representable c /\ ~ lone_mark c /\ substitute c = None).
Proof. exact encode_dropped. Qed.
Print Assumptions C19_encode_dropped.

(** C65.  Decoding follows the standard: a result is right iff the standard's meaning of the bytes is that result. *)
Theorem C65_decode_standard : forall h s w,
  snd (iso6937_to_utf16 (after h) s) = Ok w <-> decodes None (bytes s) w.
Proof. exact decode_is_standard. Qed.
Print Assumptions C65_decode_standard.
Theorem C65_meaning_unique : forall bs w, decodes None bs w -> forall w', decodes None bs w' -> w = w'.
Proof. exact (decodes_deterministic None). Qed.
Print Assumptions C65_meaning_unique.
Theorem C65_decode_glyphs : forall h bss w, Forall2 glyph bss w ->
  forall s, bytes s = List.concat bss -> snd (iso6937_to_utf16 (after h) s) = Ok w.
Proof. exact decode_glyphs. Qed.
Print Assumptions C65_decode_glyphs.
Example C65_glyphs_case : Forall2 glyph [[65]; [0xC8; 117]; [0xFB]] [65; 0xFC; 0xDF].
Proof.
  repeat apply Forall2_cons; [| | |apply Forall2_nil].
  - apply glyph_ascii. lia.
  - apply (glyph_accented 0xC8 0x308 117 0xFC); cbn; intuition congruence.
  - apply glyph_right. cbn. tauto.
Qed.
