(** C62 for any string; C90, C91.  Statements only; proofs are in theories/Proofs. *)
From Coq Require Import ZArith Reals Lia Bool List Ascii String.
From Verif.Model Require Import Base Strings Types Lines.
From Verif.Spec Require Import Outcome PositionSpec TextSpec HexSpec.
From Verif.Proofs Require Import HexProofs NameProofs.
Import ListNotations.
Local Open Scope Z_scope.

(** C62.  Whatever the string is: the colours that are there, or XMLError. *)
Theorem C62_any_rgb : forall s r g b, rgb_text s r g b -> exists k, from_rgb_hex s = Ok k /\
  float_value (c_r k) (nearest_float (IZR r / 255)) /\ float_value (c_g k) (nearest_float (IZR g / 255)) /\ float_value (c_b k) (nearest_float (IZR b / 255)).
Proof. exact any_rgb. Qed.
Print Assumptions C62_any_rgb.
Theorem C62_any_rgba : forall s r g b, rgba_text s r g b -> exists k, from_rgba_hex s = Ok k /\
  float_value (c_r k) (nearest_float (IZR r / 255)) /\ float_value (c_g k) (nearest_float (IZR g / 255)) /\ float_value (c_b k) (nearest_float (IZR b / 255)).
Proof. exact any_rgba. Qed.
Print Assumptions C62_any_rgba.
Theorem C62_no_rgb : forall s, (forall r g b, ~ rgb_text s r g b) -> from_rgb_hex s = Throw (EXml (lit "could not parse colour string")).
Proof. exact no_rgb. Qed.
Print Assumptions C62_no_rgb.
Example C62_no_rgb_case : forall r g b, ~ rgb_text (lit "1g2g3g4") r g b.
Proof. intros r g b (s1 & s2 & s3 & A & B & _). apply scan_two in A, B. revert B. injection A as _ <-. vm_compute. discriminate. Qed.
Theorem C62_no_rgba : forall s, (forall r g b, ~ rgba_text s r g b) -> from_rgba_hex s = Throw (EXml (lit "could not parse colour string")).
Proof. exact no_rgba. Qed.
Print Assumptions C62_no_rgba.
Example C62_any_case : ~ rgba_text (lit "1g2g3g4") 1 2 3.
Proof. intros (s1 & s2 & s3 & a & s4 & A & B & _). apply scan_two in A, B. revert B. injection A as <-. vm_compute. discriminate. Qed.
Example C62_signed_case : rgb_text (lit "f -70xyz") 15 (-7) 0.
Proof. exists (lit " -70xyz"), (lit "0xyz"), (lit "yz"). rewrite <- !scan_two. vm_compute. auto. Qed.

(** C90.  Names of effects and alignments. *)
Theorem C90_effects : forall s,
  (s = lit "none" -> string_to_effect s = Ok None) /\
  (s = lit "border" -> string_to_effect s = Ok (Some BORDER)) /\
  (s = lit "shadow" -> string_to_effect s = Ok (Some SHADOW)) /\
  (s <> lit "none" -> s <> lit "border" -> s <> lit "shadow" -> string_to_effect s = Throw (EXml (lit "unknown subtitle effect type"))).
Proof. exact effect_names. Qed.
Print Assumptions C90_effects.
Theorem C90_alignments : forall s,
  (s = lit "top" -> string_to_vertical_reference s = Ok TOP_OF_SCREEN) /\
  (s = lit "center" -> string_to_vertical_reference s = Ok VERTICAL_CENTRE_OF_SCREEN) /\
  (s = lit "bottom" -> string_to_vertical_reference s = Ok BOTTOM_OF_SCREEN) /\
  (s <> lit "top" -> s <> lit "center" -> s <> lit "bottom" -> string_to_vertical_reference s = Throw (EXml (lit "unknown subtitle valign type"))).
Proof. exact alignment_names. Qed.
Print Assumptions C90_alignments.
Example C90_case : lit "Border" <> lit "border" /\ lit "centre" <> lit "center".
Proof. split; discriminate. Qed.

(** C91.  Only spaces, newlines and tabs. *)
Theorem C91_white_space : forall s, empty_or_white_space s = true <-> forall c, In c s -> char_code c = 32 \/ char_code c = 10 \/ char_code c = 9.
Proof. exact white_space_only. Qed.
Print Assumptions C91_white_space.
Example C91_case : forall c, In c (lit " " ++ [ascii_of_nat 9; ascii_of_nat 10]) -> char_code c = 32 \/ char_code c = 10 \/ char_code c = 9.
Proof. apply C91_white_space. reflexivity. Qed.
Example C91_return_case : exists c, char_code c <> 32 /\ char_code c <> 10 /\ char_code c <> 9 /\ white c.
Proof. exists (ascii_of_nat 13). unfold white. vm_compute. repeat split; try discriminate. left. split; discriminate. Qed.
