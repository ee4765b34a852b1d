(** Colours as C reads them: three or four numbers of at most two hexadecimal digits. *)
From Coq Require Import ZArith List Bool Ascii String.
From Verif.Model Require Import Base.
From Verif.Spec Require Import TextSpec.
Import ListNotations.
Local Open Scope Z_scope.

Definition letter_x (c : ascii) : Prop := c = "x"%char \/ c = "X"%char.

(** [two_hex s v rest]: spaces, and at most two characters of [s], are the number [v], and [rest] is left.  The two
    characters are two digits, one digit before something else, a sign and a digit, or 0x, which is 0. *)
Inductive two_hex : str -> Z -> str -> Prop :=
| two_pair sp c d v w rest : Forall white sp -> hex_digit c v -> hex_digit d w -> two_hex (sp ++ c :: d :: rest) (16 * v + w) rest
| two_single sp c v rest : Forall white sp -> hex_digit c v ->
    (forall d t w, rest = d :: t -> ~ hex_digit d w /\ ~ (c = "0"%char /\ letter_x d)) -> two_hex (sp ++ c :: rest) v rest
| two_0x sp d rest : Forall white sp -> letter_x d -> two_hex (sp ++ "0"%char :: d :: rest) 0 rest
| two_plus sp d w rest : Forall white sp -> hex_digit d w -> two_hex (sp ++ "+"%char :: d :: rest) w rest
| two_minus sp d w rest : Forall white sp -> hex_digit d w -> two_hex (sp ++ "-"%char :: d :: rest) (- w) rest.
(** Red, green and blue; red, green, blue and something that is ignored. *)
Definition rgb_text (s : str) (r g b : Z) : Prop := exists s1 s2 s3, two_hex s r s1 /\ two_hex s1 g s2 /\ two_hex s2 b s3.
Definition rgba_text (s : str) (r g b : Z) : Prop :=
  exists s1 s2 s3 a s4, two_hex s r s1 /\ two_hex s1 g s2 /\ two_hex s2 b s3 /\ two_hex s3 a s4.
