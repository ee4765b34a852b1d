(** Characters and numerals, as a reader of the file formats understands them. *)
From Coq Require Import ZArith List Bool Ascii.
From Verif.Model Require Import Base.
Import ListNotations.
Local Open Scope Z_scope.

Definition char_code (c : ascii) : Z := Z.of_nat (nat_of_ascii c).

(** [c] is a decimal digit of value [d]; a hexadecimal digit of either case of value [d]. *)
Definition dec_digit (c : ascii) (d : Z) : Prop := 0 <= d <= 9 /\ char_code c = 48 + d.
Definition hex_digit (c : ascii) (d : Z) : Prop :=
  (0 <= d <= 9 /\ char_code c = 48 + d) \/
  (10 <= d <= 15 /\ (char_code c = 55 + d \/ char_code c = 87 + d)).

(** [s] is a numeral (most significant digit first, leading zeros allowed, at least one digit) of value [v]. *)
Inductive numeral : str -> Z -> Prop :=
| numeral_one c d : dec_digit c d -> numeral [c] d
| numeral_more s v c d : numeral s v -> dec_digit c d -> numeral (s ++ [c]) (10 * v + d).

(** The pieces with the separator between each two. *)
Fixpoint join (sep : str) (pieces : list str) : str :=
  match pieces with
  | [] => []
  | [p] => p
  | p :: rest => p ++ sep ++ join sep rest
  end.

(** ASCII white space. *)
Definition white (c : ascii) : Prop := 9 <= char_code c <= 13 \/ char_code c = 32.

(** A character that a locale can use as its decimal point: not a digit, letter, white space or sign. *)
Definition separator (c : ascii) : Prop :=
  ~ (48 <= char_code c <= 57) /\ (~ (65 <= char_code c <= 90) /\ ~ (97 <= char_code c <= 122)) /\ ~ white c /\
  c <> "-"%char /\ c <> "+"%char.
