(** String::compose, /repo/src/compose.hpp. *)
From Coq Require Import ZArith List Bool Ascii String.
From Verif.Model Require Import Base Strings.
Import ListNotations.
Local Open Scope Z_scope.

(** A parsed format: literal text and argument specifications. *)
Inductive piece : Type := PText (c : ascii) | PSpec (n : Z).

(** Composition::Composition, compose.hpp 138-183.  The multimap from specification number to output position is
    represented by leaving the specification in place.  Overflow of spec_no (more than nine digits) is not modelled. *)
Fixpoint compose_parse (fuel : nat) (fmt : str) : list piece :=
  match fuel with
  | O => []
  | S k =>
      match fmt with
      | [] => []
      | c :: t =>
          if Ascii.eqb c "%"%char then
            match t with
            | d :: t' =>
                if Ascii.eqb d "%"%char then PText "%"%char :: compose_parse k t'
                else if is_digit d then
                  PSpec (dec_val (take_while is_digit t)) :: compose_parse k (drop_while is_digit t)
                else PText c :: compose_parse k t
            | [] => [PText c]
            end
          else PText c :: compose_parse k t
      end
  end.

(** The arguments as numbered by Composition::arg, compose.hpp 118-136: an argument that prints as the empty string
    does not use up a number. *)
Definition numbered_args (args : list str) : list str := filter (fun a => negb (is_nil a)) args.

(** Composition::str, compose.hpp 185-195. *)
Definition compose_piece (args : list str) (p : piece) : str :=
  match p with
  | PText c => [c]
  | PSpec n => if n <=? 0 then [] else nth (Z.to_nat (n - 1)) (numbered_args args) []
  end.

(** String::compose, compose.hpp 204 onwards, for any number of string arguments. *)
Definition compose (fmt : str) (args : list str) : str :=
  flat_map (compose_piece args) (compose_parse (List.length fmt) fmt).
