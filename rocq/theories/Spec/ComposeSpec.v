(** What a format string of String::compose means. *)
From Coq Require Import ZArith List Bool Ascii.
From Verif.Model Require Import Base.
From Verif.Spec Require Import TextSpec.
Import ListNotations.
Local Open Scope Z_scope.

Inductive mark : Type := MChar (c : ascii) | MArg (n : Z).

Definition starts_with_digit (s : str) : Prop := match s with c :: _ => exists d, dec_digit c d | [] => False end.

(** %% is a percent sign, % and a number is an argument, anything else is itself. *)
Inductive marks : str -> list mark -> Prop :=
| marks_end : marks [] []
| marks_char c s ms : c <> "%"%char -> marks s ms -> marks (c :: s) (MChar c :: ms)
| marks_percent s ms : marks s ms -> marks ("%" :: "%" :: s)%char (MChar "%"%char :: ms)
| marks_arg d n s ms : numeral d n -> ~ starts_with_digit s -> marks s ms -> marks ("%"%char :: d ++ s) (MArg n :: ms)
| marks_bare s ms : s <> [] -> ~ starts_with_digit s -> hd_error s <> Some "%"%char -> marks s ms ->
    marks ("%"%char :: s) (MChar "%"%char :: ms)
| marks_last : marks ["%"%char] [MChar "%"%char].

(** Arguments are numbered from 1; a mark without argument gives nothing. *)
Definition put (args : list str) (m : mark) : str :=
  match m with
  | MChar c => [c]
  | MArg n => if Z.leb 1 n then nth (Z.to_nat (n - 1)) args [] else []
  end.
