(** Files in which subtitles have other numbers or names. *)
From Coq Require Import ZArith List Ascii String.
From Verif.Model Require Import Base TimeModel Types.
From Verif.Spec Require Import TextSpec LinesSpec RawSpec SsaSpec TextFileSpec StlFileSpec TakeOutSpec RetimeSpec.
Import ListNotations.
Local Notation length := List.length.

(** The same but for the lines of the file that an error shows. *)
Definition same_error (e e' : exn) : Prop :=
  match e, e' with
  | ESubrip n saw expecting _, ESubrip n' saw' expecting' _ => n = n' /\ saw = saw' /\ expecting = expecting'
  | EWebVtt saw expecting _, EWebVtt saw' expecting' _ => saw = saw' /\ expecting = expecting'
  | _, _ => e = e'
  end.
Definition same_but_shown {A : Type} (x y : res A) : Prop :=
  match x, y with
  | Ok a, Ok b => a = b
  | Throw e, Throw e' => same_error e e'
  | Undef u, Undef u' => u = u'
  | _, _ => False
  end.

(** The fields of a Dialogue of an SSA file that say something about what is shown, where and when. *)
Definition shown_fields : list str := [lit "Start"; lit "End"; lit "Style"; lit "MarginV"; lit "MarginL"; lit "MarginR"; lit "Text"].
(** The values of the keys: the same in those fields. *)
Inductive other_values : list str -> list str -> list str -> Prop :=
| other_none : other_values [] [] []
| other_more k v v' ks vs vs' : v = v' \/ ~ In k shown_fields -> other_values ks vs vs' -> other_values (k :: ks) (v :: vs) (v' :: vs').

(** A block of a binary STL file with another subtitle group number (a byte) and subtitle number (two bytes). *)
Definition renumbered (b b' : str) : Prop :=
  exists n n' q, b = n ++ q /\ b' = n' ++ q /\ length n = 3%nat /\ length n' = 3%nat /\ length q = 125%nat.
(** A block with another extension block number (the byte after those). *)
Definition other_extension (b b' : str) : Prop :=
  exists n x x' q, b = n ++ x :: q /\ b' = n ++ x' :: q /\ length n = 3%nat /\ length q = 124%nat.
(** A block of user data: its extension block number is FE. *)
Definition user_data (b : str) : Prop := tti_size b /\ nth_error b 3 = Some (ascii_of_nat 254).
(** A line that is read from a file in one go. *)
Definition short_line (l : str) : Prop := (length l <= 254)%nat /\ ~ In (ascii_of_nat 0) l.
