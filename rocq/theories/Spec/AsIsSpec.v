(** What the library does where it does not do what its user wants: the vocabulary of the theorems named [_as_is]. *)
From Coq Require Import ZArith List Bool Ascii String.
From Verif.Model Require Import Base TimeModel.
From Verif.Spec Require Import Outcome TimeSpec.
Import ListNotations.
Local Open Scope Z_scope.

(** A time in the last half frame of its second, at [k] frames per second; halfway counts if [k] is even. *)
Definition last_half_frame (k : Z) (t : time) : Prop :=
  exists tr, t_rate t = Some tr /\
    ((2 * k - 1) * num tr < 2 * k * (t_frames t * den tr) \/
     (2 * k - 1) * num tr = 2 * k * (t_frames t * den tr) /\ Z.even k = true).
