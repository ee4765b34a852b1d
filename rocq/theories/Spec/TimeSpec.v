(** What the Time class means: instants as exact rational numbers. *)
From Coq Require Import ZArith QArith Bool List.
From Verif.Model Require Import Base TimeModel.
From Verif.Spec Require Import Outcome.
Local Open Scope Q_scope.

(** A frame rate that makes sense. *)
Definition positive_rate (r : rational) : Prop := (0 < num r)%Z /\ (0 < den r)%Z.

(** The duration of [f] frames at [r] frames per second, and the instant a Time denotes when its
    frames are read at rate [r], in seconds. *)
Definition frames_duration (f : Z) (r : rational) : Q := inject_Z (f * den r) / inject_Z (num r).
Definition instant_at (r : rational) (t : time) : Q := inject_Z (t_seconds t) + frames_duration (t_frames t) r.

(** The frame count lies within one second. *)
Definition normalised_at (r : rational) (t : time) : Prop :=
  (0 <= t_frames t)%Z /\ frames_duration (t_frames t) r < 1.

(** Frame counts whose product with numerator and denominator of one rate fits an int. *)
Definition product_fits (r : rational) (t : time) : Prop :=
  is_int (t_frames t * num r) /\ is_int (t_frames t * num r * den r).

(** [z] is the integer nearest to A / B (B > 0), and the even one of two equally near. *)
Definition nearest_even (A B z : Z) : Prop :=
  (2 * Z.abs (A - z * B) <= B)%Z /\ (2 * Z.abs (A - z * B) = B -> Z.even z = true)%Z.

(** What a conversion of [z] to int gives. *)
Definition as_int (z : Z) (x : res Z) : Prop :=
  (is_int z /\ x = Ok z) \/ (~ is_int z /\ exists u, x = Undef u).

(** A rate that is a whole number [k] of frames per second; two spellings of one rate. *)
Definition whole_rate (r : rational) (k : Z) : Prop := den r <> 0%Z /\ (num r = k * den r)%Z.
Definition equivalent_rates (r s : rational) : Prop := (num r * den s = num s * den r)%Z.

(** One of two Times has a rate and the other has not. *)
Definition has_rate (t : time) : Prop := t_rate t <> None.
Definition mixed_rates (a b : time) : Prop := (has_rate a /\ ~ has_rate b) \/ (~ has_rate a /\ has_rate b).

(** The products that decide a comparison of two Times with rates fit an int. *)
Definition cross_fits (a b : time) : Prop :=
  forall ra rb, t_rate a = Some ra -> t_rate b = Some rb ->
    is_int (t_frames a * num ra) /\ is_int (t_frames a * num ra * den rb) /\
    is_int (t_frames b * num rb) /\ is_int (t_frames b * num rb * den ra).

(** The denominator of the rate, if there is one, is positive. *)
Definition rate_ok (t : time) : Prop := forall r, t_rate t = Some r -> (0 < den r)%Z.

(** A rate upside down: the seconds in a frame, taken for the frames in a second. *)
Definition upside_down (r : rational) : rational := mkR (den r) (num r).
