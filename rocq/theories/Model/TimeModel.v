(** /repo/src/rational.{h,cc} and /repo/src/sub_time.{h,cc}. *)
From Coq Require Import ZArith List Bool Ascii String.
From Verif.Model Require Import Base Strings Float.
Import ListNotations.
Local Open Scope Z_scope.

(** class Rational, rational.h 22-41. *)
Record rational : Type := mkR { num : Z; den : Z }.

(** Rational operator==, rational.cc 24-27. *)
Definition rational_eqb (a b : rational) : bool := (num a =? num b) && (den a =? den b).

(** Rational::fraction, rational.h 33-35 (double division). *)
Definition r_fraction (r : rational) : flt := ddiv (d_of_int (num r)) (d_of_int (den r)).

(** Rational::integer, rational.cc 29-33. *)
Definition r_integer (r : rational) : res bool :=
  let* m := imod (num r) (den r) in Ok (m =? 0).

(** Rational::integer_fraction, rational.h 38-40. *)
Definition r_integer_fraction (r : rational) : res Z := idiv (num r) (den r).

(** max (Rational, Rational), rational.cc 35-43. *)
Definition r_max (a b : rational) : rational :=
  if flt_lt (r_fraction b) (r_fraction a) then a else b.

(** class Time, sub_time.h 28-67.  The private fields _seconds, _frames, _rate. *)
Record time : Type := mkT { t_seconds : Z; t_frames : Z; t_rate : option rational }.

(** Time::Time (), sub_time.h 31-34. *)
Definition time_zero : time := mkT 0 0 None.

(** The product of three ints in the comparisons: _frames * numerator * denominator. *)
Definition imul3 (a b c : Z) : res Z := let* ab := imul a b in imul ab c.

(** operator<, sub_time.cc 34-51. *)
Definition time_lt (a b : time) : res bool :=
  if negb (t_seconds a =? t_seconds b) then Ok (t_seconds a <? t_seconds b) else
  match t_rate a, t_rate b with
  | None, None => Ok (t_frames a <? t_frames b)
  | Some ra, Some rb =>
      let* x := imul3 (t_frames a) (num ra) (den rb) in
      let* y := imul3 (t_frames b) (num rb) (den ra) in
      Ok (x <? y)
  | _, _ => Throw EUnknownFrameRate
  end.

(** operator>, sub_time.cc 53-70. *)
Definition time_gt (a b : time) : res bool :=
  if negb (t_seconds a =? t_seconds b) then Ok (t_seconds b <? t_seconds a) else
  match t_rate a, t_rate b with
  | None, None => Ok (t_frames b <? t_frames a)
  | Some ra, Some rb =>
      let* x := imul3 (t_frames a) (num ra) (den rb) in
      let* y := imul3 (t_frames b) (num rb) (den ra) in
      Ok (y <? x)
  | _, _ => Throw EUnknownFrameRate
  end.

(** operator==, sub_time.cc 72-89. *)
Definition time_eq (a b : time) : res bool :=
  match t_rate a, t_rate b with
  | None, None => Ok ((t_seconds a =? t_seconds b) && (t_frames a =? t_frames b))
  | Some ra, Some rb =>
      if negb (t_seconds a =? t_seconds b) then Ok false else
      let* x := imul3 (t_frames a) (num ra) (den rb) in
      let* y := imul3 (t_frames b) (num rb) (den ra) in
      Ok (x =? y)
  | _, _ => Throw EUnknownFrameRate
  end.

(** operator!=, sub_time.cc 91-95. *)
Definition time_ne (a b : time) : res bool := let* e := time_eq a b in Ok (negb e).

(** operator== on boost::optional<Time> (fade_up, fade_down). *)
Definition opt_time_eq (a b : option time) : res bool :=
  match a, b with
  | None, None => Ok true
  | Some x, Some y => time_eq x y
  | _, _ => Ok false
  end.

(** Time::hours, minutes, seconds, sub_time.cc 112-128.  No overflow is possible here, so plain Z is used. *)
Definition hours (t : time) : Z := Z.quot (t_seconds t) 3600.
(** Time::minutes, sub_time.cc 118-122. *)
Definition minutes (t : time) : Z := Z.quot (t_seconds t - hours t * 3600) 60.
(** Time::seconds, sub_time.cc 124-128. *)
Definition seconds (t : time) : Z := t_seconds t - hours t * 3600 - minutes t * 60.

(** operator<< (ostream, Time), sub_time.cc 97-110. *)
Definition print_time (t : time) : str :=
  print_setw 2 (hours t) ++ lit ":" ++ print_setw 2 (minutes t) ++ lit ":" ++ print_setw 2 (seconds t) ++ lit ":" ++
  print_int (t_frames t) ++
  match t_rate t with
  | Some r => lit " @ " ++ print_int (num r) ++ lit "/" ++ print_int (den r)
  | None => []
  end.

(** Time::frames_at, sub_time.cc 130-138.  The dividend is computed in double from left to right;
    the divisor is an int product. *)
Definition frames_at (t : time) (r : rational) : res Z :=
  match t_rate t with
  | None => Throw EUnknownFrameRate
  | Some tr =>
      let* d := imul (num tr) (den r) in
      to_int (rint_Z
        (ddiv (dmul (dmul (d_of_int (t_frames t)) (d_of_int (den tr))) (d_of_int (num r))) (d_of_int d)))
  end.

(** Time::milliseconds, sub_time.cc 140-144. *)
Definition milliseconds (t : time) : res Z := frames_at t (mkR 1000 1).

(** h * 3600 + m * 60 + s in int arithmetic. *)
Definition hms_seconds (h m s : Z) : res Z :=
  let* a := imul h 3600 in
  let* b := imul m 60 in
  let* c := iadd a b in
  iadd c s.

(** Time::from_hmsf, sub_time.cc 146-150. *)
Definition from_hmsf (h m s f : Z) (rate : option rational) : res time :=
  let* sec := hms_seconds h m s in Ok (mkT sec f rate).

(** Time::from_hms, sub_time.cc 152-156. *)
Definition from_hms (h m s ms : Z) : res time :=
  let* sec := hms_seconds h m s in Ok (mkT sec ms (Some (mkR 1000 1))).

(** Time::from_frames, sub_time.cc 158-167. *)
Definition from_frames (f : Z) (rate : rational) : res time :=
  let* _ := sub_assert (negb (den rate =? 0)) in
  let* i := r_integer rate in
  let* _ := sub_assert i in
  let* k := r_integer_fraction rate in
  let* s := idiv f k in
  let* r := imod f k in
  Ok (mkT s r (Some rate)).

(** Time::all_as_seconds, sub_time.cc 169-173. *)
Definition all_as_seconds (t : time) : res flt :=
  let* ms := milliseconds t in
  Ok (dadd (d_of_int (t_seconds t)) (ddiv (d_of_int ms) (d_of_int 1000))).

(** Time::add, sub_time.cc 175-184; returns the new value of *this.  The double product is converted
    to the int parameter of from_frames, truncating. *)
Definition time_add (this t : time) : res time :=
  let* _ := sub_assert (is_some (t_rate this)) in
  let* _ := sub_assert (is_some (t_rate t)) in
  let* ra := opt_get (t_rate this) in
  let* rb := opt_get (t_rate t) in
  let result_rate := r_max ra rb in
  let* a := all_as_seconds this in
  let* b := all_as_seconds t in
  let* f := to_int (trunc_Z (dmul (dadd a b) (r_fraction result_rate))) in
  from_frames f result_rate.

(** Time::scale, sub_time.cc 186-196; [f] is a float. *)
Definition time_scale (this : time) (f : flt) : res time :=
  let* _ := sub_assert (is_some (t_rate this)) in
  let* r := opt_get (t_rate this) in
  let* _ := sub_assert (negb (den r =? 0)) in
  let* i := r_integer r in
  let* _ := sub_assert i in
  let* a := all_as_seconds this in
  let s := dmul a (d_of_f f) in
  let* sec := to_int (floor_Z s) in
  let* fr := to_int (rint_Z (dmul (dsub s (d_of_int sec)) (r_fraction r))) in
  Ok (mkT sec fr (Some r)).
