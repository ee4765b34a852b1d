(** Outcomes, C++ int arithmetic and the byte type shared by the whole model.

    Model code: nothing in this file is specific to one function of /repo; each
    definition says which C++ construct it stands for. *)
From Coq Require Import ZArith List Bool Ascii String.
Import ListNotations.
Local Open Scope Z_scope.

(** A std::string: all 256 byte values are allowed. *)
Definition str : Type := list ascii.

(** A C++ string literal. *)
Definition lit (s : string) : str := list_ascii_of_string s.

(** The C++ exceptions the library throws (/repo/src/exceptions.h 33-132), plus the two
    standard ones that escape from calls it makes.  [EProgramming] is SUB_ASSERT
    (/repo/src/sub_assert.h 22); file and line of the assertion are not kept. *)
Inductive exn : Type :=
| EUnknownFrameRate
| EProgramming
| EXml (message : str)
| EStl (message : str)
| ESubrip (line_number : Z) (saw expecting : str) (context : list str)
| EWebVtt (saw expecting : str) (context : list str)
| EWebVttHeader
| ESsa (message : str)
| EBadLexicalCast
| EOutOfRange.

(** Undefined behaviour the modelled code can reach. [UbFuel] is not C++ behaviour: it marks
    a loop whose explicit fuel ran out, and is proved unreachable where fuel is used. *)
Inductive ub : Type :=
| UbIntOverflow      (* signed overflow, or an out-of-range number given to sscanf %d *)
| UbDivZero          (* integer division by zero *)
| UbEmptyOptional    (* get() on an empty boost::optional *)
| UbEmptyVector      (* front()/back()/[] outside a vector *)
| UbNullDeref        (* null pointer dereference *)
| UbFloatToInt       (* float to int conversion out of range *)
| UbSort             (* std::stable_sort called with an unsuitable comparison *)
| UbFuel.

(** Result of running a piece of C++. *)
Inductive res (A : Type) : Type :=
| Ok (a : A)
| Throw (e : exn)
| Undef (u : ub).
Arguments Ok {A} a.
Arguments Throw {A} e.
Arguments Undef {A} u.

(** Sequencing: an exception or undefined behaviour ends the computation. *)
Definition bind {A B : Type} (x : res A) (f : A -> res B) : res B :=
  match x with
  | Ok a => f a
  | Throw e => Throw e
  | Undef u => Undef u
  end.

Notation "'let*' x ':=' e 'in' k" := (bind e (fun x => k))
  (at level 200, x pattern, e at level 100, k at level 200, right associativity).

(** SUB_ASSERT, /repo/src/sub_assert.h 22. *)
Definition sub_assert (b : bool) : res unit := if b then Ok tt else Throw EProgramming.

(** [get()] / [*] on a boost::optional. *)
Definition opt_get {A : Type} (o : option A) : res A :=
  match o with Some a => Ok a | None => Undef UbEmptyOptional end.

(** Monadic map, used where C++ runs a throwing call in a loop. *)
Fixpoint mapM {A B : Type} (f : A -> res B) (l : list A) : res (list B) :=
  match l with
  | [] => Ok []
  | a :: t => let* b := f a in let* bs := mapM f t in Ok (b :: bs)
  end.

(** C++ int: 32 bits, two's complement range, signed overflow undefined. *)
Definition int_min : Z := -2147483648.
(** The greatest int (the int of Time::_seconds and so on, sub_time.h 64-65). *)
Definition int_max : Z := 2147483647.
(** Whether a value fits int. *)
Definition in_int (z : Z) : bool := (int_min <=? z) && (z <=? int_max).
(** The result of an int operation: undefined when it does not fit. *)
Definition chk (z : Z) : res Z := if in_int z then Ok z else Undef UbIntOverflow.
(** Addition of ints (for example sub_time.cc 115-128). *)
Definition iadd (a b : Z) : res Z := chk (a + b).
(** Subtraction of ints (for example sub_time.cc 118-128). *)
Definition isub (a b : Z) : res Z := chk (a - b).
(** Multiplication of ints (for example sub_time.cc 137). *)
Definition imul (a b : Z) : res Z := chk (a * b).
(** [/] and [%] on int truncate towards zero; dividing by zero is undefined. *)
Definition idiv (a b : Z) : res Z := if b =? 0 then Undef UbDivZero else chk (Z.quot a b).
(** The remainder [%] of ints; undefined as [/] is. *)
Definition imod (a b : Z) : res Z :=
  if b =? 0 then Undef UbDivZero else let* _ := chk (Z.quot a b) in Ok (Z.rem a b).

(** Value of a byte as an unsigned char, and the byte with a given value (mod 256). *)
Definition code (c : ascii) : Z := Z.of_N (N_of_ascii c).
(** The byte with a given value (mod 256): conversion of int to char. *)
Definition chr (z : Z) : ascii := ascii_of_N (Z.to_N (z mod 256)).

(** Equality of strings. *)
Fixpoint str_eqb (a b : str) : bool :=
  match a, b with
  | [], [] => true
  | x :: a', y :: b' => Ascii.eqb x y && str_eqb a' b'
  | _, _ => false
  end.

(** empty() of a container (for example subrip_reader.cc 334). *)
Definition is_nil {A : Type} (l : list A) : bool := match l with [] => true | _ => false end.
(** Conversion of a boost::optional to bool (for example stl_binary_writer.cc 115). *)
Definition is_some {A : Type} (o : option A) : bool := match o with Some _ => true | None => false end.
