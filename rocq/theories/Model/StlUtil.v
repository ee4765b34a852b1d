(** /repo/src/stl_util.cc. *)
From Coq Require Import ZArith List Bool Ascii String.
From Verif.Model Require Import Base Strings Float Compose.
Import ListNotations.
Local Open Scope Z_scope.

(** about_equal, stl_util.cc 29-33: float subtraction, compared with a double. *)
Definition about_equal (a b : flt) : bool := flt_lt (d_of_f (flt_abs (fsub a b))) (d_lit 1 10000).

(** The float 23.976 (a double literal converted to float), stl_util.cc 39 and 56. *)
Definition f23976 : flt := f_of_d (d_lit 23976 1000).

(** stl_frame_rate_to_dfc, stl_util.cc 35-50. *)
Definition stl_frame_rate_to_dfc (r : flt) : str :=
  if about_equal r f23976 then lit "STL23.01"
  else if about_equal r (f_of_int 24) then lit "STL24.01"
  else if about_equal r (f_of_int 25) then lit "STL25.01"
  else if about_equal r (f_of_int 30) then lit "STL30.01"
  else lit "STL25.01".

(** stl_dfc_to_frame_rate, stl_util.cc 52-66. *)
Definition stl_dfc_to_frame_rate (s : str) : res flt :=
  if str_eqb s (lit "STL23.01") then Ok f23976
  else if str_eqb s (lit "STL24.01") then Ok (f_of_int 24)
  else if str_eqb s (lit "STL25.01") then Ok (f_of_int 25)
  else if str_eqb s (lit "STL30.01") then Ok (f_of_int 30)
  else Throw (EStl (compose (lit "Unknown disk format code %1 in binary STL file") [s])).
