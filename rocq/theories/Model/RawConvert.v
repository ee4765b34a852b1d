(** /repo/src/raw_convert.cc and the string conversions of /repo/src/locale_convert.cc. *)
From Coq Require Import ZArith List Bool Ascii String.
From Verif.Model Require Import Base Strings Float.
Import ListNotations.
Local Open Scope Z_scope.

(** The two strings of localeconv () that are used.  The decimal point is one byte in every locale that
    scan_float is used with; thousands_sep may be empty. *)
Record locale : Type := mkLoc { decimal_point : ascii; thousands_sep : str }.
(** The locale of a program that has not called setlocale. *)
Definition c_locale : locale := mkLoc "."%char [].

(** make_local, raw_convert.cc 26-34. *)
Definition make_local (loc : locale) (v : str) : str := replace_all v (lit ".") [decimal_point loc].

(** make_raw, raw_convert.cc 37-46. *)
Definition make_raw (loc : locale) (v : str) : str :=
  replace_all (replace_all v (thousands_sep loc) []) [decimal_point loc] (lit ".").

(** raw_convert<int> (string), raw_convert.cc 48-53 with locale_convert.cc 76-83. *)
Definition raw_convert_int_in (loc : locale) (v : str) : res Z := scan_int (make_local loc v).

(** raw_convert<float> (string), raw_convert.cc 55-60 with locale_convert.cc 85-92. *)
Definition raw_convert_float_in (loc : locale) (v : str) : flt :=
  scan_float (decimal_point loc) (make_local loc v).

(** raw_convert<string> (unsigned long), raw_convert.cc 62-67 with locale_convert.cc 47-54; %lu prints no separators. *)
Definition raw_convert_string_in (loc : locale) (v : Z) : str := make_raw loc (digits v).

(** The readers are modelled in the "C" locale; Properties show that the locale makes no difference. *)
Definition raw_convert_int (v : str) : res Z := raw_convert_int_in c_locale v.
(** raw_convert<float> (string), raw_convert.cc 55-60. *)
Definition raw_convert_float (v : str) : flt := raw_convert_float_in c_locale v.

(** locale_convert<string> of int, long and unsigned long, locale_convert.cc 25-54; the conversions %d, %ld and %lu print
    no separators. *)
Definition locale_string_int (x : Z) : str := print_int x.
(** locale_convert<string> (long), locale_convert.cc 34-45. *)
Definition locale_string_long (x : Z) : str := print_int x.
(** locale_convert<string> (unsigned long), locale_convert.cc 47-54. *)
Definition locale_string_ulong (x : Z) : str := digits x.
(** locale_convert<string> of unsigned long long, locale_convert.cc 56-67: it is printed by %lld, so that it is taken for
    a signed number (formally undefined above its range; two's complement in practice). *)
Definition locale_string_ulonglong (x : Z) : str := print_int (if x <? 2 ^ 63 then x else x - 2 ^ 64).
(** locale_convert<string> of a string, locale_convert.cc 69-74. *)
Definition locale_string_string (x : str) : str := x.
