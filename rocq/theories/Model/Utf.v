(** boost::locale::conv::utf_to_utf with its default method (skip), as used by stl_binary_reader.cc 253 and 313 and
    stl_binary_writer.cc 203.  This is library code (boost/locale/utf.hpp), modelled from its documentation and source;
    wchar_t is 32 bits wide. *)
From Coq Require Import ZArith List Bool Ascii String.
From Verif.Model Require Import Base.
Import ListNotations.
Local Open Scope Z_scope.

(** std::wstring (iso6937.cc 36 and 77): the values of its wchar_t, 32 bits wide. *)
Definition wstr : Type := list Z.

(** utf::is_valid_codepoint *)
Definition valid_codepoint (v : Z) : bool :=
  (0 <=? v) && (v <=? 1114111) && negb ((55296 <=? v) && (v <=? 57343)).

(** utf_traits<char>::trail_length *)
Definition trail_length (c : Z) : Z :=
  if c <? 128 then 0
  else if c <? 194 then -1
  else if c <? 224 then 1
  else if c <? 240 then 2
  else if c <=? 244 then 3
  else -1.

(** utf_traits<char>::is_trail (boost::locale, used at stl_binary_writer.cc 203). *)
Definition is_trail (c : Z) : bool := (128 <=? c) && (c <? 192).

(** utf_traits<char>::width *)
Definition utf8_width (v : Z) : Z :=
  if v <=? 127 then 1 else if v <=? 2047 then 2 else if v <=? 65535 then 3 else 4.

(** The trailing bytes of a sequence: [n] more, value so far [c].  None when a byte is bad (it has been consumed) or
    missing. *)
Fixpoint utf8_trail (n : nat) (c : Z) (s : str) : option Z * str :=
  match n with
  | O => (Some c, s)
  | S k => match s with
           | [] => (None, [])
           | b :: t => if is_trail (code b) then utf8_trail k (c * 64 + (code b - 128)) t else (None, t)
           end
  end.

(** utf_traits<char>::decode on a non-empty string *)
Definition utf8_decode (lead : ascii) (s : str) : option Z * str :=
  let n := trail_length (code lead) in
  if n <? 0 then (None, s)
  else if n =? 0 then (Some (code lead), s)
  else
    let '(r, rest) := utf8_trail (Z.to_nat n) (code lead mod 2 ^ (6 - n)) s in
    match r with
    | None => (None, rest)
    | Some c => if valid_codepoint c && (utf8_width c =? n + 1) then (Some c, rest) else (None, rest)
    end.

(** utf_to_utf<wchar_t>(string) with the default method (skip), used at stl_binary_writer.cc 203; fuel: the number of bytes. *)
Fixpoint utf8_to_wide_fuel (fuel : nat) (s : str) : wstr :=
  match fuel with
  | O => []
  | S k => match s with
           | [] => []
           | b :: t => let '(r, rest) := utf8_decode b t in
                       match r with
                       | Some c => c :: utf8_to_wide_fuel k rest
                       | None => utf8_to_wide_fuel k rest
                       end
           end
  end.

(** utf_to_utf<wchar_t> (string) *)
Definition utf8_to_wide (s : str) : wstr := utf8_to_wide_fuel (List.length s) s.

(** utf_traits<char>::encode *)
Definition utf8_encode (v : Z) : str :=
  if v <=? 127 then [chr v]
  else if v <=? 2047 then [chr (192 + v / 64); chr (128 + v mod 64)]
  else if v <=? 65535 then [chr (224 + v / 4096); chr (128 + v / 64 mod 64); chr (128 + v mod 64)]
  else [chr (240 + v / 262144); chr (128 + v / 4096 mod 64); chr (128 + v / 64 mod 64); chr (128 + v mod 64)].

(** utf_to_utf<char> (wstring): invalid code points are skipped. *)
Definition wide_to_utf8 (w : wstr) : str :=
  flat_map (fun v => if valid_codepoint v then utf8_encode v else []) w.
