(** /repo/src/iso6937.cc.  The conversion tables are global variables that the conversions modify (operator[] on a
    std::map adds a missing key with value 0), so every function takes the tables and returns them. *)
From Coq Require Import ZArith List Bool Ascii String.
From Verif.Model Require Import Base Strings Iso6937Tables Utf.
Import ListNotations.
Local Open Scope Z_scope.

(** The global maps iso6937::main and iso6937::diacriticals, iso6937_tables.cc 27-41. *)
Record tables : Type := mkTab { t_main : cmap; t_diacriticals : list (Z * cmap) }.

(** Before make_iso6937_tables has been called (iso6937_tables.cc 27-41). *)
Definition tables_empty : tables := mkTab [] [].

(** make_iso6937_tables, iso6937_tables.cc 43-412.  It is only called when diacriticals is empty (see [ensure]); then
    main is empty too. *)
Definition tables_made : tables := mkTab iso_main iso_diacriticals.

(** if (iso6937::diacriticals.empty ()) make_iso6937_tables (), iso6937.cc 39-41 and 80-82. *)
Definition ensure (t : tables) : tables := if is_nil (t_diacriticals t) then tables_made else t.

(** The order of the keys of map<char, wchar_t> where char is signed. *)
Definition signed_char (b : Z) : Z := if b <? 128 then b else b - 256.

(** map::operator[]: the value, and the map with the key added if need be. *)
Fixpoint cmap_index (m : cmap) (k : Z) : Z * cmap :=
  match m with
  | [] => (0, [(k, 0)])
  | (k', v) :: t =>
      if k' =? k then (v, m)
      else if signed_char k <? signed_char k' then (0, (k, 0) :: m)
      else let '(r, t') := cmap_index t k in (r, (k', v) :: t')
  end.

(** The inner map of a diacritical; None where operator[] gives a null pointer. *)
Fixpoint diacritical_find (l : list (Z * cmap)) (k : Z) : option cmap :=
  match l with
  | [] => None
  | (k', m) :: t => if k' =? k then Some m else diacritical_find t k
  end.
(** Writing the inner map of a diacritical back, after operator[] has added to it (iso6937.cc 53). *)
Fixpoint diacritical_update (l : list (Z * cmap)) (k : Z) (m : cmap) : list (Z * cmap) :=
  match l with
  | [] => []
  | (k', m') :: t => if k' =? k then (k', m) :: t else (k', m') :: diacritical_update t k m
  end.

(** The loop of iso6937_to_utf16, iso6937.cc 47-60. *)
Fixpoint iso_decode_loop (tab : tables) (s : str) (diacritical : option Z) : tables * res wstr :=
  match s with
  | [] => (tab, Ok [])
  | c :: t =>
      let u := code c in
      if u =? 0 then (tab, Ok [])
      else if (193 <=? u) && (u <=? 207) then iso_decode_loop tab t (Some u)
      else match diacritical with
      | Some d =>
          match diacritical_find (t_diacriticals tab) d with
          | None => (tab, Undef UbNullDeref)
          | Some m =>
              let '(v, m') := cmap_index m u in
              let '(tab', r) :=
                iso_decode_loop (mkTab (t_main tab) (diacritical_update (t_diacriticals tab) d m')) t None in
              (tab', let* w := r in Ok (v :: w))
          end
      | None =>
          let '(v, m') := cmap_index (t_main tab) u in
          let '(tab', r) := iso_decode_loop (mkTab m' (t_diacriticals tab)) t None in
          (tab', let* w := r in Ok (v :: w))
      end
  end.

(** iso6937_to_utf16, iso6937.cc 36-63. *)
Definition iso6937_to_utf16 (tab : tables) (s : str) : tables * res wstr :=
  iso_decode_loop (ensure tab) s None.

(** find, iso6937.cc 65-75: the first key with this value. *)
Fixpoint cmap_find (m : cmap) (c : Z) : option Z :=
  match m with
  | [] => None
  | (k, v) :: t => if v =? c then Some k else cmap_find t c
  end.

(** The loop over diacriticals, iso6937.cc 92-99. *)
Fixpoint diacriticals_find (l : list (Z * cmap)) (c : Z) : option (Z * Z) :=
  match l with
  | [] => None
  | (d, m) :: t => match cmap_find m c with Some k => Some (d, k) | None => diacriticals_find t c end
  end.

(** One character, iso6937.cc 88-118. *)
Definition iso_encode_char (tab : tables) (c : Z) : str :=
  (match cmap_find (t_main tab) c with
   | Some k => [chr k]
   | None => match diacriticals_find (t_diacriticals tab) c with
             | Some (d, k) => [chr d; chr k]
             | None => []
             end
   end)
  ++
  (if c =? 8222 then [chr 170]
   else if (c =? 8211) || (c =? 8212) then [chr 208]
   else if (c =? 8208) || (c =? 8209) || (c =? 8210) then ["-"%char]
   else if c =? 8242 then [chr 39]
   else []).

(** utf16_to_iso6937, iso6937.cc 77-122. *)
Definition utf16_to_iso6937 (tab : tables) (s : wstr) : tables * str :=
  let tab := ensure tab in (tab, flat_map (iso_encode_char tab) s).
