(** Conversions of iso6937.cc running in several threads that share the global tables.  One step of a thread does one test of
    the tables, one assignment to them or the conversion of one character; [accesses] says which of the maps it reads and
    writes.  Two threads race if they can access the same map at the same time and one of them writes.  (The language makes
    that undefined; here execution goes on as if each step were atomic, so as to show what the least harm is.)
    Simplification: operator[] of a map with a key that is there only reads, which is so in the usual implementations but is
    not promised by the standard. *)
From Coq Require Import ZArith List Bool Ascii String.
From Verif.Model Require Import Base Strings Iso6937Tables Utf Iso6937.
Import ListNotations.
Local Open Scope Z_scope.

(** The global variables, iso6937_tables.cc 27-41: main, the thirteen maps of accents (by the byte that will refer to them)
    and the keys of diacriticals. *)
Record globals : Type := mkG { g_main : cmap; g_accents : list (Z * cmap); g_keys : list Z }.

(** At the start all of them are empty. *)
Definition globals_empty : globals := mkG [] (map (fun e => (fst e, [])) iso_diacriticals) [].

(** One of the maps of accents, iso6937_tables.cc 27-41. *)
Definition accent_map (g : globals) (d : Z) : cmap := match diacritical_find (g_accents g) d with Some m => m | None => [] end.

(** diacriticals as the conversions see it: each key with the map it points to. *)
Definition view (g : globals) : tables := mkTab (g_main g) (map (fun d => (d, accent_map g d)) (g_keys g)).

(** Assignments in make_iso6937_tables. *)
Inductive assignment : Type :=
| SetAccent (d k v : Z)      (* grave['A'] = 0x00C0, by the byte for grave *)
| SetMain (k v : Z)          (* main['A'] = 0x0041 *)
| SetKey (d : Z).            (* diacriticals[0xc1] = &grave *)

(** make_iso6937_tables, iso6937_tables.cc 43-412: the maps of accents, main, diacriticals.  Simplification: the assignments
    to one map come in the order of its keys. *)
Definition making : list assignment :=
  flat_map (fun e => map (fun kv => SetAccent (fst e) (fst kv) (snd kv)) (snd e)) iso_diacriticals
  ++ map (fun kv => SetMain (fst kv) (snd kv)) iso_main
  ++ map (fun e => SetKey (fst e)) iso_diacriticals.

(** m[k] = v *)
Fixpoint cmap_set (m : cmap) (k v : Z) : cmap :=
  match m with
  | [] => [(k, v)]
  | (k', v') :: t =>
      if k' =? k then (k, v) :: t
      else if signed_char k <? signed_char k' then (k, v) :: m
      else (k', v') :: cmap_set t k v
  end.
(** Adding a key to diacriticals. *)
Fixpoint key_set (l : list Z) (d : Z) : list Z :=
  match l with
  | [] => [d]
  | d' :: t => if d' =? d then l else if signed_char d <? signed_char d' then d :: l else d' :: key_set t d
  end.
(** One assignment of make_iso6937_tables, iso6937_tables.cc. *)
Definition assign (a : assignment) (g : globals) : globals :=
  match a with
  | SetAccent d k v => mkG (g_main g) (diacritical_update (g_accents g) d (cmap_set (accent_map g d) k v)) (g_keys g)
  | SetMain k v => mkG (cmap_set (g_main g) k v) (g_accents g) (g_keys g)
  | SetKey d => mkG (g_main g) (g_accents g) (key_set (g_keys g) d)
  end.

(** What a thread is doing: iso6937_to_utf16 or utf16_to_iso6937, iso6937.cc 36-63 and 77-122. *)
Inductive job : Type := ToUtf16 (s : str) | ToIso6937 (w : wstr).
(** How a conversion ended; Crashed: a null pointer was followed (iso6937.cc 53). *)
Inductive outcome : Type := GaveText (w : wstr) | GaveBytes (s : str) | Crashed.
(** Where a thread is, in iso6937.cc 36-63 or 77-122. *)
Inductive thread : Type :=
| Testing (j : job)                                        (* if (iso6937::diacriticals.empty ()) *)
| Making (todo : list assignment) (j : job)                (* in make_iso6937_tables *)
| Decoding (s : str) (diacritical : option Z) (o : wstr)   (* in the loop of iso6937_to_utf16, output so far reversed *)
| Encoding (w : wstr) (o : str)                            (* in the loop of utf16_to_iso6937 *)
| Finished (r : outcome).

(** What follows the test and the making of the tables, iso6937.cc 43-47 and 86-87. *)
Definition begin_job (j : job) : thread := match j with ToUtf16 s => Decoding s None [] | ToIso6937 w => Encoding w [] end.

(** One step of a thread. *)
Definition thread_step (g : globals) (t : thread) : globals * thread :=
  match t with
  | Testing j => (g, if is_nil (g_keys g) then Making making j else begin_job j)
  | Making [] j => (g, begin_job j)
  | Making (a :: todo) j => (assign a g, Making todo j)
  | Decoding [] _ o => (g, Finished (GaveText (rev o)))
  | Decoding (c :: s) diacritical o =>
      let u := code c in
      if u =? 0 then (g, Finished (GaveText (rev o)))
      else if (193 <=? u) && (u <=? 207) then (g, Decoding s (Some u) o)
      else match diacritical with
      | Some d =>
          if existsb (Z.eqb d) (g_keys g) then
            let '(v, m) := cmap_index (accent_map g d) u in
            (mkG (g_main g) (diacritical_update (g_accents g) d m) (g_keys g), Decoding s None (v :: o))
          else (g, Finished Crashed)
      | None =>
          let '(v, m) := cmap_index (g_main g) u in
          (mkG m (g_accents g) (g_keys g), Decoding s None (v :: o))
      end
  | Encoding [] o => (g, Finished (GaveBytes o))
  | Encoding (c :: w) o => (g, Encoding w (o ++ iso_encode_char (view g) c))
  | Finished _ => (g, t)
  end.

(** The maps that a step accesses; true: it writes. *)
Inductive variable : Type := VMain | VAccent (d : Z) | VDiacriticals.
(** Whether operator[] finds the key (if not, it adds it: a write). *)
Definition has_key (m : cmap) (k : Z) : bool := existsb (fun e => fst e =? k) m.
(** The accesses of the next step of a thread: iso6937.cc 36-63 and 77-122, and the assignments of iso6937_tables.cc. *)
Definition accesses (g : globals) (t : thread) : list (variable * bool) :=
  match t with
  | Testing _ => [(VDiacriticals, false)]
  | Making [] _ => []
  | Making (SetAccent d _ _ :: _) _ => [(VAccent d, true)]
  | Making (SetMain _ _ :: _) _ => [(VMain, true)]
  | Making (SetKey _ :: _) _ => [(VDiacriticals, true)]
  | Decoding [] _ _ => []
  | Decoding (c :: _) diacritical _ =>
      let u := code c in
      if u =? 0 then []
      else if (193 <=? u) && (u <=? 207) then []
      else match diacritical with
      | Some d => if existsb (Z.eqb d) (g_keys g) then [(VDiacriticals, false); (VAccent d, negb (has_key (accent_map g d) u))]
                  else [(VDiacriticals, true)]
      | None => [(VMain, negb (has_key (g_main g) u))]
      end
  | Encoding [] _ => []
  | Encoding (_ :: _) _ => (VMain, false) :: (VDiacriticals, false) :: map (fun d => (VAccent d, false)) (g_keys g)
  | Finished _ => []
  end.

(** The process: the globals and the threads.  A schedule says which thread makes each step. *)
Record process : Type := mkP { p_globals : globals; p_threads : list thread }.
(** The list of threads with one of them changed. *)
Fixpoint replace_nth {A} (n : nat) (x : A) (l : list A) : list A :=
  match l, n with
  | [], _ => []
  | _ :: t, O => x :: t
  | a :: t, S k => a :: replace_nth k x t
  end.
(** One step of thread number i. *)
Definition process_step (i : nat) (p : process) : process :=
  match nth_error (p_threads p) i with
  | None => p
  | Some t => let '(g, t') := thread_step (p_globals p) t in mkP g (replace_nth i t' (p_threads p))
  end.
(** The steps of a schedule, in order. *)
Definition run (schedule : list nat) (p : process) : process := fold_left (fun p i => process_step i p) schedule p.
