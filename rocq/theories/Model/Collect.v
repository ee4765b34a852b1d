(** /repo/src/collect.h. *)
From Coq Require Import ZArith List Bool.
From Verif.Model Require Import Base Strings Float TimeModel Types.
Import ListNotations.

(** std::stable_sort over operator< is a parameter of the model (see Spec/SortSpec.v for its contract). *)
Definition sorter : Type := list raw -> res (list raw).

(** current->lines.back() modified in place. *)
Fixpoint update_last {A : Type} (f : A -> A) (l : list A) : list A :=
  match l with
  | [] => []
  | [a] => [f a]
  | a :: t => a :: update_last f t
  end.

(** back() of a list, if it is not empty (collect.h 43-50). *)
Definition last_opt {A : Type} (l : list A) : option A :=
  match rev l with [] => None | a :: _ => Some a end.

(** Adding a piece to the current subtitle, collect.h 43-50. *)
Definition add_piece (c : subtitle) (i : raw) : subtitle :=
  let new_line := mkSub (s_from c) (s_to c) (s_fade_up c) (s_fade_down c) (s_lines c ++ [line_of i]) in
  match last_opt (s_lines c) with
  | Some l =>
      if line_same l i then
        mkSub (s_from c) (s_to c) (s_fade_up c) (s_fade_down c)
              (update_last (fun l => mkLine (l_hpos l) (l_vpos l) (l_blocks l ++ [block_of i])) (s_lines c))
      else new_line
  | None => new_line
  end.

(** The last subtitle, pushed only if there is one (collect.h 53-55 and 60-62). *)
Definition opt_list {A : Type} (o : option A) : list A := match o with Some a => [a] | None => [] end.

(** The loop, collect.h 40-64; [out] is what has been pushed so far. *)
Fixpoint collect_loop (l : list raw) (current : option subtitle) (out : list subtitle) : res (list subtitle) :=
  match l with
  | [] => Ok (out ++ opt_list current)
  | i :: t =>
      match current with
      | Some c =>
          let* same := subtitle_same c i in
          if same then collect_loop t (Some (add_piece c i)) out
          else collect_loop t (Some (subtitle_of i)) (out ++ [c])
      | None => collect_loop t (Some (subtitle_of i)) out
      end
  end.

(** collect, collect.h 32-65. *)
Definition collect (stable_sort : sorter) (l : list raw) : res (list subtitle) :=
  let* sorted := stable_sort l in
  collect_loop sorted None [].

(** A concrete stable sort (insertion), used to run the model and to show that the contract can be met. *)
Fixpoint insert_raw (x : raw) (l : list raw) : res (list raw) :=
  match l with
  | [] => Ok [x]
  | y :: t =>
      let* b := raw_lt y x in
      if b then let* t' := insert_raw x t in Ok (y :: t') else Ok (x :: y :: t)
  end.
(** The concrete stable sort on a whole list (what collect.h 36 calls). *)
Fixpoint insertion_sort (l : list raw) : res (list raw) :=
  match l with
  | [] => Ok []
  | x :: t => let* t' := insertion_sort t in insert_raw x t'
  end.
