(** write_stl_binary as a program that can be stopped at any point: what is in the file it writes to. *)
From Coq Require Import ZArith List Bool Ascii String.
From Verif.Model Require Import Base Strings Types Iso6937 StlBinWriter.
Import ListNotations.

(** Where write_stl_binary, stl_binary_writer.cc 287-393, has got to. *)
Inductive saving : Type :=
| Preparing                  (* before line 387 *)
| Writing (waiting : str)    (* from line 387: what has still to get to the file *)
| Returned
| Threw (e : exn)
| Broken (u : ub).

(** What is at file_name, if anything, and where the function has got to. *)
Record save_state : Type := mkSave { sv_file : option str; sv_at : saving }.

(** Whether the file can be opened for writing, and how many bytes there is room for. *)
Record medium : Type := mkMedium { can_open : bool; room : nat }.

(** A step: everything up to line 386; opening the file, which empties it (line 387); or the next bytes on their way from the
    stream to the file (lines 388-392 and the destructor of the stream).  The stream has a buffer, so bytes get to the file
    in pieces of any size: [n] is how many in this step.  When there is no room the stream goes bad, the rest is thrown away
    and, as nobody looks at the state of the stream, the function returns as usual; likewise if the file cannot be opened.
    Simplifications: a file system on which bytes get to the file in order; line 387 opens in text mode, which is taken to
    be the same as binary (it is not on Windows). *)
Definition save_step (ss : list subtitle) (a : writer_args) (t : tables) (m : medium) (s : save_state) (n : nat) : save_state :=
  match sv_at s with
  | Preparing =>
      match snd (write_stl_binary ss a t) with
      | Ok bytes => if can_open m then mkSave (Some []) (Writing bytes) else mkSave (sv_file s) Returned
      | Throw e => mkSave (sv_file s) (Threw e)
      | Undef u => mkSave (sv_file s) (Broken u)
      end
  | Writing [] => mkSave (sv_file s) Returned
  | Writing waiting =>
      let stored := match sv_file s with Some c => c | None => [] end in
      let fits := Nat.min n (room m - List.length stored) in
      mkSave (Some (stored ++ firstn fits waiting))
             (if Nat.ltb fits n && Nat.ltb fits (List.length waiting) then Returned else Writing (skipn fits waiting))
  | _ => s
  end.

(** The state after some steps. *)
Definition save_run (ss : list subtitle) (a : writer_args) (t : tables) (m : medium) (old : option str) (steps : list nat) : save_state :=
  fold_left (save_step ss a t m) steps (mkSave old Preparing).
