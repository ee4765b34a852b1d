(** Line input and small text helpers: /repo/src/util.cc 39-98. *)
From Coq Require Import ZArith List Bool Ascii String.
From Verif.Model Require Import Base Strings.
Import ListNotations.
Local Open Scope Z_scope.

(** The character that util.cc 46 and 61 look for. *)
Definition newline : ascii := chr 10.

(** empty_or_white_space, util.cc 42-52. *)
Definition empty_or_white_space (s : str) : bool :=
  forallb (fun c => Ascii.eqb c " "%char || Ascii.eqb c newline || Ascii.eqb c (chr 9)) s.

(** Position of the first newline. *)
Fixpoint break_nl (s : str) : option (str * str) :=
  match s with
  | [] => None
  | c :: t => if Ascii.eqb c newline then Some ([], t)
              else match break_nl t with Some (a, b) => Some (c :: a, b) | None => None end
  end.

(** get_line_string, util.cc 54-71: the line, and what is left in *s. *)
Definition get_line_string (s : str) : option (str * str) :=
  match s with
  | [] => None
  | _ => match break_nl s with
         | None => Some (s, [])
         | Some (c, rest) => Some (c, rest)
         end
  end.

(** fgets (buffer, n + 1, f): up to n bytes, stopping after a newline. *)
Fixpoint fgets (n : nat) (s : str) : str * str :=
  match n, s with
  | O, _ => ([], s)
  | _, [] => ([], [])
  | S k, c :: t => if Ascii.eqb c newline then ([c], t)
                   else let '(a, b) := fgets k t in (c :: a, b)
  end.

(** The C string in a buffer ends at the first NUL. *)
Definition c_string (s : str) : str := take_while (fun c => negb (code c =? 0)) s.

(** get_line_file, util.cc 73-83, on what is left of the file; the 256-byte buffer holds 255 bytes and a NUL.
    Read errors are not modelled. *)
Definition get_line_file (s : str) : option (str * str) :=
  match s with
  | [] => None
  | _ => let '(b, rest) := fgets 255 s in Some (c_string b, rest)
  end.

(** All the lines a get_line function delivers until it returns none. *)
Fixpoint all_lines (get : str -> option (str * str)) (fuel : nat) (s : str) : list str :=
  match fuel with
  | O => []
  | S k => match get s with
           | None => []
           | Some (l, rest) => l :: all_lines get k rest
           end
  end.
(** Each call consumes at least one byte, so the length of the input is enough fuel
    (proved in Proofs/LinesProofs.v). *)
Definition lines_of_string (s : str) : list str := all_lines get_line_string (List.length s) s.
(** The same for get_line_file, util.cc 73-83. *)
Definition lines_of_file (s : str) : list str := all_lines get_line_file (List.length s) s.

(** remove_unicode_bom, util.cc 85-98. *)
Definition remove_unicode_bom (l : str) : str :=
  match l with
  | a :: b :: c :: t => if (code a =? 239) && (code b =? 187) && (code c =? 191) then t else l
  | _ => l
  end.

(** trim_right_if with is_any_of "\n\r"; remove_unicode_bom (line) as SubripReader::read
    (subrip_reader.cc 91-92) and WebVTTReader::read (web_vtt_reader.cc 77-78) do to each line. *)
Definition clean_line (l : str) : str :=
  remove_unicode_bom (trim_right_if (is_any_of [newline; chr 13]) l).

(** Keep some history: push_back, then pop_front when there are more than 5
    (subrip_reader.cc 95-98, web_vtt_reader.cc 81-84). *)
Definition push_context (ctx : list str) (l : str) : list str :=
  let c := ctx ++ [l] in
  if Nat.ltb 5 (List.length c) then tl c else c.

(** The unicode LINE SEPARATOR in UTF-8 (subrip_reader.cc 157, web_vtt_reader.cc 138). *)
Definition line_separator : str := [chr 226; chr 128; chr 168].
