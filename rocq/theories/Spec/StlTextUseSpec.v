(** What people expect of text STL files. *)
From Coq Require Import ZArith List Bool Ascii String.
From Verif.Model Require Import Base Float TimeModel Types.
From Verif.Spec Require Import Outcome TextSpec LinesSpec StlFileSpec RawSpec SsaSpec StopSpec StlTextSpec.
Import ListNotations.
Local Open Scope Z_scope.
Local Notation length := List.length.

(** The text without its marks. *)
Inductive unmarked : str -> str -> Prop :=
| unmarked_end : unmarked [] []
| unmarked_plain c s t : plain_char c -> unmarked s t -> unmarked (c :: s) (c :: t)
| unmarked_bar c s t : is_bar c -> unmarked s t -> unmarked (c :: s) t
| unmarked_mark x c s t : is_caret x -> unmarked s t -> unmarked (x :: c :: s) t
| unmarked_caret c : is_caret c -> unmarked [c] [].

(** A line "from, to, text", with or without white space around the times. *)
Definition says (l : str) (from to : time) (text : str) : Prop :=
  exists l' f t f' t', trimmed l l' /\ ~ is_comment l' /\ ~ is_setting l' /\ three_fields l' f t text /\ text <> [] /\
    trimmed f f' /\ trimmed t t' /\ frame_time f' from /\ frame_time t' to.
(** White space in front of the first comma. *)
Definition space_before_comma (l : str) : Prop := exists f x rest, l = f ++ x :: comma :: rest /\ white x /\ ~ In comma f.
(** Two digits in front of the first comma, and the time without its last digit. *)
Definition digits_before_comma (l : str) : Prop :=
  exists f x y rest, l = f ++ x :: y :: comma :: rest /\ is_digit_char x /\ is_digit_char y /\ ~ In comma f.
Definition last_digit_lost (t : time) : time := mkT (t_seconds t) (Z.quot (t_frames t) 10) (t_rate t).
Definition shown (from to : time) (r : raw) : Prop := r_from r = from /\ r_to r = to.
Definition text_of (rs : list raw) : str := List.concat (map r_text rs).

(** * Files of plain subtitles *)

Record entry : Type := mkEntry { e_from : time; e_to : time; e_rows : list str }.
Definition plain_row (row : str) : Prop := row <> [] /\ Forall plain_char row /\ ~ In lf row.
(** The times are followed by some white space, and the line has no white space at its end. *)
Definition entry_line (e : entry) (l : str) : Prop :=
  exists f x t, l = f ++ x :: comma :: t ++ comma :: join (lit "|") (e_rows e) /\ frame_time f (e_from e) /\ white x /\ x <> lf /\ frame_time t (e_to e) /\
    e_rows e <> [] /\ Forall plain_row (e_rows e) /\ ~ ends_in white (join (lit "|") (e_rows e)).
Inductive entries_text : list entry -> str -> Prop :=
| entries_nil : entries_text [] []
| entries_cons e l es s : entry_line e l -> entries_text es s -> entries_text (e :: es) (l ++ lf :: s).

(** Plain text on line [n] below the top of the subtitle. *)
Definition plain_piece (from to : time) (n : Z) (text : str) : raw :=
  mkRaw text None (mkFS None None) None None white_text false false false (mkH HORIZONTAL_CENTRE_OF_SCREEN (f_of_int 0))
    (mkV None (Some n) None (Some TOP_OF_SUBTITLE)) from to None None.
Fixpoint rows_from (from to : time) (n : nat) (number : nat -> Z) (rows : list str) : list raw :=
  match rows with
  | [] => []
  | row :: more => plain_piece from to (number n) row :: rows_from from to (S n) number more
  end.
Definition rows_of (number : nat -> Z) (e : entry) : list raw := rows_from (e_from e) (e_to e) 0 number (e_rows e).

(** No number of more than [n] digits. *)
Definition short_numbers (n : nat) (s : str) : Prop :=
  forall before d after, s = before ++ d ++ after -> Forall is_digit_char d -> (length d <= n)%nat.
