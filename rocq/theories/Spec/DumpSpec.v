(** What dump() writes. *)
From Coq Require Import ZArith Reals List Bool Ascii String.
From Coq.Floats Require Import SpecFloat.
From Flocq Require Import Core BinarySingleNaN.
From Verif.Model Require Import Base Float TimeModel Types.
From Verif.Spec Require Import TextSpec LinesSpec.
Import ListNotations.
Local Open Scope Z_scope.
Local Notation length := List.length.

(** * Numbers and times *)

(** The usual way to write an integer: no leading zeros, and a minus sign if it is negative. *)
Definition shown_nat (s : str) (v : Z) : Prop := numeral s v /\ (v = 0 /\ s = lit "0" \/ exists c t, s = c :: t /\ c <> "0"%char).
Definition shown_int (s : str) (v : Z) : Prop :=
  0 <= v /\ shown_nat s v \/ v < 0 /\ exists d, s = "-"%char :: d /\ shown_nat d (- v).
(** The same, with zeros in front if it would be less than two characters. *)
Definition two_digits (s : str) (v : Z) : Prop := exists d, shown_int d v /\ (s = d /\ (2 <= length d)%nat \/ s = "0"%char :: d /\ length d = 1%nat).
(** hh:mm:ss:frames, and the rate if there is one. *)
Definition time_text (s : str) (t : time) : Prop :=
  exists h m sec hs ms ss fs rate, t_seconds t = 3600 * h + 60 * m + sec /\ Z.abs m < 60 /\ Z.abs sec < 60 /\
    (0 <= h /\ 0 <= m /\ 0 <= sec \/ h <= 0 /\ m <= 0 /\ sec <= 0) /\
    two_digits hs h /\ two_digits ms m /\ two_digits ss sec /\ shown_int fs (t_frames t) /\
    match t_rate t with
    | None => rate = []
    | Some r => exists n d, shown_int n (num r) /\ shown_int d (den r) /\ rate = lit " @ " ++ n ++ lit "/" ++ d
    end /\
    s = hs ++ lit ":" ++ ms ++ lit ":" ++ ss ++ lit ":" ++ fs ++ rate.

(** * Fractions *)

(** The nearest integer, the even one of two. *)
Definition rounds (m : Z) (y : R) : Prop := (Rabs (IZR m - y) <= 1 / 2)%R /\ (Rabs (IZR m - y) = 1 / 2 -> Z.even m = true)%R.
(** [x], positive and rounded to six significant figures, is the six-digit number [n] with the point after the first digit,
    times 10^[k]. *)
Definition six_figures (x : R) (n k : Z) : Prop :=
  exists j m, (powerRZ 10 j <= x < powerRZ 10 (j + 1))%R /\ rounds m (x * powerRZ 10 (5 - j))%R /\
    100000 <= n < 1000000 /\ (IZR n * powerRZ 10 k = IZR m * powerRZ 10 j)%R.
(** Digits without the zeros at the end. *)
Definition trimmed (f f' : str) : Prop := exists z, f = f' ++ repeat "0"%char z /\ forall p, f' <> p ++ ["0"%char].
Inductive point_text (i f : str) : str -> Prop :=
| point_none : trimmed f [] -> point_text i f i
| point_some f' : trimmed f f' -> f' <> [] -> point_text i f (i ++ "."%char :: f').
Inductive figures_text (n k : Z) : str -> Prop :=
| figures_small ds s : numeral ds n -> length ds = 6%nat -> -4 <= k < 0 ->
    point_text (lit "0") (repeat "0"%char (Z.to_nat (- k - 1)) ++ ds) s -> figures_text n k s
| figures_plain i f s : numeral (i ++ f) n -> length (i ++ f) = 6%nat -> 0 <= k < 6 -> Z.of_nat (length i) = k + 1 ->
    point_text i f s -> figures_text n k s
| figures_exponent d f s sign e : numeral (d :: f) n -> length (d :: f) = 6%nat -> k < -4 /\ sign = "-"%char \/ 6 <= k /\ sign = "+"%char ->
    point_text [d] f s -> two_digits e (Z.abs k) -> figures_text n k (s ++ "e"%char :: sign :: e).
(** As C++ writes a float. *)
Inductive float_text : flt -> str -> Prop :=
| float_nan : float_text S754_nan (lit "nan")
| float_inf : float_text (S754_infinity false) (lit "inf")
| float_minus_inf : float_text (S754_infinity true) (lit "-inf")
| float_zero : float_text (S754_zero false) (lit "0")
| float_minus_zero : float_text (S754_zero true) (lit "-0")
| float_positive f n k s : is_finite_SF f = true -> (0 < SF2R radix2 f)%R -> six_figures (SF2R radix2 f) n k -> figures_text n k s -> float_text f s
| float_negative f n k s : is_finite_SF f = true -> (SF2R radix2 f < 0)%R -> six_figures (- SF2R radix2 f) n k -> figures_text n k s ->
    float_text f ("-"%char :: s).

(** * Lines *)

Inductive item : Type := OpenI | CloseI | OpenU | CloseU | Words (t : str).
Definition item_text (x : item) : str :=
  match x with OpenI => lit "<i>" | CloseI => lit "</i>" | OpenU => lit "<u>" | CloseU => lit "</u>" | Words t => t end.
(** [styled i u items ws]: starting with italic on or off ([i]) and underline on or off ([u]), tags turn on what is off
    and off what is on, and leave both off at the end; [ws] are the words, with the style they are in. *)
Inductive styled : bool -> bool -> list item -> list (bool * bool * str) -> Prop :=
| styled_end : styled false false [] []
| styled_open_i u l ws : styled true u l ws -> styled false u (OpenI :: l) ws
| styled_close_i u l ws : styled false u l ws -> styled true u (CloseI :: l) ws
| styled_open_u i l ws : styled i true l ws -> styled i false (OpenU :: l) ws
| styled_close_u i l ws : styled i false l ws -> styled i true (CloseU :: l) ws
| styled_words i u t l ws : styled i u l ws -> styled i u (Words t :: l) ((i, u, t) :: ws).
Definition block_words (b : block) : bool * bool * str := (b_italic b, b_underline b, b_text b).
(** The number of times that a style changes, and the number of tags. *)
Fixpoint changes (before : bool) (l : list bool) : nat :=
  match l with
  | [] => 0
  | x :: t => (if Bool.eqb before x then 0 else 1) + changes x t
  end.
Definition is_i (x : item) : bool := match x with OpenI | CloseI => true | _ => false end.
Definition is_u (x : item) : bool := match x with OpenU | CloseU => true | _ => false end.
Definition line_items (bs : list block) (items : list item) : Prop :=
  styled false false items (map block_words bs) /\
  length (filter is_i items) = changes false (map b_italic bs ++ [false]) /\
  length (filter is_u items) = changes false (map b_underline bs ++ [false]).

(** The text for a vertical position. *)
Inductive amount_text (v : vpos) : str -> Prop :=
| amount_proportion p s : v_prop v = Some p -> float_text p s -> amount_text v (s ++ lit " of screen")
| amount_lines l ls a b : v_prop v = None -> v_line v = Some l -> v_lines v = Some ls -> shown_int a l -> shown_int b ls ->
    amount_text v (a ++ lit " lines of " ++ b)
| amount_none : v_prop v = None -> v_line v = None \/ v_lines v = None -> amount_text v [].
Inductive reference_text (v : vpos) : str -> Prop :=
| ref_top : v_ref v = Some TOP_OF_SCREEN -> reference_text v (lit " from top")
| ref_centre : v_ref v = Some VERTICAL_CENTRE_OF_SCREEN -> reference_text v (lit " from centre")
| ref_bottom : v_ref v = Some BOTTOM_OF_SCREEN -> reference_text v (lit " from bottom")
| ref_subtitle : v_ref v = Some TOP_OF_SUBTITLE -> reference_text v (lit " from top of subtitle")
| ref_none : v_ref v = None -> reference_text v [].
Definition tab_char : ascii := ascii_of_nat 9.
Definition line_text (l : line) (s : str) : Prop :=
  exists a r items, amount_text (l_vpos l) a /\ reference_text (l_vpos l) r /\ line_items (l_blocks l) items /\
    s = tab_char :: a ++ r ++ tab_char :: List.concat (map item_text items) ++ [lf].

(** * Everything *)

Definition subtitle_text (n : Z) (u : subtitle) (s : str) : Prop :=
  exists ns from to ls, shown_int ns n /\ time_text from (s_from u) /\ time_text to (s_to u) /\ Forall2 line_text (s_lines u) ls /\
    s = lit "Subtitle " ++ ns ++ lit " at " ++ from ++ lit " -> " ++ to ++ lf :: List.concat ls.
Inductive subtitles_text : Z -> list subtitle -> str -> Prop :=
| subtitles_none n : subtitles_text n [] []
| subtitles_more n u us s t : subtitle_text n u s -> subtitles_text (n + 1) us t -> subtitles_text n (u :: us) (s ++ t).
Definition setting_text (kv : str * str) : str := fst kv ++ lit ": " ++ snd kv ++ [lf].
Definition dump_text (metadata : list (str * str)) (us : list subtitle) (s : str) : Prop :=
  exists t, subtitles_text 0 us t /\ s = List.concat (map setting_text metadata) ++ t.
