(** Properties of the text STL reader (C52-C54, C82-C84). *)
From Coq Require Import ZArith List Bool Ascii String.
From Verif.Model Require Import Base Float TimeModel Types StlText.
From Verif.Spec Require Import Outcome TextSpec LinesSpec StlFileSpec RawSpec SsaSpec StopSpec StlTextSpec StlTextUseSpec.
From Verif.Proofs Require Import StringProofs SsaTextProofs StlTextProofs StlTextUseProofs.
Import ListNotations.
Local Open Scope Z_scope.
Local Notation length := List.length.

(** C52.  If there is white space in front of the first comma, the pieces of text that a line gives have its two times. *)
Theorem C52_start_time_partial : forall s ls raws before l after from to text, complete_lines s ls -> ls = before ++ l :: after -> says l from to text ->
  space_before_comma l -> stl_text_read true s = Ok raws ->
  exists a rs b, raws = a ++ rs ++ b /\ Forall (shown from to) rs /\ unmarked text (text_of rs).
Proof. exact read_shows. Qed.
Print Assumptions C52_start_time_partial.
Example C52_case : says (lit "00:00:00:12 , 00:00:01:00 , Hello^I you|there") (mkT 0 12 None) (mkT 1 0 None) (lit " Hello^I you|there") /\
  space_before_comma (lit "00:00:00:12 , 00:00:01:00 , Hello^I you|there") /\ unmarked (lit " Hello^I you|there") (lit " Hello youthere") /\
  returns (stl_text_read true (lit "00:00:00:12 , 00:00:01:00 , Hello^I you|there" ++ [lf])).
Proof.
  split; [|split; [|split]].
  - exists (lit "00:00:00:12 , 00:00:01:00 , Hello^I you|there"), (lit "00:00:00:12 "), (lit " 00:00:01:00 "), (lit "00:00:00:12"), (lit "00:00:01:00").
    split; [apply trim_iff; reflexivity|]. split; [now intros [rest E]|]. split; [now intros [rest E]|].
    split. { split; [reflexivity|]. split; vm_compute; intuition discriminate. }
    split; [discriminate|]. split; [apply trim_iff; reflexivity|]. split; [apply trim_iff; reflexivity|].
    split; [apply (time_iff _ (Ok (Some (mkT 0 12 None)))); vm_compute; reflexivity|apply (time_iff _ (Ok (Some (mkT 1 0 None)))); vm_compute; reflexivity].
  - exists (lit "00:00:00:12"), " "%char, (lit " 00:00:01:00 , Hello^I you|there"). split; [reflexivity|]. split; [right; vm_compute; reflexivity|]. vm_compute; intuition discriminate.
  - repeat (first [apply unmarked_end|apply unmarked_mark; [reflexivity|]|apply unmarked_bar; [reflexivity|]|apply unmarked_plain; [split; discriminate|]]).
  - eexists. vm_compute. reflexivity.
Qed.
(** Without it the last digit of the start time is lost: 00:00:00:12 becomes 00:00:00:1. *)
Theorem C52_start_time_refuted : exists l from to text r, says l from to text /\ stl_text_read true (l ++ [lf]) = Ok [r] /\ r_text r = text /\ r_from r <> from.
Proof.
  exists (lit "00:00:00:12,00:00:01:00,Hello"), (mkT 0 12 None), (mkT 1 0 None), (lit "Hello"), (plain_piece (mkT 0 1 None) (mkT 1 0 None) 0 (lit "Hello")).
  split; [|split; [vm_compute; reflexivity|split; [reflexivity|discriminate]]].
  exists (lit "00:00:00:12,00:00:01:00,Hello"), (lit "00:00:00:12"), (lit "00:00:01:00"), (lit "00:00:00:12"), (lit "00:00:01:00").
  split; [apply trim_iff; reflexivity|]. split; [now intros [rest E]|]. split; [now intros [rest E]|].
  split. { split; [reflexivity|]. split; vm_compute; intuition discriminate. }
  split; [discriminate|]. split; [apply trim_iff; reflexivity|]. split; [apply trim_iff; reflexivity|].
  split; [apply (time_iff _ (Ok (Some (mkT 0 12 None)))); vm_compute; reflexivity|apply (time_iff _ (Ok (Some (mkT 1 0 None)))); vm_compute; reflexivity].
Qed.
Print Assumptions C52_start_time_refuted.

(** In general: a start time that ends in two digits in front of the comma loses the last of them. *)
Theorem C52_as_is : forall s ls raws before l after from to text, complete_lines s ls -> ls = before ++ l :: after -> says l from to text ->
  digits_before_comma l -> stl_text_read true s = Ok raws ->
  exists a rs b, raws = a ++ rs ++ b /\ Forall (shown (last_digit_lost from) to) rs /\ unmarked text (text_of rs).
Proof. exact read_cut. Qed.
Print Assumptions C52_as_is.
Example C52_as_is_case : digits_before_comma (lit "00:00:00:12,00:00:01:00,Hello") /\ last_digit_lost (mkT 0 12 None) = mkT 0 1 None.
Proof.
  split; [|reflexivity]. exists (lit "00:00:00:"), "1"%char, "2"%char, (lit "00:00:01:00,Hello"). split; [reflexivity|].
  split; [exists 1; vm_compute; intuition discriminate|]. split; [exists 2; vm_compute; intuition discriminate|]. vm_compute; intuition discriminate.
Qed.

(** C53.  In files of plain subtitles of at most two lines, the first line of each has number 0 and the second has number 1. *)
Theorem C53_line_numbers_partial : forall es s, entries_text es s -> Forall (fun e => (length (e_rows e) <= 2)%nat) es ->
  stl_text_read true s = Ok (List.concat (map (rows_of Z.of_nat) es)).
Proof. exact two_rows. Qed.
Print Assumptions C53_line_numbers_partial.
Example C53_case : entries_text [mkEntry (mkT 0 12 None) (mkT 1 0 None) (map lit ["Hello"; "there"]%string); mkEntry (mkT 61 0 None) (mkT 62 3 None) [lit "Bye"]]
  (lit "00:00:00:12 ,00:00:01:00,Hello|there" ++ lf :: lit "00:01:01:00 ,00:01:02:03,Bye" ++ [lf]).
Proof.
  assert (P : forall row c, hd_error row = Some c -> forallb (fun c => negb (Ascii.eqb c "|") && negb (Ascii.eqb c "^") && negb (Ascii.eqb c lf)) row = true -> plain_row row).
  { intros row c N F. rewrite forallb_forall in F. split; [destruct row; discriminate|]. split.
    - apply Forall_forall. intros x I. apply F in I. split; intros ->; discriminate.
    - intros I. apply F in I. discriminate. }
  apply (entries_cons _ (lit "00:00:00:12 ,00:00:01:00,Hello|there")).
  { exists (lit "00:00:00:12"), " "%char, (lit "00:00:01:00"). split; [reflexivity|].
    split; [apply (time_iff _ (Ok (Some (mkT 0 12 None)))); vm_compute; reflexivity|]. split; [right; vm_compute; reflexivity|]. split; [discriminate|].
    split; [apply (time_iff _ (Ok (Some (mkT 1 0 None)))); vm_compute; reflexivity|]. split; [discriminate|].
    split. { constructor; [now apply (P _ "H"%char)|]. constructor; [now apply (P _ "t"%char)|constructor]. }
    intros (b & c & E & W). apply (app_inj_tail (lit "Hello|ther") b "e"%char c) in E. destruct E as [_ <-]. destruct W as [[W1 W2]|W]; vm_compute in *; congruence. }
  apply (entries_cons _ (lit "00:01:01:00 ,00:01:02:03,Bye") [] []).
  { exists (lit "00:01:01:00"), " "%char, (lit "00:01:02:03"). split; [reflexivity|].
    split; [apply (time_iff _ (Ok (Some (mkT 61 0 None)))); vm_compute; reflexivity|]. split; [right; vm_compute; reflexivity|]. split; [discriminate|].
    split; [apply (time_iff _ (Ok (Some (mkT 62 3 None)))); vm_compute; reflexivity|]. split; [discriminate|].
    split. { constructor; [now apply (P _ "B"%char)|constructor]. }
    intros (b & c & E & W). apply (app_inj_tail (lit "By") b "e"%char c) in E. destruct E as [_ <-]. destruct W as [[W1 W2]|W]; vm_compute in *; congruence. }
  constructor.
Qed.
(** In general, every line after the first has number 1. *)
Theorem C53_all_lines_partial : forall es s, entries_text es s ->
  stl_text_read true s = Ok (List.concat (map (rows_of (fun k => match k with O => 0 | S _ => 1 end)) es)).
Proof. exact entries_read. Qed.
Print Assumptions C53_all_lines_partial.
Theorem C53_line_numbers_refuted : exists s from to, stl_text_read true s = Ok [plain_piece from to 0 (lit "a"); plain_piece from to 1 (lit "b"); plain_piece from to 1 (lit "c")] /\
  s = lit "00:00:00:12 ,00:00:01:00,a|b|c" ++ [lf].
Proof. eexists. exists (mkT 0 12 None), (mkT 1 0 None). split; [|reflexivity]. vm_compute. reflexivity. Qed.
Print Assumptions C53_line_numbers_refuted.
(** A bar at the end of a subtitle counts for the next one. *)
Theorem C53_bar_at_end_refuted : exists from to, stl_text_read true (lit "00:00:00:12 ,00:00:01:00,a|" ++ lf :: lit "00:00:00:12 ,00:00:01:00,b" ++ [lf]) =
  Ok [plain_piece from to 0 (lit "a"); plain_piece from to 1 (lit "b")].
Proof. exists (mkT 0 12 None), (mkT 1 0 None). vm_compute. reflexivity. Qed.
Print Assumptions C53_bar_at_end_refuted.

(** C54.  What a file gives is what its lines give, one after the other; a line with white space in front of its first comma
    gives all of its text. *)
Theorem C54_text_kept_partial : forall s ls raws, complete_lines s ls -> stl_text_read true s = Ok raws ->
  exists rss, raws = List.concat rss /\ Forall2 (fun l rs => forall from to text, says l from to text -> space_before_comma l ->
    Forall (shown from to) rs /\ unmarked text (text_of rs)) ls rss.
Proof. exact read_gives. Qed.
Print Assumptions C54_text_kept_partial.
Example C54_case : complete_lines (lit "// x" ++ lf :: lit "00:00:00:12 , 00:00:01:00 , Hello^I you|there" ++ [lf])
    [lit "// x"; lit "00:00:00:12 , 00:00:01:00 , Hello^I you|there"] /\
  returns (stl_text_read true (lit "// x" ++ lf :: lit "00:00:00:12 , 00:00:01:00 , Hello^I you|there" ++ [lf])).
Proof. split; [apply (getlines_iff 60); [vm_compute; repeat constructor|vm_compute; reflexivity]|eexists; vm_compute; reflexivity]. Qed.
(** A last line without a newline gives nothing. *)
Theorem C54_text_kept_refuted : exists l from to text, says l from to text /\ space_before_comma l /\ text_lines l [l] /\ stl_text_read true l = Ok [].
Proof.
  exists (lit "00:00:00:12 , 00:00:01:00 , Hello^I you|there"), (mkT 0 12 None), (mkT 1 0 None), (lit " Hello^I you|there").
  split; [exact (proj1 C52_case)|]. split; [exact (proj1 (proj2 C52_case))|]. split; [|vm_compute; reflexivity].
  apply lines_last; [discriminate|]. vm_compute; intuition discriminate.
Qed.
Print Assumptions C54_text_kept_refuted.
(** In general, what follows the last newline makes no difference at all. *)
Theorem C54_as_is : forall s rest, (s = [] \/ ends_in (eq lf) s) -> ~ In lf rest -> stl_text_read true (s ++ rest) = stl_text_read true s.
Proof. exact read_rest. Qed.
Print Assumptions C54_as_is.
Example C54_as_is_case : ends_in (eq lf) (lit "// x" ++ [lf]) /\ ~ In lf (lit "00:00:00:12 , 00:00:01:00 , Hello").
Proof. split; [now exists (lit "// x"), lf|vm_compute; intuition discriminate]. Qed.

(** C82.  What the reader gives. *)
Theorem C82_text_stl_meaning : forall s raws, stl_text_read true s = Ok raws <-> text_stl_file s raws.
Proof. exact text_stl_iff. Qed.
Print Assumptions C82_text_stl_meaning.
Example C82_case : exists r1 r2, text_stl_file (join [lf] (map lit ["// comment"; "$FontName = Arial"; "$Bold = True"; "$FontSize = 30"; "";
    "10:00:00:12 , 10:00:01:00 , Hello ^Iyou"; "nonsense"; ""]%string)) [r1; r2] /\
  r_text r1 = lit " Hello " /\ r_bold r1 = true /\ r_italic r1 = false /\ r_font r1 = Some (lit "Arial") /\ fs_points (r_font_size r1) = Some 30 /\
  r_from r1 = mkT 36000 12 None /\ r_text r2 = lit "you" /\ r_italic r2 = true /\ r_to r2 = mkT 36001 0 None.
Proof.
  eexists. eexists. split; [apply text_stl_iff; vm_compute; reflexivity|]. repeat split.
Qed.

(** C83.  Why reading stops without a result. *)
Theorem C83_text_stl_exception : forall s e, stl_text_read true s = Throw e <-> text_stl_stops s (Throw e).
Proof. intros s e. exact (text_stl_stop_iff s (Throw e) ltac:(discriminate)). Qed.
Print Assumptions C83_text_stl_exception.
Theorem C83_text_stl_undefined : forall s u, stl_text_read true s = Undef u <-> text_stl_stops s (Undef u).
Proof. intros s u. exact (text_stl_stop_iff s (Undef u) ltac:(discriminate)). Qed.
Print Assumptions C83_text_stl_undefined.
Example C83_case : text_stl_stops (lit "00:00:0x:00 ,00:00:01:00,a" ++ [lf]) (Throw EBadLexicalCast) /\
  text_stl_stops (lit "600000:00:00:00 ,00:00:01:00,a" ++ [lf]) (Undef UbIntOverflow).
Proof. split; apply text_stl_stop_iff; try discriminate; vm_compute; reflexivity. Qed.

(** C84.  There is no undefined behaviour in files whose numbers have at most five digits. *)
Theorem C84_text_stl_safe_partial : forall s, short_numbers 5 s -> defined (stl_text_read true s).
Proof. exact short_defined. Qed.
Print Assumptions C84_text_stl_safe_partial.
Theorem C84_text_stl_safe_refuted : exists s u, stl_text_read true s = Undef u.
Proof. exists (lit "600000:00:00:00 ,00:00:01:00,a" ++ [lf]). eexists. vm_compute. reflexivity. Qed.
Print Assumptions C84_text_stl_safe_refuted.
(** Just when there is some: in a subtitle whose start, or whose end if the start is not wrong, has more seconds than fit an int,
    and up to which the file can be read. *)
Theorem C84_as_is : forall s, defined (stl_text_read true s) <-> ~ text_stl_overflows s.
Proof. exact text_stl_defined. Qed.
Print Assumptions C84_as_is.
Example C84_as_is_case : text_stl_overflows (lit "00:00:00:00 ,600000:00:01:00,a" ++ [lf]).
Proof. apply text_stl_overflow with (u := UbIntOverflow). vm_compute. reflexivity. Qed.
Example C84_case : short_numbers 5 (lit "99:00").
Proof.
  intros before d after E _. apply (f_equal (@List.length _)) in E. rewrite !app_length in E. cbn in E. rewrite E. 
  apply (Nat.le_trans _ (length d + length after)); [apply Nat.le_add_r|]. rewrite (Nat.add_comm (length before)). apply Nat.le_add_r.
Qed.
