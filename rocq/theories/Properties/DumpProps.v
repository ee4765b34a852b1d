(** Properties of dump() and of printing times (C56, C85, C86, C89). *)
From Coq Require Import ZArith List Bool Ascii String.
From Verif.Model Require Import Base Float TimeModel Types Collect Dump.
From Verif.Spec Require Import Outcome TextSpec LinesSpec StlTextSpec StlSamples DumpSpec.
From Verif.Proofs Require Import SortProofs FiguresProofs DumpProofs.
Import ListNotations.
Local Open Scope Z_scope.

(** C56.  After two tabs (with the position between them) a line has tags and text: tags are opened and closed in turn and
    are closed at the end, the texts are those of the blocks in their style, and there is a tag only where a style changes. *)
Theorem C56_tags : forall l, exists place items,
  dump_line l = tab_char :: place ++ tab_char :: List.concat (map item_text items) ++ [lf] /\ line_items (l_blocks l) items.
Proof. exact line_tags. Qed.
Print Assumptions C56_tags.
Example C56_case : let b t i u := mkBlock (lit t) None (mkFS None None) None None Types.white false i u in
  dump_line (mkLine (mkH HORIZONTAL_CENTRE_OF_SCREEN (f_of_int 0)) (mkV None (Some 18) (Some 23) (Some TOP_OF_SCREEN))
    [b "a" false false; b "b" true false; b "c" true true; b "d" false true]%string) =
  tab_char :: lit "18 lines of 23 from top" ++ tab_char :: lit "a<i>b<u>c</i>d</u>" ++ [lf].
Proof. vm_compute. reflexivity. Qed.

(** C85.  A time is printed as hours, minutes, seconds and frames, with its rate, *)
Theorem C85_time_printed : forall t, time_text (print_time t) t.
Proof. exact print_time_shown. Qed.
Print Assumptions C85_time_printed.
(** and is read back by the text STL reader if it has no rate. *)
Theorem C85_time_read_back : forall t, is_int (t_seconds t) -> 0 <= t_seconds t -> is_int (t_frames t) -> t_rate t = None -> frame_time (print_time t) t.
Proof. exact print_time_read. Qed.
Print Assumptions C85_time_read_back.
Example C85_case : print_time (mkT 3725 7 None) = lit "01:02:05:7" /\ print_time (mkT 360000 12 (Some (mkR 25 1))) = lit "100:00:00:12 @ 25/1" /\
  is_int 3725 /\ is_int 7.
Proof. split; [reflexivity|]. split; [reflexivity|]. split; split; discriminate. Qed.

(** C86.  dump() writes the metadata and then every subtitle that collect() gives, with its times and lines. *)
Theorem C86_dump : forall sort metadata raws us, collect sort raws = Ok us ->
  exists s, dump sort metadata raws = Ok s /\ dump_text metadata us s.
Proof. exact dump_writes. Qed.
Print Assumptions C86_dump.
Theorem C86_dump_fails : forall sort metadata raws, (forall e, collect sort raws = Throw e -> dump sort metadata raws = Throw e) /\
  (forall u, collect sort raws = Undef u -> dump sort metadata raws = Undef u).
Proof. exact dump_fails. Qed.
Print Assumptions C86_dump_fails.
Example C86_case : exists us, collect insertion_sort [set_text (lit "x") (set_italic true raw_default)] = Ok us /\
  dump insertion_sort [(lit "Title", lit "T")] [set_text (lit "x") (set_italic true raw_default)] =
    Ok (lit "Title: T" ++ [lf] ++ lit "Subtitle 0 at 00:00:00:0 -> 00:00:00:0" ++ [lf; tab_char; tab_char] ++ lit "<i>x</i>" ++ [lf]).
Proof. eexists. split; vm_compute; reflexivity. Qed.

(** C89.  Floats are written with six significant digits. *)
Theorem C89_float_printed : forall f, float_text f (print_float f).
Proof. exact print_float_text. Qed.
Print Assumptions C89_float_printed.
Example C89_case : print_float (f_lit 9 10) = lit "0.9" /\ print_float (f_lit 9999997 10000000) = lit "1" /\ print_float (f_lit 999997 1000000) = lit "0.999997" /\
  print_float (f_lit (-1) 30000) = lit "-3.33333e-05" /\ print_float (f_of_int 16777216) = lit "1.67772e+07" /\ print_float (f_lit 1234 10) = lit "123.4".
Proof. vm_compute. repeat split. Qed.
