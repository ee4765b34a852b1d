(** C125: which styles of an SSA file matter.  Statements only; proofs are in theories/Proofs. *)
From Coq Require Import ZArith List Bool Ascii String.
From Verif.Model Require Import Base Strings TimeModel Types Lines Ssa.
From Verif.Spec Require Import Outcome TextSpec LinesSpec SsaSpec TextFileSpec CommentSpec SsaStyleSpec.
From Verif.Proofs Require Import SsaTextProofs SsaStyleProofs.
Import ListNotations.
Local Open Scope Z_scope.
Local Notation length := List.length.

(** C125.  A style whose name does not come up again makes no difference, whatever the outcome. *)
Theorem C125_unused : forall keys name a l b, styles_so_far keys a -> style_with keys name l -> name <> lit "Default" -> ~ contains name b ->
  can_be_read (a ++ l ++ [lf]) -> ssa_reader_string (a ++ (l ++ [lf]) ++ b) = ssa_reader_string (a ++ b).
Proof. exact ssa_style_unused. Qed.
Print Assumptions C125_unused.
(** Styles with different names can change places. *)
Theorem C125_order : forall keys n1 n2 a l1 l2 b, styles_so_far keys a -> style_with keys n1 l1 -> style_with keys n2 l2 -> n1 <> n2 ->
  can_be_read (a ++ l1 ++ [lf]) -> can_be_read (a ++ l2 ++ [lf]) ->
  ssa_reader_string (a ++ (l1 ++ [lf]) ++ (l2 ++ [lf]) ++ b) = ssa_reader_string (a ++ (l2 ++ [lf]) ++ (l1 ++ [lf]) ++ b).
Proof. exact ssa_styles_swap. Qed.
Print Assumptions C125_order.
(** Of styles with the same name the last one counts. *)
Theorem C125_again : forall keys name a l1 l2 b, styles_so_far keys a -> style_with keys name l1 -> style_with keys name l2 ->
  can_be_read (a ++ l1 ++ [lf]) -> can_be_read (a ++ l2 ++ [lf]) ->
  ssa_reader_string (a ++ (l1 ++ [lf]) ++ (l2 ++ [lf]) ++ b) = ssa_reader_string (a ++ (l2 ++ [lf]) ++ b).
Proof. exact ssa_style_again. Qed.
Print Assumptions C125_again.
Definition styles_head : str := lit "[V4+ Styles]" ++ [lf] ++ lit "Format: Name, Fontsize, Italic" ++ [lf].
Definition loud : str := lit "Style: Loud,72,0".
Definition soft : str := lit "Style: Soft,36,-1".
Definition soft2 : str := lit "Style: Soft,40,0".
Definition styles_tail : str := join [lf] [lit "[Events]"; lit "Format: Start, End, Style, Text"; lit "Dialogue: 0:00:01.00,0:00:02.50,Soft,Hello"; []].
Example C125_case : styles_so_far [lit "Name"; lit " Fontsize"; lit " Italic"] styles_head /\
  style_with [lit "Name"; lit " Fontsize"; lit " Italic"] (lit "Loud") loud /\ style_with [lit "Name"; lit " Fontsize"; lit " Italic"] (lit "Soft") soft /\
  ~ contains (lit "Loud") styles_tail /\ can_be_read (styles_head ++ loud ++ [lf]) /\ can_be_read (styles_head ++ soft ++ [lf]) /\
  exists r r', ssa_reader_string (styles_head ++ (soft ++ [lf]) ++ (loud ++ [lf]) ++ styles_tail) = Ok [r] /\ r_italic r = true /\
    ssa_reader_string (styles_head ++ (soft ++ [lf]) ++ (soft2 ++ [lf]) ++ styles_tail) = Ok [r'] /\ r_italic r' = false.
Proof.
  assert (P : forall s ps, split (is_any_of [comma]) s = ps -> parts_of [comma] s ps) by (intros s ps; apply parts_iff).
  assert (NM : forall v y, named [lit "Name"; lit " Fontsize"; lit " Italic"] (v :: y) (trim v)).
  { intros v y. constructor; [apply trim_iff; vm_compute; reflexivity|now apply trim_iff|]. repeat constructor; intros T; apply trim_iff in T; vm_compute in T; discriminate T. }
  split; [|split; [|split; [|split; [|split; [|split]]]]].
  - exists [], "[V4+ Styles]"%string, (lit "Format: Name, Fontsize, Italic"), (lit "Format: Name, Fontsize, Italic"), (lit "Name, Fontsize, Italic"), [].
    split; [reflexivity|]. split; [now left|]. split; [right; now left|]. split; [intros I; cbn in I; intuition discriminate|].
    split; [eexists; split; [apply trim_iff; vm_compute; reflexivity|]; right; split; [intros (r & E); discriminate E|reflexivity]|].
    split; [exists (lit " Name, Fontsize, Italic"); split; [reflexivity|]; split; [intros I; cbn in I; intuition discriminate|apply trim_iff; vm_compute; reflexivity]|].
    split; [apply P; vm_compute; reflexivity|]. exists []. split; [split; [constructor|reflexivity]|constructor].
  - split; [intros I; cbn in I; intuition discriminate|]. exists loud, (lit "Loud,72,0"), [lit "Loud"; lit "72"; lit "0"].
    split; [eexists; split; [apply trim_iff; vm_compute; reflexivity|]; right; split; [intros (r & E); discriminate E|reflexivity]|].
    split; [exists (lit " Loud,72,0"); split; [reflexivity|]; split; [intros I; cbn in I; intuition discriminate|apply trim_iff; vm_compute; reflexivity]|].
    split; [apply P; vm_compute; reflexivity|]. split; [reflexivity|]. exact (NM (lit "Loud") _).
  - split; [intros I; cbn in I; intuition discriminate|]. exists soft, (lit "Soft,36,-1"), [lit "Soft"; lit "36"; lit "-1"].
    split; [eexists; split; [apply trim_iff; vm_compute; reflexivity|]; right; split; [intros (r & E); discriminate E|reflexivity]|].
    split; [exists (lit " Soft,36,-1"); split; [reflexivity|]; split; [intros I; cbn in I; intuition discriminate|apply trim_iff; vm_compute; reflexivity]|].
    split; [apply P; vm_compute; reflexivity|]. split; [reflexivity|]. exact (NM (lit "Soft") _).
  - intros (x & y & E). assert (I : In "L"%char styles_tail) by (rewrite E; apply in_or_app; right; now left). vm_compute in I. intuition discriminate.
  - eexists. vm_compute. reflexivity.
  - eexists. vm_compute. reflexivity.
  - do 2 eexists. split; [vm_compute; reflexivity|]. split; [reflexivity|]. split; [vm_compute; reflexivity|]. reflexivity.
Qed.
