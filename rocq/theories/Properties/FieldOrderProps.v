(** C126: the order of the fields of an SSA file.  Statements only; proofs are in theories/Proofs. *)
From Coq Require Import ZArith List Bool Permutation Ascii String.
From Verif.Model Require Import Base Strings TimeModel Types Lines Ssa.
From Verif.Spec Require Import Outcome TextSpec LinesSpec SsaSpec TextFileSpec FieldOrderSpec.
From Verif.Proofs Require Import SsaTextProofs FieldOrderProofs.
Import ListNotations.
Local Open Scope Z_scope.
Local Notation length := List.length.

(** C126.  The fields of styles can be in any order. *)
Theorem C126_styles : forall h styles styles' ls ls' a c, whole_lines a -> styles_section h styles ls -> styles_section h styles' ls' ->
  Forall2 reordered styles styles' -> no_styles c ->
  forall r, ssa_reader_string (a ++ text_of_lines ls ++ lit "[Events]" ++ [lf] ++ c) = Ok r <-> ssa_reader_string (a ++ text_of_lines ls' ++ lit "[Events]" ++ [lf] ++ c) = Ok r.
Proof. exact ssa_styles_order. Qed.
Print Assumptions C126_styles.
(** So can those of dialogues, if the text is last and no margin comes before the style. *)
Theorem C126_events_partial : forall events events' ls ls' a, whole_lines a -> events_section events ls -> events_section events' ls' ->
  Forall2 reordered events events' -> Forall text_last events -> Forall text_last events' -> Forall style_first events -> Forall style_first events' ->
  forall r, ssa_reader_string (a ++ text_of_lines ls) = Ok r <-> ssa_reader_string (a ++ text_of_lines ls') = Ok r.
Proof. exact ssa_events_order. Qed.
Print Assumptions C126_events_partial.
Definition names1 : list str := [lit "[V4+ Styles]"; lit "Format: Name, Fontsize, Italic, MarginV"; lit "Style: Soft,36,-1,20"; lit "Style: Loud,72,0,20"].
Definition names2 : list str := [lit "[V4+ Styles]"; lit "Format: Italic, MarginV, Name, Fontsize"; lit "Style: -1,20,Soft,36"; lit "Style: 0,20,Loud,72"].
Definition one_style (name size italic margin : string) : list (str * str) := [(lit "Name", lit name); (lit "Fontsize", lit size); (lit "Italic", lit italic); (lit "MarginV", lit margin)].
Definition its_style (name size italic margin : string) : list (str * str) := [(lit "Italic", lit italic); (lit "MarginV", lit margin); (lit "Name", lit name); (lit "Fontsize", lit size)].
Definition dialogues1 : list str := [lit "[Events]"; lit "Format: Start, End, Style, MarginV, Text"; lit "Dialogue: 0:00:01.00,0:00:02.50,Soft,30,Hello, you"].
Definition dialogues2 : list str := [lit "[Events]"; lit "Format: Style, MarginV, End, Start, Text"; lit "Dialogue: Soft,30,0:00:02.50,0:00:01.00,Hello, you"].
Definition dialogues3 : list str := [lit "[Events]"; lit "Format: Start, End, MarginV, Style, Text"; lit "Dialogue: 0:00:01.00,0:00:02.50,30,Soft,Hello, you"].
Definition fields1 : list (str * str) := [(lit "Start", lit "0:00:01.00"); (lit "End", lit "0:00:02.50"); (lit "Style", lit "Soft"); (lit "MarginV", lit "30"); (lit "Text", lit "Hello, you")].
Definition fields2 : list (str * str) := [(lit "Style", lit "Soft"); (lit "MarginV", lit "30"); (lit "End", lit "0:00:02.50"); (lit "Start", lit "0:00:01.00"); (lit "Text", lit "Hello, you")].
Definition fields3 : list (str * str) := [(lit "Start", lit "0:00:01.00"); (lit "End", lit "0:00:02.50"); (lit "MarginV", lit "30"); (lit "Style", lit "Soft"); (lit "Text", lit "Hello, you")].
Example names_written : styles_section "[V4+ Styles]" [one_style "Soft" "36" "-1" "20"; one_style "Loud" "72" "0" "20"] names1 /\
  styles_section "[V4+ Styles]" [its_style "Soft" "36" "-1" "20"; its_style "Loud" "72" "0" "20"] names2 /\
  Forall2 reordered [one_style "Soft" "36" "-1" "20"; one_style "Loud" "72" "0" "20"] [its_style "Soft" "36" "-1" "20"; its_style "Loud" "72" "0" "20"].
Proof.
  assert (P : forall s ps, split (is_any_of [comma]) s = ps -> parts_of [comma] s ps) by (intros s ps; apply parts_iff).
  split; [|split].
  - do 3 eexists. split; [reflexivity|]. split; [right; now left|]. split; [eexists; split; [eapply line_of; vm_compute; reflexivity|apply P; vm_compute; reflexivity]|].
    repeat apply Forall2_cons; try apply Forall2_nil; (do 2 eexists; split; [eapply line_of; vm_compute; reflexivity|]; split; [apply P; vm_compute; reflexivity|apply fields_of; vm_compute; reflexivity]).
  - do 3 eexists. split; [reflexivity|]. split; [right; now left|]. split; [eexists; split; [eapply line_of; vm_compute; reflexivity|apply P; vm_compute; reflexivity]|].
    repeat apply Forall2_cons; try apply Forall2_nil; (do 2 eexists; split; [eapply line_of; vm_compute; reflexivity|]; split; [apply P; vm_compute; reflexivity|apply fields_of; vm_compute; reflexivity]).
  - repeat apply Forall2_cons; try apply Forall2_nil; (split; [apply once_of; vm_compute; reflexivity|]; unfold one_style, its_style; apply (Permutation_app_comm [_; _] [_; _])).
Qed.
Example fields_written : events_section [fields1] dialogues1 /\ events_section [fields2] dialogues2 /\ events_section [fields3] dialogues3.
Proof.
  assert (P : forall s ps, split (is_any_of [comma]) s = ps -> parts_of [comma] s ps) by (intros s ps; apply parts_iff).
  split; [|split].
  - do 3 eexists. split; [reflexivity|]. split; [eexists; split; [eapply line_of; vm_compute; reflexivity|apply P; vm_compute; reflexivity]|].
    apply Forall2_cons; [|constructor]. eexists. exists [lit "0:00:01.00"; lit "0:00:02.50"; lit "Soft"; lit "30"; lit "Hello, you"].
    split; [eapply line_of; vm_compute; reflexivity|]. split; [apply values_of; vm_compute; reflexivity|apply fields_of; vm_compute; reflexivity].
  - do 3 eexists. split; [reflexivity|]. split; [eexists; split; [eapply line_of; vm_compute; reflexivity|apply P; vm_compute; reflexivity]|].
    apply Forall2_cons; [|constructor]. eexists. exists [lit "Soft"; lit "30"; lit "0:00:02.50"; lit "0:00:01.00"; lit "Hello, you"].
    split; [eapply line_of; vm_compute; reflexivity|]. split; [apply values_of; vm_compute; reflexivity|apply fields_of; vm_compute; reflexivity].
  - do 3 eexists. split; [reflexivity|]. split; [eexists; split; [eapply line_of; vm_compute; reflexivity|apply P; vm_compute; reflexivity]|].
    apply Forall2_cons; [|constructor]. eexists. exists [lit "0:00:01.00"; lit "0:00:02.50"; lit "30"; lit "Soft"; lit "Hello, you"].
    split; [eapply line_of; vm_compute; reflexivity|]. split; [apply values_of; vm_compute; reflexivity|apply fields_of; vm_compute; reflexivity].
Qed.
Example fields_same : reordered fields1 fields2 /\ reordered fields1 fields3 /\ Forall text_last [fields1; fields2; fields3] /\ style_first fields1 /\ style_first fields2.
Proof.
  assert (O : once fields1) by (apply once_of; vm_compute; reflexivity).
  split; [split; [exact O|]|split; [split; [exact O|]|split; [|split]]].
  - unfold fields1, fields2. rewrite (perm_swap (lit "End", lit "0:00:02.50")). apply (Permutation_app (l := [_; _; _; _]) (l' := [_; _; _; _])); [|reflexivity].
    apply (Permutation_app_comm [_; _] [_; _]).
  - unfold fields1, fields3. do 2 apply perm_skip. apply perm_swap.
  - repeat apply Forall_cons; try apply Forall_nil; (eexists [_; _; _; _], _; reflexivity).
  - intros p v q kv E I. unfold fields1 in E. destruct p as [|a [|b [|c [|d [|e p]]]]]; cbn [app] in E; try discriminate E.
    all: try (exfalso; now destruct p).
    all: injection E as; subst; cbn in I; repeat (destruct I as [<-|I]); try contradiction; intros J; cbn in J; destruct J as [J|[J|[J|[]]]]; discriminate J.
  - intros p v q kv E I. unfold fields2 in E. destruct p as [|a [|b [|c [|d [|e p]]]]]; cbn [app] in E; try discriminate E.
    all: try (exfalso; now destruct p).
    all: injection E as; subst; cbn in I; repeat (destruct I as [<-|I]); try contradiction; intros J; cbn in J; destruct J as [J|[J|[J|[]]]]; discriminate J.
Qed.
Example C126_styles_case : whole_lines (lit "[Script Info]" ++ [lf]) /\ no_styles (text_of_lines (tl dialogues1)).
Proof.
  split; [right; now exists (lit "[Script Info]")|]. intros ls l u T I B H.
  apply LinesProofs.lines_of_string_iff in T. subst ls. apply SsaProofs.line_body_iff in B. subst u.
  vm_compute in I. destruct I as [<-|[<-|[]]]; vm_compute in H; intuition discriminate.
Qed.
Example C126_case : exists r, r_italic r = true /\ ssa_reader_string (text_of_lines names1 ++ text_of_lines dialogues1) = Ok [r] /\
  ssa_reader_string (text_of_lines names2 ++ text_of_lines dialogues1) = Ok [r] /\ ssa_reader_string (text_of_lines names1 ++ text_of_lines dialogues2) = Ok [r].
Proof. eexists. split; [|split; [|split]]; [|vm_compute; reflexivity..]. reflexivity. Qed.
(** A margin that is before the style is lost. *)
Theorem C126_events_refuted : exists events events' ls ls' a r r', whole_lines a /\ events_section events ls /\ events_section events' ls' /\
  Forall2 reordered events events' /\ Forall text_last events /\ Forall text_last events' /\
  ssa_reader_string (a ++ text_of_lines ls) = Ok [r] /\ ssa_reader_string (a ++ text_of_lines ls') = Ok [r'] /\ r_vpos r <> r_vpos r'.
Proof.
  exists [fields1], [fields3], dialogues1, dialogues3, (text_of_lines names1). do 2 eexists.
  destruct fields_written as (A & _ & B). destruct fields_same as (_ & C & D & _). inversion D as [|? ? D1 D2]; subst. inversion D2 as [|? ? D3 D4]; subst. inversion D4 as [|? ? D5 D6]; subst.
  split; [right; eexists; change (text_of_lines names1) with (text_of_lines (removelast names1) ++ lit "Style: Loud,72,0,20" ++ [lf]); now rewrite app_assoc|].
  split; [exact A|]. split; [exact B|]. split; [apply Forall2_cons; [exact C|constructor]|]. split; [now repeat constructor|]. split; [now repeat constructor|]. split; [vm_compute; reflexivity|]. split; [vm_compute; reflexivity|]. vm_compute. discriminate.
Qed.
Print Assumptions C126_events_refuted.
