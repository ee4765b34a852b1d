(** The SubRip reader against the file format. *)
From Coq Require Import ZArith List Bool Ascii String Lia.
From Verif.Model Require Import Base Strings Float TimeModel Types Lines RawConvert Compose Ssa Subrip.
From Verif.Spec Require Import Outcome TextSpec LinesSpec StlFileSpec RawSpec SsaTagSpec SubripSpec.
From Verif.Proofs Require Import StringProofs ComposeProofs Iso6937Proofs StlReadProofs SsaTagProofs LinesProofs SubripTokenProofs SubripFontProofs.
Import ListNotations.
Local Open Scope Z_scope.
Local Notation length := List.length.

(** * Text and look *)

Lemma override_text c r t r' x : override c r t r' -> override c (with_text x r) t (with_text x r').
Proof.
  intros O. destruct O as [s f I|k h v o I M|a b1 px b2 py A X Y B1 B2|n N|s l k C| |t H1 H2 H3 H4 H5].
  - assert (E : f (with_text x r) = with_text x (f r)).
    { cbn [In style_tags] in I. repeat destruct I as [I|I]; try contradiction; injection I as <- <-; reflexivity. }
    rewrite <- E. now constructor.
  - change (with_text x (with_reference v (with_horizontal h o r))) with (with_reference v (with_horizontal h o (with_text x r))).
    now constructor.
  - exact (override_pos c (with_text x r) a b1 px b2 py A X Y B1 B2).
  - exact (override_size c (with_text x r) n N).
  - exact (override_colour c (with_text x r) s l k C).
  - exact (override_colour_reset c (with_text x r)).
  - now apply override_nothing.
Qed.
Lemma override_keeps_text c r t r' : override c r t r' -> r_text r' = r_text r.
Proof.
  intros O. destruct O as [s f I| | | | | |]; try reflexivity.
  cbn [In style_tags] in I. repeat destruct I as [I|I]; try contradiction; injection I as <- <-; reflexivity.
Qed.
Lemma override_line c r t r' : override c r t r' -> v_line (r_vpos r') = v_line (r_vpos r).
Proof.
  intros O. destruct O as [s f I| | | | | |]; try reflexivity.
  cbn [In style_tags] in I. repeat destruct I as [I|I]; try contradiction; injection I as <- <-; reflexivity.
Qed.
Lemma with_text_id r : with_text (r_text r) r = r.
Proof. now destruct r. Qed.
Lemma with_text_eq a b : r_text a = r_text b -> with_text [] a = with_text [] b -> a = b.
Proof. destruct a, b. unfold with_text. cbn. intros -> E. injection E as -> -> -> -> -> -> -> -> -> -> -> -> -> ->. reflexivity. Qed.

Lemma maybe_eq p subs : maybe_content p subs = (with_text [] p, subs ++ with_piece (r_text p) (with_text [] p)).
Proof.
  unfold maybe_content, with_piece. destruct p as [[|c t] ? ? ? ? ? ? ? ? ? ? ? ? ? ?]; cbn [r_text]; [now rewrite app_nil_r|reflexivity].
Qed.

Lemma restyled_text r cs tok r' cs' : restyled r cs tok r' cs' -> r_text r' = r_text r.
Proof. now intros []. Qed.

(** * One line of text *)

Lemma lexed_step c s toks : lexed (c :: s) toks -> exists tok rest toks', toks = tok :: toks' /\ lexed rest toks' /\
  (tag_at (c :: s) tok rest \/ (forall tok rest, ~ tag_at (c :: s) tok rest) /\ tok = TChar c /\ rest = s).
Proof.
  intros L. inversion L as [|s' tok rest toks' T L'|c' s' toks' N L']; subst.
  - exists tok, rest, toks'. now repeat split; [|left].
  - exists (TChar c), s, toks'. repeat split; [exact L'|]. right. now repeat split.
Qed.
Lemma tag_no_char s tok rest c : tag_at s tok rest -> tok <> TChar c.
Proof.
  intros T ->. inversion T as [p name tok rest' I| |]; subst.
  cbn [In simple_tags] in I. repeat destruct I as [I|I]; try contradiction; discriminate.
Qed.

Lemma pieces_nil r cs tx ps r' l : pieces r cs tx [] ps r' l -> ps = [] /\ r = r' /\ tx = l.
Proof. inversion 1; subst. now repeat split. Qed.

Lemma convert_chars_iff fuel n ctx t p cs subs p' subs' : (length t <= fuel)%nat -> cs <> [] ->
  (convert_chars fuel n ctx t p cs subs = Ok (p', subs') <->
   exists toks ps, lexed t toks /\ pieces (with_text [] p) cs (r_text p) toks ps (with_text [] p') (r_text p') /\ subs' = subs ++ ps).
Proof.
  revert t p cs subs. induction fuel as [|k IH]; intros t p cs subs L NE.
  - destruct t; [|cbn in L; lia]. cbn [convert_chars]. split.
    + intros E. apply Ok_inj in E. injection E as <- <-. exists [], []. split; [constructor|]. split; [constructor|]. now rewrite app_nil_r.
    + intros (toks & ps & LX & P & ->). inversion LX as [|s tok rest toks' T L'|]; subst.
      2: { apply first_tag_iff in T. apply first_tag_length in T. cbn in T. lia. }
      apply pieces_nil in P. destruct P as (-> & E & X). rewrite app_nil_r. do 2 f_equal. now apply with_text_eq.
  - destruct t as [|c t].
    { cbn [convert_chars]. split.
      + intros E. apply Ok_inj in E. injection E as <- <-. exists [], []. split; [constructor|]. split; [constructor|]. now rewrite app_nil_r.
      + intros (toks & ps & LX & P & ->). inversion LX as [|s tok rest toks' T L'|]; subst.
        2: { apply first_tag_iff in T. apply first_tag_length in T. cbn in T. lia. }
        apply pieces_nil in P. destruct P as (-> & E & X). rewrite app_nil_r. do 2 f_equal. now apply with_text_eq. }
    rewrite convert_step. rewrite maybe_eq. cbn [fst snd].
    assert (STEP : forall tok rest, first_tag (c :: t) = Some (tok, rest) -> (length rest <= k)%nat).
    { intros tok rest T. apply first_tag_length in T. cbn in T, L. lia. }
    destruct (first_tag (c :: t)) as [[tok rest]|] eqn:FT.
    + specialize (STEP _ _ eq_refl). pose proof (proj1 (first_tag_iff _ _ _) FT) as T.
      assert (LEX : forall toks, lexed (c :: t) toks <-> exists toks', toks = tok :: toks' /\ lexed rest toks').
      { intros toks. split.
        - intros LX. apply lexed_step in LX. destruct LX as (tok' & rest' & toks' & -> & LX & [T'|(N & _)]).
          + apply first_tag_iff in T'. rewrite FT in T'. injection T' as -> ->. now exists toks'.
          + now apply N in T.
        - intros (toks' & -> & LX). now apply (lexed_tag _ _ rest). }
      assert (SIMPLE : forall r1 cs1, cs1 <> [] -> r_text r1 = [] ->
        (forall r2 cs2, restyled (with_text [] p) cs tok r2 cs2 <-> r2 = r1 /\ cs2 = cs1) -> (forall b, tok <> TSsa b) ->
        (convert_chars k n ctx rest r1 cs1 (subs ++ with_piece (r_text p) (with_text [] p)) = Ok (p', subs') <->
         exists toks ps, lexed (c :: t) toks /\ pieces (with_text [] p) cs (r_text p) toks ps (with_text [] p') (r_text p') /\ subs' = subs ++ ps)).
      { intros r1 cs1 N1 TX RS NS. rewrite (IH rest r1 cs1 _ STEP N1). rewrite TX.
        replace (with_text [] r1) with r1 by (rewrite <- TX; symmetry; apply with_text_id). split.
        - intros (toks & ps & LX & P & ->). exists (tok :: toks), (with_piece (r_text p) (with_text [] p) ++ ps).
          split; [apply LEX; now exists toks|]. split; [|now rewrite app_assoc].
          apply (pieces_tag _ _ _ _ r1 cs1); [now apply RS|exact P].
        - intros (toks & ps & LX & P & ->). apply LEX in LX. destruct LX as (toks' & -> & LX).
          inversion P as [|r0 cs0 tx0 c0 toks0 ps0 r0' l0 P'|r0 cs0 tx0 tok0 r2 cs2 toks0 ps0 r0' l0 RR P'|]; subst.
          + now apply (tag_no_char _ _ _ c0) in T.
          + apply RS in RR. destruct RR as [-> ->]. exists toks', ps0. repeat split; [exact LX|exact P'|now rewrite app_assoc].
          + now destruct (NS body). }
      destruct tok as [on|on|on|attrs| |body|ch].
      * apply SIMPLE; [exact NE|reflexivity| |discriminate]. intros r2 cs2. split; [inversion 1; now subst|]. intros [-> ->]. constructor.
      * apply SIMPLE; [exact NE|reflexivity| |discriminate]. intros r2 cs2. split; [inversion 1; now subst|]. intros [-> ->]. constructor.
      * apply SIMPLE; [exact NE|reflexivity| |discriminate]. intros r2 cs2. split; [inversion 1; now subst|]. intros [-> ->]. constructor.
      * destruct (font_colour n ctx attrs) as [col| |] eqn:FC; cbn [bind].
        { apply SIMPLE; [discriminate|reflexivity| |discriminate]. intros r2 cs2. split.
          - inversion 1; subst. match goal with H : font_colour_is _ _ |- _ => apply (font_colour_iff n ctx) in H; rewrite FC in H; apply Ok_inj in H; subst end.
            now split.
          - intros [-> ->]. constructor. now apply font_colour_iff in FC. }
        1,2: split; [discriminate|]; intros (toks & ps & LX & P & ->); apply LEX in LX; destruct LX as (toks' & -> & LX); exfalso;
          inversion P as [| |r0 cs0 tx0 tok0 r2 cs2 toks0 ps0 r0' l0 RR P'|]; subst; inversion RR as [| | |r0 cs0 a0 k0 F0|]; subst;
          apply (font_colour_iff n ctx) in F0; congruence.
      * destruct cs as [|k1 [|k2 cs]]; [congruence| |].
        { split; [discriminate|]. intros (toks & ps & LX & P & ->). apply LEX in LX. destruct LX as (toks' & -> & LX). exfalso.
          inversion P as [| |r0 cs0 tx0 tok0 r2 cs2 toks0 ps0 r0' l0 RR P'|]; subst. inversion RR. }
        apply SIMPLE; [discriminate|reflexivity| |discriminate]. intros r2 cs2. split; [inversion 1; now subst|]. intros [-> ->]. constructor.
      * assert (OV : forall r', parse_tag p (backslash :: body) subrip_ssa_context = Ok r' <-> override default_ssa p (bslash :: body) r').
        { intros r'. apply parse_tag_iff. }
        destruct (parse_tag p (backslash :: body) subrip_ssa_context) as [p1| |] eqn:PT; cbn [bind].
        { pose proof (proj1 (OV p1) eq_refl) as O. rewrite (IH rest p1 cs subs STEP NE). split.
          - intros (toks & ps & LX & P & ->). exists (TSsa body :: toks), ps. split; [apply LEX; now exists toks|]. split; [|reflexivity].
            apply (pieces_ssa _ _ _ _ (with_text [] p1)); [now apply override_text|]. now rewrite <- (override_keeps_text _ _ _ _ O).
          - intros (toks & ps & LX & P & ->). apply LEX in LX. destruct LX as (toks' & -> & LX). exists toks', ps. repeat split; [exact LX|].
            inversion P as [| |r0 cs0 tx0 tok0 r2 cs2 toks0 ps0 r0' l0 RR P'|r0 cs0 tx0 b0 r2 toks0 ps0 r0' l0 OO P']; subst; [inversion RR|].
            assert (TT : with_text [] r2 = r2).
            { apply override_keeps_text in OO. cbn [r_text with_text] in OO. rewrite <- OO at 1. apply with_text_id. }
            apply (override_text _ _ _ _ (r_text p)) in OO. change (with_text (r_text p) (with_text [] p)) with (with_text (r_text p) p) in OO.
            rewrite with_text_id in OO. apply OV in OO. apply Ok_inj in OO. subst p1.
            change (r_text (with_text (r_text p) r2)) with (r_text p). change (with_text [] (with_text (r_text p) r2)) with (with_text [] r2).
            now rewrite TT. }
        1,2: split; [discriminate|]; intros (toks & ps & LX & P & ->); apply LEX in LX; destruct LX as (toks' & -> & LX); exfalso;
          inversion P as [| |r0 cs0 tx0 tok0 r2 cs2 toks0 ps0 r0' l0 RR P'|r0 cs0 tx0 b0 r2 toks0 ps0 r0' l0 OO P']; subst; [inversion RR|];
          apply (override_text _ _ _ _ (r_text p)) in OO; change (with_text (r_text p) (with_text [] p)) with (with_text (r_text p) p) in OO;
          rewrite with_text_id in OO; apply OV in OO; discriminate.
      * now apply (tag_no_char _ _ _ ch) in T.
    + pose proof (proj1 (first_tag_none _) FT) as N. rewrite (IH t (set_text (r_text p ++ [c]) p) cs subs) by (cbn in L; try lia; exact NE).
      change (with_text [] (set_text (r_text p ++ [c]) p)) with (with_text [] p). change (r_text (set_text (r_text p ++ [c]) p)) with (r_text p ++ [c]). split.
      * intros (toks & ps & LX & P & ->). exists (TChar c :: toks), ps. split; [now apply lexed_char|]. split; [now constructor|reflexivity].
      * intros (toks & ps & LX & P & ->). apply lexed_step in LX. destruct LX as (tok & rest & toks' & -> & LX & [T|(_ & -> & ->)]); [now apply N in T|].
        exists toks', ps. repeat split; [exact LX|].
        inversion P as [|r0 cs0 tx0 c0 toks0 ps0 r0' l0 P'|r0 cs0 tx0 tok0 r2 cs2 toks0 ps0 r0' l0 RR P'|]; subst; [exact P'|inversion RR].
Qed.

Lemma pieces_line r cs tx toks ps r' l : pieces r cs tx toks ps r' l -> v_line (r_vpos r') = v_line (r_vpos r).
Proof.
  induction 1 as [|r cs tx c toks ps r' l P IH|r cs tx tok r1 cs1 toks ps r' l R P IH|r cs tx b r1 toks ps r' l O P IH]; try reflexivity.
  - exact IH.
  - rewrite IH. now destruct R.
  - rewrite IH. now apply override_line in O.
Qed.
Lemma pieces_text r cs tx toks ps r' l : pieces r cs tx toks ps r' l -> r_text r = [] -> r_text r' = [].
Proof.
  induction 1 as [|r cs tx c toks ps r' l P IH|r cs tx tok r1 cs1 toks ps r' l R P IH|r cs tx b r1 toks ps r' l O P IH]; intros E; auto.
  - apply IH. rewrite <- E. now apply restyled_text in R.
  - apply IH. rewrite <- E. now apply override_keeps_text in O.
Qed.

Lemma without_rtl_iff s t : replace_all s rtl_embedding [] = t <-> without_rtl s t.
Proof. apply (replace_all_iff (chr 226) (chr 128) (chr 171)); discriminate. Qed.

Lemma convert_line_iff n ctx t p subs p' subs' : r_text p = [] ->
  (convert_line n ctx t p subs = Ok (p', subs') <->
   exists toks ps last last', lexed t toks /\ pieces p [all_white] [] toks ps p' last /\ without_rtl last last' /\ subs' = subs ++ ps ++ with_piece last' p').
Proof.
  intros TX. unfold convert_line. change Types.white with all_white. split.
  - destruct (convert_chars (length t) n ctx t p [all_white] subs) as [[q qs]| |] eqn:E; [|discriminate..]. cbn [bind].
    apply convert_chars_iff in E; [|lia|discriminate]. destruct E as (toks & ps & LX & P & ->). rewrite TX in P.
    replace (with_text [] p) with p in P by (rewrite <- TX; symmetry; apply with_text_id). rewrite maybe_eq.
    intros H. apply Ok_inj in H. injection H as <- <-. exists toks, ps, (r_text q), (replace_all (r_text q) rtl_embedding []).
    split; [exact LX|]. split; [exact P|]. split; [now apply without_rtl_iff|]. cbn [r_text set_text]. rewrite <- app_assoc. reflexivity.
  - intros (toks & ps & last & last' & LX & P & R & ->).
    pose proof (pieces_text _ _ _ _ _ _ _ P TX) as TX'.
    assert (E : convert_chars (length t) n ctx t p [all_white] subs = Ok (with_text last p', subs ++ ps)).
    { apply convert_chars_iff; [lia|discriminate|]. exists toks, ps. split; [exact LX|]. split; [|reflexivity]. rewrite TX.
      replace (with_text [] p) with p by (rewrite <- TX at 1; symmetry; apply with_text_id).
      change (with_text [] (with_text last p')) with (with_text [] p'). replace (with_text [] p') with p' by (rewrite <- TX' at 1; symmetry; apply with_text_id).
      exact P. }
    rewrite E. cbn [bind]. rewrite maybe_eq. cbn [r_text set_text with_text]. apply without_rtl_iff in R. do 2 f_equal.
    + change (with_text [] p' = p'). rewrite <- TX' at 1. apply with_text_id.
    + rewrite <- app_assoc. do 2 f_equal. unfold with_piece. rewrite R. reflexivity.
Qed.

(** * The lines of a cue *)

(** [rows], with the look and the number that come out. *)
Inductive rows_to : Z -> raw -> list str -> list raw -> Z -> raw -> Prop :=
| rows_to_none n r : rows_to n r [] [] n r
| rows_to_more n r line rest toks ps r' last last' raws n2 r2 :
    lexed line toks -> pieces (with_line n r) [all_white] [] toks ps r' last -> without_rtl last last' ->
    rows_to (n + 1) r' rest raws n2 r2 ->
    rows_to n r (line :: rest) (ps ++ with_piece last' r' ++ raws) n2 r2.
Lemma rows_iff n r ls raws : rows n r ls raws <-> exists n2 r2, rows_to n r ls raws n2 r2.
Proof.
  split.
  - induction 1 as [n r|n r line rest toks ps r' last last' raws L P W R (n2 & r2 & IH)].
    + exists n, r. constructor.
    + exists n2, r2. econstructor; eassumption.
  - intros (n2 & r2 & R). induction R as [|n r line rest toks ps r' last last' raws n2 r2 L P W R IH]; econstructor; eassumption.
Qed.
Lemma rows_to_app n r a b raws n2 r2 : rows_to n r (a ++ b) raws n2 r2 <->
  exists raws1 n1 r1 raws2, rows_to n r a raws1 n1 r1 /\ rows_to n1 r1 b raws2 n2 r2 /\ raws = raws1 ++ raws2.
Proof.
  revert n r raws. induction a as [|l a IH]; intros n r raws; cbn [app].
  - split.
    + intros R. exists [], n, r, raws. repeat split; [constructor|exact R].
    + intros (raws1 & n1 & r1 & raws2 & R1 & R2 & ->). inversion R1; subst. exact R2.
  - split.
    + intros R. inversion R as [|? ? ? ? toks ps r' last last' raws' ? ? L P W R']; subst. apply IH in R'.
      destruct R' as (raws1 & n1 & r1 & raws2 & R1 & R2 & ->). exists (ps ++ with_piece last' r' ++ raws1), n1, r1, raws2.
      split; [econstructor; eassumption|]. split; [exact R2|]. now rewrite <- !app_assoc.
    + intros (raws1 & n1 & r1 & raws2 & R1 & R2 & ->). inversion R1 as [|? ? ? ? toks ps r' last last' raws' ? ? L P W R']; subst.
      rewrite <- !app_assoc. econstructor; try eassumption. apply IH. exists raws', n1, r1, raws2. now repeat split.
Qed.


Lemma rows_to_text n r ls raws n2 r2 : rows_to n r ls raws n2 r2 -> r_text r = [] -> r_text r2 = [].
Proof. induction 1 as [|n r line rest toks ps r' last last' raws n2 r2 L P W R IH]; [auto|]. intros E. apply IH. now apply pieces_text in P. Qed.

(** The model keeps the number of the next line in the look. *)
Lemma convert_sub_lines_iff ln ctx ls n r subs q qs : r_text r = [] ->
  (convert_sub_lines ln ctx ls (with_line n r) subs = Ok (q, qs) <->
   exists raws n2 r2, rows_to n r ls raws n2 r2 /\ qs = subs ++ raws /\ q = with_line n2 r2).
Proof.
  revert n r subs. induction ls as [|l ls IH]; intros n r subs TX; cbn [convert_sub_lines].
  - split.
    + intros E. apply Ok_inj in E. injection E as <- <-. exists [], n, r. rewrite app_nil_r. repeat split. constructor.
    + intros (raws & n2 & r2 & R & -> & ->). inversion R; subst. now rewrite app_nil_r.
  - split.
    + destruct (convert_line ln ctx l (with_line n r) subs) as [[r1 s1]| |] eqn:E; [|discriminate..]. cbn [bind].
      apply convert_line_iff in E; [|exact TX]. destruct E as (toks & ps & last & last' & L & P & W & ->).
      pose proof (pieces_line _ _ _ _ _ _ _ P) as V. cbn in V. rewrite V. cbn [opt_get bind].
      pose proof (pieces_text _ _ _ _ _ _ _ P TX) as TX'.
      replace (set_text [] (set_line (Some (n + 1)) r1)) with (with_line (n + 1) r1).
      2: { change (with_line (n + 1) r1 = with_line (n + 1) (with_text [] r1)). f_equal. rewrite <- TX' at 1. symmetry. apply with_text_id. }
      intros H. apply (IH (n + 1) r1 _ TX') in H. destruct H as (raws & n2 & r2 & R & -> & ->).
      exists (ps ++ with_piece last' r1 ++ raws), n2, r2. split; [econstructor; eassumption|]. split; [now rewrite <- !app_assoc|reflexivity].
    + intros (raws & n2 & r2 & R & -> & ->). inversion R as [|? ? ? ? toks ps r1 last last' raws' ? ? L P W R']; subst.
      rewrite (proj2 (convert_line_iff ln ctx l (with_line n r) subs r1 (subs ++ ps ++ with_piece last' r1) TX)).
      2: { exists toks, ps, last, last'. now repeat split. }
      cbn [bind]. pose proof (pieces_line _ _ _ _ _ _ _ P) as V. cbn in V. rewrite V. cbn [opt_get bind].
      pose proof (pieces_text _ _ _ _ _ _ _ P TX) as TX'.
      replace (set_text [] (set_line (Some (n + 1)) r1)) with (with_line (n + 1) r1).
      2: { change (with_line (n + 1) r1 = with_line (n + 1) (with_text [] r1)). f_equal. rewrite <- TX' at 1. symmetry. apply with_text_id. }
      apply (IH (n + 1) r1 _ TX'). exists raws', n2, r2. split; [exact R'|]. split; [now rewrite <- !app_assoc|reflexivity].
Qed.

(** * The file *)

Lemma timing_line_iff line from to :
  let p := split_compress (is_any_of (lit " ")) (trim_right_if (is_any_of (lit " ")) line) in
  timing_line ","%char line from to <->
  negb (Nat.eqb (length p) 3) && negb (Nat.eqb (length p) 7) = false /\
  convert_time (nth 0 p []) (lit ",") = Ok (CTime from) /\ convert_time (nth 2 p []) (lit ",") = Ok (CTime to).
Proof.
  intros p. pose proof (proj1 (fields_iff line p) eq_refl) as F.
  assert (SEP : ~ number_char ","%char) by (intros [H|[H|H]]; discriminate).
  assert (T : forall s t, convert_time s (lit ",") = Ok (CTime t) <-> cue_time ","%char s t) by (intros s t; apply (convert_time_ok ","%char SEP); discriminate).
  rewrite !T. clearbody p. split.
  - intros (f0 & f1 & f2 & more & FF & L & C1 & C2). assert (p = f0 :: f1 :: f2 :: more) as ->.
    { apply fields_iff in F, FF. congruence. }
    split; [|now split]. cbn [length]. destruct L as [->| ->]; reflexivity.
  - intros (L & C1 & C2). destruct p as [|f0 [|f1 [|f2 more]]]; try discriminate. exists f0, f1, f2, more. split; [exact F|]. split; [|now split].
    cbn [length Nat.eqb] in L. destruct more as [|? [|? [|? [|? [|? ?]]]]]; cbn in L |- *; try discriminate; auto.
Qed.

(** What is left to read when the reader is in the middle of a cue. *)
Inductive content : raw -> Z -> list str -> list raw -> Prop :=
| content_end r n : content r n [] []
| content_blank r n ls cs rawss : cues_in ls cs -> Forall2 cue_subtitles cs rawss -> content r n ([] :: ls) (List.concat rawss)
| content_line r n l ls parts raws n2 r2 raws' : l <> [] -> parts_of u2028 l parts -> rows_to n r parts raws n2 r2 -> content r2 n2 ls raws' ->
    content r n (l :: ls) (raws ++ raws').

Lemma content_text r n ls raws : content r n ls raws <->
  exists text rest liness cs rawss rw, ls = text ++ rest /\ Forall (fun l => l <> []) text /\ (rest = [] \/ exists more, rest = [] :: more) /\ cues_in rest cs /\
    Forall2 cue_subtitles cs rawss /\ Forall2 (parts_of u2028) text liness /\ rows n r (List.concat liness) rw /\ raws = rw ++ List.concat rawss.
Proof.
  split.
  - induction 1 as [r n|r n ls cs rawss C F|r n l ls parts raws n2 r2 raws' N P R C (text & rest & liness & cs & rawss & rw & -> & NE & B & CI & F & FP & RW & ->)].
    + exists [], [], [], [], [], []. split; [reflexivity|]. split; [constructor|]. split; [now left|].
      split; [constructor|]. split; [constructor|]. split; [constructor|]. split; [constructor|reflexivity].
    + exists [], ([] :: ls), [], cs, rawss, []. split; [reflexivity|]. split; [constructor|]. split; [right; now exists ls|].
      split; [now constructor|]. split; [exact F|]. split; [constructor|]. split; [constructor|reflexivity].
    + exists (l :: text), rest, (parts :: liness), cs, rawss, (raws ++ rw). split; [reflexivity|]. split; [now constructor|]. split; [exact B|]. split; [exact CI|].
      split; [exact F|]. split; [now constructor|]. split; [|now rewrite app_assoc]. cbn [List.concat]. apply rows_iff in RW. destruct RW as (n3 & r3 & RW).
      apply rows_iff. exists n3, r3. apply rows_to_app. exists raws, n2, r2, rw. now repeat split.
  - intros (text & rest & liness & cs & rawss & rw & -> & NE & B & CI & F & FP & RW & ->).
    revert n r rw RW. induction FP as [|l parts text liness P FP IH]; intros n r rw RW.
    + cbn in RW. inversion RW; subst. cbn [app]. destruct B as [->|(more & ->)].
      * inversion CI; subst. inversion F; subst. constructor.
      * inversion CI; subst; try congruence. apply (content_blank _ _ _ cs); assumption.
    + inversion NE as [|? ? N1 N2]; subst. cbn [List.concat] in RW. apply rows_iff in RW. destruct RW as (n3 & r3 & RW). apply rows_to_app in RW.
      destruct RW as (raws1 & n1 & r1 & raws2 & R1 & R2 & ->). rewrite <- app_assoc. cbn [app]. apply (content_line _ _ _ _ parts raws1 n1 r1); [exact N1|exact P|exact R1|].
      apply IH; [exact N2|]. apply rows_iff. now exists n3, r3.
Qed.

Definition reads (st : subrip_state) (rs : raw) (ls : list str) (raws : list raw) : Prop :=
  match st with
  | COUNTER => exists cs rawss, cues_in ls cs /\ Forall2 cue_subtitles cs rawss /\ raws = List.concat rawss
  | METADATA => ls = [] /\ raws = [] \/
      exists timing rest from to, ls = timing :: rest /\ timing_line ","%char timing from to /\ content (cue_look from to) 0 rest raws
  | CONTENT => exists n r, rs = with_line n r /\ r_text r = [] /\ content r n ls raws
  end.

Lemma new_cue from to : set_to to (set_from from subrip_new) = with_line 0 (cue_look from to).
Proof. reflexivity. Qed.

Lemma subrip_loop_iff ls ls' ln st ctx rs subs raws : Forall2 cleaned ls ls' ->
  match st with COUNTER => True | METADATA => rs = subrip_new | CONTENT => exists n r, rs = with_line n r /\ r_text r = [] end ->
  (subrip_loop ls ln st ctx rs subs = Ok raws <-> exists more, raws = subs ++ more /\ reads st rs ls' more).
Proof.
  intros F. revert ln st ctx rs subs. induction F as [|l l' ls ls' C F IH]; intros ln st ctx rs subs ST; cbn [subrip_loop].
  - split.
    + intros E. apply Ok_inj in E. subst subs. exists []. rewrite app_nil_r. split; [reflexivity|]. destruct st; cbn [reads].
      * exists [], []. repeat split; constructor.
      * now left.
      * destruct ST as (n & r & -> & TX). exists n, r. repeat split; [exact TX|constructor].
    + intros (more & -> & R). destruct st; cbn [reads] in R.
      * destruct R as (cs & rawss & CI & CS & ->). inversion CI; subst. inversion CS; subst. cbn. now rewrite app_nil_r.
      * destruct R as [(_ & ->)|(? & ? & ? & ? & E & _)]; [now rewrite app_nil_r|discriminate].
      * destruct R as (n & r & _ & _ & R). inversion R; subst. now rewrite app_nil_r.
  - pose proof (proj2 (clean_line_iff l l') C) as CL. rewrite CL. destruct st.
    + destruct l' as [|c l'].
      * rewrite IH by exact I. cbn [reads]. split; intros (more & -> & cs & rawss & CI & CS & ->); eexists; split; try reflexivity; exists cs, rawss.
        -- repeat split; [now constructor|exact CS].
        -- inversion CI; subst; try congruence. now repeat split.
      * rewrite IH by reflexivity. cbn [reads]. split.
        -- intros (more & -> & [(-> & ->)|(timing & rest & from & to & -> & T & CT)]).
           ++ exists []. split; [reflexivity|]. exists [], []. repeat split; [now constructor|constructor].
           ++ exists more. split; [reflexivity|]. apply content_text in CT.
              destruct CT as (text & rest' & liness & cs & rawss & rw & -> & NE & B & CI & CS & FP & RW & ->).
              exists (mkCue from to text :: cs), (rw :: rawss). split; [|split; [constructor; [now exists liness|exact CS]|reflexivity]].
              now apply cues_cue.
        -- intros (more & -> & cs & rawss & CI & CS & ->). exists (List.concat rawss). split; [reflexivity|].
           inversion CI as [| |counter NE|counter timing from to text rest cs' NE T NT B CI']; subst.
           ++ inversion CS; subst. left. now split.
           ++ right. exists timing, (text ++ rest), from, to. split; [reflexivity|]. split; [exact T|].
              inversion CS as [|? rw ? rawss' (liness & FP & RW) CS']; subst. apply content_text.
              exists text, rest, liness, cs', rawss', rw. cbn in FP, RW. now repeat split.
    + subst rs. pose proof (timing_line_iff l') as TL. cbv zeta in TL |- *.
      set (p := split_compress (is_any_of (lit " ")) (trim_right_if (is_any_of (lit " ")) l')) in *. clearbody p.
      cbn [reads]. split.
      * destruct (negb (Nat.eqb (length p) 3) && negb (Nat.eqb (length p) 7)); [discriminate|].
        destruct (convert_time (nth 0 p []) (lit ",")) as [[from|]| |]; cbn [bind]; try discriminate.
        destruct (convert_time (nth 2 p []) (lit ",")) as [[to|]| |]; cbn [bind]; try discriminate.
        rewrite new_cue. intros H. apply IH in H; [|exists 0, (cue_look from to); now split]. destruct H as (more & -> & n & r & E & TX & CT).
        exists more. split; [reflexivity|]. right. exists l', ls', from, to. split; [reflexivity|]. split; [now apply TL|].
        assert (n = 0 /\ content (cue_look from to) 0 ls' more) as [_ K]; [|exact K].
        assert (n = 0). { apply (f_equal (fun r => v_line (r_vpos r))) in E. cbn in E. injection E as <-. reflexivity. }
        subst n. split; [reflexivity|].
        apply content_text in CT. destruct CT as (text & rest & liness & cs & rawss & rw & -> & NE & B & CI & CS & FP & RW & ->).
        apply content_text. exists text, rest, liness, cs, rawss, rw. repeat split; try assumption.
        inversion RW as [|? ? line rest' toks ps r' last last' raws' L P W R EL]; [constructor|]. rewrite <- E in P. econstructor; eassumption.
      * intros (more & -> & [(? & _)|(timing & rest & from & to & E & T & CT)]); [discriminate|]. injection E as <- <-. apply TL in T.
        destruct T as (-> & -> & ->). cbn [bind]. rewrite new_cue. apply IH; [exists 0, (cue_look from to); now split|].
        exists more. split; [reflexivity|]. exists 0, (cue_look from to). now repeat split.
    + destruct ST as (n & r & -> & TX). destruct l' as [|c l'].
      * rewrite IH by exact I. cbn [reads]. split.
        -- intros (more & -> & cs & rawss & CI & CS & ->). eexists. split; [reflexivity|]. exists n, r. repeat split; [exact TX|]. now apply (content_blank _ _ _ cs).
        -- intros (more & -> & n' & r' & _ & _ & CT). inversion CT as [|? ? ? cs rawss CI CS|]; subst; try congruence.
           eexists. split; [reflexivity|]. now exists cs, rawss.
      * cbn [reads]. split.
        -- destruct (convert_sub_lines (ln + 1) (push_context ctx (c :: l')) (split_lit line_separator (c :: l')) (with_line n r) subs) as [[q qs]| |] eqn:E;
             [|discriminate..]. cbn [bind]. apply convert_sub_lines_iff in E; [|exact TX]. destruct E as (raws1 & n2 & r2 & R & -> & ->).
           pose proof (rows_to_text _ _ _ _ _ _ R TX) as TX2. intros H. apply IH in H; [|exists n2, r2; now split].
           destruct H as (more & -> & n3 & r3 & E & TX3 & CT). exists (raws1 ++ more). split; [now rewrite app_assoc|].
           exists n, r. split; [reflexivity|]. split; [exact TX|]. apply (content_line _ _ _ _ (split_lit line_separator (c :: l')) raws1 n2 r2); [discriminate|now apply line_separator_iff|exact R|].
           assert (n3 = n2). { apply (f_equal (fun r => v_line (r_vpos r))) in E. cbn in E. injection E as <-. reflexivity. } subst n3.
           apply content_text in CT. destruct CT as (text & rest & liness & cs & rawss & rw & -> & NE & B & CI & CS & FP & RW & ->).
           apply content_text. exists text, rest, liness, cs, rawss, rw. repeat split; try assumption.
           inversion RW as [|? ? line rest' toks ps r' last last' raws' L P W R' EL]; [constructor|]. rewrite <- E in P. econstructor; eassumption.
        -- intros (more & -> & n' & r' & E & TX' & CT). inversion CT as [| |? ? ? ? parts raws1 n2 r2 raws2 NE P R CT']; subst.
           apply line_separator_iff in P. rewrite P.
           assert (n' = n). { apply (f_equal (fun r => v_line (r_vpos r))) in E. cbn in E. injection E as <-. reflexivity. } subst n'.
           pose proof (rows_to_text _ _ _ _ _ _ R TX') as TX2. rewrite E.
           rewrite (proj2 (convert_sub_lines_iff (ln + 1) (push_context ctx (c :: l')) parts n r' subs (with_line n2 r2) (subs ++ raws1) TX')).
           2: { exists raws1, n2, r2. now repeat split. }
           cbn [bind]. apply IH; [exists n2, r2; now split|]. exists raws2. split; [now rewrite app_assoc|]. exists n2, r2. now repeat split.
Qed.

Theorem subrip_read_iff ls raws : subrip_read ls = Ok raws <-> subrip_lines ls raws.
Proof.
  assert (F : Forall2 cleaned ls (map clean_line ls)).
  { induction ls as [|l ls IH]; cbn [map]; constructor; [now apply clean_line_iff|exact IH]. }
  unfold subrip_read. rewrite (subrip_loop_iff ls (map clean_line ls)) by (try exact I; exact F). cbn [app reads]. split.
  - intros (more & -> & cs & rawss & CI & CS & ->). exists (map clean_line ls), cs, rawss. now repeat split.
  - intros (ls' & cs & rawss & F' & CI & CS & ->). eexists. split; [reflexivity|]. exists cs, rawss. repeat split; [|exact CS].
    assert (E : ls' = map clean_line ls); [|now rewrite <- E].
    clear -F'. induction F' as [|l l' ls ls' C F IH]; [reflexivity|]. cbn [map]. f_equal; [|exact IH]. symmetry. now apply clean_line_iff.
Qed.
Theorem subrip_string_iff s raws : subrip_reader_string s = Ok raws <-> subrip_file s raws.
Proof.
  unfold subrip_reader_string, subrip_file. rewrite subrip_read_iff. split.
  - intros R. exists (lines_of_string s). split; [now apply lines_of_string_iff|exact R].
  - intros (ls & L & R). apply lines_of_string_iff in L. now rewrite L.
Qed.
