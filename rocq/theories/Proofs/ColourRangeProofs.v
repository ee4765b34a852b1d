(** Colours that readers give. *)
From Coq Require Import ZArith Reals Lra Lia List Bool Ascii String.
From Coq.Floats Require Import SpecFloat.
From Flocq Require Import Core BinarySingleNaN.
From Verif.Model Require Import Base Strings Float TimeModel Types Lines Subrip WebVtt StlText StlBinReader.
From Verif.Spec Require Import Outcome TextSpec LinesSpec PositionSpec StlFileSpec RawSpec SsaTagSpec SubripSpec SubripUseSpec WebVttSpec SsaSpec PieceSpec ColourRangeSpec.
From Verif.Spec Require StlTextSpec.
From Verif.Model Require Import Ssa.
From Verif.Proofs Require Import LinesProofs SubripProofs WebVttProofs PieceProofs.
From Verif.Proofs Require StringProofs StlTextProofs StlReadProofs SsaTextProofs SsaProofs SsaUseProofs PieceUtf8Proofs.
Import ListNotations.
Local Open Scope Z_scope.
Local Notation length := List.length.

Definition part_check (f : flt) : bool :=
  valid_binary 24 128 f && match f with S754_zero _ => true | S754_finite false m e => (e <=? 0) && (Zpos m <=? 2 ^ (- e)) | _ => false end.
Lemma part_checked f : part_check f = true -> part_ok f.
Proof.
  unfold part_check. intros H. apply andb_true_iff in H. destruct H as [V H]. destruct f as [s| | |[] m e]; try discriminate.
  - exists 0%R. split; [|lra]. split; [exact V|]. split; reflexivity.
  - apply andb_true_iff in H. destruct H as [E M]. apply Z.leb_le in E, M. exists (F2R (Float radix2 (Zpos m) e)). split; [split; [exact V|split; reflexivity]|]. split.
    + apply F2R_ge_0. cbn. lia.
    + unfold F2R. cbn [Fnum Fexp]. replace e with (- - e) at 1 by lia. rewrite bpow_opp.
      assert (P : (0 < bpow radix2 (- e))%R) by apply bpow_gt_0. apply (Rmult_le_reg_r (bpow radix2 (- e))); [exact P|]. rewrite Rmult_assoc, Rinv_l, Rmult_1_r, Rmult_1_l by lra.
      rewrite <- (IZR_Zpower radix2) by lia. apply IZR_le. exact M.
Qed.
Lemma share_parts : forallb (fun k => part_check (share (Z.of_nat k))) (seq 0 256) = true.
Proof. vm_compute. reflexivity. Qed.
Lemma share_ok v : 0 <= v <= 255 -> part_ok (share v).
Proof.
  intros B. apply part_checked. pose proof share_parts as T. rewrite forallb_forall in T. specialize (T (Z.to_nat v)). rewrite Z2Nat.id in T by lia. apply T. apply in_seq. lia.
Qed.
Lemma one_ok : part_ok (f_of_int 1). Proof. apply part_checked. vm_compute. reflexivity. Qed.
Lemma zero_ok : part_ok (f_of_int 0). Proof. apply part_checked. vm_compute. reflexivity. Qed.
Lemma white_ok : in_range all_white. Proof. split; [|split]; exact one_ok. Qed.
Lemma bgr_ok v : in_range (bgr v).
Proof. unfold bgr. split; [|split]; apply share_ok; match goal with |- context[?a mod 256] => pose proof (Z.mod_pos_bound a 256) end; lia. Qed.
Lemma colour_text_ok s k : colour_text s k -> in_range k.
Proof. intros (p & n & v & _ & _ & _ & _ & ->). apply bgr_ok. Qed.

(** * SubRip *)

Section Kept.
(** Something that holds for a colour whatever a tag says. *)
Variable P : colour -> Prop.
Hypothesis ranged : forall k, in_range k -> P k.
Lemma style_kept s f r : In (s, f) style_tags -> r_colour (f r) = r_colour r /\ r_effect_colour (f r) = r_effect_colour r.
Proof. cbn [In style_tags]. intros I. repeat destruct I as [I|I]; [injection I as <- <-; split; reflexivity..|contradiction]. Qed.
Lemma override_colours c r t r' : override c r t r' -> P (primary_colour c) -> P (r_colour r) -> P (r_colour r') /\ r_effect_colour r' = r_effect_colour r.
Proof.
  intros O C R. destruct O; try (split; [exact R|reflexivity]).
  - apply (style_kept _ _ r) in H. destruct H as [-> ->]. split; [exact R|reflexivity].
  - split; [|reflexivity]. cbn. apply ranged. now apply (colour_text_ok s).
  - split; [|reflexivity]. exact C.
Qed.
End Kept.

Lemma hex_digit_range c v : hex_digit c v -> 0 <= v < 16.
Proof. unfold hex_digit. lia. Qed.
Lemma font_from attributes k : font_colour_is attributes k -> in_range k \/ decimal_colour attributes k.
Proof.
  intros F. destruct F as [s r1 r2 g1 g2 b1 b2 vr1 vr2 vg1 vg2 vb1 vb2 alpha L H A D1 D2 D3 D4 D5 D6|s r g b NH (HL & before & E & _) R I1 I2 I3].
  - left. apply hex_digit_range in D1, D2, D3, D4, D5, D6. split; [|split]; apply share_ok; lia.
  - assert (C : contains s attributes) by (exists before, []; now rewrite app_nil_r).
    assert (O : (0 <= r <= 255 /\ 0 <= g <= 255 /\ 0 <= b <= 255) \/ (too_much r \/ too_much g \/ too_much b)) by (unfold too_much; lia).
    destruct O as [(A & B & D)|O]; [left; split; [|split]; now apply share_ok|]. right. exists s, r, g, b. now repeat (split; [assumption|]).
Qed.
Lemma decimal_part a p b k : decimal_colour p k -> decimal_colour (a ++ p ++ b) k.
Proof. intros (t & r & g & v & (x & y & ->) & R). exists t, r, g, v. split; [|exact R]. exists (a ++ x), (y ++ b). now rewrite <- !app_assoc. Qed.

Lemma tag_font_part s a rest : tag_at s (TFont a) rest -> exists x y, s = x ++ a ++ y.
Proof.
  intros T. remember (TFont a) as tok eqn:E. destruct T as [p name tok' rest' I L|p s' body rest' L U|s' body rest' U].
  - subst. cbn [In simple_tags] in I. repeat destruct I as [I|I]; [discriminate I..|contradiction].
  - injection E as ->. destruct U as [b r _|b _]; [exists p, (">"%char :: r); reflexivity|exists p, []; now rewrite app_nil_r].
  - discriminate.
Qed.
Lemma tag_rest s tok rest : tag_at s tok rest -> exists x, s = x ++ rest.
Proof.
  intros [p name tok' rest' _ _|p s' body rest' _ U|s' body rest' U]; [now exists p| |]; destruct U as [b r _|b _].
  - exists (p ++ b ++ [">"%char]). now rewrite <- !app_assoc.
  - exists (p ++ b). now rewrite app_nil_r.
  - exists ("{"%char :: bslash :: b ++ ["}"%char]). cbn [app]. now rewrite <- !app_assoc.
  - exists ("{"%char :: bslash :: b). now rewrite app_nil_r.
Qed.

Section Said.
(** The colours of the fonts in the file. *)
Variable file : str.
Local Notation Q := (fun k => in_range k \/ decimal_colour file k).
Local Notation said := (colours_as_said file).
Definition part_of (s : str) : Prop := contains s file.
Lemma part_part a p b : part_of (a ++ p ++ b) -> part_of p.
Proof. intros (x & y & E). exists (x ++ a), (b ++ y). rewrite E. now rewrite <- !app_assoc. Qed.
Lemma font_said a k : part_of a -> font_colour_is a k -> Q k.
Proof. intros (x & y & E) F. apply font_from in F. destruct F as [F|F]; [now left|right]. rewrite E. now apply decimal_part. Qed.
Lemma piece_said text r : said r -> Forall said (with_piece text r).
Proof. intros L. destruct text; constructor; [exact L|constructor]. Qed.
Lemma restyled_said r cs tok r1 cs1 : restyled r cs tok r1 cs1 -> (forall a, tok = TFont a -> part_of a) -> said r -> Forall Q cs -> said r1 /\ Forall Q cs1.
Proof.
  intros R T L C. destruct L as [L1 L2]. destruct R as [r cs on|r cs on|r cs on|r cs attributes k F|r k k' cs]; try (split; [now split|exact C]).
  - assert (K : Q k) by (apply (font_said attributes); [now apply T|exact F]). split; [now split|now constructor].
  - inversion C as [|? ? _ C']; subst. inversion C'; subst. split; [now split|exact C'].
Qed.
Lemma pieces_said line toks : lexed line toks -> part_of line -> forall r cs text ps r' last, pieces r cs text toks ps r' last -> said r -> Forall Q cs ->
  Forall said ps /\ said r'.
Proof.
  induction 1 as [|s tok rest toks T L IH|c s toks N L IH]; intros NC r cs text ps r' last P R C.
  - inversion P; subst. split; [constructor|exact R].
  - assert (NR : part_of rest) by (destruct (tag_rest _ _ _ T) as (x & ->); apply (part_part x rest []); now rewrite app_nil_r).
    pose proof (fun c => tag_no_char s tok rest c T) as NT. inversion P as [|? ? ? ? ? ? ? ? P'|? ? ? ? ? ? ? ? ? ? RS P'|? ? ? ? ? ? ? ? ? O P']; subst.
    + exfalso. eapply NT; reflexivity.
    + apply restyled_said in RS; [|intros a ->; destruct (tag_font_part _ _ _ T) as (x & y & ->); now apply (part_part x a y)|exact R|exact C]. destruct RS as [R1 C1].
      destruct (IH NR _ _ _ _ _ _ P' R1 C1) as [A B]. split; [|exact B]. apply Forall_app. split; [now apply piece_said|exact A].
    + apply (override_colours Q (fun k H => or_introl H)) in O; [|left; exact white_ok|apply R]. apply (IH NR _ _ _ _ _ _ P'); [|exact C]. destruct O as [O1 O2]. split; [exact O1|]. rewrite O2. apply R.
  - assert (NR : part_of s) by (apply (part_part [c] s []); now rewrite app_nil_r).
    inversion P as [|? ? ? ? ? ? ? ? P'|? ? ? ? ? ? ? ? ? ? RS P'|]; subst; [|inversion RS]. exact (IH NR _ _ _ _ _ _ P' R C).
Qed.
Lemma rows_said n r ls raws : rows n r ls raws -> Forall part_of ls -> said r -> Forall said raws.
Proof.
  induction 1 as [|n r line rest toks ps r' last last' raws L P W R IH]; intros F O; [constructor|]. inversion F; subst.
  destruct (pieces_said _ _ L ltac:(assumption) _ _ _ _ _ _ P) as [A B]; [exact O|repeat constructor; exact one_ok|].
  repeat (apply Forall_app; split); [exact A|now apply piece_said|auto].
Qed.
End Said.

Lemma cleaned_part file l l' : part_of file l -> cleaned l l' -> part_of file l'.
Proof.
  intros NA (u & ends & -> & _ & _ & [->|(_ & ->)]); [|now apply (part_part file [] u ends)]. apply (part_part file bom l' ends). now rewrite <- app_assoc in NA.
Qed.
Theorem subrip_said s raws : subrip_reader_string s = Ok raws -> Forall (colours_as_said s) raws.
Proof.
  intros E. apply subrip_string_iff in E. destruct E as (ls & TL & ls' & cs & rawss & C & CU & F & ->).
  assert (NL : Forall (part_of s) ls) by (apply Forall_forall; intros l I; exact (PieceUtf8Proofs.lines_part _ _ _ TL I)).
  pose proof (forall2_r _ _ _ _ _ (cleaned_part s) NL C) as NC. apply (cues_text _ _ _ CU) in NC. apply concat_forall. refine (forall2_r _ _ _ _ _ _ NC F).
  intros c raws K (liness & P & R). apply (rows_said s _ _ _ _ R); [|split; [left; exact white_ok|reflexivity]].
  apply concat_forall. refine (forall2_r _ _ _ _ _ _ K P). intros l parts [A _] (_ & -> & _). apply Forall_forall. intros x I.
  destruct (PieceUtf8Proofs.join_parts u2028 parts x I) as (a & b & E). rewrite E in A. exact (part_part _ _ _ _ A).
Qed.
Theorem subrip_colours s raws : ~ contains (lit "rgba(") s -> subrip_reader_string s = Ok raws -> Forall colours_ok raws.
Proof.
  intros N E. apply subrip_said in E. eapply Forall_impl; [|exact E]. intros r [[A|A] B].
  - split; [exact A|]. rewrite B. discriminate.
  - exfalso. apply N. destruct A as (t & r' & g & b & C & R & _). destruct R as (rs & gs & bs & as_ & a & rest & -> & _). destruct C as (x & y & ->).
    exists (x ++ lit "color=" ++ [dquote]), (join (lit ",") [rs; gs; bs; as_] ++ ")"%char :: dquote :: rest ++ y). rewrite <- !app_assoc. cbn [app]. rewrite <- !app_assoc. cbn [app]. rewrite <- ?app_assoc. reflexivity.
Qed.
Definition look_ok (r : raw) : Prop := in_range (r_colour r) /\ r_effect_colour r = None.
Lemma look_colours r : look_ok r -> colours_ok r.
Proof. intros [A B]. split; [exact A|]. rewrite B. discriminate. Qed.
Lemma piece_look text r : look_ok r -> Forall look_ok (with_piece text r).
Proof. intros L. destruct text; constructor; [exact L|constructor]. Qed.

(** * WebVTT, text STL, binary STL *)

Theorem vtt_colours s raws : vtt_reader_string s = Ok raws -> Forall colours_ok raws.
Proof.
  intros E. apply vtt_string_iff in E. destruct E as (ls & TL & L). destruct L as [|h h' ls ls' cs rawss CH B C CU F]; [constructor|]. apply concat_forall. revert F. apply forall2_all.
  intros c raws (rs & _ & ->). generalize 0. induction rs as [|r rs IH]; intros n; cbn [plain_rows]; constructor; [|apply IH]. split; [exact white_ok|discriminate].
Qed.
Lemma stl_pieces_look r s r' ps : StlTextSpec.pieces r s r' ps -> look_ok r -> Forall look_ok ps /\ look_ok r'.
Proof.
  induction 1 as [r|r n c s r' ps B V P IH|r x c r1 s r' ps C T P IH|r c C|r t s r' ps N F E P IH]; intros L.
  - split; [constructor|exact L].
  - apply IH. exact L.
  - apply IH. destruct T as [(_ & ->)|[(_ & ->)|[(_ & ->)|(_ & _ & _ & ->)]]]; exact L.
  - split; [constructor|exact L].
  - destruct (IH L) as [A B]. split; [|exact B]. constructor; [exact L|exact A].
Qed.
Theorem stl_text_colours s raws : stl_text_read true s = Ok raws -> Forall colours_ok raws.
Proof.
  intros E. apply StlTextProofs.text_stl_iff in E. destruct E as (ls & r & _ & L). eapply Forall_impl; [exact look_colours|].
  assert (W : look_ok StlTextSpec.new_look) by (split; [exact white_ok|reflexivity]). revert L W. generalize StlTextSpec.new_look. intros r0.
  induction 1 as [r1|r1 l l' r2 rs ls r3 rss T L M IH]; intros W; [constructor|]. 
  assert (K : Forall look_ok rs /\ look_ok r2).
  { destruct L; try (split; [constructor|exact W]). eapply stl_pieces_look; [eassumption|exact W]. }
  destruct K as [K1 K2]. apply Forall_app. split; [exact K1|auto].
Qed.
Definition rgb_ok (rgb : Z * Z * Z) : Prop := in_range (colour_of rgb).
Lemma stl_colour_ok c rgb : In (c, rgb) stl_colours -> rgb_ok rgb.
Proof. cbn [In stl_colours]. intros I. repeat destruct I as [I|I]; [injection I as <- <-; split; [|split]; (exact one_ok || exact zero_ok)..|contradiction]. Qed.
Lemma row_colours s bs ps s' : row_pieces s bs ps s' -> rgb_ok (st_colour s) -> Forall (fun p => rgb_ok (st_colour (fst p))) ps.
Proof.
  induction 1 as [s p P|s p rest P|s s' s'' p c rest ps P K R IH]; intros C.
  - destruct (is_nil p); repeat constructor; apply C.
  - destruct (is_nil p); repeat constructor; apply C.
  - constructor; [exact C|]. apply IH. destruct K as [c rgb old i u I| | | |]; [exact (stl_colour_ok _ _ I)|exact C..].
Qed.
Lemma rows_colours row i u bs ps : rows_pieces row i u bs ps -> Forall (fun p => rgb_ok (st_colour (snd (fst p)))) ps.
Proof.
  induction 1 as [|row i u bs rest ps s ps' P R IH]; [constructor|]. apply Forall_app. split; [|exact IH]. apply row_colours in P; [|split; [|split]; exact one_ok].
  induction P; cbn [map]; constructor; assumption.
Qed.
Lemma block_colours g b raws last : block_read g b raws last -> Forall look_ok raws.
Proof.
  intros [L B|from to top just text rows pieces rs L B F T _ _ _ _ _ _ R P]; [constructor|]. apply rows_colours in R. refine (forall2_r _ _ _ _ _ _ R P).
  intros [[row st] bs] r K (w & tx & _ & _ & ->). split; [exact K|reflexivity].
Qed.
Theorem binary_colours h input g subs : snd (stl_binary_read input (Iso6937Spec.after h)) = Ok (g, subs) -> Forall colours_ok subs.
Proof.
  intros E. apply StlReadProofs.read_iff in E. destruct E as (raws & top & (head & blocks & rest & rawss & lasts & _ & H & _ & F & L & -> & _) & M). eapply Forall_impl; [exact look_colours|].
  assert (A : Forall look_ok (List.concat rawss)).
  { apply concat_forall. clear -F L. revert lasts blocks F L. induction rawss as [|rs rawss IH]; intros lasts blocks F L; [constructor|]. destruct lasts as [|z lasts]; [discriminate|].
    cbn [combine] in F. inversion F as [|b x bs xs B F' E1 E2]; subst. constructor; [now apply block_colours in B|]. apply (IH lasts bs); [exact F'|]. now injection L. }
  refine (forall2_r _ _ _ _ _ _ A M). intros a b V (row & rows & _ & ->). exact V.
Qed.

(** * SSA *)

Section Ssa.
Variable P : colour -> Prop.
Hypothesis ranged : forall k, in_range k -> P k.
Definition fine (r : raw) : Prop := P (r_colour r) /\ forall k, r_effect_colour r = Some k -> in_range k.
Definition style_fine (st : style) : Prop := P (st_primary_colour st) /\ forall k, st_back_colour st = Some k -> in_range k.
Lemma piece_fine text r : fine r -> Forall fine (with_piece text r).
Proof. intros L. destruct text; constructor; [exact L|constructor]. Qed.
Lemma cut_fine c z r tx its ps : cut_up c z r tx its ps -> P (primary_colour c) -> fine r -> Forall fine ps.
Proof.
  intros C PC. induction C as [r text|r text x its ps C IH|r text t r1 its ps O C IH|r text r1 its ps B C IH]; intros F.
  - now apply piece_fine.
  - auto.
  - apply Forall_app. split; [now apply piece_fine|]. apply IH. apply (override_colours P ranged) in O; [|exact PC|apply F]. destruct O as [O1 O2]. split; [exact O1|]. rewrite O2. apply F.
  - apply Forall_app. split; [now apply piece_fine|]. apply IH. destruct B as (ref & p & _ & _ & ->). exact F.
Qed.
Lemma text_fine c base s raws : text_subtitles c base s raws -> P (primary_colour c) -> fine base -> Forall fine raws.
Proof.
  intros (its & r & n & ps & _ & (x & _ & ->) & _ & C & F) PC B. apply cut_fine in C; [|exact PC|exact B]. refine (forall2_r _ _ _ _ _ _ C F). intros a b A (ref & q & _ & _ & ->). exact A.
Qed.
Definition styles_fine (l : list (str * style)) : Prop := Forall (fun ns => style_fine (snd ns)) l.
Lemma last_style_fine l name st : last_style l name st -> styles_fine l -> style_fine st.
Proof. induction 1; intros F; inversion F; subst; auto. Qed.
Lemma style_for_fine l name st : style_for l name (Some st) -> styles_fine l -> style_fine st.
Proof. intros S F. inversion S; subst; eapply last_style_fine; eassumption. Qed.
Definition event_fine (ev : ssa_event) : Prop := fine (ev_sub ev) /\ (forall st, ev_style ev = Some st -> P (st_primary_colour st)) /\ Forall fine (ev_out ev).
Lemma event_step_fine f ev key v ev' : styles_fine (sr_styles f) -> event_entry f ev key v ev' -> event_fine ev -> event_fine ev'.
Proof.
  intros S E (F & C & O). destruct E as [r st l rt out x t T|r st l rt out x t T|r st l rt out x name s _ SF|ev x name _ _|r st l rt out x _ _|ev x _|r st l rt out x y _ _|ev|r st l rt out x y _ _|ev|r st l rt out x raws T|ev key x N];
    cbn [ev_sub ev_out ev_style] in *; try (split; [exact F|split; [exact C|exact O]]).
  - apply (style_for_fine _ _ _ SF) in S. split; [|split; [|exact O]]; cbn [ev_sub ev_style].
    + split; apply S.
    + intros st' H. injection H as <-. apply S.
  - split; [exact F|]. split; [exact C|]. apply Forall_app. split; [exact O|]. apply (text_fine _ _ _ _ T); [|exact F]. cbn. destruct st as [st|]; [now apply C|apply ranged, white_ok].
Qed.
Lemma style_colour_ok s k : style_colour_is s k -> in_range k.
Proof. intros [s' k' C|s' v _ _]; [now apply colour_text_ok in C|apply bgr_ok]. Qed.
Lemma style_step_fine st key x st' : style_entry st key x st' -> style_fine st -> style_fine st'.
Proof.
  intros E F. destruct E; try exact F; destruct F as [F1 F2]; cbn [st_primary_colour st_back_colour] in *.
  - split; [|exact F2]. cbn. apply ranged. now apply (style_colour_ok x).
  - split; [exact F1|]. cbn. intros k' H'. injection H' as <-. now apply (style_colour_ok x).
Qed.
End Ssa.

Definition reader_fine (P : colour -> Prop) (f : ssa_reader) : Prop := styles_fine P (sr_styles f) /\ Forall (fine P) (sr_subs f).
Lemma dialogue_fine (P : colour -> Prop) (ranged : forall k, in_range k -> P k) f body raws : styles_fine P (sr_styles f) -> dialogue_line f body raws -> Forall (fine P) raws.
Proof.
  intros S (_ & vs & ev & _ & T & ->).
  assert (G : forall kvs ev ev', in_turn (event_step f) ev kvs ev' -> event_fine P ev -> event_fine P ev').
  { intros kvs ev0 ev' H. induction H as [ev0|ev0 kv ev1 kvs ev2 (v & _ & E) H IH]; intros F; [exact F|]. apply IH. exact (event_step_fine P ranged _ _ _ _ _ S E F). }
  apply (G _ _ _ T). split; [split; [apply ranged, white_ok|discriminate]|]. split; [discriminate|constructor].
Qed.
Lemma line_fine (P : colour -> Prop) (ranged : forall k, in_range k -> P k) f line f' : ssa_line_read f line f' ->
  (forall body st, sr_part f = STYLES -> sr_style_format f <> [] -> style_line (sr_style_format f) body st -> P (st_primary_colour st) /\ forall k, st_back_colour st = Some k -> in_range k) ->
  reader_fine P f -> reader_fine P f'.
Proof.
  intros R SL F. destruct R as [f0 line0 _|f0 line0 s _|f0 line0 h p _ _|f0 line0 s _ _|f0 line0 l key body f1 B _ K E]; try exact F.
  destruct E as [x y ss sf ef subs body v _|x y ss sf ef subs body v _|x y ss sf ef subs body|x y ss sf ef subs body st NF S|x y ss sf ef subs body parts keys _ _|x y ss sf ef subs body raws D|f body key _]; try exact F.
  - destruct F as [F1 F2]. split; [|exact F2]. cbn. constructor; [|exact F1]. exact (SL _ _ eq_refl NF S).
  - destruct F as [F1 F2]. split; [exact F1|]. cbn. apply Forall_app. split; [exact F2|]. exact (dialogue_fine P ranged _ _ _ F1 D).
Qed.
Definition almost (k : colour) : Prop := in_range k \/ byte_white k.
Lemma value_255 : float_value (f_of_int 255) 255.
Proof. split; [vm_compute; reflexivity|]. split; [vm_compute; reflexivity|]. change (f_of_int 255) with (S754_finite false 16711680 (-16)). unfold SF2R, F2R. cbn [Fnum Fexp cond_Zopp]. change (bpow radix2 (-16)) with (/ 65536)%R. lra. Qed.
Lemma style_line_almost format body st : style_line format body st -> almost (st_primary_colour st) /\ forall k, st_back_colour st = Some k -> in_range k.
Proof.
  intros (ks & vs & _ & _ & _ & T). assert (G : forall kvs st st', in_turn style_step st kvs st' -> style_fine almost st -> style_fine almost st').
  { intros kvs st0 st' H. induction H as [st0|st0 kv st1 kvs st2 (k & v & _ & _ & E) H IH]; intros F; [exact F|]. apply IH. eapply (style_step_fine almost (fun k H => or_introl H)); eassumption. }
  apply (G _ _ _ T). split; [right|discriminate]. split; [|split]; exact value_255.
Qed.
Theorem ssa_almost s raws : ssa_reader_string s = Ok raws -> Forall colours_almost_ok raws.
Proof.
  intros E. apply SsaProofs.ssa_string_iff in E. destruct E as (ls & f & _ & H & ->).
  assert (G : forall ls f f', in_turn ssa_line_read f ls f' -> reader_fine almost f -> reader_fine almost f').
  { intros ls0 f0 f' T. induction T as [f0|f0 l f1 ls0 f2 R T IH]; intros F; [exact F|]. apply IH. apply (line_fine almost (fun k H => or_introl H) _ _ _ R); [|exact F].
    intros body st _ _. apply style_line_almost. }
  apply (G _ _ _ H). split; constructor.
Qed.

(** If the format of styles names the colour. *)
Lemma entry_range st key x st' : style_entry st key x st' -> (key = lit "PrimaryColour" -> in_range (st_primary_colour st')) /\ (in_range (st_primary_colour st) -> in_range (st_primary_colour st')).
Proof.
  intros E. split.
  - intros K. destruct E; try (vm_compute in K; discriminate K).
    + cbn. now apply (style_colour_ok x).
    + exfalso. apply H. rewrite K. vm_compute. tauto.
  - intros R. destruct E; try exact R. cbn. now apply (style_colour_ok x).
Qed.
Lemma style_line_coloured format body st : style_line format body st -> names_colour format -> in_range (st_primary_colour st).
Proof.
  intros (ks & vs & PF & _ & L & T) (ks' & k & PF' & I & K). rewrite (SsaTextProofs.parts_unique _ _ _ _ PF' PF) in I.
  assert (G : forall kvs st st', in_turn style_step st kvs st' -> (in_range (st_primary_colour st) \/ exists kv, In kv kvs /\ trimmed (fst kv) (lit "PrimaryColour")) -> in_range (st_primary_colour st')).
  { intros kvs st0 st' H. induction H as [st0|st0 kv st1 kvs st2 (k0 & v & TK & _ & E) H IH]; intros C; [destruct C as [C|(kv & [] & _)]; exact C|]. apply entry_range in E. destruct E as [E1 E2].
    apply IH. destruct C as [C|(kv' & [<-|I'] & T')]; [left; auto|left; apply E1; exact (SsaUseProofs.trimmed_unique _ _ _ TK T')|right; exists kv'; now split]. }
  apply (G _ _ _ T). right. apply (In_nth _ _ []) in I. destruct I as (n & N & E). exists (nth n (combine ks vs) ([], [])). split.
  - apply nth_In. rewrite combine_length. unfold str in *. lia.
  - rewrite combine_nth by exact L. cbn [fst]. now rewrite E.
Qed.
Theorem ssa_colours s raws : styles_coloured s -> ssa_reader_string s = Ok raws -> Forall colours_ok raws.
Proof.
  intros SC E. apply SsaProofs.ssa_string_iff in E. destruct E as (ls & f & TL & H & ->).
  assert (G : forall before after f0 f', ls = before ++ after -> in_turn ssa_line_read new_file before f0 -> in_turn ssa_line_read f0 after f' -> reader_fine in_range f0 -> reader_fine in_range f').
  { intros before after. revert before. induction after as [|l after IH]; intros before f0 f' E B T F; inversion T as [|? ? f1 ? ? R T']; subst; [exact F|].
    apply (IH (before ++ [l]) f1 f'); [now rewrite <- app_assoc| |exact T'|].
    - clear -B R. induction B as [a|a b a1 m a2 S B IH]; cbn [app]; econstructor; eauto. constructor.
    - apply (line_fine in_range (fun k H => H) _ _ _ R); [|exact F]. intros body st _ NF SL. split; [|now apply style_line_almost in SL].
      destruct (SC before (l :: after) f0 TL B) as [X|X]; [contradiction|]. exact (style_line_coloured _ _ _ SL X). }
  apply (G [] ls new_file f eq_refl (turn_end _ _) H). split; constructor.
Qed.

(** A check. *)
Definition names_check (format : str) : bool :=
  is_nil format || existsb (fun k => str_eqb (trim k) (lit "PrimaryColour")) (split (is_any_of [comma]) format).
Definition coloured_check (s : str) : bool :=
  let ls := lines_of_string s in
  forallb (fun n => match ssa_lines new_file (firstn n ls) with Ok f => names_check (sr_style_format f) | _ => true end) (seq 0 (S (length ls))).
Lemma coloured_check_ok s : coloured_check s = true -> styles_coloured s.
Proof.
  unfold coloured_check. intros C before after f TL T. apply lines_of_string_iff in TL. rewrite TL in C. rewrite forallb_forall in C. specialize (C (length before)).
  rewrite firstn_app, firstn_all, Nat.sub_diag, firstn_O, app_nil_r in C. apply SsaProofs.ssa_lines_iff in T. rewrite T in C.
  assert (I : In (length before) (seq 0 (S (length (before ++ after))))) by (apply in_seq; rewrite app_length; lia). apply C in I. unfold names_check in I.
  apply orb_true_iff in I. destruct I as [I|I]; [left; destruct (sr_style_format f); [reflexivity|discriminate]|]. right.
  apply existsb_exists in I. destruct I as (k & I & K). apply StringProofs.str_eqb_iff in K. exists (split (is_any_of [comma]) (sr_style_format f)), k.
  split; [now apply SsaTextProofs.parts_iff|]. split; [exact I|]. now apply SsaTextProofs.trim_iff.
Qed.

Lemma value_1 : float_value (f_of_int 1) 1.
Proof. split; [vm_compute; reflexivity|]. split; [vm_compute; reflexivity|]. change (f_of_int 1) with (S754_finite false 8388608 (-23)). unfold SF2R, F2R. cbn [Fnum Fexp cond_Zopp]. change (bpow radix2 (-23)) with (/ 8388608)%R. lra. Qed.
Lemma value_0 : float_value (f_of_int 0) 0.
Proof. split; [vm_compute; reflexivity|]. split; reflexivity. Qed.
Lemma big_part : ~ part_ok (f_of_int 255).
Proof. intros (x & (_ & _ & E) & B). destruct value_255 as (_ & _ & E'). rewrite E' in E. lra. Qed.
