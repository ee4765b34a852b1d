(** Texts in UTF-8 come out of files in UTF-8. *)
From Coq Require Import ZArith Lia List Bool Ascii String.
From Verif.Model Require Import Base Float TimeModel Types Lines Ssa Subrip WebVtt StlText StlBinReader.
From Verif.Spec Require Import Outcome TextSpec LinesSpec Utf8Spec StlFileSpec RawSpec SsaTagSpec SubripSpec SubripUseSpec WebVttSpec SsaSpec PieceSpec TextFileSpec.
From Verif.Spec Require StlTextSpec.
From Verif.Proofs Require Import LinesProofs SubripProofs WebVttProofs PieceProofs.
From Verif.Proofs Require StringProofs StlTextProofs StlReadProofs SsaProofs TextFileProofs.
Import ListNotations.
Local Open Scope Z_scope.
Local Notation length := List.length.

(** * Cutting texts *)

Inductive chars : list Z -> Prop :=
| chars_nil : chars []
| chars_cons v c rest : utf8_char v c -> chars rest -> chars (c ++ rest).
Lemma valid_chars s : valid s <-> chars (map char_code s).
Proof.
  split.
  - intros (w & parts & F & ->). induction F; cbn [List.concat]; econstructor; eassumption.
  - intros C. remember (map char_code s) as b eqn:E. revert s E. induction C as [|v c rest U C IH]; intros s E.
    + exists [], []. split; [constructor|now rewrite <- E].
    + assert (exists s2, rest = map char_code s2) as (s2 & ->).
      { clear -E. revert s E. induction c as [|x c IHc]; intros s E; [now exists s|]. destruct s; [discriminate|]. cbn in E. injection E as _ E. exact (IHc _ E). }
      destruct (IH s2 eq_refl) as (w & parts & F & E2). exists (v :: w), (c :: parts). split; [now constructor|]. cbn [List.concat]. now rewrite <- E2, <- E.
Qed.
Lemma chars_app a b : chars a -> chars b -> chars (a ++ b).
Proof. intros A B. induction A as [|v c rest U A IH]; [exact B|]. rewrite <- app_assoc. now apply (chars_cons v). Qed.
Lemma char_shape v c : utf8_char v c -> exists x t, c = x :: t /\ ~ trailing x /\ Forall trailing t /\ (x < 128 -> t = []).
Proof.
  unfold trailing. intros U. destruct U as [v H|a b B H|a b c' B C H S|a b c' d B C D H]; eexists _, _; unfold six in *.
  - split; [reflexivity|]. split; [lia|]. split; [constructor|reflexivity].
  - split; [reflexivity|]. split; [lia|]. split; [repeat constructor; lia|lia].
  - split; [reflexivity|]. split; [lia|]. split; [repeat constructor; lia|lia].
  - split; [reflexivity|]. split; [lia|]. split; [repeat constructor; lia|lia].
Qed.
Lemma chars_cut a x b : ~ trailing x -> chars (a ++ x :: b) -> chars a /\ chars (x :: b).
Proof.
  intros N C. remember (a ++ x :: b) as s eqn:E. revert a E. induction C as [|v c rest U C IH]; intros a E; [destruct a; discriminate|].
  destruct (char_shape _ _ U) as (y & t & -> & Y & T & _). destruct a as [|y' a].
  - split; [constructor|]. cbn [app] in *. rewrite <- E. apply (chars_cons v (y :: t)); assumption.
  - cbn [app] in E. injection E as <- E. revert E. rewrite Forall_forall in T. revert U T.
    assert (G : forall t a, t ++ rest = a ++ x :: b -> (forall z, In z t -> trailing z) -> exists a', a = t ++ a' /\ rest = a' ++ x :: b).
    { clear -N. induction t as [|z t IHt]; intros a E T; [exists a; now split|]. destruct a as [|z' a]; cbn [app] in E; injection E as -> E.
      - exfalso. apply N, T. now left.
      - destruct (IHt a E) as (a' & -> & R); [intros w I; apply T; now right|]. exists a'. now split. }
    intros U T E. destruct (G t a E T) as (a' & -> & R). destruct (IH a' R) as [A B]. split; [|exact B]. change (chars ((y :: t) ++ a')). now apply (chars_cons v).
Qed.
Lemma chars_first x b : x < 128 -> chars (x :: b) -> chars b.
Proof.
  intros X C. inversion C as [|v c rest U R E]. destruct (char_shape _ _ U) as (y & t & -> & _ & _ & T). cbn [app] in E. injection E as -> E. rewrite (T X) in E. now subst.
Qed.
(** The first byte tells how long a character is. *)
Lemma heads {A : Type} (x y : A) a b : x :: a = y :: b -> x = y /\ a = b. Proof. intros E. now injection E. Qed.
Lemma char_unique v c v' c' r r' : utf8_char v c -> utf8_char v' c' -> c ++ r = c' ++ r' -> c = c' /\ r = r'.
Proof.
  intros U U'. destruct U as [v H|a b B H|a b cc B C H S|a b cc d B C D H]; destruct U' as [v' H'|a' b' B' H'|a' b' cc' B' C' H' S'|a' b' cc' d' B' C' D' H']; unfold six in *; cbn [app]; intros E;
    apply heads in E; destruct E as [E1 E]; try lia; rewrite E1; clear E1; repeat (apply heads in E; let E1 := fresh in destruct E as [E1 E]; rewrite E1; clear E1); (split; [reflexivity|exact E]).
Qed.
Lemma chars_prefix a b : chars a -> chars (a ++ b) -> chars b.
Proof.
  intros A. induction A as [|v c rest U A IH]; intros C; [exact C|]. rewrite <- app_assoc in C. inversion C as [E|v' c' rest' U' R E].
  - destruct (char_shape _ _ U) as (y & t & -> & _). discriminate.
  - apply (char_unique _ _ _ _ _ _ U' U) in E. destruct E as [_ ->]. auto.
Qed.

Lemma valid_nil : valid []. Proof. apply valid_chars. constructor. Qed.
Lemma valid_app a b : valid a -> valid b -> valid (a ++ b).
Proof. rewrite !valid_chars, map_app. apply chars_app. Qed.
Lemma valid_prefix a b : valid a -> valid (a ++ b) -> valid b.
Proof. rewrite !valid_chars, map_app. apply chars_prefix. Qed.
Lemma valid_cut a x b : ~ trailing (char_code x) -> valid (a ++ x :: b) -> valid a /\ valid (x :: b).
Proof. rewrite !valid_chars, map_app. cbn [map]. apply chars_cut. Qed.
Definition is_ascii (c : ascii) : Prop := char_code c < 128.
Lemma ascii_alone c : is_ascii c -> valid [c].
Proof. intros A. apply valid_chars. apply (chars_cons (char_code c) [char_code c] []); [|constructor]. constructor. unfold is_ascii, char_code in *. lia. Qed.
Lemma ascii_not_trailing c : is_ascii c -> ~ trailing (char_code c).
Proof. unfold is_ascii, trailing. lia. Qed.
Lemma valid_first x b : is_ascii x -> valid (x :: b) -> valid b.
Proof. rewrite !valid_chars. cbn [map]. apply chars_first. Qed.
Lemma valid_split a x b : is_ascii x -> valid (a ++ x :: b) -> valid a /\ valid b.
Proof. intros A V. apply valid_cut in V; [|now apply ascii_not_trailing]. destruct V as [V1 V2]. split; [exact V1|]. now apply valid_first in V2. Qed.
Lemma valid_ascii_front a b : Forall is_ascii a -> valid (a ++ b) -> valid b.
Proof. induction 1 as [|c a A F IH]; cbn [app]; [auto|]. intros V. apply IH. now apply valid_first in V. Qed.
Lemma valid_ascii_back a b : Forall is_ascii b -> valid (a ++ b) -> valid a.
Proof. intros [|c b' A F] V; [now rewrite app_nil_r in V|]. now apply valid_split in V. Qed.

Lemma lf_ascii : is_ascii lf. Proof. vm_compute. reflexivity. Qed.
Lemma white_ascii c : white c -> is_ascii c. Proof. unfold white, is_ascii. lia. Qed.
Lemma line_end_ascii c : line_end c -> is_ascii c. Proof. intros [-> | ->]; vm_compute; reflexivity. Qed.
Lemma bom_valid : valid bom.
Proof. apply valid_chars. apply (chars_cons (15 * 4096 + 59 * 64 + 63) [0xE0 + 15; 0x80 + 59; 0x80 + 63] []); [|constructor]. constructor; unfold six, scalar; lia. Qed.
Lemma u2028_valid : valid u2028.
Proof. apply valid_chars. apply (chars_cons (2 * 4096 + 0 * 64 + 40) [0xE0 + 2; 0x80 + 0; 0x80 + 40] []); [|constructor]. constructor; unfold six, scalar; lia. Qed.
Lemma u202b_valid : valid u202b.
Proof. apply valid_chars. apply (chars_cons (2 * 4096 + 0 * 64 + 43) [0xE0 + 2; 0x80 + 0; 0x80 + 43] []); [|constructor]. constructor; unfold six, scalar; lia. Qed.

Lemma valid_lines s ls : text_lines s ls -> valid s -> Forall valid ls.
Proof. induction 1 as [|l _ _|l rest ls _ _ IH]; intros V; [constructor|now repeat constructor|]. apply valid_split in V; [|exact lf_ascii]. constructor; [apply V|now apply IH]. Qed.
Lemma valid_complete s ls : StlTextSpec.complete_lines s ls -> valid s -> Forall valid ls.
Proof. induction 1 as [s _|l rest ls _ _ IH]; intros V; [constructor|]. apply valid_split in V; [|exact lf_ascii]. constructor; [apply V|now apply IH]. Qed.
Lemma all_line_ends ends : Forall line_end ends -> Forall is_ascii ends. Proof. apply Forall_impl. exact line_end_ascii. Qed.
Lemma all_white_ascii a : Forall white a -> Forall is_ascii a. Proof. apply Forall_impl. exact white_ascii. Qed.
Lemma valid_cleaned l l' : valid l -> cleaned l l' -> valid l'.
Proof.
  intros V (u & ends & -> & E & _ & U). apply valid_ascii_back in V; [|now apply all_line_ends]. destruct U as [->|(_ & ->)]; [|exact V]. now apply valid_prefix in V; [|exact bom_valid].
Qed.
Lemma valid_trimmed s t : valid s -> trimmed s t -> valid t.
Proof. intros V (a & b & -> & A & B & _). apply valid_ascii_front in V; [|now apply all_white_ascii]. now apply valid_ascii_back in V; [|apply all_white_ascii]. Qed.
Lemma valid_join x t parts : ~ trailing (char_code x) -> valid (x :: t) -> valid (join (x :: t) parts) -> Forall valid parts.
Proof.
  intros N VS. induction parts as [|p [|q parts] IH]; intros V; [constructor|cbn in V; now repeat constructor|].
  change (valid (p ++ x :: t ++ join (x :: t) (q :: parts))) in V. apply valid_cut in V; [|exact N]. destruct V as [V1 V2]. constructor; [exact V1|]. apply IH.
  exact (valid_prefix (x :: t) _ VS V2).
Qed.
Lemma valid_u2028 text parts : valid text -> parts_of u2028 text parts -> Forall valid parts.
Proof. intros V (_ & -> & _). apply (valid_join (ascii_of_nat 226) (map ascii_of_nat [128; 168]%nat)); [unfold trailing; vm_compute; intros [_ H]; now apply H|exact u2028_valid|exact V]. Qed.
Lemma valid_concat parts : Forall valid parts -> valid (List.concat parts).
Proof. induction 1; cbn [List.concat]; [apply valid_nil|now apply valid_app]. Qed.
Lemma valid_rtl text text' : valid text -> without_rtl text text' -> valid text'.
Proof.
  intros V (parts & (_ & -> & _) & ->). apply valid_concat. apply (valid_join (ascii_of_nat 226) (map ascii_of_nat [128; 171]%nat)); [unfold trailing; vm_compute; intros [_ H]; now apply H|exact u202b_valid|exact V].
Qed.
Lemma valid_piece text r : valid text -> Forall valid_text (with_piece text r).
Proof. intros V. destruct text; constructor; [exact V|constructor]. Qed.

(** * SubRip *)

Lemma same_letter_ascii a b : same_letter a b -> is_ascii b -> is_ascii a.
Proof. unfold is_ascii. intros [->|(k & K & [[A B]|[A B]])]; lia. Qed.
Lemma same_letters_ascii p q : same_letters p q -> Forall is_ascii q -> Forall is_ascii p.
Proof. induction 1; intros F; constructor; inversion F; subst; [eapply same_letter_ascii; eassumption|auto]. Qed.
Definition ascii_check (s : str) : bool := forallb (fun c => char_code c <? 128) s.
Lemma ascii_checked s : ascii_check s = true -> Forall is_ascii s.
Proof. intros H. apply Forall_forall. intros c I. unfold ascii_check in H. rewrite forallb_forall in H. apply H in I. unfold is_ascii. lia. Qed.
Lemma letters_cons p q x t : same_letters p q -> q = x :: t -> exists y u, p = y :: u.
Proof. intros H ->. inversion H; eauto. Qed.
Lemma valid_tag text s tok rest : tag_at s tok rest -> valid (text ++ s) -> valid text /\ valid rest.
Proof.
  assert (UP : forall stop s body rest, is_ascii stop -> up_to stop s body rest -> valid s -> valid rest).
  { intros stop s0 body rest0 A [b r _|b _] V; [now apply valid_split in V|apply valid_nil]. }
  assert (FR : forall p q rest, same_letters p q -> Forall is_ascii q -> q <> [] -> valid (text ++ p ++ rest) -> valid text /\ valid rest).
  { intros p q rest0 H A N V. destruct q as [|x t]; [contradiction|]. pose proof (same_letters_ascii _ _ H A) as AP. destruct (letters_cons _ _ _ _ H eq_refl) as (y & u & ->).
    inversion AP; subst. cbn [app] in V. apply valid_split in V; [|assumption]. split; [apply V|]. now apply (valid_ascii_front u). }
  intros [p name tok' rest' I L|p s' body rest' L U|s' body rest' U] V.
  - apply (FR p (lit name)); [exact L| | |exact V].
    + apply ascii_checked. cbn [In simple_tags] in I. repeat destruct I as [I|I]; [injection I as <- <-; reflexivity..|contradiction].
    + cbn [In simple_tags] in I. repeat destruct I as [I|I]; [injection I as <- <-; discriminate..|contradiction].
  - apply (FR p (lit "<font")) in V; [|exact L|now apply ascii_checked|discriminate]. split; [apply V|]. apply (fun A => UP ">"%char _ _ _ A U); [reflexivity|apply V].
  - apply valid_split in V; [|reflexivity]. destruct V as [V1 V2]. split; [exact V1|]. apply valid_first in V2; [|reflexivity]. apply (fun A => UP "}"%char _ _ _ A U); [reflexivity|exact V2].
Qed.
Lemma pieces_valid line toks : lexed line toks -> forall r cs text ps r' last, pieces r cs text toks ps r' last -> valid (text ++ line) -> Forall valid_text ps /\ valid last.
Proof.
  induction 1 as [|s tok rest toks T L IH|c s toks N L IH]; intros r cs text ps r' last P V.
  - inversion P; subst. rewrite app_nil_r in V. split; [constructor|exact V].
  - pose proof (fun c => tag_no_char s tok rest c T) as NC. apply (valid_tag _ _ _ _ T) in V. destruct V as [V1 V2]. inversion P; subst.
    + exfalso. eapply NC; reflexivity.
    + destruct (IH _ _ [] _ _ _ ltac:(eassumption) V2) as [A B]. split; [|exact B]. apply Forall_app. split; [now apply valid_piece|exact A].
    + eapply IH; [eassumption|]. now apply valid_app.
  - inversion P as [|? ? ? ? ? ? ? ? P'|? ? ? ? ? ? ? ? ? ? RS P'|]; subst.
    + apply (IH _ _ _ _ _ _ P'). now rewrite <- app_assoc.
    + inversion RS.
Qed.
Lemma rows_valid n r ls raws : rows n r ls raws -> Forall valid ls -> Forall valid_text raws.
Proof.
  induction 1 as [|n r line rest toks ps r' last last' raws L P W R IH]; intros F; [constructor|]. inversion F; subst.
  destruct (pieces_valid _ _ L _ _ _ _ _ _ P) as [A B]; [assumption|]. repeat (apply Forall_app; split); [exact A|apply valid_piece; now apply (valid_rtl last)|auto].
Qed.
Lemma cue_rows_valid text liness : Forall (fun l => valid l /\ l <> []) text -> Forall2 (parts_of u2028) text liness -> Forall valid (List.concat liness).
Proof. intros F P. apply concat_forall. refine (forall2_r _ _ _ _ _ _ F P). intros l parts [V _]. now apply valid_u2028. Qed.
Theorem subrip_valid s raws : valid s -> subrip_reader_string s = Ok raws -> Forall valid_text raws.
Proof.
  intros V E. apply subrip_string_iff in E. destruct E as (ls & TL & ls' & cs & rawss & C & CU & F & ->). apply (valid_lines _ _ TL) in V.
  pose proof (forall2_r _ _ _ _ _ valid_cleaned V C) as V'. apply (cues_text _ _ _ CU) in V'. apply concat_forall. refine (forall2_r _ _ _ _ _ _ V' F).
  intros c raws K (liness & P & R). apply (rows_valid _ _ _ _ R). now apply (cue_rows_valid (cue_text c)).
Qed.

(** * WebVTT *)

Theorem vtt_valid s raws : valid s -> vtt_reader_string s = Ok raws -> Forall valid_text raws.
Proof.
  intros V E. apply vtt_string_iff in E. destruct E as (ls & TL & L). apply (valid_lines _ _ TL) in V. destruct L as [|h h' ls ls' cs rawss CH B C CU F]; [constructor|].
  inversion V as [|? ? _ VL]; subst. pose proof (forall2_r _ _ _ _ _ valid_cleaned VL C) as V'. apply (vtt_cues_text _ _ _ CU) in V'. apply concat_forall. refine (forall2_r _ _ _ _ _ _ V' F).
  intros c raws K (rs & (liness & FL & ->) & ->). apply (plain_rows_all valid). now apply (cue_rows_valid (cue_text c)).
Qed.

(** * Binary STL *)

Lemma block_valid g b raws last : block_read g b raws last -> Forall valid_text raws.
Proof.
  intros [L B|from to top just text rows pieces rs L B F T _ _ _ _ _ _ _ P]; [constructor|].
  clear -P. induction P as [|p r ps rs K P IH]; [constructor|]. constructor; [|exact IH]. destruct p as [[row st] bs]. destruct K as (w & text & _ & U & ->). now exists w.
Qed.
Theorem binary_valid h input g subs : snd (stl_binary_read input (Iso6937Spec.after h)) = Ok (g, subs) -> Forall valid_text subs.
Proof.
  intros E. apply StlReadProofs.read_iff in E. destruct E as (raws & top & (head & blocks & rest & rawss & lasts & _ & H & _ & F & L & -> & _) & M).
  assert (A : Forall valid_text (List.concat rawss)).
  { apply concat_forall. clear -F L. revert lasts blocks F L. induction rawss as [|rs rawss IH]; intros lasts blocks F L; [constructor|]. destruct lasts as [|z lasts]; [discriminate|].
    cbn [combine] in F. inversion F as [|b x bs xs B F' E1 E2]; subst. constructor; [now apply block_valid in B|]. apply (IH lasts bs); [exact F'|]. now injection L. }
  refine (forall2_r _ _ _ _ _ _ A M). intros a b V (row & rows & _ & ->). exact V.
Qed.

(** A line feed in a text field is a byte 10 there. *)
Lemma glyph_newline_only bs c : Iso6937Spec.glyph bs c -> c = 10 -> bs = [10].
Proof.
  intros G. destruct G as [|b R|b c I|a m b c _ I _]; intros E; [reflexivity|lia| |]; exfalso; subst c.
  - assert (N : existsb (fun e => snd e =? 10) Iso6937Spec.right_half = true) by (apply existsb_exists; exists (b, 10); split; [exact I|reflexivity]). vm_compute in N. discriminate.
  - assert (N : existsb (fun e => snd e =? 10) UnicodeSpec.compositions = true) by (apply existsb_exists; exists (b, m, 10); split; [exact I|reflexivity]). vm_compute in N. discriminate.
Qed.
Lemma decodes_newline d bs w : Iso6937Spec.decodes d bs w -> In 10 w -> In 10 bs.
Proof.
  induction 1 as [d|d rest|d a rest w A D IH|b c rest w B A G D IH|b rest w B A G D IH|a b c rest w B A G D IH|a b rest w B A K G D IH]; cbn [In]; intros I; auto; try tauto.
  - destruct I as [->|I]; [|auto]. apply glyph_newline_only in G; [|reflexivity]. injection G as <-. now left.
  - destruct I as [E|I]; [discriminate|auto].
  - destruct I as [->|I]; [|auto]. apply glyph_newline_only in G; [|reflexivity]. discriminate.
  - destruct I as [E|I]; [discriminate|auto].
Qed.
Lemma utf8_newline s w : utf8 s w -> In lf s -> In 10 w.
Proof.
  intros (parts & F & E) I. apply (in_map char_code) in I. rewrite E in I. change (char_code lf) with 10 in I. clear E. revert I.
  induction F as [|v bs w parts V F IH]; cbn [List.concat In]; [tauto|]. rewrite in_app_iff. intros [I|I]; [|right; auto]. left.
  destruct V as [v V|a b B V|a b c B C V S|a b c d B C D V]; cbn [In] in I; unfold six in *; intuition lia.
Qed.
Lemma row_bytes s bs ps s' : row_pieces s bs ps s' -> forall p x, In p ps -> In x (snd p) -> In x bs.
Proof.
  induction 1 as [s p P|s p rest P|s s' s'' p c rest ps P C R IH]; intros q x I X.
  - destruct p; cbn in I; [destruct I|]. destruct I as [<-|[]]. exact X.
  - apply in_app_iff. left. destruct p; cbn in I; [destruct I|]. destruct I as [<-|[]]. exact X.
  - apply in_app_iff. destruct I as [<-|I]; [left; exact X|]. right. right. now apply (IH q).
Qed.
Lemma rows_bytes row i u rows ps : rows_pieces row i u rows ps -> forall p x, In p ps -> In x (snd p) -> exists r, In r rows /\ In x r.
Proof.
  induction 1 as [row i u|row i u bs rest ps s ps' R K IH]; intros p x I X; [destruct I|]. apply in_app_iff in I. destruct I as [I|I].
  - apply in_map_iff in I. destruct I as (q & <- & I). exists bs. split; [now left|]. exact (row_bytes _ _ _ _ R q x I X).
  - destruct (IH p x I X) as (r & A & B). exists r. split; [now right|exact B].
Qed.
Lemma block_newline g b raws last : block_read g b raws last -> (forall text, bytes_at b 16 112 text -> ~ In lf text) -> Forall one_line raws.
Proof.
  intros [L B|from to top just text rows pieces rs L B F T _ _ E _ J _ R P] N; [constructor|]. specialize (N text E).
  assert (R' : forall pc, In pc pieces -> ~ In 10 (snd pc)).
  { intros pc I X. destruct (rows_bytes _ _ _ _ _ R pc 10 I X) as (r & A & C). apply in_map_iff in A. destruct A as (r' & <- & A).
    apply in_map_iff in C. destruct C as (c & C & I'). apply N. rewrite J.
    replace lf with c by (rewrite <- (ascii_nat_embedding c), <- (ascii_nat_embedding lf); f_equal; change (nat_of_ascii lf) with 10%nat; unfold char_code in C; lia).
    clear -A I'. induction rows as [|y rows IH]; [destruct A|]. destruct rows as [|z rows]; cbn [join]; [destruct A as [->|[]]; exact I'|].
    rewrite !in_app_iff. destruct A as [->|A]; [now left|right; right; now apply IH]. }
  clear -P R'. induction P as [|p r ps rs K P IH]; [constructor|]. constructor; [|apply IH; intros pc I; apply R'; now right].
  specialize (R' p (or_introl eq_refl)). destruct p as [[row st] bs]. destruct K as (w & text & D & U & ->). intros I. cbn [r_text] in I. apply R'. cbn [snd].
  exact (decodes_newline _ _ _ D (utf8_newline _ _ U I)).
Qed.
Lemma blocks_text_at (head : str) blocks rest : length head = 1024%nat -> Forall (fun b => length b = 128%nat) blocks ->
  forall b text, In b blocks -> bytes_at b 16 112 text -> exists n, bytes_at (head ++ List.concat blocks ++ rest) (1040 + 128 * n) 112 text.
Proof.
  intros LH LB b text I (p & q & E & LP & LT). apply in_split in I. destruct I as (l1 & l2 & ->). exists (length l1).
  exists (head ++ List.concat l1 ++ p), (q ++ List.concat l2 ++ rest). split; [|split; [|exact LT]].
  - rewrite concat_app. cbn [List.concat]. rewrite E, <- !app_assoc. reflexivity.
  - apply Forall_app in LB. destruct LB as [LB _]. rewrite !app_length, LH, LP. assert (K : length (List.concat l1) = (128 * length l1)%nat).
    { clear -LB. induction LB as [|x l X _ IH]; [reflexivity|]. cbn [List.concat length]. rewrite app_length, X, IH. lia. }
    rewrite K. lia.
Qed.
Lemma block_length g b raws last : block_read g b raws last -> length b = 128%nat.
Proof. now intros []. Qed.
Theorem binary_one_line h input g subs : (forall n text, bytes_at input (1040 + 128 * n) 112 text -> ~ In lf text) ->
  snd (stl_binary_read input (Iso6937Spec.after h)) = Ok (g, subs) -> Forall one_line subs.
Proof.
  intros N E. apply StlReadProofs.read_iff in E. destruct E as (raws & top & (head & blocks & rest & rawss & lasts & -> & H & _ & F & L & -> & _) & M).
  assert (LH : length head = 1024%nat) by apply H.
  assert (LB : Forall (fun b => length b = 128%nat) blocks). { clear -F. induction F as [|b x bs xs B F IH]; constructor; [now apply block_length in B|exact IH]. }
  assert (N' : forall b, In b blocks -> forall text, bytes_at b 16 112 text -> ~ In lf text).
  { intros b I text T. destruct (blocks_text_at head blocks rest LH LB b text I T) as (n & K). exact (N n text K). }
  assert (A : Forall one_line (List.concat rawss)).
  { apply concat_forall. clear -F L N'. revert lasts blocks F L N'. induction rawss as [|rs rawss IH]; intros lasts blocks F L N'; [constructor|]. destruct lasts as [|z lasts]; [discriminate|].
    cbn [combine] in F. inversion F as [|b x bs xs B F' E1 E2]; subst. constructor; [apply block_newline in B; [exact B|apply N'; now left]|].
    apply (IH lasts bs); [exact F'|now injection L|]. intros y I. apply N'. now right. }
  refine (forall2_r _ _ _ _ _ _ A M). intros a b V (row & rows & _ & ->). exact V.
Qed.

(** * Text STL *)

Lemma ascii_after_part x a p b : ascii_after x (a ++ p ++ b) -> ascii_after x p.
Proof. intros A u c v ->. apply (A (a ++ u) c (v ++ b)). now rewrite <- !app_assoc. Qed.
Lemma stl_pieces_valid r s r' ps : StlTextSpec.pieces r s r' ps -> ascii_after "^"%char s -> valid s -> Forall valid_text ps.
Proof.
  induction 1 as [r|r n c s r' ps B V P IH|r x c r1 s r' ps C T P IH|r c C|r t s r' ps N F E P IH]; intros A V0; [constructor| | |constructor|].
  - rewrite B in *. apply IH; [|now apply valid_first in V0]. apply (ascii_after_part _ ["|"%char] s []). now rewrite app_nil_r.
  - rewrite C in *. pose proof (A [] c s eq_refl) as AC. apply valid_first in V0; [|reflexivity]. apply valid_first in V0; [|exact AC]. apply IH; [|exact V0].
    apply (ascii_after_part _ ["^"%char; c] s []). now rewrite app_nil_r.
  - assert (V1 : valid t /\ valid s).
    { destruct E as [->|E]; [rewrite app_nil_r in V0; split; [exact V0|apply valid_nil]|]. destruct s as [|y s]; [destruct E|]. cbn [begins] in E.
      assert (AY : is_ascii y). { destruct (ascii_dec y "|"%char) as [->|NB]; [reflexivity|]. destruct (ascii_dec y "^"%char) as [->|NC]; [reflexivity|]. exfalso. apply E. split; assumption. }
      apply valid_cut in V0; [exact V0|now apply ascii_not_trailing]. }
    constructor; [apply V1|]. apply IH; [|apply V1]. apply (ascii_after_part _ t s []). now rewrite app_nil_r.
Qed.
Lemma trimmed_part s t : trimmed s t -> exists a b, s = a ++ t ++ b.
Proof. intros (a & b & -> & _). now exists a, b. Qed.
Lemma stl_lines_valid r ls r' raws : StlTextSpec.lines_mean r ls r' raws -> Forall (ascii_after "^"%char) ls -> Forall valid ls -> Forall valid_text raws.
Proof.
  induction 1 as [r|r l l' r1 rs ls r2 rss T L M IH]; intros A V; [constructor|]. inversion A; inversion V; subst. apply Forall_app. split; [|auto].
  assert (V' : valid l') by (now apply (valid_trimmed l)).
  assert (A' : ascii_after "^"%char l') by (destruct (trimmed_part _ _ T) as (a & b & ->); eapply ascii_after_part; eassumption).
  destruct L as [l0 v _|l0 v b _ _|l0 v b _ _|l0 v b _ _|l0 v n _ _|l0 name v _ _|l0 start finish from to text r' rs S F T' P|l0 start finish text _ _|l0 _ _]; try constructor.
  destruct S as (_ & _ & _ & f & x & t & (-> & _ & _) & _). apply (stl_pieces_valid _ _ _ _ P).
  - apply (ascii_after_part _ ((f ++ [x]) ++ comma :: t ++ [comma]) text []). rewrite app_nil_r. cbn [app]. repeat (rewrite <- app_assoc || (progress cbn [app])). repeat (rewrite <- app_assoc in A' || (progress cbn [app] in A')). exact A'.
  - apply valid_split in V'; [|reflexivity]. destruct V' as [_ V']. now apply valid_split in V'.
Qed.
Lemma complete_after x s ls : StlTextSpec.complete_lines s ls -> ascii_after x s -> Forall (ascii_after x) ls.
Proof.
  induction 1 as [s _|l rest ls _ _ IH]; intros A; [constructor|]. constructor; [now apply (ascii_after_part _ [] l (lf :: rest))|]. apply IH.
  apply (ascii_after_part _ (l ++ [lf]) rest []). now rewrite app_nil_r, <- app_assoc.
Qed.
Theorem stl_text_valid s raws : ascii_after "^"%char s -> valid s -> stl_text_read true s = Ok raws -> Forall valid_text raws.
Proof.
  intros A V E. apply StlTextProofs.text_stl_iff in E. destruct E as (ls & r & C & L). apply (stl_lines_valid _ _ _ _ L); [now apply (complete_after _ s)|now apply (valid_complete s)].
Qed.

(** * SSA *)

(** The runs of characters between tags and line breaks. *)
Fixpoint runs (text : str) (its : list item) : list str :=
  match its with [] => [text] | Char c :: its => runs (text ++ [c]) its | _ :: its => text :: runs [] its end.
Lemma tags_runs text tags its : runs text (map Tag tags ++ its) = match tags with [] => runs text its | _ => text :: repeat [] (length tags - 1) ++ runs [] its end.
Proof.
  destruct tags as [|t tags]; [reflexivity|]. cbn [map app runs length]. f_equal. replace (S (length tags) - 1)%nat with (length tags) by lia.
  induction tags as [|u tags IH]; [reflexivity|]. cbn [map app runs length repeat]. now rewrite IH.
Qed.
Lemma repeat_valid n : Forall valid (repeat [] n).
Proof. induction n; constructor; [apply valid_nil|assumption]. Qed.
Lemma runs_valid s its : ssa_text s its -> forall text, ascii_after bslash s -> valid (text ++ s) -> Forall valid (runs text its).
Proof.
  assert (SK : forall x s, ascii_after bslash (x :: s) -> ascii_after bslash s) by (intros x s0 A; apply (ascii_after_part _ [x] s0 []); now rewrite app_nil_r).
  assert (JN : forall text x s, is_ascii x -> valid (text ++ x :: s) -> valid (text ++ s)) by (intros text x s0 A V; apply valid_split in V; [now apply valid_app|exact A]).
  induction 1 as [|c s its A B C S IH|c s its L S IH|c s its B S IH|c s its B S IH| |body tags s its N B S IH|body tags last N B]; intros text AA V.
  - rewrite app_nil_r in V. now repeat constructor.
  - cbn [runs]. apply IH; [now apply SK in AA|]. now rewrite <- app_assoc.
  - apply IH; [now apply SK in AA|]. apply (JN text c); [now apply line_end_ascii|exact V].
  - cbn [runs]. apply valid_split in V; [|reflexivity]. destruct V as [V1 V2]. constructor; [exact V1|]. apply IH; [now do 2 apply SK in AA|]. apply valid_first in V2; [exact V2|].
    destruct B as [-> | ->]; reflexivity.
  - apply IH; [now do 2 apply SK in AA|]. apply JN in V; [|reflexivity]. apply JN in V; [exact V|]. exact (AA [] c s eq_refl).
  - apply JN in V; [|reflexivity]. rewrite app_nil_r in V. now repeat constructor.
  - apply valid_split in V; [|reflexivity]. destruct V as [V1 V2]. apply valid_split in V2; [|reflexivity]. destruct V2 as [_ V2]. rewrite tags_runs.
    assert (A2 : ascii_after bslash s) by (apply (ascii_after_part _ ("{"%char :: body ++ ["}"%char]) s []); rewrite app_nil_r; cbn [app]; now rewrite <- app_assoc).
    destruct tags as [|t tags]; [apply IH; [exact A2|now apply valid_app]|]. constructor; [exact V1|]. apply Forall_app. split; [apply repeat_valid|]. now apply IH.
  - apply valid_split in V; [|reflexivity]. destruct V as [V1 _]. rewrite <- (app_nil_r (map Tag tags)), tags_runs. destruct tags as [|t tags]; [now repeat constructor|]. constructor; [exact V1|].
    apply Forall_app. split; [apply repeat_valid|]. constructor; [apply valid_nil|constructor].
Qed.
Lemma cut_valid c z r tx its ps : cut_up c z r tx its ps -> Forall valid (runs tx its) -> Forall valid_text ps.
Proof.
  induction 1 as [r text|r text x its ps C IH|r text t r1 its ps O C IH|r text r1 its ps B C IH]; cbn [runs]; intros F.
  - apply valid_piece. now inversion F.
  - auto.
  - inversion F; subst. apply Forall_app. split; [now apply valid_piece|auto].
  - inversion F; subst. apply Forall_app. split; [now apply valid_piece|auto].
Qed.
Lemma join_parts sep vs v : In v vs -> exists a b, join sep vs = a ++ v ++ b.
Proof.
  induction vs as [|w [|u vs] IH]; intros I; [contradiction|destruct I as [->|[]]; exists [], []; cbn; now rewrite app_nil_r|].
  destruct I as [->|I]; [exists [], (sep ++ join sep (u :: vs)); reflexivity|]. destruct (IH I) as (a & b & E). exists (w ++ sep ++ a), b.
  change (join sep (w :: u :: vs)) with (w ++ sep ++ join sep (u :: vs)). rewrite E. now rewrite <- !app_assoc.
Qed.
Lemma text_in_line_part line x : text_in_line line x -> exists a b, line = a ++ x ++ b.
Proof.
  assert (TR : forall p q r : str, (exists a b, p = a ++ q ++ b) -> (exists a b, q = a ++ r ++ b) -> exists a b, p = a ++ r ++ b)
    by (intros p q r (a & b & ->) (c & d & ->); exists (a ++ c), (d ++ b); now rewrite <- !app_assoc).
  intros (l & key & body & vs & v & (u & T & U) & (rest & -> & _ & K) & (_ & -> & _) & I & X).
  apply (TR _ u); [now apply trimmed_part|]. apply (TR _ (key ++ ":"%char :: rest)); [destruct U as [->|(_ & ->)]; [exists bom, []|exists [], []]; now rewrite app_nil_r|].
  apply (TR _ rest); [exists (key ++ [":"%char]), []; now rewrite app_nil_r, <- app_assoc|]. apply (TR _ (join [comma] vs)); [now apply trimmed_part|].
  apply (TR _ v); [now apply join_parts|now apply trimmed_part].
Qed.
Lemma text_in_line_valid line x : valid line -> text_in_line line x -> valid x.
Proof.
  intros V (l & key & body & vs & v & (u & T & U) & (rest & -> & _ & K) & (_ & -> & _) & I & X). apply (valid_trimmed _ _ V) in T.
  assert (V1 : valid (key ++ ":"%char :: rest)) by (destruct U as [->|(_ & ->)]; [now apply valid_prefix in T; [|exact bom_valid]|exact T]).
  apply valid_split in V1; [|reflexivity]. destruct V1 as [_ V1]. apply (valid_trimmed _ _ V1) in K. apply (valid_join comma []) in K; [|apply ascii_not_trailing; reflexivity|now apply ascii_alone].
  rewrite Forall_forall in K. apply K in I. now apply (valid_trimmed v).
Qed.
Lemma lines_part s ls l : text_lines s ls -> In l ls -> exists a b, s = a ++ l ++ b.
Proof.
  induction 1 as [|k _ _|k rest ls _ _ IH]; intros I; [contradiction|destruct I as [->|[]]; exists [], []; now rewrite app_nil_r|].
  destruct I as [->|I]; [now exists [], (lf :: rest)|]. destruct (IH I) as (a & b & ->). exists (k ++ lf :: a), b. now rewrite <- app_assoc.
Qed.
Theorem ssa_valid s raws : ascii_after bslash s -> valid s -> ssa_reader_string s = Ok raws -> Forall valid_text raws.
Proof.
  intros A V E. apply SsaProofs.ssa_string_iff in E. destruct E as (ls & f & TL & H & ->). refine (ssa_pieces valid_text ls _ _ _ H _); [|constructor].
  intros line x c base raws I T N (its & r & n & ps & S & _ & _ & C & F). rewrite N in C.
  assert (VL : valid line) by (apply (valid_lines _ _ TL) in V; rewrite Forall_forall in V; auto).
  assert (AX : ascii_after bslash x).
  { destruct (text_in_line_part _ _ T) as (a & b & E). destruct (lines_part _ _ _ TL I) as (a' & b' & E'). subst s. apply ascii_after_part in A. rewrite E in A. now apply ascii_after_part in A. }
  assert (CV : Forall valid_text ps) by (apply (cut_valid _ _ _ _ _ _ C); apply (runs_valid _ _ S); [exact AX|exact (text_in_line_valid _ _ VL T)]).
  refine (forall2_r _ _ _ _ _ _ CV F). intros a b VA (ref & q & _ & _ & ->). exact VA.
Qed.

(** A check. *)
Definition ascii_after_check (x : ascii) : str -> bool :=
  fix go s := match s with [] => true | c :: t => (negb (Ascii.eqb c x) || match t with [] => true | d :: _ => char_code d <? 128 end) && go t end.
Lemma ascii_after_checked x s : ascii_after_check x s = true -> ascii_after x s.
Proof.
  induction s as [|y s IH]; intros H a c b E; [destruct a; discriminate|]. cbn [ascii_after_check] in H. apply andb_true_iff in H. destruct H as [H1 H2].
  destruct a as [|z a]; cbn [app] in E; injection E as -> E; [subst s; rewrite Ascii.eqb_refl in H1; cbn [negb orb] in H1; lia|]. exact (IH H2 _ _ _ E).
Qed.

(** * Texts that are in UTF-8, and texts that are not *)

Lemma valid_ascii s : ascii_check s = true -> valid s.
Proof. intros C. apply ascii_checked in C. induction C as [|c s A F IH]; [apply valid_nil|]. apply (valid_app [c] s); [now apply ascii_alone|exact IH]. Qed.
Definition e_acute : str := map ascii_of_nat [195; 169]%nat.
Lemma e_acute_valid : valid e_acute.
Proof. apply valid_chars. apply (chars_cons (3 * 64 + 41) [0xC0 + 3; 0x80 + 41] []); [|constructor]. constructor; unfold six; lia. Qed.
Lemma stray_invalid x s : trailing (char_code x) -> ~ valid (x :: s).
Proof.
  intros T V. apply valid_chars in V. inversion V as [|v c rest U R E]. destruct (char_shape _ _ U) as (y & t & -> & N & _). cbn [app map] in E. apply heads in E. destruct E as [E _]. apply N. now rewrite E.
Qed.
Lemma half_invalid p : ascii_check p = true -> ~ valid (p ++ [ascii_of_nat 195]).
Proof.
  intros A V. apply valid_ascii_front in V; [|now apply ascii_checked]. apply valid_chars in V. change (map char_code [ascii_of_nat 195]) with [195] in V.
  inversion V as [|v c rest U R E]. destruct U as [v H|a b B H|a b cc B C H S|a b cc d B C D H]; cbn [app] in E; apply heads in E; destruct E as [E1 E]; [lia|discriminate..].
Qed.

(** * Files *)

Lemma buffer_line_taken b l : buffer_line b l -> taken_from b l.
Proof. intros (_ & _ & [->|[->|(z & ->)]]); [apply taken_refl|apply taken_right, taken_refl..]. Qed.
Lemma buffers_taken s bs : buffers s bs -> s = List.concat bs.
Proof. induction 1 as [|l rest bs _ _ B IH|l rest bs _ _ B IH|l _ _ _]; cbn [List.concat]; [reflexivity|rewrite <- app_assoc; cbn [app]; now rewrite <- IH|now rewrite <- IH|now rewrite app_nil_r]. Qed.
Definition lf_free (s : str) : str := filter (fun c => negb (Ascii.eqb c lf)) s.
Lemma lf_free_taken s t : taken_from s t -> taken_from (lf_free s) (lf_free t).
Proof. induction 1 as [|c s t T IH|c s t T IH]; cbn [lf_free filter]; [constructor| |]; destruct (negb (Ascii.eqb c lf)); try (constructor; exact IH); exact IH. Qed.
Lemma lf_free_same s : ~ In lf s -> lf_free s = s.
Proof.
  induction s as [|c s IH]; intros N; [reflexivity|]. cbn [lf_free filter]. destruct (Ascii.eqb_spec c lf) as [->|D]; [exfalso; apply N; now left|]. cbn [negb]. f_equal. apply IH. intros I. apply N. now right.
Qed.
Lemma lf_free_lines ls : taken_from (List.concat ls) (lf_free (text_of_lines ls)).
Proof.
  induction ls as [|l ls IH]; [constructor|]. unfold text_of_lines in *. cbn [map List.concat]. unfold lf_free in *. rewrite !filter_app. cbn [filter]. rewrite Ascii.eqb_refl. cbn [negb]. rewrite app_nil_r.
  apply taken_app; [|exact IH]. clear. induction l as [|c l IH]; [constructor|]. cbn [filter]. destruct (negb _); now constructor.
Qed.
Lemma file_taken s bs ls raws : buffers s bs -> Forall2 buffer_line bs ls -> taken_from (text_of_lines ls) (texts raws) -> Forall one_line raws -> taken_from s (texts raws).
Proof.
  intros B F T O. apply lf_free_taken in T. rewrite (lf_free_same (texts raws)) in T.
  - rewrite (buffers_taken _ _ B). apply (taken_trans _ (List.concat ls)); [apply taken_concat; revert F; clear; induction 1; constructor; [now apply buffer_line_taken|assumption]|].
    exact (taken_trans _ _ (lf_free_lines ls) _ T).
  - intros I. unfold texts in I. apply in_concat in I. destruct I as (t & I & J). apply in_map_iff in I. destruct I as (r & <- & I). rewrite Forall_forall in O. exact (O r I J).
Qed.
Lemma same_success a b x : same_outcome a b -> a = Ok x -> b = Ok x.
Proof. intros S E. destruct S; try discriminate; exact E. Qed.
Theorem subrip_file_taken s raws : subrip_reader_file s = Ok raws -> taken_from s (texts raws).
Proof. intros E. destruct (TextFileProofs.subrip_any_file s) as (bs & ls & B & F & S). apply (same_success _ _ _ S) in E. exact (file_taken _ _ _ _ B F (subrip_taken _ _ E) (subrip_one_line _ _ E)). Qed.
Theorem vtt_file_taken s raws : vtt_reader_file s = Ok raws -> taken_from s (texts raws).
Proof. intros E. destruct (TextFileProofs.vtt_any_file s) as (bs & ls & B & F & S). apply (same_success _ _ _ S) in E. exact (file_taken _ _ _ _ B F (vtt_taken _ _ E) (vtt_one_line _ _ E)). Qed.
Theorem ssa_file_taken s raws : ssa_reader_file s = Ok raws -> taken_from s (texts raws).
Proof. intros E. destruct (TextFileProofs.ssa_any_file s) as (bs & ls & B & F & S). rewrite S in E. exact (file_taken _ _ _ _ B F (ssa_taken _ _ E) (ssa_one_line _ _ E)). Qed.
Theorem subrip_file_pieces s raws : subrip_reader_file s = Ok raws -> Forall some_text raws /\ Forall one_line raws.
Proof. intros E. destruct (TextFileProofs.subrip_any_file s) as (bs & ls & _ & _ & S). apply (same_success _ _ _ S) in E. split; [exact (subrip_some_text _ _ E)|exact (subrip_one_line _ _ E)]. Qed.
Theorem ssa_file_pieces s raws : ssa_reader_file s = Ok raws -> Forall some_text raws /\ Forall one_line raws.
Proof. intros E. destruct (TextFileProofs.ssa_any_file s) as (bs & ls & _ & _ & S). rewrite S in E. split; [exact (ssa_some_text _ _ E)|exact (ssa_one_line _ _ E)]. Qed.
