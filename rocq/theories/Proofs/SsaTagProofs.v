(** Override tags: parse_tag against Spec/SsaTagSpec. *)
From Coq Require Import ZArith List Bool Ascii String Lia.
From Verif.Model Require Import Base Strings Float TimeModel Types RawConvert Compose Ssa.
From Verif.Spec Require Import Outcome TextSpec StlFileSpec RawSpec SsaTagSpec.
From Verif.Proofs Require Import StringProofs.
Import ListNotations.
Local Open Scope Z_scope.
Local Notation length := List.length.

(** * Hexadecimal numbers *)

Lemma hex_digit_is c d : hex_digit c d -> is_xdigit c = true /\ xdigit_val c = d.
Proof.
  unfold hex_digit, is_xdigit, xdigit_val, is_digit. rewrite <- code_char. set (k := code c). clearbody k. intros H.
  destruct H as [[B E]|[B [E|E]]]; subst k; split;
    repeat match goal with |- context [(?a <=? ?b)] => destruct (Z.leb_spec a b); cbn [andb orb] end; try reflexivity; lia.
Qed.
Lemma is_xdigit_hex c : is_xdigit c = true -> hex_digit c (xdigit_val c).
Proof.
  unfold hex_digit, is_xdigit, xdigit_val, is_digit. rewrite <- code_char. set (k := code c). clearbody k.
  repeat match goal with |- context [(?a <=? ?b)] => destruct (Z.leb_spec a b); cbn [andb orb] end; intros; try discriminate; lia.
Qed.
Lemma is_hex_char_iff c : is_hex_char c <-> is_xdigit c = true.
Proof.
  split; [intros (d & D); now destruct (hex_digit_is c d D)|]. intros X. exists (xdigit_val c). now apply is_xdigit_hex.
Qed.

Lemma hex_val_snoc s c : hex_val (s ++ [c]) = hex_val s * 16 + xdigit_val c.
Proof. unfold hex_val. now rewrite fold_left_app. Qed.

Lemma hex_numeral_iff s v : hex_numeral s v <-> Forall (fun c => is_xdigit c = true) s /\ hex_val s = v.
Proof.
  split.
  - induction 1 as [|s v c d N [IH1 IH2] D]; [split; [constructor|reflexivity]|].
    destruct (hex_digit_is c d D) as [X V]. split; [apply Forall_app; split; [exact IH1|now constructor]|].
    rewrite hex_val_snoc, IH2, V. lia.
  - intros [F <-]. induction s as [|c s IH] using rev_ind; [constructor|].
    apply Forall_app in F. destruct F as [F1 F2]. inversion F2; subst. rewrite hex_val_snoc, Z.mul_comm. constructor; [now apply IH|].
    now apply is_xdigit_hex.
Qed.

Lemma not_begins_hex s : ~ begins is_hex_char s <-> starts_not is_xdigit s.
Proof. destruct s as [|c s]; cbn; [tauto|]. rewrite is_hex_char_iff. destruct (is_xdigit c); split; congruence. Qed.
Lemma not_begins_white s : ~ begins white s <-> starts_not is_space s.
Proof. destruct s as [|c s]; cbn; [tauto|]. rewrite <- is_space_white. destruct (is_space c); split; congruence. Qed.

Lemma take_xdigits d v rest : hex_numeral d v -> ~ begins is_hex_char rest -> hex_val (take_while is_xdigit (d ++ rest)) = v.
Proof. intros N R. apply hex_numeral_iff in N. destruct N as [F V]. apply not_begins_hex in R. now rewrite take_while_app. Qed.

(** The 0x in front. *)
Definition strip_0x (d : str) : str :=
  match d with
  | z :: x :: y :: t => if Ascii.eqb z "0"%char && Ascii.eqb (lower x) "x"%char && is_xdigit y then y :: t else d
  | _ => d
  end.

Lemma lower_x x : Ascii.eqb (lower x) "x"%char = true <-> x = "x"%char \/ x = "X"%char.
Proof.
  rewrite eqb_iff. split.
  - intros E. apply (f_equal code) in E. unfold lower in E. change (code "x"%char) with 120 in E.
    destruct ((65 <=? code x) && (code x <=? 90)) eqn:B.
    + right. apply code_inj. change (code "X"%char) with 88. rewrite code_chr in E by lia. lia.
    + left. apply code_inj. exact E.
  - intros [-> | ->]; reflexivity.
Qed.

Definition has_0x (d : str) : Prop := exists p c t, hex_prefix p /\ d = p ++ c :: t /\ is_hex_char c.

Lemma strip_0x_yes p c t : hex_prefix p -> is_hex_char c -> strip_0x (p ++ c :: t) = c :: t.
Proof. intros [-> | ->] X; apply is_hex_char_iff in X; cbn; now rewrite X. Qed.
Lemma strip_0x_no d : ~ has_0x d -> strip_0x d = d.
Proof.
  intros N. destruct d as [|z [|x [|y t]]]; try reflexivity. cbn [strip_0x].
  destruct (Ascii.eqb z "0"%char) eqn:Z0; [|reflexivity]. destruct (Ascii.eqb (lower x) "x"%char) eqn:X; [|reflexivity].
  destruct (is_xdigit y) eqn:Y; [|reflexivity]. exfalso. apply N. apply eqb_iff in Z0. apply lower_x in X. apply is_hex_char_iff in Y.
  exists [z; x], y, t. split; [|now split]. subst z. destruct X as [-> | ->]; [now left|now right].
Qed.
Lemma has_0x_dec d : has_0x d \/ ~ has_0x d.
Proof.
  destruct d as [|z [|x [|y t]]].
  1-3: right; intros (p & c & t & [-> | ->] & E & _); discriminate.
  destruct (Ascii.eqb z "0"%char && Ascii.eqb (lower x) "x"%char && is_xdigit y) eqn:B.
  - left. apply andb_true_iff in B. destruct B as [B Y]. apply andb_true_iff in B. destruct B as [Z0 X].
    apply eqb_iff in Z0. apply lower_x in X. apply is_hex_char_iff in Y. exists [z; x], y, t. split; [|now split].
    subst z. destruct X as [-> | ->]; [now left|now right].
  - right. intros (p & c & t' & P & E & X). apply is_hex_char_iff in X.
    destruct P as [-> | ->]; injection E as -> -> -> ->; cbn in B; congruence.
Qed.

Definition hex_digits_val (d : str) : Z := hex_val (take_while is_xdigit (strip_0x d)).

Lemma c_hex_digits_iff d v : c_hex_digits d v <-> hex_digits_val d = v.
Proof.
  unfold hex_digits_val. split.
  - intros [d' v' rest N R NP|p d' v' rest P NE N R].
    + rewrite strip_0x_no; [now apply take_xdigits|]. intros (p & c & t & P & E & X). now apply (NP p c t P E).
    + destruct d' as [|c t]; [congruence|]. assert (X : is_hex_char c).
      { apply hex_numeral_iff in N. destruct N as [F _]. inversion F; subst. now apply is_hex_char_iff. }
      cbn [app]. rewrite strip_0x_yes by assumption. change (c :: t ++ rest) with ((c :: t) ++ rest). now apply take_xdigits.
  - intros <-. destruct (has_0x_dec d) as [(p & c & t & P & -> & X)|N].
    + rewrite strip_0x_yes by assumption. pose proof (take_drop is_xdigit (c :: t)) as E.
      rewrite <- E at 1. apply c_hex_prefixed; [exact P| | |].
      * apply is_hex_char_iff in X. cbn. rewrite X. discriminate.
      * apply hex_numeral_iff. split; [apply take_while_all|reflexivity].
      * apply not_begins_hex. apply drop_while_starts.
    + rewrite strip_0x_no by exact N. pose proof (take_drop is_xdigit d) as E. rewrite <- E at 1. apply c_hex_plain.
      * apply hex_numeral_iff. split; [apply take_while_all|reflexivity].
      * apply not_begins_hex. apply drop_while_starts.
      * intros p c t P F X. apply N. exists p, c, t. split; [exact P|]. split; [congruence|exact X].
Qed.

Definition hex_text_val (s : str) : Z :=
  let '(neg, d) := take_sign (drop_while is_space s) in if neg then - hex_digits_val d else hex_digits_val d.

Lemma white_all sp : Forall white sp <-> Forall (fun c => is_space c = true) sp.
Proof. split; apply Forall_impl; intros c; apply is_space_white. Qed.

Lemma take_sign_none s : ~ begins is_sign_char s -> take_sign s = (false, s).
Proof.
  destruct s as [|c s]; [reflexivity|]. cbn. intros N. destruct (Ascii.eqb c cminus) eqn:E1.
  - apply eqb_iff in E1. exfalso. apply N. now right.
  - destruct (Ascii.eqb c cplus) eqn:E2; [|reflexivity]. apply eqb_iff in E2. exfalso. apply N. now left.
Qed.

Lemma c_hex_iff s v : c_hex s v <-> hex_text_val s = v.
Proof.
  unfold hex_text_val. split.
  - intros [sp s' v' W NW NS H|sp s' v' W H|sp s' v' W H]; apply white_all in W; apply c_hex_digits_iff in H.
    + apply not_begins_white in NW. rewrite drop_while_app by assumption. now rewrite take_sign_none.
    + rewrite drop_while_app by (try exact W; reflexivity). exact H.
    + rewrite drop_while_app by (try exact W; reflexivity). cbn. congruence.
  - intros <-. pose proof (take_drop is_space s) as E. pose proof (take_while_all is_space s) as W.
    pose proof (drop_while_starts is_space s) as NW. apply white_all in W. apply not_begins_white in NW.
    rewrite <- E at 1. destruct (drop_while is_space s) as [|c t] eqn:D.
    + cbn [take_sign]. apply c_hex_positive; [exact W|exact NW|cbn; tauto|]. now apply c_hex_digits_iff.
    + cbn [take_sign]. destruct (Ascii.eqb c cminus) eqn:E1; [|destruct (Ascii.eqb c cplus) eqn:E2].
      * apply eqb_iff in E1. subst c. apply c_hex_minus; [exact W|]. now apply c_hex_digits_iff.
      * apply eqb_iff in E2. subst c. apply c_hex_plus; [exact W|]. now apply c_hex_digits_iff.
      * apply c_hex_positive; [exact W|exact NW| |now apply c_hex_digits_iff].
        cbn. intros [-> | ->]; [rewrite Ascii.eqb_refl in E2|rewrite Ascii.eqb_refl in E1]; discriminate.
Qed.

Lemma strtoll16_val s : strtoll16 s = saturate (hex_text_val s).
Proof.
  unfold strtoll16, hex_text_val, saturate. destruct (take_sign (drop_while is_space s)) as [neg d]. reflexivity.
Qed.

(** * Colours *)

Lemma land_low v : Z.land v 255 = v mod 256.
Proof. change 255 with (Z.ones 8). rewrite Z.land_ones by lia. reflexivity. Qed.
Lemma land_field v k : 0 <= k -> Z.shiftr (Z.land v (Z.shiftl 255 k)) k = v / 2 ^ k mod 256.
Proof.
  intros K. rewrite Z.shiftr_land, Z.shiftr_shiftl_l by lia. rewrite Z.sub_diag, Z.shiftl_0_r, land_low, Z.shiftr_div_pow2 by lia.
  reflexivity.
Qed.

Lemma bgr_colour_is v : bgr_colour v = bgr v.
Proof.
  unfold bgr_colour, bgr. change over_255 with share.
  rewrite Z.shiftr_0_r, land_low. change 65280 with (Z.shiftl 255 8). change 16711680 with (Z.shiftl 255 16).
  rewrite !land_field by lia. reflexivity.
Qed.

Lemma amp_or_h c : is_any_of (lit "&H") c = true <-> ampersand_or_h c.
Proof. unfold is_any_of, ampersand_or_h. cbn. rewrite orb_false_r, orb_true_iff, !eqb_iff. tauto. Qed.

Lemma h_colour_iff s c : h_colour s = Ok c <-> colour_text s c.
Proof.
  split.
  - destruct s as [|a [|b t]]; [discriminate..|]. unfold h_colour.
    destruct (Ascii.eqb a "&"%char && Ascii.eqb b "H"%char) eqn:E; [|discriminate].
    apply andb_true_iff in E. destruct E as [A B]. apply eqb_iff in A, B. subst a b.
    intros H. injection H as <-. exists (take_while (is_any_of (lit "&H")) t), (drop_while (is_any_of (lit "&H")) t).
    exists (hex_text_val (drop_while (is_any_of (lit "&H")) t)). repeat split.
    + cbn. now rewrite take_drop.
    + eapply Forall_impl; [|apply take_while_all]. intros x. apply amp_or_h.
    + pose proof (drop_while_starts (is_any_of (lit "&H")) t) as S. destruct (drop_while _ t) as [|x u]; [tauto|].
      cbn in S |- *. rewrite <- amp_or_h. cbn. rewrite S. discriminate.
    + now apply c_hex_iff.
    + rewrite bgr_colour_is. f_equal. apply strtoll16_val.
  - intros (p & n & v & -> & P & N & H & ->). apply c_hex_iff in H. unfold h_colour. cbn [lit list_ascii_of_string app].
    change (Ascii.eqb "&" "&" && Ascii.eqb "H" "H") with true. cbv iota.
    assert (D : drop_while (is_any_of (lit "&H")) ("&"%char :: "H"%char :: p ++ n) = n).
    { change ("&"%char :: "H"%char :: p ++ n) with ((lit "&H" ++ p) ++ n). apply drop_while_app.
      - apply Forall_app. split; [repeat constructor|]. eapply Forall_impl; [|exact P]. intros x. apply amp_or_h.
      - destruct n as [|x n]; [exact I|]. cbn in N |- *. destruct (is_any_of (lit "&H") x) eqn:E; [|exact E].
        apply amp_or_h in E. contradiction. }
    change (is_any_of (lit "&H")) with (is_any_of ["&"%char; "H"%char]) in D. rewrite D, strtoll16_val, H, bgr_colour_is. reflexivity.
Qed.

Lemma h_colour_bad s : (forall t, s <> lit "&H" ++ t) -> h_colour s = Throw (ESsa (lit "Badly formatted colour tag " ++ s)).
Proof.
  assert (M : compose (lit "Badly formatted colour tag %1") [s] = lit "Badly formatted colour tag " ++ s).
  { destruct s as [|a s]; [reflexivity|]. unfold compose, compose_piece, numbered_args. cbn. now rewrite app_nil_r. }
  intros N. unfold h_colour. destruct s as [|a [|b t]]; [reflexivity|do 2 f_equal; exact M|].
  destruct (Ascii.eqb a "&"%char && Ascii.eqb b "H"%char) eqn:E; [|do 2 f_equal; exact M].
  apply andb_true_iff in E. destruct E as [A B]. apply eqb_iff in A, B. subst a b. exfalso. now apply (N t).
Qed.
Lemma h_colour_good s t : s = lit "&H" ++ t -> exists c, h_colour s = Ok c.
Proof. intros ->. eexists. reflexivity. Qed.

(** * Tags *)

Lemma margin_ok c h r r' : update_horizontal_position c (set_href h r) = Ok r' <->
  exists x, margin_offset c h x /\ r' = with_horizontal h x r.
Proof.
  unfold update_horizontal_position. cbn [set_href r_hpos set_hpos h_ref]. unfold isub, imul, chk, in_int. split.
  - destruct h.
    + intros [= <-]. eexists. split; [constructor|reflexivity].
    + destruct ((int_min <=? left_margin c - right_margin c) && (left_margin c - right_margin c <=? int_max)) eqn:A; [|discriminate].
      destruct ((int_min <=? 2 * play_res_x c) && (2 * play_res_x c <=? int_max)) eqn:B; [|discriminate].
      cbn [bind]. intros [= <-]. eexists. split; [constructor; unfold is_int, int_min, int_max in *; lia|reflexivity].
    + intros [= <-]. eexists. split; [constructor|reflexivity].
  - intros (x & M & ->). destruct M as [| |A B]; try reflexivity. unfold is_int in *.
    replace ((int_min <=? left_margin c - right_margin c) && (left_margin c - right_margin c <=? int_max)) with true by (unfold int_min, int_max; lia).
    replace ((int_min <=? 2 * play_res_x c) && (2 * play_res_x c <=? int_max)) with true by (unfold int_min, int_max; lia). reflexivity.
Qed.

Lemma bracket_iff c : is_any_of (lit "(,") c = true <-> bracket c.
Proof. unfold is_any_of, bracket. cbn. rewrite orb_false_r, orb_true_iff, !eqb_iff. tauto. Qed.
Lemma no_bracket_iff s : no_bracket s <-> free (is_any_of (lit "(,")) s.
Proof.
  unfold no_bracket, free. rewrite Forall_forall. split.
  - intros [A B] c I. destruct (is_any_of (lit "(,") c) eqn:E; [|reflexivity]. apply bracket_iff in E. destruct E as [-> | ->]; contradiction.
  - intros F. split; intros I; apply F in I; discriminate.
Qed.

(** Splitting into exactly three pieces. *)
Lemma split_cons_inv p s a l : split p s = a :: l ->
  (l = [] /\ s = a /\ free p a) \/ (exists c rest, s = a ++ c :: rest /\ p c = true /\ free p a /\ l = split p rest).
Proof.
  revert a l. induction s as [|c s IH]; intros a l; cbn [split].
  - intros [= <- <-]. left. repeat split. constructor.
  - destruct (p c) eqn:P.
    + intros [= <- <-]. right. exists c, s. repeat split; [exact P|constructor].
    + pose proof (split_not_nil p s) as NE. destruct (split p s) as [|a' l'] eqn:E; [congruence|]. cbn [cons_head].
      intros [= <- <-]. destruct (IH a' l' eq_refl) as [(-> & -> & F)|(c' & rest & -> & C & F & ->)].
      * left. repeat split. now constructor.
      * right. exists c', rest. repeat split; [exact C|now constructor].
Qed.

Lemma split3_inv p s a x y : split p s = [a; x; y] ->
  exists b1 b2, s = a ++ b1 :: x ++ b2 :: y /\ p b1 = true /\ p b2 = true /\ free p a /\ free p x /\ free p y.
Proof.
  intros E. apply split_cons_inv in E. destruct E as [(E & _)|(b1 & r1 & -> & B1 & F1 & E)]; [discriminate|]. symmetry in E.
  apply split_cons_inv in E. destruct E as [(E & _)|(b2 & r2 & -> & B2 & F2 & E)]; [discriminate|]. symmetry in E.
  apply split_cons_inv in E. destruct E as [(_ & -> & F3)|(b3 & r3 & _ & _ & _ & E)].
  - exists b1, b2. now repeat split.
  - exfalso. symmetry in E. now apply split_not_nil in E.
Qed.
Lemma split3 p a b1 x b2 y : p b1 = true -> p b2 = true -> free p a -> free p x -> free p y -> split p (a ++ b1 :: x ++ b2 :: y) = [a; x; y].
Proof. intros B1 B2 F1 F2 F3. rewrite split_piece, split_piece, split_free by assumption. reflexivity. Qed.

Lemma tag_free s : free (is_any_of (lit "(,")) (tag "pos" ++ s) <-> free (is_any_of (lit "(,")) s.
Proof. unfold free. rewrite Forall_app. split; [tauto|]. intros F. split; [repeat constructor|exact F]. Qed.

Lemma an_tag_some t h v : an_tag t = Some (h, v) <-> exists k, In (k, (h, v)) keypad /\ t = tag "an" ++ lit k.
Proof.
  split.
  - unfold an_tag, keypad. intros E.
    repeat match type of E with (if str_eqb ?a ?b then _ else _) = _ => let Q := fresh in destruct (str_eqb a b) eqn:Q;
      [apply str_eqb_iff in Q; injection E as E1 E2; subst h v t|] end; [..|discriminate].
    1: exists "1"%string. 2: exists "2"%string. 3: exists "3"%string. 4: exists "4"%string. 5: exists "5"%string.
    6: exists "6"%string. 7: exists "7"%string. 8: exists "8"%string. 9: exists "9"%string.
    all: (split; [|reflexivity]; cbn; tauto).
  - intros (k & I & ->). cbn in I.
    repeat (destruct I as [I|I]; [injection I as <- <- <-; reflexivity|]). contradiction.
Qed.
Lemma an_tag_none t : an_tag t = None <-> forall k hv, In (k, hv) keypad -> t <> tag "an" ++ lit k.
Proof.
  split.
  - intros E k [h v] I ->. assert (S : an_tag (tag "an" ++ lit k) = Some (h, v)) by (apply an_tag_some; now exists k). congruence.
  - intros N. destruct (an_tag t) as [[h v]|] eqn:E; [|reflexivity]. apply an_tag_some in E. destruct E as (k & I & E).
    exfalso. now apply (N k (h, v) I).
Qed.

(** The tags that are whole words. *)
Fixpoint style_tag (l : list (string * (raw -> raw))) (t : str) : option (raw -> raw) :=
  match l with
  | [] => None
  | (s, f) :: l' => if str_eqb t (tag s) then Some f else style_tag l' t
  end.

Lemma style_tag_some t f : style_tag style_tags t = Some f -> exists s, In (s, f) style_tags /\ t = tag s.
Proof.
  generalize style_tags. induction l as [|[s g] l IH]; cbn; [discriminate|]. destruct (str_eqb t (tag s)) eqn:E.
  - intros [= ->]. apply str_eqb_iff in E. exists s. split; [now left|exact E].
  - intros H. destruct (IH H) as (s' & I & Q). exists s'. split; [now right|exact Q].
Qed.
Lemma style_tag_none t : style_tag style_tags t = None <-> forall s f, In (s, f) style_tags -> t <> tag s.
Proof.
  generalize style_tags. induction l as [|[s g] l IH]; cbn; [split; [intros _ ? ? []|reflexivity]|]. destruct (str_eqb t (tag s)) eqn:E.
  - split; [discriminate|]. intros N. apply str_eqb_iff in E. exfalso. apply (N s g); [now left|exact E].
  - rewrite IH. split.
    + intros N s' f [I|I]; [|now apply (N s' f)]. injection I as <- <-. intros Q. apply str_eqb_iff in Q. congruence.
    + intros N s' f I. apply (N s' f). now right.
Qed.

Lemma parse_tag_eq r t c : parse_tag r t c =
  match style_tag style_tags t with
  | Some f => Ok (f r)
  | None =>
  match an_tag t with
  | Some (h, v) => update_horizontal_position c (set_vref (Some v) (set_href h r))
  | None =>
      if starts_with t (tag "pos") then
        match split (is_any_of (lit "(,")) t with
        | [_; x; y] => Ok (with_vpos (mkV (Some (fdiv (raw_convert_float y) (f_of_int (play_res_y c)))) (v_line (r_vpos r)) (v_lines (r_vpos r)) (Some TOP_OF_SCREEN))
                            (with_horizontal LEFT_OF_SCREEN (fdiv (raw_convert_float x) (f_of_int (play_res_x c))) r))
        | _ => Throw EProgramming
        end
      else if starts_with t (tag "fs") then
        if is_nil (skipn 3 t) then Throw EProgramming else
        Ok (with_font_size (mkFS (Some (fdiv (raw_convert_float (skipn 3 t)) (f_of_int (play_res_y c)))) (fs_points (r_font_size r))) r)
      else if starts_with t (tag "c") then
        if is_nil (skipn 2 t) then Ok (with_colour (primary_colour c) r)
        else let* k := h_colour (removelast (skipn 2 t)) in Ok (with_colour k r)
      else Ok r
  end end.
Proof.
  unfold parse_tag. unfold style_tag, style_tags. change tag_lit with tag.
  destruct (str_eqb t (tag "i1")); [reflexivity|]. destruct (str_eqb t (tag "i0")); [reflexivity|].
  destruct (str_eqb t (tag "i")); [reflexivity|]. destruct (str_eqb t (tag "b1")); [reflexivity|].
  destruct (str_eqb t (tag "b0")); [reflexivity|]. destruct (str_eqb t (tag "u1")); [reflexivity|].
  destruct (str_eqb t (tag "u0")); [reflexivity|]. cbn [orb].
  destruct (an_tag t) as [[h v]|]; [reflexivity|].
  destruct (starts_with t (tag "pos")); [reflexivity|].
  destruct (starts_with t (tag "fs")) eqn:FS.
  { apply starts_with_iff in FS. destruct FS as (rest & ->). cbn [tag lit list_ascii_of_string app length skipn].
    destruct rest as [|x rest]; reflexivity. }
  destruct (starts_with t (tag "c")) eqn:C; [|reflexivity].
  apply starts_with_iff in C. destruct C as (rest & ->). cbn [tag lit list_ascii_of_string app length skipn].
  destruct rest as [|x rest]; [reflexivity|]. cbn [is_nil].
  replace (S (S (length (x :: rest))) - 3)%nat with (pred (length (x :: rest))) by (cbn; lia). rewrite <- removelast_firstn_len.
  reflexivity.
Qed.

Lemma skipn_tag s t n : length (tag s) = n -> skipn n (tag s ++ t) = t.
Proof. intros <-. rewrite skipn_app, skipn_all, Nat.sub_diag. reflexivity. Qed.

Lemma snoc_split (s : str) : s <> [] -> exists i l, s = i ++ [l] /\ removelast s = i.
Proof. intros N. exists (removelast s), (last s "000"%char). split; [now apply app_removelast_last|reflexivity]. Qed.

Lemma set_both_refs c h v r r' : update_horizontal_position c (set_vref (Some v) (set_href h r)) = Ok r' <->
  exists x, margin_offset c h x /\ r' = with_reference v (with_horizontal h x r).
Proof.
  change (set_vref (Some v) (set_href h r)) with (set_href h (set_vref (Some v) r)). rewrite margin_ok.
  split; intros (x & M & ->); exists x; split; try exact M; reflexivity.
Qed.

Theorem parse_tag_iff r t c r' : parse_tag r t c = Ok r' <-> override c r t r'.
Proof.
  rewrite parse_tag_eq. split.
  - destruct (style_tag style_tags t) as [f|] eqn:ST.
    { intros [= <-]. apply style_tag_some in ST. destruct ST as (s & I & ->). now apply override_style. }
    destruct (an_tag t) as [[h v]|] eqn:AN.
    { intros H. apply set_both_refs in H. destruct H as (x & M & ->). apply an_tag_some in AN. destruct AN as (k & I & ->).
      eapply override_align; eassumption. }
    destruct (starts_with t (tag "pos")) eqn:P.
    { destruct (split (is_any_of (lit "(,")) t) as [|a [|x [|y [|z l]]]] eqn:SP; try discriminate.
      intros [= <-]. apply split3_inv in SP. destruct SP as (b1 & b2 & E & B1 & B2 & F1 & F2 & F3).
      apply starts_with_iff in P. destruct P as (rest & P).
      assert (exists a', a = tag "pos" ++ a') as (a' & ->).
      { rewrite E in P. clear -P B1. change (tag "pos") with [bslash; "p"; "o"; "s"]%char in P |- *.
        destruct a as [|c0 [|c1 [|c2 [|c3 a]]]]; cbn in P; injection P.
        - intros; subst. discriminate.
        - intros; subst. discriminate.
        - intros; subst. discriminate.
        - intros; subst. discriminate.
        - intros _ -> -> -> ->. now exists a. }
      rewrite E, <- app_assoc. apply override_pos; try (now apply bracket_iff); apply no_bracket_iff; [exact (proj1 (tag_free _) F1)|exact F2|exact F3]. }
    destruct (starts_with t (tag "fs")) eqn:F.
    { apply starts_with_iff in F. destruct F as (n & ->). rewrite skipn_tag by reflexivity.
      destruct n as [|a n]; [discriminate|]. cbn [is_nil]. intros [= <-]. apply override_size. discriminate. }
    destruct (starts_with t (tag "c")) eqn:C.
    { apply starts_with_iff in C. destruct C as (n & ->). rewrite skipn_tag by reflexivity.
      destruct n as [|a n].
      - cbn [is_nil]. intros [= <-]. apply override_colour_reset.
      - cbn [is_nil]. destruct (snoc_split (a :: n)) as (i & l & E & R); [discriminate|]. rewrite R.
        destruct (h_colour i) as [k| |] eqn:H; [|discriminate..]. cbn [bind]. intros [= <-]. apply h_colour_iff in H.
        rewrite E. now apply override_colour. }
    intros [= <-]. apply override_nothing.
    + now apply style_tag_none.
    + now apply an_tag_none.
    + intros s ->. now rewrite starts_with_app in P.
    + intros s ->. now rewrite starts_with_app in F.
    + intros s ->. now rewrite starts_with_app in C.
  - intros O. inversion O as [s f I E|k h v x I M E|a b1 x b2 y N1 N2 N3 B1 B2 E|n NE E|s last k K E|E|t' N1 N2 N3 N4 N5 E]; subst.
    + cbn in I. repeat (destruct I as [I|I]; [injection I as <- <-; reflexivity|]). contradiction.
    + assert (A : an_tag (tag "an" ++ lit k) = Some (h, v)) by (apply an_tag_some; now exists k).
      assert (S : style_tag style_tags (tag "an" ++ lit k) = None) by reflexivity.
      rewrite S, A. apply set_both_refs. now exists x.
    + match goal with |- context [style_tag style_tags ?t] => change (style_tag style_tags t) with (@None (raw -> raw)); change (an_tag t) with (@None (href * vref)) end.
      rewrite starts_with_app. change (tag "pos" ++ a ++ b1 :: x ++ b2 :: y) with ((tag "pos" ++ a) ++ b1 :: x ++ b2 :: y).
      apply bracket_iff in B1, B2. apply no_bracket_iff in N1, N2, N3. rewrite split3; try assumption; [reflexivity|]. now apply (proj2 (tag_free _)).
    + match goal with |- context [style_tag style_tags ?t] => change (style_tag style_tags t) with (@None (raw -> raw)); change (an_tag t) with (@None (href * vref));
        change (starts_with t (tag "pos")) with false end.
      rewrite starts_with_app, skipn_tag by reflexivity. destruct n; [congruence|reflexivity].
    + match goal with |- context [style_tag style_tags ?t] => change (style_tag style_tags t) with (@None (raw -> raw)); change (an_tag t) with (@None (href * vref));
        change (starts_with t (tag "pos")) with false; change (starts_with t (tag "fs")) with false end.
      rewrite starts_with_app, skipn_tag by reflexivity. rewrite removelast_last. apply h_colour_iff in K. rewrite K.
      destruct s; reflexivity.
    + reflexivity.
    + apply style_tag_none in N1. apply an_tag_none in N2. rewrite N1, N2.
      destruct (starts_with t (tag "pos")) eqn:P; [apply starts_with_iff in P; destruct P as (s & ->); now destruct (N3 s)|].
      destruct (starts_with t (tag "fs")) eqn:F; [apply starts_with_iff in F; destruct F as (s & ->); now destruct (N4 s)|].
      destruct (starts_with t (tag "c")) eqn:C; [apply starts_with_iff in C; destruct C as (s & ->); now destruct (N5 s)|].
      reflexivity.
Qed.

Theorem parse_tag_throws r t c e : parse_tag r t c = Throw e <-> bad_override t e.
Proof.
  rewrite parse_tag_eq. split.
  - destruct (style_tag style_tags t) as [f|] eqn:ST; [discriminate|].
    destruct (an_tag t) as [[h v]|] eqn:AN.
    { unfold update_horizontal_position. destruct (h_ref _); [discriminate| |discriminate]. unfold isub, imul, chk.
      destruct (in_int _); [|discriminate]. cbn [bind]. destruct (in_int _); discriminate. }
    destruct (starts_with t (tag "pos")) eqn:P.
    { intros H. apply starts_with_iff in P. destruct P as (a & ->).
      assert (E : e = EProgramming).
      { destruct (split (is_any_of (lit "(,")) (tag "pos" ++ a)) as [|? [|? [|? [|? ?]]]]; congruence. }
      subst e. apply bad_pos. intros p b1 x b2 y N1 N2 N3 B1 B2 ->.
      change (tag "pos" ++ p ++ b1 :: x ++ b2 :: y) with ((tag "pos" ++ p) ++ b1 :: x ++ b2 :: y) in H.
      apply bracket_iff in B1, B2. apply no_bracket_iff in N1, N2, N3. apply (proj2 (tag_free _)) in N1. rewrite split3 in H by assumption. discriminate. }
    destruct (starts_with t (tag "fs")) eqn:F.
    { apply starts_with_iff in F. destruct F as (n & ->). rewrite skipn_tag by reflexivity.
      destruct n as [|a n]; [|discriminate]. cbn [is_nil]. intros [= <-]. apply bad_size. }
    destruct (starts_with t (tag "c")) eqn:C; [|discriminate].
    apply starts_with_iff in C. destruct C as (n & ->). rewrite skipn_tag by reflexivity.
    destruct n as [|a n]; [discriminate|].
    cbn [is_nil]. destruct (snoc_split (a :: n)) as (i & l & E & R); [discriminate|]. rewrite R. intros H.
    assert (N : forall u, i <> lit "&H" ++ u).
    { intros u ->. destruct (h_colour_good _ u eq_refl) as (k & K). rewrite K in H. discriminate. }
    rewrite (h_colour_bad i N) in H. injection H as <-. rewrite E. now apply bad_colour.
  - intros B. destruct B as [a N| |s l N].
    + match goal with |- context [style_tag style_tags ?t] => change (style_tag style_tags t) with (@None (raw -> raw)); change (an_tag t) with (@None (href * vref)) end.
      rewrite starts_with_app.
      destruct (split (is_any_of (lit "(,")) (tag "pos" ++ a)) as [|p [|x [|y [|z l]]]] eqn:SP; try reflexivity. exfalso.
      apply split3_inv in SP. destruct SP as (b1 & b2 & E & B1 & B2 & F1 & F2 & F3).
      assert (exists a', p = tag "pos" ++ a') as (a' & ->).
      { clear -E B1. change (tag "pos") with [bslash; "p"; "o"; "s"]%char in E |- *.
        destruct p as [|c0 [|c1 [|c2 [|c3 p]]]]; cbn in E; injection E.
        - intros; subst. discriminate.
        - intros; subst. discriminate.
        - intros; subst. discriminate.
        - intros; subst. discriminate.
        - intros _ <- <- <- <-. now exists p. }
      rewrite <- app_assoc in E. apply app_inv_head in E. apply (N a' b1 x b2 y); try (now apply bracket_iff); try (now apply no_bracket_iff); [|exact E].
      apply no_bracket_iff. exact (proj1 (tag_free _) F1).
    + reflexivity.
    + match goal with |- context [style_tag style_tags ?t] => change (style_tag style_tags t) with (@None (raw -> raw)); change (an_tag t) with (@None (href * vref));
        change (starts_with t (tag "pos")) with false; change (starts_with t (tag "fs")) with false end.
      rewrite starts_with_app, skipn_tag by reflexivity. rewrite removelast_last, (h_colour_bad s N). destruct s; reflexivity.
Qed.

(** With the small margins and sizes that real files have, there is nothing else. *)
Theorem parse_tag_defined r t c : is_int (left_margin c - right_margin c) -> is_int (2 * play_res_x c) -> defined (parse_tag r t c).
Proof.
  intros A B u. rewrite parse_tag_eq.
  destruct (style_tag style_tags t); [discriminate|]. destruct (an_tag t) as [[h v]|].
  - destruct h; try discriminate. unfold update_horizontal_position. cbn [set_vref set_href set_vpos set_hpos r_hpos h_ref].
    assert (X : exists x, margin_offset c HORIZONTAL_CENTRE_OF_SCREEN x) by (eexists; now constructor). destruct X as (x & M).
    assert (E : update_horizontal_position c (set_vref (Some v) (set_href HORIZONTAL_CENTRE_OF_SCREEN r)) = Ok (with_reference v (with_horizontal HORIZONTAL_CENTRE_OF_SCREEN x r)))
      by (apply set_both_refs; now exists x).
    unfold update_horizontal_position in E. cbn [set_vref set_href set_vpos set_hpos r_hpos h_ref] in E. rewrite E. discriminate.
  - destruct (starts_with t (tag "pos")).
    { destruct (split _ t) as [|? [|? [|? [|? ?]]]]; discriminate. }
    destruct (starts_with t (tag "fs")); [destruct (is_nil _); discriminate|].
    destruct (starts_with t (tag "c")); [|discriminate]. destruct (is_nil _); [discriminate|].
    unfold h_colour. destruct (removelast (skipn 2 t)) as [|a [|b l]]; [discriminate..|]. destruct (_ && _); discriminate.
Qed.
