(** Properties of the text STL reader. *)
From Coq Require Import ZArith List Bool Ascii String Lia.
From Verif.Model Require Import Base Strings Float TimeModel Types Lines StlText.
From Verif.Spec Require Import Outcome TextSpec LinesSpec StlFileSpec RawSpec SsaSpec StopSpec StlTextSpec StlTextUseSpec.
From Verif.Proofs Require Import StringProofs EqualityProofs LinesProofs StlReadProofs SsaTagProofs SsaTextProofs SsaProofs SsaUseProofs StlTextProofs.
Import ListNotations.
Local Open Scope Z_scope.
Local Notation length := List.length.

Lemma complete_unique s ls ls' : complete_lines s ls -> complete_lines s ls' -> ls = ls'.
Proof. intros A B. apply (getlines_iff (length s)) in A, B; [|lia..]. congruence. Qed.

(** * Lines with white space in front of the comma *)

Lemma frame_time_unique s t t' : frame_time s t -> frame_time s t' -> t = t'.
Proof.
  intros A B. pose proof (proj2 (time_iff s (Ok (Some t))) A). pose proof (proj2 (time_iff s (Ok (Some t'))) B). congruence.
Qed.
Lemma frame_time_ne s t : frame_time s t -> s <> [].
Proof. intros (a & b & c & d & h & m & sec & f & (_ & E & _) & _) ->. destruct a; discriminate. Qed.

Lemma three_unique l f t x f' t' x' : three_fields l f t x -> three_fields l f' t' x' -> f = f' /\ t = t' /\ x = x'.
Proof.
  intros (E & N1 & N2) (E' & N1' & N2'). rewrite E in E'.
  assert (A : f = f' /\ t ++ comma :: x = t' ++ comma :: x') by exact (first_sep _ _ _ _ _ N1 N1' E'). destruct A as [-> A].
  assert (B : t = t' /\ x = x') by exact (first_sep _ _ _ _ _ N2 N2' A). tauto.
Qed.

(** White space at the end can be left out first. *)
Lemma trimmed_less f x f' : white x -> trimmed (f ++ [x]) f' -> f' <> [] -> trimmed f f' /\ f <> [].
Proof.
  intros W (a & b & E & A & B & N1 & N2) NE. destruct (snoc_split f') as (i & z & E3 & _); [exact NE|].
  assert (NW : ~ white z). { intros X. apply N2. now exists i, z. }
  destruct b as [|c b].
  - exfalso. rewrite app_nil_r, E3, app_assoc in E. apply app_inj_tail in E. destruct E as [_ ->]. contradiction.
  - destruct (snoc_split (c :: b)) as (b' & y & E2 & _); [discriminate|]. rewrite E2 in E, B. rewrite !app_assoc in E. apply app_inj_tail in E. destruct E as [-> ->].
    split.
    + exists a, b'. split; [now rewrite app_assoc|]. split; [exact A|]. split; [now apply Forall_app in B|]. now split.
    + subst f'. destruct a; [|discriminate]. destruct i; discriminate.
Qed.

Lemma says_line l from to text : says l from to text -> space_before_comma l ->
  exists l' start finish, trimmed l l' /\ subtitle_line l' start finish text /\ frame_time start from /\ frame_time finish to.
Proof.
  intros (l' & f & t & f' & t' & TL & NC & NS & T3 & NE & Tf & Tt & F1 & F2) (g & x & rest & E & W & NG).
  destruct T3 as (EL & N1 & N2). exists l', f', t'. split; [exact TL|].
  assert (X : exists f0, f = f0 ++ [x] /\ True).
  { destruct TL as (a & b & EA & A & B & _). rewrite EL in EA. rewrite E in EA.
    assert (NA : ~ In comma (a ++ f)).
    { intros I. apply in_app_or in I. destruct I as [I|I]; [|now apply N1]. rewrite Forall_forall in A. apply A in I. unfold white, char_code in I. cbn in I. lia. }
    assert (NG' : ~ In comma (g ++ [x])).
    { intros I. apply in_app_or in I. destruct I as [I|[->|[]]]; [now apply NG|]. unfold white, char_code in W. cbn in W. lia. }
    assert (Q : (g ++ [x]) ++ comma :: rest = (a ++ f) ++ comma :: (t ++ comma :: text) ++ b).
    { rewrite <- app_assoc. cbn [app]. rewrite EA. rewrite <- !app_assoc. cbn [app]. rewrite <- !app_assoc. reflexivity. }
    assert (P : g ++ [x] = a ++ f /\ rest = (t ++ comma :: text) ++ b) by exact (first_sep _ _ _ _ _ NG' NA Q).
    destruct P as [P _]. destruct f as [|c f].
    - exfalso. destruct Tf as (u & v & Z & _). destruct u; [|discriminate]. apply frame_time_ne in F1. destruct f'; [congruence|discriminate].
    - destruct (snoc_split (c :: f)) as (f0 & y & E2 & _); [discriminate|]. rewrite E2, app_assoc in P. apply app_inj_tail in P. destruct P as [_ ->].
      exists f0. now split. }
  destruct X as (f0 & -> & _). destruct (trimmed_less f0 x f' W Tf (frame_time_ne _ _ F1)) as [T0 NF].
  split; [|now split]. split; [exact NC|]. split; [exact NS|]. split; [exact NE|]. exists f0, x, t. split; [now split|]. now split.
Qed.

(** * Text *)

Lemma unmarked_app t : forall s u, Forall plain_char t -> unmarked s u -> unmarked (t ++ s) (t ++ u).
Proof. induction t as [|c t IH]; intros s u F U; [exact U|]. inversion F; subst. cbn. constructor; auto. Qed.
Lemma toggled_times c r r' from to : toggled c r r' -> shown from to r -> shown from to r'.
Proof. intros [[_ ->]|[[_ ->]|[[_ ->]|(_ & _ & _ & ->)]]] S; exact S. Qed.
Lemma pieces_give r s r' ps from to : pieces r s r' ps -> shown from to r -> Forall (shown from to) ps /\ unmarked s (text_of ps).
Proof.
  intros P. induction P as [r|r n c s r1 ps1 B V P IH|r x c ra s r1 ps1 C T P IH|r c C|r t s r1 ps1 NE F B P IH]; intros S.
  - split; constructor.
  - destruct (IH S) as [A U]. split; [exact A|]. now constructor.
  - destruct (IH (toggled_times _ _ _ _ _ T S)) as [A U]. split; [exact A|]. now constructor.
  - split; [constructor|]. now constructor.
  - destruct (IH S) as [A U]. split; [now constructor|]. unfold text_of. cbn [map List.concat]. now apply unmarked_app.
Qed.

Lemma subtitle_unique l a b x a' b' x' : subtitle_line l a b x -> subtitle_line l a' b' x' -> a = a' /\ b = b' /\ x = x'.
Proof.
  intros (_ & _ & _ & f & c & t & T3 & _ & Tf & Tt) (_ & _ & _ & f' & c' & t' & T3' & _ & Tf' & Tt').
  destruct (three_unique _ _ _ _ _ _ _ T3 T3') as (E & -> & ->). apply app_inj_tail in E. destruct E as [-> ->].
  rewrite (trimmed_unique _ _ _ Tf Tf'), (trimmed_unique _ _ _ Tt Tt'). tauto.
Qed.
Lemma subtitle_no_setting l a b x n v : subtitle_line l a b x -> ~ setting_line l n v.
Proof. intros (_ & N & _) (S & _). contradiction. Qed.

Lemma line_gives r l r' rs start finish from to text : line_means r l r' rs -> subtitle_line l start finish text -> frame_time start from -> frame_time finish to ->
  Forall (shown from to) rs /\ unmarked text (text_of rs).
Proof.
  intros M S F1 F2.
  destruct M as [l v K|l v b K B|l v b K B|l v b K B|l v k K I|l name v K N|l start' finish' from' to' text' r' rs S' F1' F2' P|l start' finish' text' S' O|l N1 N2];
    try (exfalso; exact (subtitle_no_setting _ _ _ _ _ _ S K)).
  - destruct (subtitle_unique _ _ _ _ _ _ _ S S') as (<- & <- & <-).
    rewrite <- (frame_time_unique _ _ _ F1 F1'), <- (frame_time_unique _ _ _ F2 F2') in P. apply (pieces_give _ _ _ _ _ _ P). now split.
  - exfalso. destruct (subtitle_unique _ _ _ _ _ _ _ S S') as (<- & <- & <-).
    destruct O as [(N & _)|(N & _)].
    + pose proof (proj2 (time_iff start (Ok None)) N). pose proof (proj2 (time_iff start (Ok (Some from))) F1). congruence.
    + pose proof (proj2 (time_iff finish (Ok None)) N). pose proof (proj2 (time_iff finish (Ok (Some to))) F2). congruence.
  - exfalso. now apply N2 in S.
Qed.

(** Every line gives its text with its times. *)
Definition gives_text (l : str) (rs : list raw) : Prop :=
  forall from to text, says l from to text -> space_before_comma l -> Forall (shown from to) rs /\ unmarked text (text_of rs).
Lemma lines_give r ls r' raws : lines_mean r ls r' raws -> exists rss, raws = List.concat rss /\ Forall2 gives_text ls rss.
Proof.
  induction 1 as [r|r l l' r1 rs ls r2 rss T L M (rss' & -> & F)].
  - exists []. split; [reflexivity|constructor].
  - exists (rs :: rss'). split; [reflexivity|]. constructor; [|exact F]. intros from to text S B.
    destruct (says_line _ _ _ _ S B) as (l2 & start & finish & T2 & SL & F1 & F2). rewrite <- (trimmed_unique _ _ _ T T2) in SL.
    exact (line_gives _ _ _ _ _ _ _ _ _ L SL F1 F2).
Qed.
Theorem read_gives s ls raws : complete_lines s ls -> stl_text_read true s = Ok raws -> exists rss, raws = List.concat rss /\ Forall2 gives_text ls rss.
Proof.
  intros C R. apply text_stl_iff in R. destruct R as (ls' & r & C' & M). rewrite (complete_unique _ _ _ C C'). exact (lines_give _ _ _ _ M).
Qed.
Theorem read_shows s ls raws before l after from to text : complete_lines s ls -> ls = before ++ l :: after -> says l from to text -> space_before_comma l ->
  stl_text_read true s = Ok raws -> exists a rs b, raws = a ++ rs ++ b /\ Forall (shown from to) rs /\ unmarked text (text_of rs).
Proof.
  intros C E S B R. destruct (read_gives _ _ _ C R) as (rss & -> & F). subst ls. apply Forall2_app_inv_l in F. destruct F as (r1 & r2 & F1 & F2 & ->).
  inversion F2 as [|? rs ? r3 G F3]; subst. exists (List.concat r1), rs, (List.concat r3). rewrite concat_app. cbn [List.concat]. split; [reflexivity|].
  now apply (G from to text).
Qed.

(** * Files of plain subtitles *)

Definition near (n : nat) : Z := match n with O => 0 | S _ => 1 end.
Lemma plain_piece_text from to n t u : with_text t (plain_piece from to n u) = plain_piece from to n t.
Proof. reflexivity. Qed.
Lemma rows_pieces from to rows : forall n k, rows <> [] -> Forall plain_row rows -> n = near k ->
  pieces (plain_piece from to n []) (join (lit "|") rows) (plain_piece from to 0 []) (rows_from from to k near rows).
Proof.
  induction rows as [|row rows IH]; intros n k NE F ->; [congruence|]. inversion F as [|? ? (N & P & _) F']; subst.
  destruct rows as [|row' rows].
  - cbn [join rows_from]. rewrite <- (app_nil_r row) at 1. rewrite <- plain_piece_text with (u := []).
    apply pieces_text; [exact N|exact P|now left|]. constructor.
  - change (join (lit "|") (row :: row' :: rows)) with (row ++ lit "|" ++ join (lit "|") (row' :: rows)).
    change (rows_from from to k near (row :: row' :: rows)) with (plain_piece from to (near k) row :: rows_from from to (S k) near (row' :: rows)).
    rewrite <- plain_piece_text with (u := []). apply pieces_text; [exact N|exact P|right; cbn; intros [X _]; now apply X|].
    cbn [lit list_ascii_of_string app]. apply (pieces_bar _ 0); [reflexivity|reflexivity|]. apply IH; [discriminate|exact F'|reflexivity].
Qed.

Lemma frame_time_chars s t c : frame_time s t -> In c s -> number_char c \/ c = ":"%char.
Proof.
  intros (a & b & x & d & h & m & sec & f & (_ & -> & _) & A & B & X & D & _) I. cbn [join] in I.
  repeat (apply in_app_or in I; destruct I as [I|I]); try (left; match goal with H : integer ?s _, I : In c ?s |- _ => apply integer_chars in H; rewrite Forall_forall in H; now apply H end).
  all: destruct I as [<-|[]]; now right.
Qed.
Lemma number_char_code c : number_char c -> 48 <= char_code c <= 57 \/ char_code c = 43 \/ char_code c = 45.
Proof.
  intros [D|[->| ->]]; [|now right; left|now right; right]. left. unfold is_digit in D. apply andb_prop in D. destruct D as [D1 D2].
  apply Z.leb_le in D1, D2. rewrite code_char in D1, D2. exact (conj D1 D2).
Qed.
Lemma frame_time_code s t c : frame_time s t -> In c s -> 48 <= char_code c <= 58 \/ char_code c = 43 \/ char_code c = 45.
Proof. intros F I. destruct (frame_time_chars _ _ _ F I) as [N| ->]; [apply number_char_code in N; lia|left; unfold char_code; cbn; lia]. Qed.
Lemma frame_trimmed s t : frame_time s t -> trimmed s s.
Proof.
  intros F. exists [], []. rewrite app_nil_r. split; [reflexivity|]. repeat split; try constructor.
  - intros B. destruct s as [|c s]; [exact B|]. cbn in B. pose proof (frame_time_code _ _ c F (or_introl eq_refl)). unfold white in B. lia.
  - intros (b & c & -> & W). assert (I : In c (b ++ [c])) by (apply in_or_app; right; now left). pose proof (frame_time_code _ _ c F I). unfold white in W. lia.
Qed.
Lemma frame_no_comma s t : frame_time s t -> ~ In comma s.
Proof. intros F I. pose proof (frame_time_code _ _ _ F I) as H. unfold char_code, comma in H. cbn in H. lia. Qed.
Lemma frame_no_lf s t : frame_time s t -> ~ In lf s.
Proof. intros F I. pose proof (frame_time_code _ _ _ F I) as H. unfold char_code, lf in H. cbn in H. lia. Qed.

Lemma join_no_lf rows : Forall plain_row rows -> ~ In lf (join (lit "|") rows).
Proof.
  induction rows as [|row rows IH]; intros F; [intros []|]. inversion F as [|? ? (_ & _ & N) F']; subst. destruct rows as [|row' rows]; [exact N|].
  change (join (lit "|") (row :: row' :: rows)) with (row ++ "|"%char :: join (lit "|") (row' :: rows)). intros I. apply in_app_or in I.
  destruct I as [I|[I|I]]; [now apply N|discriminate|now apply (IH F')].
Qed.
Lemma join_ne rows : rows <> [] -> Forall plain_row rows -> join (lit "|") rows <> [].
Proof.
  intros NE F E. destruct rows as [|row rows]; [congruence|]. inversion F as [|? ? (N & _) _]; subst. destruct rows.
  - now apply N.
  - change (row ++ "|"%char :: join (lit "|") (s :: rows) = []) in E. destruct row; discriminate.
Qed.

Lemma entry_says e l : entry_line e l -> says l (e_from e) (e_to e) (join (lit "|") (e_rows e)) /\ space_before_comma l /\ trimmed l l /\ ~ In lf l.
Proof.
  intros (f & x & t & -> & F1 & W & NX & F2 & NE & R & NW).
  set (text := join (lit "|") (e_rows e)) in *.
  assert (FN := frame_time_ne _ _ F1).
  assert (TR : trimmed (f ++ x :: comma :: t ++ comma :: text) (f ++ x :: comma :: t ++ comma :: text)).
  { exists [], []. rewrite app_nil_r. split; [reflexivity|]. split; [constructor|]. split; [constructor|]. split.
    - destruct f as [|c f]; [congruence|]. cbn. pose proof (frame_time_code _ _ c F1 (or_introl eq_refl)). unfold white. lia.
    - intros (b & c & E & WC). apply NW. assert (TN : text <> []) by now apply join_ne. destruct (snoc_split text) as (i & z & E2 & _); [exact TN|].
      assert (Q : (f ++ x :: comma :: t ++ comma :: i) ++ [z] = b ++ [c]).
      { rewrite <- E, E2, <- app_assoc. cbn [app]. rewrite <- app_assoc. reflexivity. }
      apply app_inj_tail in Q. destruct Q as [_ ->]. now exists i, c. }
  assert (XC : x <> comma). { intros ->. unfold white, char_code, comma in W. cbn in W. lia. }
  assert (FST : forall p, begins_with p (f ++ x :: comma :: t ++ comma :: text) -> forall c, hd_error p = Some c -> 48 <= char_code c <= 58 \/ char_code c = 43 \/ char_code c = 45).
  { intros p [rest E] c HE. destruct p as [|c' p]; [discriminate|]. cbn in HE. injection HE as ->. destruct f as [|c' f]; [congruence|]. cbn in E. injection E as -> _.
    exact (frame_time_code _ _ c F1 (or_introl eq_refl)). }
  split; [|split; [|split; [exact TR|]]].
  - exists (f ++ x :: comma :: t ++ comma :: text), (f ++ [x]), t, f, t. split; [exact TR|].
    split. { intros C. specialize (FST _ C _ eq_refl). unfold char_code in FST. cbn in FST. lia. }
    split. { intros C. specialize (FST _ C _ eq_refl). unfold char_code in FST. cbn in FST. lia. }
    split. { split; [now rewrite <- app_assoc|]. split; [|now apply frame_no_comma in F2]. intros I. apply in_app_or in I. destruct I as [I|[I|[]]]; [now apply frame_no_comma in F1|congruence]. }
    split; [now apply join_ne|]. split.
    { destruct (frame_trimmed _ _ F1) as (a & b & E & _ & _ & N1 & N2). exists [], [x]. split; [reflexivity|]. split; [constructor|]. split; [constructor; [exact W|constructor]|].
      now split. }
    split; [now apply frame_trimmed in F2|now split].
  - exists f, x, (t ++ comma :: text). split; [reflexivity|]. split; [exact W|]. now apply frame_no_comma in F1.
  - intros I. apply in_app_or in I. destruct I as [I|[I|[I|I]]]; [now apply frame_no_lf in F1|congruence|discriminate|].
    apply in_app_or in I. destruct I as [I|[I|I]]; [now apply frame_no_lf in F2|discriminate|]. now apply join_no_lf in I.
Qed.

Lemma entries_complete es s : entries_text es s -> exists ls, complete_lines s ls /\ Forall2 entry_line es ls.
Proof.
  induction 1 as [|e l es s E _ (ls & C & F)].
  - exists []. split; [|constructor]. constructor. intros [].
  - exists (l :: ls). split; [|now constructor]. constructor; [|exact C]. now apply (entry_says e).
Qed.
Lemma entry_means e l from to : entry_line e l -> line_means (plain_piece from to 0 []) l (plain_piece (e_from e) (e_to e) 0 []) (rows_of near e).
Proof.
  intros E. destruct (entry_says _ _ E) as (S & B & TR & _). destruct (says_line _ _ _ _ S B) as (l' & start & finish & T2 & SL & F1 & F2).
  rewrite <- (trimmed_unique _ _ _ TR T2) in SL. apply (means_subtitle _ l start finish (e_from e) (e_to e) (join (lit "|") (e_rows e))); try assumption.
  destruct E as (_ & _ & _ & _ & _ & _ & _ & _ & NE & R & _).
  change (with_times (e_from e) (e_to e) (plain_piece from to 0 [])) with (plain_piece (e_from e) (e_to e) 0 []).
  now apply rows_pieces.
Qed.
Lemma entries_mean es ls : Forall2 entry_line es ls -> forall from to, exists r, lines_mean (plain_piece from to 0 []) ls r (List.concat (map (rows_of near) es)).
Proof.
  induction 1 as [|e l es ls E F IH]; intros from to.
  - exists (plain_piece from to 0 []). constructor.
  - destruct (IH (e_from e) (e_to e)) as [r M]. exists r. cbn [map List.concat]. apply (lines_mean_cons _ l l (plain_piece (e_from e) (e_to e) 0 [])).
    + now apply (entry_says e).
    + now apply entry_means.
    + exact M.
Qed.
Theorem entries_read es s : entries_text es s -> stl_text_read true s = Ok (List.concat (map (rows_of near) es)).
Proof.
  intros E. apply text_stl_iff. destruct (entries_complete _ _ E) as (ls & C & F). destruct (entries_mean _ _ F (mkT 0 0 None) (mkT 0 0 None)) as [r M].
  exists ls, r. split; [exact C|exact M].
Qed.
Lemma rows_two e : (length (e_rows e) <= 2)%nat -> rows_of near e = rows_of Z.of_nat e.
Proof. unfold rows_of. destruct (e_rows e) as [|a [|b [|c l]]]; cbn; intros L; try reflexivity. lia. Qed.
Theorem two_rows es s : entries_text es s -> Forall (fun e => (length (e_rows e) <= 2)%nat) es ->
  stl_text_read true s = Ok (List.concat (map (rows_of Z.of_nat) es)).
Proof.
  intros E F. rewrite (entries_read _ _ E). f_equal. f_equal. apply map_ext_in. intros e I. apply rows_two. rewrite Forall_forall in F. now apply F.
Qed.

(** * Undefined behaviour *)

Definition inside (s t : str) : Prop := exists a b, s = a ++ t ++ b.
Lemma inside_trans s t u : inside s t -> inside t u -> inside s u.
Proof. intros (a & b & ->) (c & d & ->). exists (a ++ c), (d ++ b). now rewrite <- !app_assoc. Qed.
Lemma complete_inside s ls l : complete_lines s ls -> In l ls -> inside s l.
Proof.
  induction 1 as [|k rest ls N C IH]; intros I; [destruct I|]. destruct I as [->|I].
  - now exists [], (lf :: rest).
  - apply (inside_trans _ rest); [|now apply IH]. exists (k ++ [lf]), []. rewrite app_nil_r, <- app_assoc. reflexivity.
Qed.
Lemma trimmed_inside s t : trimmed s t -> inside s t.
Proof. intros (a & b & -> & _). now exists a, b. Qed.
Lemma join_inside sep ps p : In p ps -> inside (join sep ps) p.
Proof.
  induction ps as [|q ps IH]; intros I; [destruct I|]. destruct ps as [|q' ps].
  - destruct I as [->|[]]. exists [], []. now rewrite app_nil_r.
  - cbn [join]. destruct I as [->|I].
    + now exists [], (sep ++ join sep (q' :: ps)).
    + apply (inside_trans _ (join sep (q' :: ps))); [|now apply IH]. exists (q ++ sep), []. now rewrite app_nil_r, <- app_assoc.
Qed.
Lemma short_integer s t v : short_numbers 5 s -> inside s t -> integer t v -> Z.abs v < 100000.
Proof.
  intros SH IN I.
  assert (K : forall d w, numeral d w -> inside t d -> 0 <= w < 100000).
  { intros d w D J. destruct (inside_trans _ _ _ IN J) as (a & b & E). pose proof (numeral_nonneg _ _ D). pose proof (numeral_bound _ _ D) as B.
    assert (L : (length d <= 5)%nat) by (apply (SH a d b E); now apply numeral_chars in D).
    assert (10 ^ Z.of_nat (length d) <= 10 ^ 5) by (apply Z.pow_le_mono_r; lia). change (10 ^ 5) with 100000 in *. lia. }
  destruct I as [d w D _|d w D _|d w D _]; assert (0 <= w < 100000); try lia; apply (K d w D).
  - exists [], []. now rewrite app_nil_r.
  - exists ["+"%char], []. now rewrite app_nil_r.
  - exists ["-"%char], []. now rewrite app_nil_r.
Qed.
Lemma short_no_big s t : short_numbers 5 s -> inside s t -> ~ big_time t.
Proof.
  intros SH IN (a & b & c & d & h & m & sec & (_ & E & _) & A & B & C & _ & NF). apply NF. subst t.
  assert (K : forall p, In p [a; b; c; d] -> inside s p) by (intros p I; apply (inside_trans _ _ _ IN); now apply join_inside).
  pose proof (short_integer _ _ _ SH (K a ltac:(now left)) A). pose proof (short_integer _ _ _ SH (K b ltac:(right; now left)) B).
  pose proof (short_integer _ _ _ SH (K c ltac:(right; right; now left)) C). unfold time_fits, is_int. lia.
Qed.
Lemma subtitle_inside l start finish text : subtitle_line l start finish text -> inside l start /\ inside l finish.
Proof.
  intros (_ & _ & _ & f & x & t & (-> & _) & _ & Tf & Tt). split.
  - apply (inside_trans _ f); [|now apply trimmed_inside]. exists [], ([x] ++ comma :: t ++ comma :: text). now rewrite <- app_assoc.
  - apply (inside_trans _ t); [|now apply trimmed_inside]. exists ((f ++ [x]) ++ [comma]), (comma :: text). now rewrite <- !app_assoc.
Qed.
Theorem short_defined s : short_numbers 5 s -> defined (stl_text_read true s).
Proof.
  intros SH u E. apply text_stl_stop_iff in E; [|discriminate]. destruct E as (before & l & after & l' & r & raws & C & _ & T & S).
  assert (IN : inside s l').
  { apply (inside_trans _ l); [|now apply trimmed_inside]. apply (complete_inside _ _ _ C). apply in_or_app. right. now left. }
  inversion S as [| |? start finish text SL B| |? start finish text SL O B]; subst.
  - apply (short_no_big s start SH); [|exact B]. exact (inside_trans _ _ _ IN (proj1 (subtitle_inside _ _ _ _ SL))).
  - apply (short_no_big s finish SH); [|exact B]. exact (inside_trans _ _ _ IN (proj2 (subtitle_inside _ _ _ _ SL))).
Qed.

(** * Lines without white space in front of the comma *)

Lemma numeral_less s c v : s <> [] -> numeral (s ++ [c]) v -> exists w d, numeral s w /\ dec_digit c d /\ v = 10 * w + d.
Proof.
  intros NE N. remember (s ++ [c]) as t eqn:E. destruct N as [c' d D|s' w c' d N' D].
  - exfalso. destruct s as [|z [|z' s]]; [congruence|discriminate E|discriminate E].
  - apply app_inj_tail in E. destruct E as [<- <-]. now exists w, d.
Qed.
Lemma quot_ten w z : 0 <= w -> 0 <= z <= 9 -> Z.quot (10 * w + z) 10 = w.
Proof. intros A B. rewrite Z.quot_div_nonneg by lia. symmetry. apply (Z.div_unique_pos _ _ w z); lia. Qed.
Lemma integer_less d x y v : is_digit_char x -> integer (d ++ [x; y]) v -> integer (d ++ [x]) (Z.quot v 10).
Proof.
  intros (k & BK & X) I. change [x; y] with ([x] ++ [y]) in I. rewrite app_assoc in I.
  assert (NE : d ++ [x] <> []) by (destruct d; discriminate).
  inversion I as [s w0 N B|s w0 N B E|s w0 N B E]; subst.
  - apply numeral_less in N; [|exact NE]. destruct N as (w & z & N & (DZ & _) & ->). pose proof (numeral_nonneg _ _ N).
    rewrite quot_ten by lia.
    constructor; [exact N|unfold is_int, Base.int_min, Base.int_max in *; lia].
  - destruct d as [|c d]; [injection E as <- _; change (char_code "+"%char) with 43 in X; lia|]. cbn [app] in *. injection E as <- E. rewrite E in N.
    apply numeral_less in N; [|destruct d; discriminate]. destruct N as (w & z & N & (DZ & _) & ->). pose proof (numeral_nonneg _ _ N).
    rewrite quot_ten by lia.
    constructor; [exact N|unfold is_int, Base.int_min, Base.int_max in *; lia].
  - destruct d as [|c d]; [injection E as <- _; change (char_code "-"%char) with 45 in X; lia|]. cbn [app] in *. injection E as <- E. rewrite E in N.
    apply numeral_less in N; [|destruct d; discriminate]. destruct N as (w & z & N & (DZ & _) & ->). pose proof (numeral_nonneg _ _ N).
    rewrite Z.quot_opp_l by lia.
    rewrite quot_ten by lia.
    constructor; [exact N|unfold is_int, Base.int_min, Base.int_max in *; lia].
Qed.
Lemma digit_not_white c : is_digit_char c -> ~ white c.
Proof. intros (d & B & E) W. unfold white in W. lia. Qed.
Lemma frame_less s x y t : is_digit_char x -> is_digit_char y -> frame_time (s ++ [x; y]) t -> frame_time (s ++ [x]) (last_digit_lost t).
Proof.
  intros X Y (a & b & c & d & h & m & sec & f & (_ & E & FA) & Ia & Ib & Ic & Id & TF & ->).
  pose proof (Forall_inv (Forall_inv_tail (Forall_inv_tail (Forall_inv_tail FA)))) as FD.
  assert (Q : exists d0, d = d0 ++ [x; y] /\ s = join [":"%char] [a; b; c; d0]).
  { cbn [join app] in E. assert (ND : d <> []) by (destruct Id; [intros ->; inversion H; now destruct s0|discriminate|discriminate]).
    destruct (snoc_split d ND) as (d1 & z & -> & _).
    change [x; y] with ([x] ++ [y]) in E. rewrite (app_assoc s) in E.
    replace (a ++ ":"%char :: b ++ ":"%char :: c ++ ":"%char :: d1 ++ [z]) with ((a ++ ":"%char :: b ++ ":"%char :: c ++ ":"%char :: d1) ++ [z]) in E
      by (rewrite <- !app_assoc; cbn [app]; rewrite <- !app_assoc; cbn [app]; rewrite <- !app_assoc; reflexivity).
    apply app_inj_tail in E. destruct E as [E ->]. destruct d1 as [|w d1].
    - exfalso. replace (a ++ ":"%char :: b ++ ":"%char :: c ++ [":"%char]) with ((a ++ ":"%char :: b ++ ":"%char :: c) ++ [":"%char]) in E
        by (rewrite <- !app_assoc; cbn [app]; rewrite <- !app_assoc; reflexivity).
      apply app_inj_tail in E. destruct E as [_ ->]. destruct X as (k & B & X). change (char_code ":"%char) with 58 in X. lia.
    - destruct (snoc_split (w :: d1) ltac:(discriminate)) as (d0 & u & E2 & _). rewrite E2 in E |- *.
      replace (a ++ ":"%char :: b ++ ":"%char :: c ++ ":"%char :: d0 ++ [u]) with ((a ++ ":"%char :: b ++ ":"%char :: c ++ ":"%char :: d0) ++ [u]) in E
        by (rewrite <- !app_assoc; cbn [app]; rewrite <- !app_assoc; cbn [app]; rewrite <- !app_assoc; reflexivity).
      apply app_inj_tail in E. destruct E as [-> ->]. exists d0. rewrite <- app_assoc. split; reflexivity. }
  destruct Q as (d0 & -> & ->). exists a, b, c, (d0 ++ [x]), h, m, sec, (Z.quot f 10). split.
  { split; [discriminate|]. split.
    - cbn [join app]. repeat (rewrite <- app_assoc || (progress cbn [app])). reflexivity.
    - constructor; [exact (Forall_inv FA)|]. constructor; [exact (Forall_inv (Forall_inv_tail FA))|].
      constructor; [exact (Forall_inv (Forall_inv_tail (Forall_inv_tail FA)))|]. constructor; [|constructor].
      intros (p & q & C). apply FD. exists p, (q ++ [y]). change [x; y] with ([x] ++ [y]). rewrite (app_assoc d0 [x] [y]), C. repeat (rewrite <- app_assoc || (progress cbn [app])). reflexivity. }
  split; [exact Ia|]. split; [exact Ib|]. split; [exact Ic|]. split; [now apply (integer_less _ _ y)|]. split; [exact TF|reflexivity].
Qed.
Lemma says_cut l from to text : says l from to text -> digits_before_comma l ->
  exists l' start finish, trimmed l l' /\ subtitle_line l' start finish text /\ frame_time start (last_digit_lost from) /\ frame_time finish to.
Proof.
  intros (l' & f & t & f' & t' & TL & NC & NS & T3 & NE & Tf & Tt & F1 & F2) (g & x & y & rest & E & X & Y & NG).
  destruct T3 as (EL & N1 & N2).
  assert (P : exists a, g ++ [x; y] = a ++ f).
  { destruct TL as (a & b & EA & A & B & _). rewrite EL in EA. rewrite E in EA.
    assert (NA : ~ In comma (a ++ f)).
    { intros I. apply in_app_or in I. destruct I as [I|I]; [|now apply N1]. rewrite Forall_forall in A. apply A in I. unfold white, char_code in I. cbn in I. lia. }
    assert (NG' : ~ In comma (g ++ [x; y])).
    { intros I. apply in_app_or in I. destruct I as [I|[->|[->|[]]]]; [now apply NG| |].
      - destruct X as (k & B1 & X). change (char_code comma) with 44 in X. lia.
      - destruct Y as (k & B1 & Y). change (char_code comma) with 44 in Y. lia. }
    assert (Q : (g ++ [x; y]) ++ comma :: rest = (a ++ f) ++ comma :: (t ++ comma :: text) ++ b).
    { rewrite <- app_assoc. cbn [app]. rewrite EA. rewrite <- !app_assoc. cbn [app]. rewrite <- !app_assoc. reflexivity. }
    assert (P : g ++ [x; y] = a ++ f /\ rest = (t ++ comma :: text) ++ b) by exact (first_sep _ _ _ _ _ NG' NA Q).
    exists a. apply P. }
  destruct P as (a & P). destruct Tf as (u & v & -> & U & V & B1 & B2).
  assert (NV : v = []).
  { destruct v as [|c v]; [reflexivity|]. exfalso. destruct (snoc_split (c :: v) ltac:(discriminate)) as (v' & z & E2 & _). rewrite E2 in P, V.
    change [x; y] with ([x] ++ [y]) in P. rewrite !app_assoc in P. apply app_inj_tail in P. destruct P as [_ <-]. apply Forall_app in V. destruct V as [_ V].
    apply Forall_inv in V. now apply (digit_not_white y). }
  subst v. rewrite app_nil_r in *.
  assert (L : (2 <= length f')%nat).
  { destruct F1 as (a1 & b1 & c1 & d1 & h & m & sec & fr & (_ & -> & _) & _). cbn [join]. repeat (rewrite app_length || (progress cbn [length app])). lia. }
  destruct (snoc_split f') as (f1 & z & E1 & _); [intros ->; cbn in L; lia|].
  destruct (snoc_split f1) as (f2 & w & E2 & _); [intros ->; rewrite E1 in L; cbn in L; lia|].
  subst f1 f'. change [x; y] with ([x] ++ [y]) in P. rewrite !app_assoc in P. apply app_inj_tail in P. destruct P as [P <-]. apply app_inj_tail in P. destruct P as [P <-].
  rewrite <- app_assoc in F1. cbn [app] in F1. apply frame_less in F1; [|exact X|exact Y].
  exists l', (f2 ++ [x]), t'. split; [exact TL|]. split; [|now split].
  split; [exact NC|]. split; [exact NS|]. split; [exact NE|]. exists (u ++ f2 ++ [x]), y, t. split; [|split; [|split; [|exact Tt]]].
  - split; [|split; [|exact N2]]; repeat rewrite <- app_assoc in *; assumption.
  - destruct u; [destruct f2; discriminate|discriminate].
  - exists u, []. split; [now rewrite app_nil_r|]. split; [exact U|]. split; [constructor|]. split.
    + intros W. apply B1. destruct f2; exact W.
    + intros (b & c & E3 & W). apply app_inj_tail in E3. destruct E3 as [_ <-]. now apply (digit_not_white x).
Qed.
Theorem read_cut s ls raws before l after from to text : complete_lines s ls -> ls = before ++ l :: after -> says l from to text -> digits_before_comma l ->
  stl_text_read true s = Ok raws -> exists a rs b, raws = a ++ rs ++ b /\ Forall (shown (last_digit_lost from) to) rs /\ unmarked text (text_of rs).
Proof.
  intros C -> S D R. apply text_stl_iff in R. destruct R as (ls' & r & C' & M). rewrite <- (complete_unique _ _ _ C C') in M. clear C C'.
  destruct (says_cut _ _ _ _ S D) as (l2 & start & finish & T2 & SL & F1 & F2). revert M. generalize new_look. revert raws. induction before as [|k before IH]; intros raws r0 M.
  - inversion M as [|r1 l1 l1' r2 rs ls1 r3 rss T L M']; subst. rewrite (trimmed_unique _ _ _ T T2) in L. exists [], rs, rss. split; [reflexivity|].
    exact (line_gives _ _ _ _ _ _ _ _ _ L SL F1 F2).
  - inversion M as [|r1 l1 l1' r2 rs ls1 r3 rss T L M']; subst. destruct (IH _ _ M') as (a & rs' & b & -> & H). exists (rs ++ a), rs', b. split; [now rewrite <- !app_assoc|exact H].
Qed.

(** * After the last newline *)

Theorem read_rest s rest : (s = [] \/ ends_in (eq lf) s) -> ~ In lf rest -> stl_text_read true (s ++ rest) = stl_text_read true s.
Proof.
  intros W N. unfold stl_text_read. f_equal. apply getlines_iff; [lia|].
  assert (C : complete_lines s (getlines (length s) s)) by (apply (getlines_iff (length s)); [lia|reflexivity]).
  induction C as [s NS|l r ls NL C IH].
  - destruct W as [->|(b & c & -> & <-)]; [now constructor|]. exfalso. apply NS, in_app_iff. right. now left.
  - rewrite <- app_assoc. cbn [app]. constructor; [exact NL|]. destruct r as [|c r].
    + inversion C; [now constructor|]. destruct l0; discriminate.
    + apply IH. right. destruct W as [E|(b & d & E & <-)]; [destruct l; discriminate|].
      destruct (snoc_split (c :: r) ltac:(discriminate)) as (r' & z & E2 & _). rewrite E2 in E |- *. change (lf :: r' ++ [z]) with ((lf :: r') ++ [z]) in E. rewrite app_assoc in E.
      apply app_inj_tail in E. destruct E as [_ ->]. now exists r', lf.
Qed.
