(** Which reader reader_factory makes. *)
From Coq Require Import ZArith List Bool Ascii String Lia.
From Verif.Model Require Import Base Strings Types Lines StlBinReader StlText Subrip Factory.
From Verif.Spec Require Import Outcome TextSpec LinesSpec StlFileSpec SsaSpec SubripSpec StlTextSpec StlTextUseSpec FactorySpec.
From Verif.Proofs Require Import StringProofs LinesProofs StlReadProofs SubripTokenProofs StlTextProofs StlTextUseProofs.
Import ListNotations.
Local Open Scope Z_scope.
Local Notation length := List.length.

Lemma last_component_spec p : exists dir, p = dir ++ last_component p /\ (dir = [] \/ ends_in (eq "/"%char) dir) /\ ~ In "/"%char (last_component p).
Proof.
  induction p as [|c p (dir & E & D & N)] using rev_ind.
  - exists []. split; [reflexivity|]. split; [now left|intros []].
  - unfold last_component in *. rewrite fold_left_app. cbn [fold_left]. destruct (Ascii.eqb_spec c "/") as [->|NC].
    + exists (p ++ ["/"%char]). rewrite app_nil_r. split; [reflexivity|]. split; [right; now exists p, "/"%char|intros []].
    + exists dir. split; [rewrite E at 1; now rewrite <- app_assoc|]. split; [exact D|]. intros I. apply in_app_or in I. destruct I as [I|[I|[]]]; [now apply N|congruence].
Qed.
Lemma last_extension_spec s : (~ In "."%char s /\ last_extension s = []) \/
  exists stem x, s = stem ++ "."%char :: x /\ ~ In "."%char x /\ last_extension s = "."%char :: x.
Proof.
  induction s as [|c s IH] using rev_ind.
  - left. split; [intros []|reflexivity].
  - unfold last_extension in *. rewrite fold_left_app. cbn [fold_left]. destruct (Ascii.eqb_spec c ".") as [->|NC].
    + right. exists s, []. split; [reflexivity|]. split; [intros []|reflexivity].
    + destruct IH as [[N ->]|(stem & x & E & N & ->)].
      * left. split; [|reflexivity]. intros I. apply in_app_or in I. destruct I as [I|[I|[]]]; [now apply N|congruence].
      * right. exists stem, (x ++ [c]). split; [rewrite E, <- app_assoc; reflexivity|]. split; [|reflexivity].
        intros I. apply in_app_or in I. destruct I as [I|[I|[]]]; [now apply N|congruence].
Qed.

(** The end of a list after the last occurrence of something. *)
Lemma last_sep (c : ascii) a : forall x b y, ~ In c x -> ~ In c y -> a ++ c :: x = b ++ c :: y -> a = b /\ x = y.
Proof.
  intros x b y NX NY E.
  assert (H : forall a b : str, a ++ c :: x = b ++ c :: y -> (length a <= length b)%nat -> a = b /\ x = y).
  { clear a b E. induction a as [|d a IH]; intros b E L.
    - destruct b as [|e b]; cbn in E.
      + injection E as <-. now split.
      + exfalso. injection E as _ E. apply NX. rewrite E. apply in_or_app. right. now left.
    - destruct b as [|e b]; [cbn in L; lia|]. cbn in E. injection E as -> E. destruct (IH b E) as [-> ->]; [cbn in L; lia|]. now split. }
  destruct (Nat.le_ge_cases (length a) (length b)) as [L|L]; [now apply H|].
  assert (H' : forall a b : str, a ++ c :: x = b ++ c :: y -> (length b <= length a)%nat -> a = b /\ x = y).
  { clear a b E L. intros a. induction a as [|d a IH]; intros b E L.
    - destruct b as [|e b]; [|cbn in L; lia]. cbn in E. injection E as <-. now split.
    - destruct b as [|e b]; cbn in E.
      + exfalso. injection E as _ E. apply NY. rewrite <- E. apply in_or_app. right. now left.
      + injection E as -> E. destruct (IH b E) as [-> ->]; [cbn in L; lia|]. now split. }
  now apply H'.
Qed.
Lemma last_part (c : ascii) dir x dir' x' : (dir = [] \/ ends_in (eq c) dir) -> (dir' = [] \/ ends_in (eq c) dir') -> ~ In c x -> ~ In c x' ->
  dir ++ x = dir' ++ x' -> dir = dir' /\ x = x'.
Proof.
  intros D D' N N' E. destruct D as [->|(d & c1 & -> & <-)], D' as [->|(d' & c2 & -> & <-)].
  - now split.
  - exfalso. cbn in E. apply N. rewrite E. apply in_or_app. left. apply in_or_app. right. now left.
  - exfalso. cbn in E. apply N'. rewrite <- E. apply in_or_app. left. apply in_or_app. right. now left.
  - rewrite <- !app_assoc in E. cbn [app] in E. destruct (last_sep c d x d' x' N N' E) as [-> ->]. now split.
Qed.

Lemma same_letters_no c x e : same_letters x e -> Forall (fun d => ~ same_letter c d) e -> ~ In c x.
Proof.
  intros S F I. induction S as [|a b x e L S IH]; [destruct I|]. inversion F; subst. destruct I as [->|I]; [contradiction|auto].
Qed.
Lemma extension_iff path e : Forall (fun d => ~ same_letter "."%char d) e -> e <> [] -> to_lower e = e ->
  (to_lower (extension path) = "."%char :: e <-> named path e).
Proof.
  intros ND NE LE. destruct (last_component_spec path) as (dir & EP & D & N). unfold extension. set (n := last_component path) in *.
  assert (K : (exists stem x, n = stem ++ "."%char :: x /\ same_letters x e) <-> named path e).
  { split.
    - intros (stem & x & E & S). exists dir, stem, x. rewrite E in EP, N. split; [exact EP|]. split; [exact D|].
      split; [intros I; apply N; apply in_or_app; now left|]. split; [intros I; apply N; apply in_or_app; right; now right|exact S].
    - intros (dir' & stem & x & E & D' & N1 & N2 & S). rewrite EP in E.
      assert (N' : ~ In "/"%char (stem ++ "."%char :: x)). { intros I. apply in_app_or in I. destruct I as [I|[I|I]]; [now apply N1|discriminate|now apply N2]. }
      destruct (last_part "/"%char _ _ _ _ D D' N N' E) as [_ ->]. now exists stem, x. }
  rewrite <- K. clear K.
  assert (SP : str_eqb n (lit ".") || str_eqb n (lit "..") = true -> ~ exists stem x, n = stem ++ "."%char :: x /\ same_letters x e).
  { intros H (stem & x & E & S). apply Bool.orb_true_iff in H. pose proof (same_letters_no _ _ _ S ND) as NX. destruct H as [H|H]; apply str_eqb_iff in H.
    - rewrite H in E. destruct (last_sep "."%char [] [] stem x) as [_ <-]; [intros []|exact NX|exact E|]. inversion S. congruence.
    - rewrite H in E. destruct (last_sep "."%char ["."%char] [] stem x) as [_ <-]; [intros []|exact NX|exact E|]. inversion S. congruence. }
  destruct (str_eqb n (lit ".") || str_eqb n (lit "..")) eqn:H.
  { split; [discriminate|]. intros X. exfalso. now apply SP. }
  destruct (last_extension_spec n) as [[NN ->]|(stem & x & E & NX & ->)].
  - split; [discriminate|]. intros (stem & x & E & S). exfalso. apply NN. rewrite E. apply in_or_app. right. now left.
  - cbn [to_lower map]. change (map lower x) with (to_lower x). change (lower "."%char) with "."%char. split.
    + intros Q. injection Q as Q. exists stem, x. split; [exact E|]. apply lower_all. now rewrite LE.
    + intros (stem' & x' & E' & S). rewrite E in E'. destruct (last_sep _ _ _ _ _ NX (same_letters_no _ _ _ S ND) E') as [_ <-].
      apply lower_all in S. rewrite LE in S. now rewrite S.
Qed.
Lemma dot_letter d : same_letter "."%char d -> d = "."%char.
Proof. intros [H|(k & K & [[A B]|[A B]])]; [now subst| |]; change (char_code "."%char) with 46 in A; lia. Qed.
Lemma stl_ext path : str_eqb (to_lower (extension path)) (lit ".stl") = true <-> named path (lit "stl").
Proof.
  rewrite str_eqb_iff. apply extension_iff; [|discriminate|reflexivity]. repeat constructor; intros H; apply dot_letter in H; discriminate.
Qed.
Lemma srt_ext path : str_eqb (to_lower (extension path)) (lit ".srt") = true <-> named path (lit "srt").
Proof.
  rewrite str_eqb_iff. apply extension_iff; [|discriminate|reflexivity]. repeat constructor; intros H; apply dot_letter in H; discriminate.
Qed.
Lemma not_both path : named path (lit "stl") -> ~ named path (lit "srt").
Proof. rewrite <- stl_ext, <- srt_ext, !str_eqb_iff. intros A B. rewrite A in B. discriminate. Qed.

Lemma signature_iff content : Nat.leb 11 (length content) && str_eqb (firstn 3 (skipn 3 content)) (lit "STL") = true <-> stl_signature content.
Proof.
  unfold stl_signature. rewrite Bool.andb_true_iff, Nat.leb_le, str_eqb_iff. split.
  - intros [L E]. split; [exact L|]. destruct content as [|a [|b [|c content]]]; [cbn in L; lia..|]. exists a, b, c, (skipn 3 content).
    rewrite <- E. cbn [skipn]. now rewrite firstn_skipn.
  - intros [L (a & b & c & rest & ->)]. now split.
Qed.

Theorem factory_subrip path content t : named path (lit "srt") ->
  reader_factory path (Some content) t = (t, let* subs := subrip_reader_file content in Ok (Some (mkReader [] subs))) /\
  reader_factory path None t = (t, Throw EProgramming).
Proof.
  intros N. assert (S : str_eqb (to_lower (extension path)) (lit ".stl") = false).
  { apply Bool.not_true_iff_false. rewrite stl_ext. intros H. now apply not_both in H. }
  apply srt_ext in N. unfold reader_factory, factory_kind. rewrite S, N. now split.
Qed.
Theorem factory_binary path content t : named path (lit "stl") -> stl_signature content ->
  reader_factory path (Some content) t = (let$ x := stl_binary_read content in st_ret (Ok (Some (mkReader (stl_metadata (fst x)) (snd x))))) t.
Proof.
  intros N S. apply stl_ext in N. apply signature_iff in S. unfold reader_factory, factory_kind. now rewrite N, S.
Qed.
Theorem factory_text path content t : named path (lit "stl") -> ~ stl_signature content ->
  reader_factory path (Some content) t = (t, let* subs := (if Nat.leb 11 (length content) then stl_text_read true content else Ok []) in Ok (Some (mkReader [] subs))).
Proof.
  intros N S. apply stl_ext in N. rewrite <- signature_iff in S. apply Bool.not_true_iff_false in S. unfold reader_factory, factory_kind. rewrite N, S.
  now destruct (Nat.leb 11 (length content)).
Qed.
Theorem factory_no_file path t : named path (lit "stl") -> reader_factory path None t = (t, Ok (Some (mkReader [] []))).
Proof. intros N. apply stl_ext in N. unfold reader_factory, factory_kind. now rewrite N. Qed.
Theorem factory_null path content t : ~ named path (lit "stl") -> ~ named path (lit "srt") -> reader_factory path content t = (t, Ok None).
Proof.
  intros A B. rewrite <- stl_ext in A. rewrite <- srt_ext in B. apply Bool.not_true_iff_false in A, B. unfold reader_factory, factory_kind. now rewrite A, B.
Qed.

(** No subtitle fits in less than 18 bytes. *)
Lemma integer_length s v : integer s v -> (1 <= length s)%nat.
Proof. intros [d w N _|d w N _|d w N _]; [|cbn; lia..]. apply numeral_digits in N. destruct N as (_ & _ & N & _). destruct d; [congruence|cbn; lia]. Qed.
Lemma frame_time_length s t : frame_time s t -> (7 <= length s)%nat.
Proof.
  intros (a & b & c & d & h & m & sec & f & (_ & -> & _) & A & B & C & D & _). apply integer_length in A, B, C, D. cbn [join].
  repeat (rewrite app_length; cbn [length]). lia.
Qed.
Lemma trimmed_length s t : trimmed s t -> (length t <= length s)%nat.
Proof. intros T. apply trimmed_inside in T. destruct T as (a & b & ->). rewrite !app_length. lia. Qed.
Lemma short_line r l r' rs : line_means r l r' rs -> (length l < 18)%nat -> rs = [].
Proof.
  intros M L. inversion M; subst; try reflexivity. exfalso.
  match goal with H : subtitle_line _ _ _ _ |- _ => destruct H as (_ & _ & NE & f & x & t & (E & _) & _ & T1 & T2) end.
  repeat match goal with H : frame_time _ _ |- _ => apply frame_time_length in H end.
  apply trimmed_length in T1, T2. subst l. repeat (rewrite app_length in L; cbn [length] in L). destruct text; [congruence|]. cbn in L. lia.
Qed.
Lemma short_lines r ls r' rs : lines_mean r ls r' rs -> Forall (fun l => length l < 18)%nat ls -> rs = [].
Proof.
  intros M. induction M as [|r l l' r1 rs ls r2 rss T M MS IH]; intros F; [reflexivity|]. inversion F; subst.
  apply trimmed_length in T. rewrite (short_line _ _ _ _ M) by lia. now rewrite IH.
Qed.
Lemma short_file s raws : (length s < 18)%nat -> text_stl_file s raws -> raws = [].
Proof.
  intros L (ls & r & C & M). apply (short_lines _ _ _ _ M). apply Forall_forall. intros l I.
  destruct (complete_inside _ _ _ C I) as (a & b & E). rewrite E, !app_length in L. lia.
Qed.
Theorem factory_text_means path content t raws : named path (lit "stl") -> ~ stl_signature content -> text_stl_file content raws ->
  reader_factory path (Some content) t = (t, Ok (Some (mkReader [] raws))).
Proof.
  intros N S F. rewrite factory_text by assumption. destruct (Nat.leb_spec 11 (length content)) as [L|L].
  - apply text_stl_iff in F. now rewrite F.
  - rewrite (short_file content raws); [reflexivity|lia|exact F].
Qed.
