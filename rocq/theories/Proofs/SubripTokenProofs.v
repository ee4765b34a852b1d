(** Tags in SubRip text: the character loop against the tokens and pieces of Spec/SubripSpec. *)
From Coq Require Import ZArith List Bool Ascii String Lia.
From Verif.Model Require Import Base Strings Float TimeModel Types Lines RawConvert Compose Ssa Subrip.
From Verif.Spec Require Import Outcome TextSpec LinesSpec StlFileSpec RawSpec SsaTagSpec SubripSpec.
From Verif.Proofs Require Import StringProofs SsaTagProofs LinesProofs.
Import ListNotations.
Local Open Scope Z_scope.
Local Notation length := List.length.

(** * Letters *)

Lemma lower_same a b : lower a = lower b <-> same_letter a b.
Proof.
  unfold same_letter. rewrite <- !code_char. split.
  - intros E. apply (f_equal code) in E. unfold lower in E. pose proof (code_bounds a). pose proof (code_bounds b).
    destruct ((65 <=? code a) && (code a <=? 90)) eqn:A, ((65 <=? code b) && (code b <=? 90)) eqn:B; rewrite ?code_chr in E by lia.
    + left. apply code_inj. lia.
    + right. exists (code a - 65). lia.
    + right. exists (code b - 65). lia.
    + left. now apply code_inj.
  - intros [->|(k & K & H)]; [reflexivity|]. unfold lower. pose proof (code_bounds a). pose proof (code_bounds b).
    destruct ((65 <=? code a) && (code a <=? 90)) eqn:A, ((65 <=? code b) && (code b <=? 90)) eqn:B; apply code_inj; rewrite ?code_chr by lia; lia.
Qed.
Lemma lower_all a b : to_lower a = to_lower b <-> same_letters a b.
Proof.
  unfold same_letters. revert b. induction a as [|x a IH]; intros b; split.
  - intros E. destruct b; [constructor|discriminate].
  - intros F. inversion F. reflexivity.
  - intros E. destruct b as [|y b]; [discriminate|]. injection E as E1 E2. constructor; [now apply lower_same|now apply IH].
  - intros F. inversion F as [|? y ? b' S F']; subst. cbn. f_equal; [now apply lower_same|now apply IH].
Qed.

Lemma has_next_iff t s rest : has_next t s = Some rest <-> exists p, same_letters p s /\ t = p ++ rest.
Proof.
  unfold has_next. split.
  - destruct (str_eqb (to_lower (firstn (length s) t)) (to_lower s)) eqn:E; [|discriminate]. intros [= <-]. apply str_eqb_iff in E.
    exists (firstn (length s) t). split; [now apply lower_all|now rewrite firstn_skipn].
  - intros (p & S & ->). assert (L : length p = length s). { apply lower_all in S. apply (f_equal (@length ascii)) in S. unfold to_lower in S. now rewrite !map_length in S. }
    rewrite <- L, firstn_app, skipn_app, firstn_all, skipn_all, Nat.sub_diag. cbn [firstn skipn app]. rewrite app_nil_r.
    apply lower_all in S. rewrite S, str_eqb_refl. reflexivity.
Qed.

(** Two names of which neither is the beginning of the other. *)
Fixpoint prefix (a b : str) : bool :=
  match a, b with [], _ => true | _, [] => false | x :: a', y :: b' => Ascii.eqb x y && prefix a' b' end.
Definition apart (a b : str) : bool := negb (prefix (to_lower a) (to_lower b)) && negb (prefix (to_lower b) (to_lower a)).

Lemma prefix_app a b u v : a ++ u = b ++ v -> prefix a b = true \/ prefix b a = true.
Proof.
  revert b. induction a as [|x a IH]; intros b E; [now left|]. destruct b as [|y b]; [now right|]. injection E as -> E. cbn.
  rewrite Ascii.eqb_refl. now apply IH.
Qed.
Lemma has_next_apart t a b r : apart a b = true -> has_next t a = Some r -> has_next t b = None.
Proof.
  intros A H. destruct (has_next t b) as [r'|] eqn:E; [|reflexivity]. exfalso. apply has_next_iff in H, E.
  destruct H as (p & P & ->), E as (q & Q & E). apply lower_all in P, Q. apply (f_equal to_lower) in E. unfold to_lower in E.
  rewrite !map_app in E. change (map lower) with to_lower in E. rewrite P, Q in E. apply prefix_app in E. unfold apart in A.
  apply andb_true_iff in A. destruct A as [A B]. apply negb_true_iff in A, B. destruct E; congruence.
Qed.

(** * The first tag of a text *)

Fixpoint find_simple (l : list (string * token)) (t : str) : option (token * str) :=
  match l with
  | [] => None
  | (name, tok) :: l' => match has_next t (lit name) with Some r => Some (tok, r) | None => find_simple l' t end
  end.
Definition first_tag (t : str) : option (token * str) :=
  match find_simple simple_tags t with
  | Some x => Some x
  | None =>
      match has_next t (lit "<font") with
      | Some r => Some (TFont (fst (until ">"%char r)), snd (until ">"%char r))
      | None =>
          match has_next t ("{"%char :: [backslash]) with
          | Some r => Some (TSsa (fst (until "}"%char r)), snd (until "}"%char r))
          | None => None
          end
      end
  end.

Lemma until_iff stop t body rest : until stop t = (body, rest) <-> up_to stop t body rest.
Proof.
  set (p := fun c => negb (Ascii.eqb c stop)).
  assert (NS : forall s, ~ In stop s <-> Forall (fun c => p c = true) s).
  { intros s. rewrite Forall_forall. unfold p. split.
    - intros N c I. apply negb_true_iff. apply Ascii.eqb_neq. intros ->. contradiction.
    - intros F I. apply F in I. rewrite Ascii.eqb_refl in I. discriminate. }
  unfold until. fold p. split.
  - intros E. injection E as EB ER. pose proof (take_drop p t) as T. pose proof (take_while_all p t) as F. pose proof (drop_while_starts p t) as S.
    rewrite EB in *. destruct (drop_while p t) as [|c r].
    + cbn in ER. subst rest. rewrite app_nil_r in T. subst t. apply up_to_end. now apply NS.
    + cbn in ER, S. subst r. unfold p in S. apply negb_false_iff, eqb_iff in S. subst c. rewrite <- T. apply up_to_stop. now apply NS.
  - intros [b r N|b N]; apply NS in N.
    + assert (S : starts_not p (stop :: r)) by (cbn; unfold p; now rewrite Ascii.eqb_refl).
      rewrite take_while_app, drop_while_app by assumption. reflexivity.
    + pose proof (take_while_app p b [] N I) as T. pose proof (drop_while_app p b [] N I) as D. rewrite app_nil_r in T, D. now rewrite T, D.
Qed.

Lemma ssa_open p : same_letters p ("{"%char :: [backslash]) <-> p = ["{"%char; backslash].
Proof.
  rewrite <- lower_all. split; [|intros ->; reflexivity]. intros E. destruct p as [|a [|b [|c p]]]; try discriminate.
  injection E as A B. apply lower_same in A, B.
  assert (G : forall x y, same_letter x y -> ~ (65 <= char_code y <= 90) -> ~ (97 <= char_code y <= 122) -> x = y).
  { intros x y [S|(k & K & S)] N1 N2; [exact S|lia]. }
  rewrite (G a "{"%char A) by (change (char_code "{"%char) with 123; lia). rewrite (G b backslash B) by (change (char_code backslash) with 92; lia). reflexivity.
Qed.

Lemma find_simple_some l t tok rest : find_simple l t = Some (tok, rest) -> exists name, In (name, tok) l /\ has_next t (lit name) = Some rest.
Proof.
  induction l as [|[n k] l IH]; cbn; [discriminate|]. destruct (has_next t (lit n)) as [r|] eqn:E.
  - intros [= <- <-]. exists n. split; [now left|exact E].
  - intros H. destruct (IH H) as (name & I & N). exists name. split; [now right|exact N].
Qed.
Definition all_apart (l : list (string * token)) (a : str) : bool := forallb (fun x => apart a (lit (fst x))) l.
Lemma find_simple_none l t a r : all_apart l a = true -> has_next t a = Some r -> find_simple l t = None.
Proof.
  induction l as [|[n k] l IH]; cbn; [reflexivity|]. intros A H. apply andb_true_iff in A. destruct A as [A B].
  rewrite (has_next_apart t a (lit n) r A H). now apply IH.
Qed.
Lemma find_simple_found t name tok rest : In (name, tok) simple_tags -> has_next t (lit name) = Some rest -> find_simple simple_tags t = Some (tok, rest).
Proof.
  intros I H.
  assert (G : forall pre post, simple_tags = pre ++ (name, tok) :: post -> all_apart pre (lit name) = true -> find_simple simple_tags t = Some (tok, rest)).
  { intros pre post -> A. induction pre as [|[n k] pre IH]; [cbn; now rewrite H|]. cbn in A. apply andb_true_iff in A. destruct A as [A B].
    cbn. rewrite (has_next_apart t (lit name) (lit n) rest A H). now apply IH. }
  unfold simple_tags in I. cbn [In] in I.
  repeat match type of I with _ \/ _ => destruct I as [I|I] end; [..|contradiction]; injection I as <- <-.
  - now apply (G (firstn 0 simple_tags) (skipn 1 simple_tags)).
  - now apply (G (firstn 1 simple_tags) (skipn 2 simple_tags)).
  - now apply (G (firstn 2 simple_tags) (skipn 3 simple_tags)).
  - now apply (G (firstn 3 simple_tags) (skipn 4 simple_tags)).
  - now apply (G (firstn 4 simple_tags) (skipn 5 simple_tags)).
  - now apply (G (firstn 5 simple_tags) (skipn 6 simple_tags)).
  - now apply (G (firstn 6 simple_tags) (skipn 7 simple_tags)).
  - now apply (G (firstn 7 simple_tags) (skipn 8 simple_tags)).
  - now apply (G (firstn 8 simple_tags) (skipn 9 simple_tags)).
  - now apply (G (firstn 9 simple_tags) (skipn 10 simple_tags)).
  - now apply (G (firstn 10 simple_tags) (skipn 11 simple_tags)).
  - now apply (G (firstn 11 simple_tags) (skipn 12 simple_tags)).
  - now apply (G (firstn 12 simple_tags) (skipn 13 simple_tags)).
Qed.

Lemma first_tag_iff t tok rest : first_tag t = Some (tok, rest) <-> tag_at t tok rest.
Proof.
  unfold first_tag. split.
  - destruct (find_simple simple_tags t) as [[k r]|] eqn:F.
    + intros [= -> ->]. apply find_simple_some in F. destruct F as (name & I & H). apply has_next_iff in H. destruct H as (p & S & ->).
      eapply tag_simple; eassumption.
    + destruct (has_next t (lit "<font")) as [r|] eqn:H.
      * intros [= <- <-]. apply has_next_iff in H. destruct H as (p & S & ->). apply tag_font; [exact S|].
        apply until_iff. apply surjective_pairing.
      * destruct (has_next t ("{"%char :: [backslash])) as [r|] eqn:H2; [|discriminate]. intros [= <- <-].
        apply has_next_iff in H2. destruct H2 as (p & S & ->). apply ssa_open in S. subst p. cbn [app]. apply tag_ssa.
        apply until_iff. apply surjective_pairing.
  - intros T. destruct T as [p name tok rest I S|p s body rest S U|s body rest U].
    + assert (H : has_next (p ++ rest) (lit name) = Some rest) by (apply has_next_iff; now exists p).
      now rewrite (find_simple_found _ name tok rest I H).
    + assert (H : has_next (p ++ s) (lit "<font") = Some s) by (apply has_next_iff; now exists p).
      rewrite (find_simple_none simple_tags _ (lit "<font") s eq_refl H), H. apply until_iff in U. now rewrite U.
    + assert (H : has_next ("{"%char :: bslash :: s) ("{"%char :: [backslash]) = Some s).
      { apply has_next_iff. exists ["{"%char; backslash]. split; [now apply ssa_open|reflexivity]. }
      rewrite (find_simple_none simple_tags _ ("{"%char :: [backslash]) s eq_refl H).
      rewrite (has_next_apart _ ("{"%char :: [backslash]) (lit "<font") s eq_refl H), H. apply until_iff in U. now rewrite U.
Qed.

Lemma first_tag_none t : first_tag t = None <-> forall tok rest, ~ tag_at t tok rest.
Proof.
  split.
  - intros E tok rest T. apply first_tag_iff in T. congruence.
  - intros N. destruct (first_tag t) as [[tok rest]|] eqn:E; [|reflexivity]. apply first_tag_iff in E. now apply N in E.
Qed.

(** A tag uses up at least one character. *)
Lemma until_length stop t : (length (snd (until stop t)) <= length t)%nat.
Proof.
  unfold until. cbn [snd]. set (p := fun c => negb (Ascii.eqb c stop)). induction t as [|c t IH]; cbn; [lia|].
  destruct (p c); cbn; [|lia]. exact (Nat.le_trans _ _ _ IH (Nat.le_succ_diag_r _)).
Qed.
Lemma has_next_length t s r : has_next t s = Some r -> (length r + length s = length t)%nat.
Proof.
  intros H. apply has_next_iff in H. destruct H as (p & S & ->). apply lower_all in S. apply (f_equal (@length ascii)) in S.
  unfold to_lower in S. rewrite !map_length in S. rewrite app_length. lia.
Qed.
Lemma first_tag_length t tok rest : first_tag t = Some (tok, rest) -> (length rest < length t)%nat.
Proof.
  unfold first_tag. destruct (find_simple simple_tags t) as [[k r]|] eqn:F.
  - intros [= -> ->]. apply find_simple_some in F. destruct F as (name & I & H). apply has_next_length in H.
    assert (P : (0 < length (lit name))%nat).
    { cbn [In simple_tags] in I. repeat match type of I with _ \/ _ => destruct I as [I|I] end; [..|contradiction]; injection I as <- _; cbn; lia. }
    lia.
  - destruct (has_next t (lit "<font")) as [r|] eqn:H.
    + intros E. assert (ER : rest = snd (until ">"%char r)) by congruence. rewrite ER. clear E ER. apply has_next_length in H. pose proof (until_length ">"%char r). cbn [length lit list_ascii_of_string] in H. unfold str in *. lia.
    + destruct (has_next t ("{"%char :: [backslash])) as [r|] eqn:H2; [|discriminate].
      intros E. assert (ER : rest = snd (until "}"%char r)) by congruence. rewrite ER. clear E ER.
      apply has_next_length in H2. pose proof (until_length "}"%char r). cbn [length] in H2. unfold str in *. lia.
Qed.

(** * One step of the loop *)

Definition simple_look (tok : token) (r : raw) : raw :=
  match tok with TBold on => set_bold on r | TItalic on => set_italic on r | TUnderline on => set_underline on r | _ => r end.

Lemma convert_step k n ctx c t1 p cs subs : convert_chars (S k) n ctx (c :: t1) p cs subs =
  match first_tag (c :: t1) with
  | None => convert_chars k n ctx t1 (set_text (r_text p ++ [c]) p) cs subs
  | Some (TSsa body, rest) =>
      let* p' := parse_tag p (backslash :: body) subrip_ssa_context in convert_chars k n ctx rest p' cs subs
  | Some (TFont body, rest) =>
      let* col := font_colour n ctx body in
      convert_chars k n ctx rest (set_colour col (fst (maybe_content p subs))) (col :: cs) (snd (maybe_content p subs))
  | Some (TFontEnd, rest) =>
      match cs with
      | [] => convert_chars k n ctx rest (fst (maybe_content p subs)) cs (snd (maybe_content p subs))
      | _ :: [] => Undef UbEmptyVector
      | _ :: ((col :: _) as cs') => convert_chars k n ctx rest (set_colour col (fst (maybe_content p subs))) cs' (snd (maybe_content p subs))
      end
  | Some (tok, rest) => convert_chars k n ctx rest (simple_look tok (fst (maybe_content p subs))) cs (snd (maybe_content p subs))
  end.
Proof.
  cbn [convert_chars]. unfold first_tag, simple_tags. cbn [find_simple]. unfold has_either.
  destruct (maybe_content p subs) as [p' subs'].
  destruct (has_next (c :: t1) (lit "<b>")) as [r|]; [reflexivity|].
  destruct (has_next (c :: t1) (lit "{b}")) as [r|]; [reflexivity|].
  destruct (has_next (c :: t1) (lit "</b>")) as [r|]; [reflexivity|].
  destruct (has_next (c :: t1) (lit "{/b}")) as [r|]; [reflexivity|].
  destruct (has_next (c :: t1) (lit "<i>")) as [r|]; [reflexivity|].
  destruct (has_next (c :: t1) (lit "{i}")) as [r|]; [reflexivity|].
  destruct (has_next (c :: t1) (lit "</i>")) as [r|]; [reflexivity|].
  destruct (has_next (c :: t1) (lit "{/i}")) as [r|]; [reflexivity|].
  destruct (has_next (c :: t1) (lit "<u>")) as [r|]; [reflexivity|].
  destruct (has_next (c :: t1) (lit "{u}")) as [r|]; [reflexivity|].
  destruct (has_next (c :: t1) (lit "</u>")) as [r|]; [reflexivity|].
  destruct (has_next (c :: t1) (lit "{/u}")) as [r|]; [reflexivity|].
  assert (F : has_next (c :: t1) (lit "<Font") = has_next (c :: t1) (lit "<font")) by reflexivity. rewrite F.
  destruct (has_next (c :: t1) (lit "<font")) as [r|] eqn:FE.
  { rewrite (has_next_apart _ _ (lit "</font>") r (eq_refl : apart (lit "<font") (lit "</font>") = true) FE).
    destruct (until ">"%char r) as [body rest]. reflexivity. }
  destruct (has_next (c :: t1) (lit "</font>")) as [r|]; [destruct cs as [|? [|? ?]]; reflexivity|].
  destruct (has_next (c :: t1) ("{"%char :: [backslash])) as [r|]; [|reflexivity].
  destruct (until "}"%char r) as [body rest]. reflexivity.
Qed.
