(** The program dumpsubs. *)
From Coq Require Import ZArith Lia Bool List Ascii String.
From Verif.Model Require Import Base Strings Types Iso6937 StlText StlBinReader Collect Factory Dump Dumpsubs.
From Verif.Spec Require Import Outcome TextSpec LinesSpec SubripSpec FactorySpec DumpSpec DumpsubsSpec WarningSpec.
From Verif.Proofs Require Import StringProofs FactoryProofs DumpProofs WarningProofs.
Import ListNotations.
Local Open Scope Z_scope.

Lemma kind_spec a :
  match argument_kind a with
  | Operand => ~ is_option a
  | EndOfOptions => a = lit "--"
  | HelpOption => help_option a
  | OtherOption => is_option a /\ a <> lit "--" /\ ~ help_option a
  end.
Proof.
  unfold argument_kind, is_option, help_option, begins_with.
  destruct a as [|c a]; [intros (c & t & E); discriminate|].
  destruct (ascii_dec c "-"%char) as [->|C].
  2:{ assert (N : ~ exists d t, c :: a = "-"%char :: d :: t) by (intros (d & t & E); injection E as E _; contradiction).
      destruct c as [[] [] [] [] [] [] [] []]; try exact N. now destruct C. }
  destruct a as [|d a]; [intros (c & t & E); discriminate|].
  destruct (ascii_dec d "-"%char) as [->|D].
  - destruct a as [|e a]; [reflexivity|].
    destruct (starts_with (lit "help") (e :: a)) eqn:S.
    + apply starts_with_iff in S. destruct S as (rest & S). right. exists (e :: a). split; [reflexivity|]. split; [discriminate|]. now exists rest.
    + split; [now exists "-"%char, (e :: a)|]. split; [discriminate|].
      intros [(c & t & E & N & _)|(n & E & _ & rest & R)].
      * injection E as E _. congruence.
      * injection E as E. assert (starts_with (lit "help") n = true) by (apply starts_with_iff; now exists rest).
        rewrite E in S. congruence.
  - assert (K : (if existsb (Ascii.eqb "h"%char) (d :: a) then HelpOption else OtherOption) =
      match ("-"%char :: d :: a) with
      | "-"%char :: "-"%char :: [] => EndOfOptions
      | "-"%char :: "-"%char :: name => if starts_with (lit "help") name then HelpOption else OtherOption
      | "-"%char :: c :: t => if existsb (Ascii.eqb "h"%char) (c :: t) then HelpOption else OtherOption
      | _ => Operand
      end).
    { destruct d as [[] [] [] [] [] [] [] []]; try reflexivity. now destruct D. }
    rewrite <- K. clear K. destruct (existsb (Ascii.eqb "h"%char) (d :: a)) eqn:X.
    + left. exists d, a. split; [reflexivity|]. split; [exact D|]. apply existsb_exists in X. destruct X as (x & I & E).
      apply Ascii.eqb_eq in E. now subst x.
    + split; [now exists d, a|]. split; [intros E; injection E as E _; contradiction|].
      intros [(c & t & E & _ & I)|(n & E & _)].
      * injection E as <- <-. assert (existsb (Ascii.eqb "h"%char) (d :: a) = true) by (apply existsb_exists; exists "h"%char; split; [exact I | apply Ascii.eqb_refl]).
        congruence.
      * injection E as E _. contradiction.
Qed.
Lemma help_is_option a : help_option a -> is_option a /\ a <> lit "--".
Proof.
  intros [(c & t & E & N & I)|(n & E & N & _)].
  - split; [now exists c, t|]. rewrite E. intros F. injection F as F _. contradiction.
  - split; [exists "-"%char, n; exact E|]. rewrite E. intros F. injection F as F. contradiction.
Qed.
Lemma operands_some args fs : operands args = Some fs <-> named_files args fs.
Proof.
  split.
  - revert fs. induction args as [|a l IH]; cbn [operands]; intros fs.
    + intros [= <-]. constructor.
    + pose proof (kind_spec a) as K. destruct (argument_kind a).
      * destruct (operands l) as [f|]; [|discriminate]. intros [= <-]. constructor; [exact K | now apply IH].
      * intros [= <-]. subst a. apply only_files.
      * discriminate.
      * intros H. destruct K as (K1 & K2 & K3). apply no_file; auto.
  - induction 1 as [|a l fs N H IH|a l fs O D N H IH|fs]; cbn [operands].
    + reflexivity.
    + pose proof (kind_spec a) as K. destruct (argument_kind a).
      * now rewrite IH.
      * subst a. destruct N. now exists "-"%char, [].
      * apply help_is_option in K. tauto.
      * tauto.
    + pose proof (kind_spec a) as K. destruct (argument_kind a); [contradiction | contradiction | contradiction | exact IH].
    + reflexivity.
Qed.
Lemma operands_none args : operands args = None <-> help_wanted args.
Proof.
  split.
  - induction args as [|a l IH]; cbn [operands]; [discriminate|].
    pose proof (kind_spec a) as K. destruct (argument_kind a).
    + destruct (operands l) as [f|]; [discriminate|]. intros _. apply help_later; [|auto].
      intros ->. apply K. now exists "-"%char, [].
    + discriminate.
    + intros _. now apply help_here.
    + intros H. apply help_later; tauto.
  - induction 1 as [a l H|a l D H IH]; cbn [operands]; pose proof (kind_spec a) as K; destruct (argument_kind a).
    + apply help_is_option in H. tauto.
    + apply help_is_option in H. tauto.
    + reflexivity.
    + tauto.
    + now rewrite IH.
    + contradiction.
    + reflexivity.
    + exact IH.
Qed.
Lemma files_or_help args : (help_wanted args /\ forall fs, ~ named_files args fs) \/ (~ help_wanted args /\ exists fs, named_files args fs /\ forall gs, named_files args gs -> gs = fs).
Proof.
  rewrite <- operands_none. destruct (operands args) as [fs|] eqn:E.
  - right. split; [discriminate|]. exists fs. split; [now apply operands_some|]. intros gs G. apply operands_some in G. congruence.
  - left. split; [reflexivity|]. intros fs F. apply operands_some in F. congruence.
Qed.

Lemma opening path content : exists w, opening_text path content w /\ factory_output path (Some content) = w.
Proof.
  unfold factory_output, factory_kind.
  destruct (str_eqb (to_lower (extension path)) (lit ".stl")) eqn:E.
  - apply stl_ext in E. destruct (Nat.leb 11 (List.length content) && str_eqb (firstn 3 (skipn 3 content)) (lit "STL")) eqn:S.
    + apply signature_iff in S. exists []. split; [|reflexivity]. apply opening_quiet. auto.
    + destruct (Nat.leb_spec 11 (List.length content)) as [L|L].
      * destruct (text_warnings_exist content) as (ws & W). exists (on_lines ws). split; [|now apply text_warned].
        apply opening_text_stl; try assumption. rewrite <- signature_iff. apply Nat.leb_le in L. rewrite L. cbn [andb] in *. congruence.
      * exists []. split; [|reflexivity]. apply opening_quiet. auto.
  - exists []. split; [|now destruct (str_eqb (to_lower (extension path)) (lit ".srt"))].
    apply opening_quiet. left. rewrite <- stl_ext. congruence.
Qed.
Lemma opening_unique path content w w' : opening_text path content w -> opening_text path content w' -> w = w'.
Proof.
  intros A B. destruct A as [ws N S L W|Q], B as [ws' N' S' L' W'|Q']; try reflexivity.
  - now rewrite (warnings_unique _ _ _ W W').
  - exfalso. destruct Q' as [Q|[Q|Q]]; [contradiction|contradiction|lia].
  - exfalso. destruct Q as [Q|[Q|Q]]; [contradiction|contradiction|lia].
Qed.

Section Program.
Variables (sort : sorter) (files : str -> option str) (name : str).
Lemma program_help args t : help_wanted args -> dumpsubs sort files name args t = (t, Ok (mkExit 0 [] (lit "Syntax: " ++ name ++ lit " <file>" ++ [lf]))).
Proof. intros H. apply operands_none in H. unfold dumpsubs. rewrite H. reflexivity. Qed.
Lemma program_usage args fs t : named_files args fs -> List.length fs <> 1%nat ->
  dumpsubs sort files name args t = (t, Ok (mkExit 1 [] (lit "Syntax: " ++ name ++ lit " <file>" ++ [lf]))).
Proof. intros H L. apply operands_some in H. unfold dumpsubs. rewrite H. destruct fs as [|a [|b fs]]; [reflexivity | now destruct L | reflexivity]. Qed.
Lemma program_missing args path t : named_files args [path] -> files path = None ->
  dumpsubs sort files name args t = (t, Ok (mkExit 1 [] (name ++ lit ": file " ++ path ++ lit " not found." ++ [lf]))).
Proof. intros H F. apply operands_some in H. unfold dumpsubs. rewrite H, F. reflexivity. Qed.
Lemma program_reads args path content t : named_files args [path] -> files path = Some content ->
  dumpsubs sort files name args t =
  (let$ reader := reader_factory path (Some content) in
   match reader with
   | None => st_ret (Ok (mkExit 1 [] (name ++ lit ": could not read subtitle file " ++ path ++ nl)))
   | Some r => st_ret (let* out := dump sort (rd_metadata r) (rd_subtitles r) in Ok (mkExit 0 (factory_output path (Some content) ++ out) []))
   end) t.
Proof. intros H F. apply operands_some in H. unfold dumpsubs. rewrite H, F. reflexivity. Qed.
Lemma program_unreadable args path content t : named_files args [path] -> files path = Some content ->
  ~ named path (lit "stl") -> ~ named path (lit "srt") ->
  dumpsubs sort files name args t = (t, Ok (mkExit 1 [] (name ++ lit ": could not read subtitle file " ++ path ++ [lf]))).
Proof.
  intros H F S R. rewrite (program_reads args path content t H F). unfold st_bind. rewrite factory_null by assumption. reflexivity.
Qed.
Lemma program_shows args path content t t' r us : named_files args [path] -> files path = Some content ->
  reader_factory path (Some content) t = (t', Ok (Some r)) -> collect sort (rd_subtitles r) = Ok us ->
  exists w s, opening_text path content w /\ dump_text (rd_metadata r) us s /\ dumpsubs sort files name args t = (t', Ok (mkExit 0 (w ++ s) [])).
Proof.
  intros H F R C. destruct (dump_writes sort (rd_metadata r) (rd_subtitles r) us C) as (s & D & T).
  destruct (opening path content) as (w & W & E).
  exists w, s. split; [exact W|]. split; [exact T|]. rewrite (program_reads args path content t H F). unfold st_bind. rewrite R. cbn. rewrite D, E. reflexivity.
Qed.
Lemma program_fails args path content t t' e : named_files args [path] -> files path = Some content ->
  (reader_factory path (Some content) t = (t', Throw e) \/
   exists r, reader_factory path (Some content) t = (t', Ok (Some r)) /\ collect sort (rd_subtitles r) = Throw e) ->
  dumpsubs sort files name args t = (t', Throw e).
Proof.
  intros H F [R|(r & R & C)]; rewrite (program_reads args path content t H F); unfold st_bind; rewrite R; [reflexivity|].
  cbn. now rewrite (proj1 (dump_fails sort (rd_metadata r) (rd_subtitles r)) e C).
Qed.
End Program.
