(** Subtitles can be taken out, put in and moved. *)
From Coq Require Import ZArith List Bool Ascii String Lia.
From Verif.Model Require Import Base Strings Float TimeModel Types Lines RawConvert Subrip WebVtt Ssa StlText.
From Verif.Spec Require Import Outcome TextSpec LinesSpec RawSpec SubripSpec StopSpec SubripUseSpec WebVttSpec SsaSpec StlTextSpec TextFileSpec JoinSpec CommentSpec TakeOutSpec.
From Verif.Proofs Require Import StringProofs LinesProofs SsaTextProofs SsaTagProofs SubripProofs SubripStopProofs SubripUseProofs WebVttProofs SsaProofs StlTextProofs TextFileProofs JoinProofs CommentProofs FileUseProofs.
Import ListNotations.
Local Notation length := List.length.

Lemma removable_movable read a c d b : removable read a c (d ++ b) -> removable read a d b -> removable read a c b -> removable read a d (c ++ b) ->
  movable read a c d b.
Proof.
  intros R1 R2 R3 R4 r H. apply R1 in H as (ra & rc & rdb & A & C & DB & ->).
  apply R2 in DB as (ra' & rd & rb & A' & D & B & E). rewrite A in A'. injection A' as <-. apply app_inv_head in E. subst rdb.
  exists ra, rc, rd, rb. split; [reflexivity|]. split; [exact C|]. split; [exact D|].
  apply R4. exists ra, rd, (rc ++ rb). split; [exact A|]. split; [exact D|]. split; [|reflexivity]. apply R3. exists ra, rc, rb. auto.
Qed.

(** * Readers of parts that are ended by empty lines *)

(** [part b rb]: what [b] adds, wherever it stands. *)
Lemma parts_removable read (part : str -> list raw -> Prop) a c b :
  (forall x y r, ends_blank x -> (read (x ++ y) = Ok r <-> exists rx ry, read x = Ok rx /\ part y ry /\ r = rx ++ ry)) ->
  (forall s r r', part s r -> part s r' -> r = r') ->
  ends_blank a -> ends_blank (a ++ c) -> removable read a c b.
Proof.
  intros J U E EC r. rewrite app_assoc, (J (a ++ c) b r EC). split.
  - intros (rac & rb & AC & B & ->). pose proof AC as AC'. apply (J a c rac E) in AC' as (ra & rc & A & C & ->).
    exists ra, rc, rb. split; [exact A|]. split; [exact AC|]. split; [|now rewrite app_assoc]. apply (J a b _ E). eauto.
  - intros (ra & rc & rb & A & AC & AB & ->). exists (ra ++ rc), rb. split; [exact AC|]. split; [|now rewrite app_assoc].
    apply (J a b _ E) in AB as (ra' & rb' & A' & B & G). rewrite A in A'. injection A' as <-. apply app_inv_head in G. now subst.
Qed.
Lemma ends_blank_app a c : ends_blank c -> ends_blank (a ++ c).
Proof. intros (x & [->| ->]); exists (a ++ x); [left|right]; now rewrite app_assoc. Qed.

Lemma read_part (read : str -> res (list raw)) s (r r' : list raw) : read s = Ok r -> read s = Ok r' -> r = r'.
Proof. congruence. Qed.
Lemma subrip_removable a c b : a = [] \/ ends_blank a -> ends_blank c -> removable subrip_reader_string a c b.
Proof.
  intros [->|E] EC.
  - intros r. cbn [app]. rewrite (subrip_joined c b r EC). split.
    + intros (rc & rb & C & B & ->). exists [], rc, rb. split; [reflexivity|]. auto.
    + intros (ra & rc & rb & A & C & B & ->). injection A as <-. exists rc, rb. auto.
  - apply (parts_removable _ (fun s r => subrip_reader_string s = Ok r)); [apply subrip_joined|apply read_part|exact E|now apply ends_blank_app].
Qed.
Lemma subrip_file_removable a c b : a = [] \/ ends_blank a -> ends_blank c -> removable subrip_reader_file a c b.
Proof.
  intros [->|E] EC.
  - intros r. cbn [app]. rewrite (subrip_file_joined c b r EC). split.
    + intros (rc & rb & C & B & ->). exists [], rc, rb. split; [reflexivity|]. auto.
    + intros (ra & rc & rb & A & C & B & ->). injection A as <-. exists rc, rb. auto.
  - apply (parts_removable _ (fun s r => subrip_reader_file s = Ok r)); [apply subrip_file_joined|apply read_part|exact E|now apply ends_blank_app].
Qed.
Lemma subrip_movable a c d b : a = [] \/ ends_blank a -> ends_blank c -> ends_blank d -> movable subrip_reader_string a c d b.
Proof. intros A C D. apply removable_movable; now apply subrip_removable. Qed.
Lemma subrip_file_movable a c d b : a = [] \/ ends_blank a -> ends_blank c -> ends_blank d -> movable subrip_reader_file a c d b.
Proof. intros A C D. apply removable_movable; now apply subrip_file_removable. Qed.

(** WebVTT: the part of a file after the header. *)
Definition vtt_part (s : str) (r : list raw) : Prop :=
  exists ls ls' cs rawss, text_lines s ls /\ Forall2 cleaned ls ls' /\ vtt_cues ls' cs /\ Forall2 vtt_subtitles cs rawss /\ r = List.concat rawss.
Lemma vtt_parts a b r : ends_blank a ->
  (vtt_reader_string (a ++ b) = Ok r <-> exists ra rb, vtt_reader_string a = Ok ra /\ vtt_part b rb /\ r = ra ++ rb).
Proof.
  intros E. destruct (joined_lines a b E) as (la & blank & lb & TA & NE & C & TB & T).
  destruct la as [|ha la]; [congruence|]. cbn [app] in TA, T.
  rewrite vtt_string_iff. setoid_rewrite vtt_string_iff. rewrite (vtt_lines_of_file _ _ T).
  setoid_rewrite (vtt_lines_of_file _ _ TA). setoid_rewrite vtt_lines_headed. split.
  - intros (ha' & L & cs & rawss & CA & HA & F & Q & S & ->). apply cleaned_joined in F as (la' & lb' & F1 & F2 & ->); [|exact C].
    destruct (vtt_split _ _ Q la' _ eq_refl) as (ca & cb & QA & QB & ->). apply Forall2_app_inv_l in S as (ra & rb & SA & SB & ->).
    exists (List.concat ra), (List.concat rb). split; [|split; [|apply concat_app]].
    + exists ha', (la' ++ [[]]), ca, ra. split; [exact CA|]. split; [exact HA|]. split; [apply Forall2_app; auto|]. auto.
    + exists lb, lb', cb, rb. auto 10.
  - intros (ra & rb & (ha' & LA & ca & ra' & CA & HA & FA & QA & SA & ->) & (lb2 & lb' & cb & rb' & TB2 & FB & QB & SB & ->) & ->).
    rewrite (file_lines _ _ _ TB2 TB) in FB.
    apply (cleaned_joined la blank [] LA) in FA as (la' & e & F1 & F2 & ->); [|exact C]. inversion F2; subst.
    exists ha', (la' ++ [] :: lb'), (ca ++ cb), (ra' ++ rb'). split; [exact CA|]. split; [exact HA|].
    split; [apply cleaned_joined; [exact C|]; eauto|].
    split; [now apply (vtt_join _ _ QA)|]. split; [now apply Forall2_app|]. symmetry. apply concat_app.
Qed.
Lemma vtt_part_read s r : vtt_part s r <-> vtt_reader_string (lit "WEBVTT" ++ lf :: lf :: s) = Ok r.
Proof.
  assert (B : ends_blank (lit "WEBVTT" ++ [lf; lf])) by (exists (lit "WEBVTT"); now left).
  change (lit "WEBVTT" ++ lf :: lf :: s) with ((lit "WEBVTT" ++ [lf; lf]) ++ s). rewrite (vtt_parts _ s r B). split.
  - intros H. exists [], r. split; [vm_compute; reflexivity|]. now split.
  - intros (ra & rb & A & H & ->). vm_compute in A. injection A as <-. exact H.
Qed.
Lemma vtt_part_unique s r r' : vtt_part s r -> vtt_part s r' -> r = r'.
Proof. rewrite !vtt_part_read. congruence. Qed.
Lemma vtt_removable a c b : ends_blank a -> ends_blank c -> removable vtt_reader_string a c b.
Proof. intros E EC. apply (parts_removable _ vtt_part); [exact vtt_parts|exact vtt_part_unique|exact E|now apply ends_blank_app]. Qed.
Lemma vtt_movable a c d b : ends_blank a -> ends_blank c -> ends_blank d -> movable vtt_reader_string a c d b.
Proof. intros A C D. apply removable_movable; now apply vtt_removable. Qed.
Lemma vtt_file_removable a c b : ends_blank a -> ends_blank c -> removable vtt_reader_file a c b.
Proof.
  intros H HC. destruct (file_chomped a) as (ba & la & _ & _ & Na & Fa). destruct (file_chomped b) as (bb & lb & Bb & Lb & Nb & Fb).
  destruct (file_chomped c) as (bc & lc & Bc & Lc & Nc & Fc).
  assert (S : forall s ls, Forall (fun l => ~ In lf l) ls -> Forall2 chomped (Lines.lines_of_file s) ls -> forall x, vtt_reader_file s = Ok x <-> vtt_reader_string (text_of_lines ls) = Ok x).
  { intros s ls N F. apply same_success_iff. unfold vtt_reader_file, vtt_reader_string. rewrite text_lines_of by exact N. apply vtt_lines_same. now apply chomped_clean. }
  assert (LA : forall s t, ends_blank s -> Lines.lines_of_file (s ++ t) = Lines.lines_of_file s ++ Lines.lines_of_file t).
  { intros s t Q. apply (file_lines_app (length s)); [lia|now apply blank_whole]. }
  intros r. rewrite (S (a ++ c ++ b) (la ++ lc ++ lb)); [|apply Forall_app; split; [|apply Forall_app]; auto|rewrite !LA by assumption; apply Forall2_app; [|apply Forall2_app]; auto].
  rewrite !text_of_app. rewrite (vtt_removable _ _ _ (blank_text _ _ H Na Fa) (blank_text _ _ HC Nc Fc) r).
  assert (G : forall x y z, (vtt_reader_file a = Ok x <-> vtt_reader_string (text_of_lines la) = Ok x) /\
    (vtt_reader_file (a ++ c) = Ok y <-> vtt_reader_string (text_of_lines la ++ text_of_lines lc) = Ok y) /\
    (vtt_reader_file (a ++ b) = Ok z <-> vtt_reader_string (text_of_lines la ++ text_of_lines lb) = Ok z)).
  { intros x y z. rewrite <- !text_of_app. split; [now apply S|]. split; apply S; try (apply Forall_app; now split); rewrite LA by assumption; now apply Forall2_app. }
  split; intros (ra & rc & rb & A & C & B & ->); exists ra, rc, rb; (split; [|split; [|split; [|reflexivity]]]); try (apply (G ra (ra ++ rc) (ra ++ rb)); assumption).
Qed.
Lemma vtt_file_movable a c d b : ends_blank a -> ends_blank c -> ends_blank d -> movable vtt_reader_file a c d b.
Proof. intros A C D. apply removable_movable; now apply vtt_file_removable. Qed.

(** * SSA *)

Definition with_subs (s : list raw) (f : ssa_reader) : ssa_reader :=
  mkSsa (sr_part f) (sr_res_x f) (sr_res_y f) (sr_styles f) (sr_style_format f) (sr_event_format f) s.
Lemma event_field_subs f s ev k v : event_field (with_subs s f) ev k v = event_field f ev k v.
Proof. destruct f, ev. reflexivity. Qed.
Lemma event_fields_subs f s kv : forall ev, event_fields (with_subs s f) ev kv = event_fields f ev kv.
Proof.
  induction kv as [|[k v] kv IH]; intros ev; [reflexivity|]. cbn [event_fields]. rewrite event_field_subs.
  destruct (event_field f ev k v); cbn [bind]; auto.
Qed.
Lemma dialogue_subs f s body : dialogue (with_subs s f) body = dialogue f body.
Proof.
  unfold dialogue. change (sr_event_format (with_subs s f)) with (sr_event_format f).
  destruct (sub_assert _); cbn [bind]; auto. destruct (reassemble _ _ _); cbn [bind]; auto.
  destruct (sub_assert _); cbn [bind]; auto. destruct (sub_assert _); cbn [bind]; auto. now rewrite event_fields_subs.
Qed.
Lemma ssa_line_subs f l f' : ssa_line f l = Ok f' -> exists d, sr_subs f' = sr_subs f ++ d /\ forall s, ssa_line (with_subs s f) l = Ok (with_subs (s ++ d) f').
Proof.
  assert (K : forall f1, sr_subs f1 = sr_subs f -> exists d, sr_subs f1 = sr_subs f ++ d /\ forall s, Ok (with_subs s f1) = Ok (with_subs (s ++ d) f1)).
  { intros f1 E. exists []. split; [now rewrite app_nil_r|]. intros s. now rewrite app_nil_r. }
  pose proof (fun s body => dialogue_subs f s body) as D.
  destruct f as [part rx ry styles sf ef subs]. unfold with_subs in *. cbn [sr_part sr_res_x sr_res_y sr_styles sr_style_format sr_event_format sr_subs] in *.
  unfold ssa_line. set (line := remove_unicode_bom (trim l)).
  destruct (starts_with line (lit ";") || is_nil line); [intros H; injection H as <-; now apply K|].
  destruct (starts_with line (lit "[")).
  { destruct (str_eqb line (lit "[Script Info]")); [intros H; injection H as <-; now apply K|].
    destruct (_ || _); [intros H; injection H as <-; now apply K|].
    destruct (str_eqb line (lit "[Events]")); intros H; injection H as <-; now apply K. }
  destruct (find_sub line (lit ":")) as [colon|]; [|discriminate]. destruct part.
  - destruct (str_eqb _ (lit "PlayResX")); [destruct (raw_convert_int _); cbn [bind]; intros H; [injection H as <-; now apply K|discriminate|discriminate]|].
    destruct (str_eqb _ (lit "PlayResY")); [destruct (raw_convert_int _); cbn [bind]; intros H; [injection H as <-; now apply K|discriminate|discriminate]|].
    intros H; injection H as <-; now apply K.
  - destruct (str_eqb _ (lit "Format")); [intros H; injection H as <-; now apply K|].
    destruct (str_eqb _ (lit "Style")); [|intros H; injection H as <-; now apply K].
    destruct (sub_assert _); cbn [bind]; [|discriminate|discriminate]. destruct (style_parse _ _); cbn [bind]; intros H; [injection H as <-; now apply K|discriminate|discriminate].
  - destruct (str_eqb _ (lit "Format")); [intros H; injection H as <-; now apply K|].
    destruct (str_eqb _ (lit "Dialogue")); [|intros H; injection H as <-; now apply K].
    destruct (dialogue _ _) as [out| |] eqn:O; cbn [bind]; intros H; [injection H as <-|discriminate|discriminate].
    exists out. split; [reflexivity|]. intros s. rewrite D, O. reflexivity.
Qed.
Lemma ssa_lines_subs ls : forall f f', ssa_lines f ls = Ok f' -> exists d, sr_subs f' = sr_subs f ++ d /\ forall s, ssa_lines (with_subs s f) ls = Ok (with_subs (s ++ d) f').
Proof.
  induction ls as [|l ls IH]; intros f f' H; cbn [ssa_lines] in *.
  - injection H as <-. exists []. split; [now rewrite app_nil_r|]. intros s. now rewrite app_nil_r.
  - destruct (ssa_line f l) as [f1| |] eqn:L; cbn [bind] in H; try discriminate. destruct (ssa_line_subs _ _ _ L) as (d1 & E1 & R1).
    destruct (IH _ _ H) as (d2 & E2 & R2). exists (d1 ++ d2). split; [now rewrite E2, E1, app_assoc|]. intros s. rewrite R1. cbn [bind]. now rewrite R2, app_assoc.
Qed.
Lemma with_own f : with_subs (sr_subs f) f = f.
Proof. now destruct f. Qed.
Lemma dialogue_line_only f l f' : (exists l', trimmed l l' /\ begins_with (lit "Dialogue:") l') -> ssa_line f l = Ok f' -> exists d, f' = with_subs (sr_subs f ++ d) f.
Proof.
  intros (l' & T & rest & ->) H. apply trim_iff in T. unfold ssa_line in H. rewrite T in H.
  replace (remove_unicode_bom (lit "Dialogue:" ++ rest)) with (lit "Dialogue:" ++ rest) in H by (symmetry; apply remove_no_bom; intros (x & G); discriminate G).
  destruct f as [part rx ry styles sf ef subs]. unfold with_subs. cbn [sr_part sr_res_x sr_res_y sr_styles sr_style_format sr_event_format sr_subs].
  replace (find_sub (lit "Dialogue:" ++ rest) (lit ":")) with (Some 8%nat) in H by (destruct rest; reflexivity). cbn -[dialogue trim] in H.
  destruct part; try (injection H as <-; exists []; now rewrite app_nil_r).
  destruct (dialogue _ _) as [out| |]; cbn [bind] in H; try discriminate. injection H as <-. now exists out.
Qed.
Lemma dialogue_lines_only ls : Forall (fun l => exists l', trimmed l l' /\ begins_with (lit "Dialogue:") l') ls ->
  forall f f', ssa_lines f ls = Ok f' -> exists d, f' = with_subs (sr_subs f ++ d) f.
Proof.
  induction 1 as [|l ls D F IH]; intros f f' H; cbn [ssa_lines] in H.
  - injection H as <-. exists []. now rewrite app_nil_r, with_own.
  - destruct (ssa_line f l) as [f1| |] eqn:L; cbn [bind] in H; try discriminate. destruct (dialogue_line_only _ _ _ D L) as (d1 & ->).
    destruct (IH _ _ H) as (d2 & ->). exists (d1 ++ d2). destruct f. unfold with_subs. cbn. now rewrite app_assoc.
Qed.
(** The part in the middle changes nothing but the subtitles so far. *)
Lemma ssa_read_removable la lc lb r : Forall (fun l => exists l', trimmed l l' /\ begins_with (lit "Dialogue:") l') lc ->
  (ssa_read (la ++ lc ++ lb) = Ok r <-> exists ra rc rb, ssa_read la = Ok ra /\ ssa_read (la ++ lc) = Ok (ra ++ rc) /\ ssa_read (la ++ lb) = Ok (ra ++ rb) /\ r = ra ++ rc ++ rb).
Proof.
  intros D. unfold ssa_read. rewrite !ssa_lines_app. destruct (ssa_lines ssa_init la) as [f|e|u]; cbn [bind];
    [|split; [discriminate|intros (? & ? & ? & ? & _); discriminate]|split; [discriminate|intros (? & ? & ? & ? & _); discriminate]].
  rewrite ssa_lines_app. split.
  - destruct (ssa_lines f lc) as [f1| |] eqn:C; cbn [bind]; try discriminate. destruct (dialogue_lines_only _ D _ _ C) as (rc & ->).
    destruct (ssa_lines (with_subs _ f) lb) as [f2| |] eqn:B; cbn [bind]; try discriminate. intros H. injection H as <-.
    destruct (ssa_lines_subs _ _ _ B) as (rb & E & R). exists (sr_subs f), rc, rb. split; [reflexivity|]. split; [reflexivity|].
    specialize (R (sr_subs f)). change (with_subs (sr_subs f) (with_subs (sr_subs f ++ rc) f)) with (with_subs (sr_subs f) f) in R. rewrite with_own in R. rewrite R.
    split; [reflexivity|]. rewrite E. cbn [with_subs sr_subs]. now rewrite app_assoc.
  - intros (ra & rc & rb & A & C & B & ->). injection A as <-.
    destruct (ssa_lines f lc) as [f1| |] eqn:CC; cbn [bind] in *; try discriminate. destruct (dialogue_lines_only _ D _ _ CC) as (rc' & ->).
    injection C as C. cbn [with_subs sr_subs] in C. apply app_inv_head in C. subst rc'.
    destruct (ssa_lines f lb) as [f2| |] eqn:BB; cbn [bind] in B; try discriminate. injection B as B.
    destruct (ssa_lines_subs _ _ _ BB) as (rb' & E & R). rewrite E in B. apply app_inv_head in B. subst rb'. rewrite R. cbn [bind with_subs sr_subs]. now rewrite app_assoc.
Qed.
Lemma ssa_removable a c b : whole_lines a -> dialogues c -> removable ssa_reader_string a c b.
Proof.
  intros W (lc & O & D) r. unfold ssa_reader_string. rewrite !string_lines_app; auto; [|exact (of_lines_whole _ _ O)].
  apply of_lines_lines, lines_of_string_iff in O. rewrite O. now apply ssa_read_removable.
Qed.
Lemma ssa_movable a c d b : whole_lines a -> dialogues c -> dialogues d -> movable ssa_reader_string a c d b.
Proof. intros A C D. apply removable_movable; now apply ssa_removable. Qed.

(** * Text STL *)

Fixpoint stlt_run (sub : raw) (subs : list raw) (ls : list str) : res (raw * list raw) :=
  match ls with
  | [] => Ok (sub, subs)
  | l :: t => let* x := stlt_line sub subs l in stlt_run (fst x) (snd x) t
  end.
Lemma stlt_lines_run ls : forall sub subs, stlt_lines sub subs ls = let* x := stlt_run sub subs ls in Ok (snd x).
Proof.
  induction ls as [|l ls IH]; intros sub subs; [reflexivity|]. cbn [stlt_lines stlt_run]. destruct (stlt_line sub subs l) as [[q qs]| |]; cbn [bind fst snd]; auto.
Qed.
Lemma stlt_run_app a : forall b sub subs, stlt_run sub subs (a ++ b) = let* x := stlt_run sub subs a in stlt_run (fst x) (snd x) b.
Proof.
  induction a as [|l a IH]; intros b sub subs; [reflexivity|]. cbn [app stlt_run]. destruct (stlt_line sub subs l) as [[q qs]| |]; cbn [bind fst snd]; auto.
Qed.
Lemma push_subs sub subs q qs : stlt_push sub subs = (q, qs) -> exists d, qs = subs ++ d /\ forall s, stlt_push sub s = (q, s ++ d).
Proof.
  unfold stlt_push. destruct (r_text sub); intros [= <- <-]; [exists []; split; [now rewrite app_nil_r|]; intros s; now rewrite app_nil_r|].
  exists [sub]. now split.
Qed.
Lemma bind_ok {A B : Type} (e : res A) (k : A -> res B) b : bind e k = Ok b -> exists a, e = Ok a /\ k a = Ok b.
Proof. destruct e; cbn [bind]; try discriminate. eauto. Qed.
Lemma text_subs n : forall t sub subs q qs, (length t <= n)%nat -> stlt_text t sub subs = Ok (q, qs) ->
  exists d, qs = subs ++ d /\ forall s, stlt_text t sub s = Ok (q, s ++ d).
Proof.
  induction n as [|n IH]; intros t sub subs q qs L; (destruct t as [|c t]; [cbn [stlt_text]; intros [= H];
    destruct (push_subs _ _ _ _ H) as (d & E & R); exists d; split; [exact E|]; intros s; now rewrite R|]); cbn [length] in L; [lia|].
  cbn [stlt_text]. destruct (stlt_push sub subs) as [sub' subs'] eqn:P. destruct (push_subs _ _ _ _ P) as (d1 & E1 & R1). destruct (Ascii.eqb c "|").
  - intros H. apply bind_ok in H. destruct H as (k & K & H). apply IH in H; [|lia]. destruct H as (d2 & E2 & R2).
    exists (d1 ++ d2). split; [now rewrite E2, E1, app_assoc|]. intros s. rewrite R1. rewrite K. cbn [bind]. now rewrite R2, app_assoc.
  - destruct (Ascii.eqb c "^").
    + destruct t as [|x t'].
      * intros [= H]. destruct (push_subs _ _ _ _ H) as (d2 & E2 & R2). exists (d1 ++ d2). split; [now rewrite E2, E1, app_assoc|].
        intros s. rewrite R1, R2. now rewrite app_assoc.
      * cbn [length] in L. cbv zeta. intros H. apply IH in H; [|lia]. destruct H as (d2 & E2 & R2).
        exists (d1 ++ d2). split; [now rewrite E2, E1, app_assoc|]. intros s. rewrite R1. now rewrite R2, app_assoc.
    + intros H. apply IH in H; [exact H|lia].
Qed.
Definition retimed (f t : time) (sub : raw) : raw := set_to t (set_from f sub).
Lemma retimed_twice f t f' t' sub : retimed f t (retimed f' t' sub) = retimed f t sub.
Proof. now destruct sub. Qed.
Lemma set_retimed f t sub name value q : stlt_set sub name value = Ok q -> stlt_set (retimed f t sub) name value = Ok (retimed f t q).
Proof.
  unfold stlt_set. destruct (str_eqb _ _); [intros [= <-]; now destruct sub|]. destruct (str_eqb _ _); [intros [= <-]; now destruct sub|].
  destruct (str_eqb _ _); [intros [= <-]; now destruct sub|]. destruct (str_eqb _ _); [intros [= <-]; now destruct sub|].
  destruct (str_eqb _ _); [|intros [= <-]; now destruct sub]. destruct (lexical_cast_int value); cbn [bind]; intros [= <-]. now destruct sub.
Qed.
(** A line with the same meaning whatever times are left from before. *)
Lemma line_retimed sub subs l q qs : stlt_line sub subs l = Ok (q, qs) ->
  exists d, qs = subs ++ d /\ forall f t s, exists f' t', stlt_line (retimed f t sub) s l = Ok (retimed f' t' q, s ++ d).
Proof.
  unfold stlt_line. cbv zeta.
  assert (K : forall x : raw, exists d, subs = subs ++ d /\ forall f t s, exists f' t', Ok (retimed f t x, s) = Ok (retimed f' t' x, s ++ d)).
  { intros x. exists []. split; [now rewrite app_nil_r|]. intros f t s. exists f, t. now rewrite app_nil_r. }
  destruct (starts_with _ _); [intros [= <- <-]; apply K|]. destruct (starts_with _ _).
  - destruct (split _ _) as [|name [|value [|x y]]]; try (intros [= <- <-]; apply K). intros H. apply bind_ok in H. destruct H as (x & S & H). injection H as <- <-.
    exists []. split; [now rewrite app_nil_r|]. intros f t s. rewrite (set_retimed f t _ _ _ _ S). cbn [bind]. exists f, t. now rewrite app_nil_r.
  - destruct (stlt_fields _) as [[[a b] text]|]; [|intros [= <- <-]; apply K]. intros H. apply bind_ok in H. destruct H as (from & F & H).
    apply bind_ok in H. destruct H as (to & T & H). rewrite F, T. cbn [bind]. destruct from as [from|], to as [to|]; try (injection H as <- <-; apply K).
    destruct (text_subs (length text) _ _ _ _ _ (le_n _) H) as (d & E & R). exists d. split; [exact E|]. intros f t s. exists (r_from q), (r_to q).
    replace (retimed (r_from q) (r_to q) q) with q by now destruct q. rewrite <- R. reflexivity.
Qed.
Lemma run_retimed ls : forall sub subs q qs, stlt_run sub subs ls = Ok (q, qs) ->
  exists d, qs = subs ++ d /\ forall f t s, exists f' t', stlt_run (retimed f t sub) s ls = Ok (retimed f' t' q, s ++ d).
Proof.
  induction ls as [|l ls IH]; intros sub subs q qs H; cbn [stlt_run] in H.
  - injection H as <- <-. exists []. split; [now rewrite app_nil_r|]. intros f t s. exists f, t. cbn. now rewrite app_nil_r.
  - apply bind_ok in H. destruct H as ([q1 qs1] & L & H). cbn [fst snd] in H. destruct (line_retimed _ _ _ _ _ L) as (d1 & E1 & R1).
    destruct (IH _ _ _ _ H) as (d2 & E2 & R2). exists (d1 ++ d2). split; [now rewrite E2, E1, app_assoc|]. intros f t s.
    destruct (R1 f t s) as (f1 & t1 & Q1). destruct (R2 f1 t1 (s ++ d1)) as (f2 & t2 & Q2). exists f2, t2. cbn [stlt_run]. rewrite Q1. cbn [bind fst snd].
    rewrite Q2. now rewrite app_assoc.
Qed.
(** Between subtitles. *)
Definition at_rest (sub : raw) : Prop := r_text sub = [] /\ v_line (r_vpos sub) = Some 0%Z.
Lemma push_rest sub subs : v_line (r_vpos sub) = Some 0%Z -> at_rest (fst (stlt_push sub subs)).
Proof. intros V. unfold stlt_push, at_rest. destruct sub as [t ? ? ? ? ? ? ? ? ? v ? ? ? ?]. cbn in V |- *. destruct t; cbn; [now split|]. destruct v; now split. Qed.
Lemma text_rest n : forall t sub subs q qs, (length t <= n)%nat -> ~ In "|"%char t -> v_line (r_vpos sub) = Some 0%Z -> stlt_text t sub subs = Ok (q, qs) -> at_rest q.
Proof.
  induction n as [|n IH]; intros t sub subs q qs L N V; (destruct t as [|c t]; [cbn [stlt_text]; intros [= H];
    rewrite <- (f_equal fst H : fst (stlt_push sub subs) = q); now apply push_rest|]); cbn [length] in L; [lia|].
  cbn [stlt_text]. destruct (Ascii.eqb_spec c "|") as [->|_]; [exfalso; apply N; now left|].
  assert (N' : ~ In "|"%char t) by (intros I; apply N; now right).
  destruct (Ascii.eqb c "^").
  - pose proof (push_rest sub subs V) as R. destruct (stlt_push sub subs) as [sub' subs']. cbn [fst] in R. destruct R as [R1 R2]. destruct t as [|x t'].
    + intros [= H]. rewrite <- (f_equal fst H : fst (stlt_push sub' subs') = q). now apply push_rest.
    + cbn [length] in L. cbv zeta. intros H. refine (IH _ _ _ _ _ _ _ _ H); [lia|intros I; apply N'; now right|].
      destruct (Ascii.eqb x "B"); [now destruct sub'|]. destruct (Ascii.eqb x "I"); [now destruct sub'|]. destruct (Ascii.eqb x "U"); now destruct sub'.
  - intros H. refine (IH _ _ _ _ _ _ _ _ H); [lia|exact N'|now destruct sub].
Qed.
Lemma trim_in c s : In c (trim s) -> In c s.
Proof.
  destruct (trim_iff s (trim s)) as [H _]. destruct (H eq_refl) as (a & b & E & _). intros I. rewrite E. rewrite !in_app_iff. auto.
Qed.
Lemma fields_text l a b text : stlt_fields l = Some (a, b, text) -> forall c, In c text -> In c l.
Proof.
  unfold stlt_fields. destruct (find_sub l (lit ",")) as [d0|]; [|discriminate]. destruct (find_sub _ _) as [d1|]; [|discriminate]. cbv zeta.
  destruct (_ || _); [discriminate|]. intros [= _ _ <-] c I. rewrite <- (firstn_skipn (d0 + 1 + d1 + 1) l). rewrite in_app_iff. now right.
Qed.
(** A text without carets that does not end in a bar leaves nothing. *)
Definition row_closed (t : str) : Prop := ~ exists x, t = x ++ ["|"%char].
Lemma plain_text t : ~ In "^"%char t -> row_closed t -> forall sub subs q qs, t <> [] \/ r_text sub <> [] \/ v_line (r_vpos sub) = Some 0%Z ->
  stlt_text t sub subs = Ok (q, qs) -> q = set_line (Some 0%Z) (set_text [] sub).
Proof.
  induction t as [|c t IH]; intros N C sub subs q qs V.
  - cbn [stlt_text]. intros [= H]. unfold stlt_push in H. destruct sub as [x ? ? ? ? ? ? ? ? ? v ? ? ? ?]. cbn in V, H |- *. destruct x; injection H as <- <-; [|reflexivity].
    destruct V as [V|[V|V]]; try congruence. destruct v as [? ? ? ?]. cbn in *. now subst.
  - cbn [stlt_text]. assert (N' : ~ In "^"%char t) by (intros I; apply N; now right).
    assert (C' : row_closed t) by (intros (x & ->); apply C; now exists (c :: x)).
    destruct (Ascii.eqb_spec c "|") as [->|_].
    + assert (T : t <> []) by (intros ->; apply C; now exists []). destruct (stlt_push sub subs) as [sub' subs'] eqn:P. intros H.
      apply bind_ok in H. destruct H as (n & _ & H). apply IH in H; [|exact N'|exact C'|now left]. rewrite H.
      unfold stlt_push in P. destruct sub as [x ? ? ? ? ? ? ? ? ? v ? ? ? ?]. cbn in P. now destruct x; injection P as <- <-.
    + destruct (Ascii.eqb_spec c "^") as [->|_]; [exfalso; apply N; now left|]. intros H. apply IH in H; [rewrite H; now destruct sub|exact N'|exact C'|].
      right. left. destruct sub as [x ? ? ? ? ? ? ? ? ? v ? ? ? ?]. cbn. destruct x; discriminate.
Qed.
Lemma fields_closed l l' a b text : trimmed l l' -> ~ open_row l -> stlt_fields l' = Some (a, b, text) -> text <> [] /\ row_closed text.
Proof.
  unfold stlt_fields. intros T O. destruct (find_sub l' (lit ",")) as [d0|]; [|discriminate]. destruct (find_sub _ _) as [d1|]; [|discriminate]. cbv zeta.
  destruct (_ || _) eqn:E; [discriminate|]. intros [= _ _ <-]. apply orb_false_elim in E. destruct E as [_ E]. apply Nat.leb_gt in E.
  split; [intros G; apply (f_equal (@length ascii)) in G; rewrite skipn_length in G; cbn [length] in G; lia|].
  intros (x & G). apply O. exists (firstn (d0 + 1 + d1 + 1) l' ++ x). rewrite <- app_assoc, <- G. now rewrite firstn_skipn.
Qed.
Definition closed_line (l : str) : Prop := ~ In "|"%char l \/ ~ In "^"%char l /\ ~ open_row l.
Lemma line_rest sub subs l q qs : at_rest sub -> closed_line l -> stlt_line sub subs l = Ok (q, qs) -> at_rest q.
Proof.
  intros [R1 R2] N. unfold stlt_line. cbv zeta. destruct (starts_with _ _); [intros [= <- <-]; now split|]. destruct (starts_with _ _).
  - destruct (split _ _) as [|name [|value [|x y]]]; try (intros [= <- <-]; now split). intros H. apply bind_ok in H. destruct H as (s & S & H). injection H as <- <-.
    unfold stlt_set in S. destruct (str_eqb (trim name) _); [injection S as <-; destruct sub; now split|]. destruct (str_eqb (trim name) _); [injection S as <-; destruct sub; now split|].
    destruct (str_eqb (trim name) _); [injection S as <-; destruct sub; now split|]. destruct (str_eqb (trim name) _); [injection S as <-; destruct sub; now split|].
    destruct (str_eqb (trim name) _); [|injection S as <-; destruct sub; now split]. apply bind_ok in S. destruct S as (v & _ & S). injection S as <-. destruct sub; now split.
  - destruct (stlt_fields _) as [[[a b] text]|] eqn:FS; [|intros [= <- <-]; now split]. intros H. apply bind_ok in H. destruct H as (from & F & H).
    apply bind_ok in H. destruct H as (to & T & H). destruct from as [from|], to as [to|]; try (injection H as <- <-; now split).
    destruct N as [N|[N1 N2]].
    + refine (text_rest (length text) _ _ _ _ _ (le_n _) _ _ H); [|now destruct sub]. intros I. apply N. apply trim_in. exact (fields_text _ _ _ _ FS _ I).
    + destruct (fields_closed l (trim l) _ _ _ (proj1 (trim_iff _ _) eq_refl) N2 FS) as [NE RC].
      apply plain_text in H; [|intros I; apply N1, trim_in; exact (fields_text _ _ _ _ FS _ I)|exact RC|now left]. rewrite H. destruct sub as [? ? ? ? ? ? ? ? ? ? [? ? ? ?] ? ? ? ?]. now split.
Qed.
Lemma run_rest ls : Forall closed_line ls -> forall sub subs q qs, at_rest sub -> stlt_run sub subs ls = Ok (q, qs) -> at_rest q.
Proof.
  induction 1 as [|l ls N F IH]; intros sub subs q qs R H; cbn [stlt_run] in H; [now injection H as <- <-|].
  apply bind_ok in H. destruct H as ([q1 qs1] & L & H). eapply IH; [|exact H]. eapply line_rest; eassumption.
Qed.
(** A plain line only leaves its times. *)
Definition plain_line (l : str) : Prop := ~ In "$"%char l /\ ~ In "^"%char l /\ ~ open_row l.
Lemma plain_line_times sub subs l q qs : at_rest sub -> plain_line l -> stlt_line sub subs l = Ok (q, qs) -> exists f t, q = retimed f t sub.
Proof.
  intros [R1 R2] (N1 & N2 & N3). assert (K : exists f t, sub = retimed f t sub) by (exists (r_from sub), (r_to sub); now destruct sub).
  unfold stlt_line. cbv zeta. destruct (starts_with _ _); [intros [= <- <-]; exact K|]. destruct (starts_with (trim l) (lit "$")) eqn:D.
  - exfalso. apply N1. apply trim_in. apply starts_with_iff in D as (x & ->). now left.
  - destruct (stlt_fields _) as [[[a b] text]|] eqn:FS; [|intros [= <- <-]; exact K]. intros H. apply bind_ok in H. destruct H as (from & F & H).
    apply bind_ok in H. destruct H as (to & T & H). destruct from as [from|], to as [to|]; try (injection H as <- <-; exact K).
    destruct (fields_closed l (trim l) _ _ _ (proj1 (trim_iff _ _) eq_refl) N3 FS) as [NE RC].
    apply plain_text in H; [|intros I; apply N2, trim_in; exact (fields_text _ _ _ _ FS _ I)|exact RC|now left].
    exists from, to. rewrite H. destruct sub as [? ? ? ? ? ? ? ? ? ? [? ? ? ?] ? ? ? ?]. cbn in R1, R2. now subst.
Qed.
Lemma plain_run ls : Forall plain_line ls -> forall sub subs q qs, at_rest sub -> stlt_run sub subs ls = Ok (q, qs) -> exists f t, q = retimed f t sub.
Proof.
  induction 1 as [|l ls P F IH]; intros sub subs q qs R H; cbn [stlt_run] in H.
  - injection H as <- <-. exists (r_from sub), (r_to sub). now destruct sub.
  - apply bind_ok in H. destruct H as ([q1 qs1] & L & H). cbn [fst snd] in H. assert (R1 : at_rest q1) by (eapply line_rest; [exact R|right; split; apply P|exact L]).
    destruct (plain_line_times _ _ _ _ _ R P L) as (f1 & t1 & ->). destruct (IH _ _ _ _ R1 H) as (f2 & t2 & ->). exists f2, t2. apply retimed_twice.
Qed.
Lemma stl_text_removable good a c b : closed_stl_lines a -> plain_stl_lines c -> removable (stl_text_read good) a c b.
Proof.
  intros (la & W & NA) (lc & O & P) r. unfold stl_text_read. destruct good.
  2:{ split; [intros [= <-]; exists [], [], []; auto|]. intros (ra & rc & rb & A & C & B & ->). injection A as <-. injection C as C. injection B as B. cbn in C, B. now subst. }
  rewrite !getlines_join; try exact (of_lines_whole _ _ O); try exact (of_lines_whole _ _ W).
  apply of_lines_complete, (getlines_iff (length c)) in O; [|lia]. rewrite O.
  apply of_lines_complete, (getlines_iff (length a)) in W; [|lia]. rewrite W.
  set (lb := getlines (length b) b). clearbody lb. clear O W a b.
  set (s0 := set_vref _ _). assert (R0 : at_rest s0) by now split. clearbody s0. rewrite !stlt_lines_run, !stlt_run_app.
  destruct (stlt_run s0 [] la) as [[s1 ra1]|e|u] eqn:A; cbn [bind fst snd];
    [|split; [discriminate|intros (? & ? & ? & ? & _); discriminate]|split; [discriminate|intros (? & ? & ? & ? & _); discriminate]].
  pose proof (run_rest _ NA _ _ _ _ R0 A) as R1. rewrite stlt_run_app. split.
  - destruct (stlt_run s1 ra1 lc) as [[s2 rc1]| |] eqn:C; cbn [bind fst snd]; try discriminate.
    destruct (plain_run _ P _ _ _ _ R1 C) as (f & t & ->). destruct (run_retimed _ _ _ _ _ C) as (rc & -> & _).
    destruct (stlt_run _ _ lb) as [[s3 rb1]| |] eqn:B; cbn [bind snd]; try discriminate. intros [= <-].
    destruct (run_retimed _ _ _ _ _ B) as (rb & -> & R). destruct (R (r_from s1) (r_to s1) ra1) as (f' & t' & Q).
    rewrite retimed_twice in Q. replace (retimed (r_from s1) (r_to s1) s1) with s1 in Q by now destruct s1.
    exists ra1, rc, rb. rewrite Q. cbn [bind snd]. rewrite app_assoc. auto.
  - intros (ra & rc & rb & [= <-] & C & B & ->). destruct (stlt_run s1 ra1 lc) as [[s2 rc1]| |] eqn:CC; cbn [bind fst snd] in *; try discriminate. injection C as ->.
    destruct (plain_run _ P _ _ _ _ R1 CC) as (f & t & ->).
    destruct (stlt_run s1 ra1 lb) as [[s3 rb1]| |] eqn:BB; cbn [bind fst snd] in *; try discriminate. injection B as ->.
    destruct (run_retimed _ _ _ _ _ BB) as (rb' & E & R). apply app_inv_head in E. subst rb'. destruct (R f t (ra1 ++ rc)) as (f' & t' & Q). rewrite Q. cbn [bind snd].
    now rewrite app_assoc.
Qed.
Lemma stl_text_movable good a c d b : closed_stl_lines a -> plain_stl_lines c -> plain_stl_lines d -> movable (stl_text_read good) a c d b.
Proof. intros A C D. apply removable_movable; now apply stl_text_removable. Qed.
