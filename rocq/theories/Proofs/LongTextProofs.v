(** Text of several blocks, written and read back. *)
From Coq Require Import ZArith List Bool Ascii String Lia.
From Verif.Model Require Import Base Strings Float TimeModel Types Iso6937 StlBinReader StlBinWriter.
From Verif.Spec Require Import Outcome TextSpec Utf8Spec Iso6937Spec StlFileSpec StlWriteSpec StlRoundTripSpec.
From Verif.Proofs Require Import TimeProofs StringProofs Iso6937Proofs UtfProofs StlReadProofs StlRowProofs StlWriterProofs StlFileProofs StlUseProofs StlRoundTripProofs.
Import ListNotations.
Local Open Scope Z_scope.
Local Notation length := List.length.

Definition is_code (c : Z) : Prop := 0x80 <= c <= 0x83 \/ c = nl \/ c = 0x8F.
(** Bytes with the characters that are in them, codes left out. *)
Inductive run : list Z -> list Z -> Prop :=
| run_end : run [] []
| run_code c bs w : is_code c -> run bs w -> run (c :: bs) w
| run_one b part bs w : ~ is_code b -> complete [b] part -> run bs w -> run (b :: bs) (part ++ w)
| run_two a b part bs w : is_accent_byte a -> ~ is_code b -> complete [a; b] part -> run bs w -> run (a :: b :: bs) (part ++ w).

Lemma run_split t rest w : run (t ++ rest) w -> (forall p a, t = p ++ [a] -> ~ is_accent_byte a) \/ (exists c q, rest = c :: q /\ is_code c) ->
  exists w1 w2, run t w1 /\ run rest w2 /\ w = w1 ++ w2.
Proof.
  assert (G : forall n t rest w, (length t <= n)%nat -> run (t ++ rest) w -> (forall p a, t = p ++ [a] -> ~ is_accent_byte a) \/ (exists c q, rest = c :: q /\ is_code c) ->
    exists w1 w2, run t w1 /\ run rest w2 /\ w = w1 ++ w2).
  { clear. induction n as [|n IH]; intros t rest w L R H; destruct t as [|x t]; try (cbn in L; lia).
    - exists [], w. split; [constructor|]. now split.
    - exists [], w. split; [constructor|]. now split.
    - cbn [app] in R. cbn [length] in L.
      assert (H' : forall y t', t = y :: t' \/ t = t' -> (forall p a, t' = p ++ [a] -> ~ is_accent_byte a) \/ (exists c q, rest = c :: q /\ is_code c)).
      { intros y t' E. destruct H as [H|H]; [left|now right]. intros p a ->. destruct E as [-> | ->]; [apply (H (x :: y :: p) a)|apply (H (x :: p) a)]; reflexivity. }
      inversion R as [|? ? w' C R'|? part ? w' C CP R'|? b part bs w' A C CP R']; subst.
      + destruct (IH t rest w) as (w1 & w2 & R1 & R2 & ->); [lia|exact R'|apply (H' 0 t); now right|]. exists w1, w2. split; [now constructor|]. now split.
      + destruct (IH t rest w') as (w1 & w2 & R1 & R2 & ->); [lia|exact R'|apply (H' 0 t); now right|]. exists (part ++ w1), w2. split; [now constructor|]. split; [exact R2|apply app_assoc].
      + match goal with E0 : _ :: _ = t ++ rest |- _ => rename E0 into EL end. destruct t as [|y t].
        * cbn [app] in *. exfalso. destruct H as [H|(c & q & -> & K)]; [now apply (H [] x)|]. injection EL as -> _. contradiction.
        * cbn [app] in EL. injection EL as -> ->. destruct (IH t rest w') as (w1 & w2 & R1 & R2 & ->); [cbn in L; lia|exact R'|apply (H' y t); now left|].
          exists (part ++ w1), w2. split; [now constructor|]. split; [exact R2|apply app_assoc]. }
  intros R H. now apply (G (length t) t rest w).
Qed.

Lemma run_plain p w : run p w -> plain_text p -> ~ In nl p -> complete p w.
Proof.
  induction 1 as [|c bs w C R IH|b part bs w C CP R IH|a b part bs w A C CP R IH]; intros P N; [exact complete_nil| | |].
  - exfalso. inversion P as [|? ? P1 _]; subst. destruct C as [C|[C|C]]; [lia| |lia]. subst. apply N. now left.
  - apply (complete_app [b] bs); [exact CP|]. inversion P; subst. apply IH; [assumption|]. intros I. apply N. now right.
  - apply (complete_app [a; b] bs); [exact CP|]. inversion P as [|? ? _ P']; subst. inversion P'; subst. apply IH; [assumption|]. intros I. apply N. right. now right.
Qed.

(** After an end mark there are only end marks. *)
Definition ended (t : list Z) : Prop := forall p q, t = p ++ 0x8F :: q -> Forall (eq 0x8F) q.
Lemma ended_right a b : ended (a ++ b) -> ended b.
Proof. intros E p q ->. apply (E (a ++ p) q). now rewrite <- app_assoc. Qed.
Lemma ended_left a b : ended (a ++ b) -> ended a.
Proof.
  intros E p q ->. specialize (E p (q ++ b)). rewrite <- app_assoc in E. specialize (E eq_refl). now apply Forall_app in E.
Qed.
Lemma fill_run q w : Forall (eq 0x8F) q -> run q w -> w = [].
Proof.
  intros F R. induction R as [|c bs w C R IH|b part bs w C CP R IH|a b part bs w A C CP R IH]; [reflexivity| | |].
  - inversion F; subst. now apply IH.
  - exfalso. inversion F; subst. apply C. unfold is_code. lia.
  - exfalso. inversion F; subst. unfold is_accent_byte in A. lia.
Qed.

Lemma code_here p c q w : run (p ++ c :: q) w -> is_code c -> exists w1 w2, run p w1 /\ run q w2 /\ w = w1 ++ w2.
Proof.
  intros R C. destruct (run_split p (c :: q) w R) as (w1 & w2 & R1 & R2 & ->); [right; now exists c, q|].
  exists w1, w2. split; [exact R1|]. split; [|reflexivity]. inversion R2 as [|? ? w' _ R'|? part ? w' C' CP R'|? b part bs w' A C' CP R']; subst; [exact R'|contradiction|].
  exfalso. unfold is_code, is_accent_byte, nl in *. lia.
Qed.

Lemma row_runs s bs ps s' : row_pieces s bs ps s' -> forall w parts, run bs w -> ~ In nl bs -> ended bs -> Forall (fun b => 8 <= b) bs ->
  Forall2 (fun p => decodes None (snd p)) ps parts -> List.concat parts = w.
Proof.
  assert (G : forall (s : style) p w parts, run p w -> plain_text p -> ~ In nl p -> Forall2 (fun p => decodes None (snd p)) (if is_nil p then [] else [(s, p)]) parts -> List.concat parts = w).
  { intros s0 p w parts R P N F. pose proof (complete_decodes p w (run_plain p w R P N)) as D. destruct p as [|x p]; cbn [is_nil] in F.
    - inversion F; subst. inversion D; subst; reflexivity.
    - inversion F as [|? v ? ? D' F']; subst. inversion F'; subst. cbn [List.concat]. rewrite app_nil_r. exact (decodes_deterministic None _ _ D' _ D). }
  induction 1 as [s p PT|s p rest PT|s s' s'' p c rest ps PT C _ IH]; intros w parts R N E L F.
  - now apply (G s p).
  - destruct (code_here p 0x8F rest w R) as (w1 & w2 & R1 & R2 & ->); [unfold is_code; lia|]. rewrite (fill_run rest w2 (E p rest eq_refl) R2), app_nil_r.
    apply (G s p); try assumption. intros I. apply N. apply in_or_app. now left.
  - assert (K : is_code c). { apply Forall_app in L. destruct L as [_ L]. inversion L as [|? ? L1 _]; subst. unfold is_code. inversion C as [? rgb old i u I| | | |]; subst; try lia. exfalso. cbn in I. repeat (destruct I as [I|I]; [injection I as I _; lia|]). destruct I. }
    destruct (code_here p c rest w R K) as (w1 & w2 & R1 & R2 & ->). inversion F as [|? v ? vs D F']; subst. cbn [List.concat snd] in *. f_equal.
    + refine (decodes_deterministic None _ _ D _ (complete_decodes p w1 (run_plain p w1 R1 PT _))). intros I. apply N. apply in_or_app. now left.
    + apply IH; try assumption.
      * intros I. apply N. apply in_or_app. right. now right.
      * apply (ended_right (p ++ [c])). now rewrite <- app_assoc.
      * apply Forall_app in L. destruct L as [_ L]. now inversion L.
Qed.

Lemma rows_runs row i u rows ps : rows_pieces row i u rows ps -> rows <> [] -> forall w parts, run (zjoin rows) w -> Forall (fun r => ~ In nl r) rows -> ended (zjoin rows) ->
  Forall (fun b => 8 <= b) (zjoin rows) -> Forall2 (fun p => decodes None (snd p)) ps parts -> List.concat parts = w.
Proof.
  induction 1 as [row i u|row i u bs rest ps s ps' R RS IH]; intros NE w parts RN N E L F; [now contradiction NE|].
  inversion N as [|? ? N1 N2]; subst. apply Forall2_app_inv_l in F. destruct F as (f1 & f2 & F1 & F2 & ->). rewrite concat_app.
  assert (F1' : Forall2 (fun p => decodes None (snd p)) ps f1).
  { clear - F1. remember (map _ ps) as m eqn:M. revert ps M. induction F1 as [|x y l l' D F IH]; intros [|p ps] M; try discriminate M; constructor; injection M as -> ->; [exact D|now apply IH]. }
  destruct rest as [|r rest].
  - inversion RS; subst. inversion F2; subst. cbn [List.concat zjoin] in *. rewrite app_nil_r. exact (row_runs _ _ _ _ R w f1 RN N1 E L F1').
  - change (zjoin (bs :: r :: rest)) with (bs ++ nl :: zjoin (r :: rest)) in *. destruct (code_here _ _ _ _ RN) as (w1 & w2 & R1 & R2 & ->); [right; now left|].
    apply Forall_app in L. destruct L as [L1 L2]. inversion L2; subst. f_equal.
    + exact (row_runs _ _ _ _ R w1 f1 R1 N1 (ended_left _ _ E) L1 F1').
    + apply IH; try assumption; [discriminate|]. apply (ended_right (bs ++ [nl])). now rewrite <- app_assoc.
Qed.

Lemma written_run c bs rest w : written c bs -> ~ lone_mark c -> run rest w -> exists part, survives c part /\ run (bs ++ rest) (part ++ w).
Proof.
  intros W NL R. destruct (written_bytes c bs W) as [P L]. destruct (written_complete c bs W NL) as (part & S & C). exists part. split; [exact S|].
  assert (NC : forall b, In b bs -> ~ is_code b). { intros b I. rewrite Forall_forall in P. specialize (P b I). unfold plain_byte in P. unfold is_code, nl. lia. }
  destruct bs as [|a [|b [|c' bs]]]; [|apply run_one; [apply NC; now left|exact C|exact R]| |cbn in L; lia].
  - rewrite (complete_empty part C). exact R.
  - apply run_two; [|apply NC; right; now left|exact C|exact R]. assert (G : exists d, glyph [a; b] d).
    { inversion W; subst; eauto. }
    destruct G as (d & G). inversion G as [| | |? m ? ? A]; subst. cbn in A. unfold is_accent_byte. repeat (destruct A as [A|A]; [injection A as <- _; lia|]). destruct A.
Qed.

Fixpoint chars (its : list item) : list Z :=
  match its with [] => [] | Char c :: its => c :: chars its | _ :: its => chars its end.
Lemma chars_app a b : chars (a ++ b) = chars a ++ chars b.
Proof. induction a as [|[| |c] a IH]; cbn; [reflexivity|exact IH|exact IH|now rewrite IH]. Qed.
Lemma chars_chars w : chars (map Char w) = w.
Proof. induction w as [|c w IH]; cbn; [reflexivity|now rewrite IH]. Qed.
Lemma chars_breaks k : chars (repeat Break k) = [].
Proof. induction k; cbn; auto. Qed.

Definition coded_byte (b : Z) : Prop := 8 <= b /\ b <> 0x8F.
Lemma change_run a b on off bs w : is_code on -> is_code off -> run bs w -> run (change a b on off ++ bs) w.
Proof. intros A B R. destruct a, b; cbn [change app]; try exact R; now apply run_code. Qed.
Lemma change_bytes a b on off : coded_byte on -> coded_byte off -> Forall coded_byte (change a b on off).
Proof. intros A B. destruct a, b; cbn; auto using Forall_nil, Forall_cons. Qed.

Lemma coded_run i u its bs : coded i u its bs -> no_marks its ->
  exists w parts, run bs w /\ Forall2 survives (chars its) parts /\ w = List.concat parts /\ exists front, bs = front ++ [0x8F] /\ Forall coded_byte front.
Proof.
  assert (K : is_code 0x80 /\ is_code 0x81 /\ is_code 0x82 /\ is_code 0x83 /\ is_code 0x8F) by (unfold is_code; lia). destruct K as (K0 & K1 & K2 & K3 & KF).
  assert (C : coded_byte 0x80 /\ coded_byte 0x81 /\ coded_byte 0x82 /\ coded_byte 0x83 /\ coded_byte 0x8A) by (unfold coded_byte; lia). destruct C as (C0 & C1 & C2 & C3 & CA).
  induction 1 as [i u|i u its bs C IH|i u i' u' its bs C IH|i u c cs its bs W C IH]; intros N.
  - exists [], []. split; [apply change_run; try assumption; apply change_run; try assumption; apply run_code; [exact KF|constructor]|]. split; [constructor|]. split; [reflexivity|].
    exists (change u false 0x82 0x83 ++ change i false 0x80 0x81). split; [apply app_assoc|]. apply Forall_app. split; now apply change_bytes.
  - destruct IH as (w & parts & R & S & E & front & -> & F); [intros c I; apply N; now right|]. exists w, parts. split; [apply run_code; [right; now left|exact R]|]. split; [exact S|]. split; [exact E|].
    exists (0x8A :: front). split; [reflexivity|]. now constructor.
  - destruct IH as (w & parts & R & S & E & front & -> & F); [intros c I; apply N; now right|]. exists w, parts.
    split; [apply change_run; try assumption; now apply change_run|]. split; [exact S|]. split; [exact E|].
    exists (change u u' 0x82 0x83 ++ change i i' 0x80 0x81 ++ front). split; [now rewrite <- !app_assoc|]. apply Forall_app. split; [now apply change_bytes|]. apply Forall_app. split; [now apply change_bytes|exact F].
  - destruct IH as (w & parts & R & S & E & front & -> & F); [intros c' I; apply N; now right|]. destruct (written_run c cs _ w W (N c (or_introl eq_refl)) R) as (part & SU & R').
    exists (part ++ w), (part :: parts). split; [exact R'|]. split; [now constructor|]. split; [cbn; now rewrite E|]. exists (cs ++ front). split; [apply app_assoc|]. apply Forall_app. split; [|exact F].
    destruct (written_bytes c cs W) as [P _]. eapply Forall_impl; [|exact P]. intros b B. unfold plain_byte in B. unfold coded_byte. lia.
Qed.

Lemma front_ended front k : Forall coded_byte front -> ended (front ++ repeat 0x8F k).
Proof.
  intros F. induction F as [|b front [_ B] F IH]; intros p q E.
  - cbn [app] in E. assert (X : Forall (eq 0x8F) (p ++ 0x8F :: q)). { rewrite <- E. apply Forall_forall. intros x I. now apply repeat_spec in I. }
    apply Forall_app in X. destruct X as [_ X]. now inversion X.
  - destruct p as [|x p]; [cbn in E; congruence|]. cbn [app] in E. injection E as _ E. exact (IH p q E).
Qed.
Definition chunk_ok (t : list Z) : Prop := ended t /\ Forall (fun b => 8 <= b) t.

Lemma fill_after t w k : run t w -> run (t ++ repeat 0x8F k) w.
Proof.
  assert (K : is_code 0x8F) by (unfold is_code; lia).
  induction 1 as [|c bs w C R IH|b part bs w C CP R IH|a b part bs w A C CP R IH]; cbn [app].
  - induction k; cbn; [constructor|now apply run_code].
  - now apply run_code.
  - now apply run_one.
  - now apply run_two.
Qed.

Lemma chunks_run k t cs : chunked k t cs -> forall front w, t = front ++ [0x8F] -> Forall coded_byte front -> run t w ->
  Forall (fun c => forall p a, snd c = p ++ [a] -> ~ is_accent_byte a) cs ->
  exists ws, Forall2 (fun c v => run (snd c) v /\ chunk_ok (snd c)) cs ws /\ w = List.concat ws.
Proof.
  induction 1 as [k t N L|k t rest cs L N C IH]; intros front w E F R A.
  - exists [w]. split; [|cbn; now rewrite app_nil_r]. constructor; [|constructor]. cbn [snd]. split; [now apply fill_after|]. rewrite E. split.
    + rewrite <- app_assoc. exact (front_ended front (S _) F).
    + rewrite <- app_assoc. apply Forall_app. split; [eapply Forall_impl; [|exact F]; intros b [B _]; exact B|]. constructor; [lia|]. apply Forall_forall. intros x I. apply repeat_spec in I. subst. lia.
  - inversion A as [|? ? A1 A2]; subst. cbn [snd] in A1. destruct (run_split t rest w R (or_introl A1)) as (w1 & w2 & R1 & R2 & ->).
    assert (X : exists front', rest = front' ++ [0x8F] /\ front = t ++ front').
    { destruct (exists_last N) as (front' & x & ->). rewrite app_assoc in E. apply app_inj_tail in E. destruct E as [<- ->]. now exists front'. }
    destruct X as (front' & -> & ->). apply Forall_app in F. destruct F as [F1 F2].
    destruct (IH front' w2 eq_refl F2 R2 A2) as (ws & G & ->). exists (w1 :: ws). split; [|reflexivity]. constructor; [|exact G]. cbn [snd]. split; [exact R1|]. split.
    + pose proof (front_ended t 0 F1) as X. cbn [repeat] in X. now rewrite app_nil_r in X.
    + eapply Forall_impl; [|exact F1]. intros b [B _]. exact B.
Qed.

Lemma char_code_eq a b : char_code a = char_code b -> a = b.
Proof. unfold char_code. intros H. apply Nat2Z.inj in H. rewrite <- (ascii_nat_embedding a), <- (ascii_nat_embedding b). now rewrite H. Qed.
Lemma join_bytes rows : bytes (join [ascii_of_nat 0x8A] rows) = zjoin (map bytes rows).
Proof.
  induction rows as [|r [|r' rows] IH]; [reflexivity|reflexivity|].
  change (bytes (r ++ ascii_of_nat 0x8A :: join [ascii_of_nat 0x8A] (r' :: rows)) = bytes r ++ nl :: zjoin (map bytes (r' :: rows))).
  rewrite <- IH. unfold bytes. rewrite map_app. reflexivity.
Qed.

Lemma app_inv_length {A : Type} (a b c d : list A) : a ++ b = c ++ d -> length a = length c -> a = c /\ b = d.
Proof.
  revert c. induction a as [|x a IH]; intros [|y c] E L; cbn in *; try lia; [now split|]. injection E as -> E. destruct (IH c E) as [-> ->]; [lia|now split].
Qed.

Lemma pieces_decode g from to just ps rs : Forall2 (piece_raw g from to just) ps rs ->
  exists parts, Forall2 (fun p => decodes None (snd p)) ps parts /\ Forall2 (fun r t => utf8 (r_text r) t) rs parts.
Proof.
  induction 1 as [|[[row s] bs] r ps rs (w & text & D & U & ->) _ (parts & F & G)]; [exists []; split; constructor|].
  exists (w :: parts). split; constructor; assumption.
Qed.

Lemma block_text_back g b pre chunk rs last v : map char_code b = pre ++ 0 :: chunk -> length pre = 15%nat -> length chunk = 112%nat -> block_read g b rs last ->
  run chunk v -> chunk_ok chunk -> raws_text rs v.
Proof.
  intros E LP LC B R (EN & L8). inversion B as [LB BY|from to top just text rows pieces raws LB BY T1 T2 BT BJ TX NE J NN RP PR]; subst.
  - exfalso. destruct BY as (p & c & q & -> & LN & CC). rewrite map_app in E. cbn [map] in E. apply app_inv_length in E; [|rewrite map_length; lia]. destruct E as [_ E]. injection E as E _. lia.
  - destruct TX as (p & q & EB & LN & LT). subst b. rewrite !app_length in LB. assert (q = []) by (destruct q; [reflexivity|exfalso; cbn [length] in LB; unfold str in *; lia]). subst q. rewrite app_nil_r in *.
    rewrite map_app in E. replace (pre ++ 0 :: chunk) with ((pre ++ [0]) ++ chunk) in E by now rewrite <- app_assoc.
    apply app_inv_length in E; [|rewrite map_length, app_length; cbn; lia]. destruct E as [_ E]. change (bytes (join [ascii_of_nat 138] rows) = chunk) in E. rewrite join_bytes in E.
    destruct (pieces_decode _ _ _ _ _ _ PR) as (parts & D & U). exists parts. split; [exact U|]. symmetry. subst chunk.
    eapply rows_runs; [exact RP| |exact R| |exact EN|exact L8|exact D].
    + intros X. apply map_eq_nil in X. contradiction.
    + apply Forall_forall. intros r I. apply in_map_iff in I. destruct I as (x & <- & I). rewrite Forall_forall in NN. specialize (NN x I). intros Y. apply NN. unfold bytes in Y. apply in_map_iff in Y.
      destruct Y as (c & Y & Z0). unfold nl in Y. assert (c = ascii_of_nat 138) by (apply char_code_eq; rewrite Y; reflexivity). now subst.
Qed.

Lemma items_texts last lrs its : line_items last lrs its ->
  exists texts, Forall2 (fun b t => utf8 (b_text b) t) (List.concat (map l_blocks (map fst lrs))) texts /\ chars its = List.concat texts.
Proof.
  induction 1 as [last|last l r rest parts its B _ (texts & F & E)]; [exists []; split; [constructor|reflexivity]|].
  assert (X : exists ts, Forall2 (fun b t => utf8 (b_text b) t) (l_blocks l) ts /\ chars (List.concat parts) = List.concat ts).
  { clear - B. induction B as [|b part bs parts (w & U & ->) _ (ts & F & E)]; [exists []; split; [constructor|reflexivity]|].
    exists (w :: ts). split; [now constructor|]. cbn [List.concat app chars]. now rewrite chars_app, chars_chars, E. }
  destruct X as (ts & F' & E'). exists (ts ++ texts). cbn [map fst List.concat]. split; [now apply Forall2_app|]. rewrite !chars_app, concat_app, E, E'.
  destruct last as [r'|]; [now rewrite chars_breaks|reflexivity].
Qed.

Lemma subtitle_back n g s rows bs rs : subtitle_blocks n s rows bs -> length (s_lines s) = length rows -> no_lone_marks s ->
  (forall b v, In b bs -> byte_at b 127 v -> ~ is_accent_byte v) -> blocks_read g bs rs -> same_characters s rs.
Proof.
  intros (h1 & m1 & s1 & f1 & h2 & m2 & s2 & f2 & top & first & its & text & chunks & T1 & T2 & LE & HD & LI & CO & CH & F) LN NM NC (rawss & lasts & LR & BR & ->).
  assert (M : no_marks its).
  { intros c I. destruct (items_from_lines _ _ _ LI c I) as (l & b & w & L & B & U & IC). rewrite map_fst_combine in L by exact LN. exact (NM l b w c L B U IC). }
  destruct (coded_run _ _ _ _ CO M) as (w & parts & R & S & E & front & ET & FR). pose proof (chunk_lengths _ _ _ CH) as CL.
  assert (A : Forall (fun c => forall p a, snd c = p ++ [a] -> ~ is_accent_byte a) chunks).
  { clear - F CL NC. induction F as [|c b cs bs E F IH]; [constructor|]. inversion CL as [|? ? C1 C2]; subst. constructor; [|apply IH; [intros b' v I; apply NC; now right|exact C2]].
    intros p a EP. apply (NC b a (or_introl eq_refl)). rewrite EP, app_assoc in E. rewrite EP, app_length in C1. cbn in C1.
    replace 127%nat with (length ([1; 0; 0; fst c; 0; h1 mod 256; m1; s1; f1 mod 256; h2 mod 256; m2; s2; f2 mod 256; top mod 256; justification_of first; 0] ++ p)) by (cbn; lia).
    apply code_byte with (q := []). exact E. }
  destruct (chunks_run _ _ _ CH front w ET FR R A) as (ws & G & EW).
  destruct (items_texts _ _ _ LI) as (texts & U & EC). rewrite map_fst_combine in U by exact LN.
  exists w. split; [exists texts, parts; rewrite <- EC; auto|]. rewrite EW. clear - F CL G BR LR.
  revert rawss lasts ws LR BR G CL. induction F as [|c b cs bs E F IH]; intros rawss lasts ws LR BR G CL.
  - inversion G; subst. destruct rawss as [|x rawss]; [exists []; split; [constructor|reflexivity]|]. destruct lasts as [|y lasts]; [discriminate LR|]. inversion BR.
  - destruct rawss as [|x rawss]; [inversion BR|]. destruct lasts as [|y lasts]; [discriminate LR|]. cbn [combine] in BR. inversion BR as [|? ? ? ? B1 B2]; subst.
    inversion G as [|? v ? ws' (R1 & K1) G']; subst. inversion CL as [|? ? C1 C2]; subst.
    destruct (IH rawss lasts ws' ltac:(now injection LR) B2 G' C2) as (parts & P & EP). cbn [fst snd] in B1.
    destruct (block_text_back g b [1; 0; 0; fst c; 0; h1 mod 256; m1; s1; f1 mod 256; h2 mod 256; m2; s2; f2 mod 256; top mod 256; justification_of first] (snd c) x y v E eq_refl C1 B1 R1 K1) as (ps & PS & EV).
    exists (ps ++ parts). cbn [List.concat]. split; [now apply Forall2_app|]. rewrite concat_app. now rewrite EV, EP.
Qed.

Lemma block_in (head : str) blocks b : length head = 1024%nat -> Forall (fun b => length b = 128%nat) blocks -> In b blocks ->
  exists k, block_at (head ++ List.concat blocks) k b.
Proof.
  intros L F I. apply in_split in I. destruct I as (p & q & ->). exists (length p). rewrite concat_app. cbn [List.concat].
  exists (head ++ List.concat p), (List.concat q). apply Forall_app in F. destruct F as [F1 F2]. inversion F2; subst.
  split; [now rewrite <- app_assoc|]. split; [|assumption]. rewrite app_length, L, (blocks_length p F1). reflexivity.
Qed.

Lemma blocks_128 n s rows bs : subtitle_blocks n s rows bs -> Forall (fun b => length b = 128%nat) bs.
Proof.
  intros (h1 & m1 & s1 & f1 & h2 & m2 & s2 & f2 & top & first & its & text & chunks & T1 & T2 & LE & HD & LI & CO & CH & F). pose proof (chunk_lengths _ _ _ CH) as CL.
  clear - F CL. induction F as [|c b cs bs E F IH]; [constructor|]. inversion CL; subst. constructor; [|now apply IH].
  rewrite <- (map_length char_code), E, app_length. cbn. congruence.
Qed.

Theorem characters_back h h' n a ss file : acceptable n a ss -> Forall no_lone_marks ss -> snd (write_stl_binary ss a (after h)) = Ok file ->
  Z.of_nat (length file) < 1024 + 128 * 100000 -> none_cut file ->
  exists g groups, snd (stl_binary_read file (after h')) = Ok (g, List.concat groups) /\ Forall2 same_characters ss groups.
Proof.
  intros A NM W SZ NC. destruct (any_back h h' n a ss file A W SZ) as (dfc & head & rowss & blockss & g & d & groups & groups' & D & IR & (EF & LH & HR & SB) & LF & HB & RD & FB & MV & PO).
  exists g, groups'. split; [exact RD|].
  assert (BL : Forall (fun b : str => length b = 128%nat) (List.concat blockss)).
  { clear - SB. induction SB as [|sr bs srs bss B _ IH]; cbn [List.concat]; [constructor|]. apply Forall_app. split; [exact (blocks_128 _ _ _ _ B)|exact IH]. }
  assert (N : forall b v, In b (List.concat blockss) -> byte_at b 127 v -> ~ is_accent_byte v).
  { intros b v I. destruct (block_in head (List.concat blockss) b LH BL I) as (k & K). rewrite <- EF in K. exact (NC k b v K). }
  clear - NM HR SB FB MV N. revert blockss groups groups' SB FB MV N. induction HR as [|s rows ss rowss HR1 HR IH]; intros blockss groups groups' SB FB MV N.
  - inversion SB; subst. inversion FB; subst. inversion MV; subst. constructor.
  - cbn [combine] in SB. inversion SB as [|? bs ? bss B1 B2]; subst. inversion FB as [|? rs ? gs F1 F2]; subst. inversion MV as [|? rs' ? gs' M1 M2]; subst. inversion NM as [|? ? N1 N2]; subst.
    cbn [fst snd List.concat] in *. constructor.
    + destruct (subtitle_back n g s rows bs rs B1) as (w & TW & parts & U & EW); try assumption.
      * destruct HR1 as [HR1 _]. exact (Forall2_len _ _ _ HR1).
      * intros b v I. apply N. apply in_or_app. now left.
      * exists w. split; [exact TW|]. exists parts. split; [|exact EW]. clear - M1 U. revert parts U. induction M1 as [|r r' rs rs' (row & k & _ & ->) _ IH]; intros parts U; inversion U; subst; constructor; [assumption|now apply IH].
    + apply (IH N2 bss gs gs'); try assumption. intros b v I. apply N. apply in_or_app. now right.
Qed.

(** * A case *)
Definition cut_check (n : nat) (file : str) : bool :=
  (length file =? 1024 + 128 * n)%nat &&
  forallb (fun k => match nth_error file (1024 + 128 * k + 127) with Some c => (char_code c <? 0xC1) || (0xCF <? char_code c) | None => true end) (seq 0 n).
Lemma cut_check_ok n file : cut_check n file = true -> none_cut file.
Proof.
  unfold cut_check. intros C. apply andb_true_iff in C. destruct C as [L C]. apply Nat.eqb_eq in L. rewrite forallb_forall in C.
  intros k b v (p & q & EF & LP & LB) (p' & c & q' & EB & LP' & ->). subst file b. rewrite !app_length in *. cbn [length] in *. unfold str in *.
  assert (K : In k (seq 0 n)) by (apply in_seq; lia). specialize (C k K).
  rewrite nth_error_app2, LP in C by (unfold str in *; lia). replace (1024 + 128 * k + 127 - (1024 + 128 * k))%nat with 127%nat in C by lia.
  rewrite nth_error_app1 in C by (rewrite app_length; cbn [length]; lia). rewrite nth_error_app2, LP' in C by lia. cbn [Nat.sub nth_error] in C. unfold is_accent_byte. lia.
Qed.

Definition accented : list Z := repeat 97 30 ++ repeat 0xE9 30.
Definition two_long_lines : subtitle :=
  mkSub (StlSamples.sample_time 1 0) (StlSamples.sample_time 2 500) None None
    [StlSamples.sample_line 18 true (Utf.wide_to_utf8 accented); StlSamples.sample_line 20 false (repeat "b"%char 150)].
Lemma accented_utf8 : utf8 (Utf.wide_to_utf8 accented) accented.
Proof. apply wide_to_utf8_ok. unfold accented. apply Forall_app. split; apply Forall_forall; intros c I; apply repeat_spec in I; subst; unfold scalar; lia. Qed.
Lemma two_long_case : let s := two_long_lines in acceptable 25000 StlSamples.sample_args [s] /\ Forall no_lone_marks [s] /\
  exists file, snd (write_stl_binary [s] StlSamples.sample_args (after [])) = Ok file /\ length file = (1024 + 128 * 3)%nat /\ none_cut file.
Proof.
  cbn zeta. split; [|split].
  - split; [exact (whole_rate 25 ltac:(lia))|]. split.
    + constructor; [|constructor]. split; [discriminate|]. split; [apply sample_times; lia|]. split; [apply sample_times; lia|].
      constructor; [|constructor; [|constructor]]; [|apply sample_line_ok; try reflexivity; lia]. apply (sample_lines 18 true accented _ ltac:(lia) accented_utf8).
      intros I. apply in_app_or in I. destruct I as [I|I]; apply repeat_spec in I; discriminate I.
    + split; [exact sample_header_ok|]. split; [cbn; lia|]. constructor; [|constructor]. constructor; [reflexivity|]. constructor; [reflexivity|constructor].
  - constructor; [|constructor]. intros l b w c IL IB U I M. assert (C : c = 97 \/ c = 0xE9 \/ c = 98).
    { cbn [s_lines two_long_lines] in IL. destruct IL as [<-|[<-|[]]]; destruct IB as [<-|[]]; cbn [b_text] in U.
      - rewrite <- (utf8_to_wide_ok _ _ U), (utf8_to_wide_ok _ _ accented_utf8) in I. apply in_app_or in I. destruct I as [I|I]; apply repeat_spec in I; lia.
      - destruct (plain_utf8 (repeat "b"%char 150) eq_refl) as [V _]. rewrite <- (utf8_to_wide_ok _ _ U), (utf8_to_wide_ok _ _ V) in I. vm_compute in I. intuition lia. }
    apply in_map_iff in M. destruct M as (e & E & M).
    assert (B : forallb (fun e => negb (snd e =? 97) && negb (snd e =? 98) && negb (snd e =? 0xE9)) lone_marks = true) by (vm_compute; reflexivity).
    rewrite forallb_forall in B. specialize (B e M). lia.
  - eexists. split; [vm_compute; reflexivity|]. split; [vm_compute; reflexivity|]. apply (cut_check_ok 3). vm_compute. reflexivity.
Qed.
