(** A SubRip file that is made a WebVTT file. *)
From Coq Require Import ZArith List Bool Ascii String Lia.
From Verif.Model Require Import Base Strings Float TimeModel Types Lines Subrip WebVtt.
From Verif.Spec Require Import Outcome TextSpec LinesSpec RawSpec SubripSpec StopSpec SubripUseSpec WebVttSpec TextFileSpec JoinSpec RetimeSpec SameCuesSpec.
From Verif.Proofs Require Import StringProofs LinesProofs SubripProofs SubripStopProofs SubripUseProofs WebVttProofs TextFileProofs JoinProofs FileUseProofs RetimeProofs.
Import ListNotations.
Local Open Scope Z_scope.
Local Notation length := List.length.

(** * Dots for commas *)

Definition dot1 (c : ascii) : ascii := if Ascii.eqb c ","%char then "."%char else c.
Lemma dot1_id c : c <> ","%char -> dot1 c = c.
Proof. intros N. unfold dot1. destruct (Ascii.eqb_spec c ","%char); [contradiction|reflexivity]. Qed.
Lemma dot1_from c x : dot1 c = x -> x <> "."%char -> c = x.
Proof. unfold dot1. destruct (Ascii.eqb_spec c ","%char); [intros <- N; congruence|auto]. Qed.
Lemma dots_id s : ~ In ","%char s -> dots s = s.
Proof.
  unfold dots. intros N. rewrite <- (map_id s) at 2. apply map_ext_in. intros c I. apply dot1_id. intros ->. now apply N.
Qed.
Lemma dots_app a b : dots (a ++ b) = dots a ++ dots b.
Proof. apply map_app. Qed.
Lemma dots_no x s : x <> "."%char -> ~ In x s -> ~ In x (dots s).
Proof. intros X N I. apply in_map_iff in I. destruct I as (c & E & I). apply N. now rewrite <- (dot1_from c x E X). Qed.
Lemma dots_repeat n : dots (repeat space n) = repeat space n.
Proof. apply dots_id. intros I. apply repeat_spec in I. discriminate I. Qed.
Lemma dots_snoc s a c : dots s = a ++ [c] -> exists a' c', s = a' ++ [c'] /\ a = dots a' /\ c = dot1 c'.
Proof. intros E. apply map_eq_app in E. destruct E as (a' & b' & -> & <- & E). destruct b' as [|c' [|]]; try discriminate. injection E as <-. now exists a', c'. Qed.
Lemma dots_ends (P : ascii -> Prop) s : (forall c, P (dot1 c) -> P c) -> ~ ends_in P s -> ~ ends_in P (dots s).
Proof. intros K N (a & c & E & H). apply dots_snoc in E. destruct E as (a' & c' & -> & -> & ->). apply N. exists a', c'. auto. Qed.
Lemma dots_begins p s : ~ In ","%char p -> ~ In "."%char p -> ~ begins_with p s -> ~ begins_with p (dots s).
Proof.
  intros C D N (r & E). apply map_eq_app in E. destruct E as (a & b & -> & E & <-). apply N. exists b. f_equal.
  rewrite <- E. rewrite <- (map_id a) at 1. apply map_ext_in. intros x I. symmetry. apply dot1_id. intros ->. apply D. rewrite <- E. apply in_map_iff. now exists ","%char.
Qed.
Lemma cleaned_dots l l' : cleaned l l' -> cleaned (dots l) (dots l').
Proof.
  intros (u & ends & -> & F & N & H). exists (dots u), ends. split; [rewrite dots_app; f_equal; apply dots_id; intros I; rewrite Forall_forall in F; destruct (F _ I); discriminate|].
  split; [exact F|]. split.
  - apply dots_ends; [|exact N]. intros c [E|E]; [left|right]; (apply dot1_from; [exact E|discriminate]).
  - destruct H as [->|[H ->]]; [left; rewrite dots_app; reflexivity|right; split; [|reflexivity]]. apply dots_begins; [| |exact H]; intros I; cbn in I; intuition discriminate.
Qed.
Lemma number_no_comma s v : integer s v -> ~ In ","%char s.
Proof. intros I. apply (integer_no _ _ v); [exact sep_comma|exact I]. Qed.
Lemma cue_time_dots s t : cue_time ","%char s t -> cue_time "."%char (dots s) t.
Proof.
  intros (h & m & sec & ms & (hs & mins & secs & mss & -> & H & M & S & MS) & F & E). exists h, m, sec, ms. split; [|now split].
  exists hs, mins, secs, mss. split; [|auto].
  change (hs ++ ":"%char :: mins ++ ":"%char :: secs ++ ","%char :: mss) with (hs ++ [":"%char] ++ mins ++ [":"%char] ++ secs ++ [","%char] ++ mss).
  rewrite !dots_app, (dots_id hs), (dots_id mins), (dots_id secs), (dots_id mss) by (eapply number_no_comma; eassumption). reflexivity.
Qed.
Lemma spaced_dots s fs : spaced s fs -> spaced (dots s) (map dots fs).
Proof.
  induction 1 as [f N|f n rest fs N B S IH]; cbn [map]; [constructor; now apply dots_no|].
  rewrite !dots_app, dots_repeat. constructor; [now apply dots_no| |exact IH]. apply dots_begins; [| |exact B]; intros I; cbn in I; intuition discriminate.
Qed.
Lemma timing_dots l f t : timing_line ","%char l f t -> timing_line "."%char (dots l) f t.
Proof.
  intros (f0 & f1 & f2 & more & (body & n & -> & N & S) & L & T0 & T2). exists (dots f0), (dots f1), (dots f2), (map dots more).
  split; [|rewrite map_length; split; [exact L|split; now apply cue_time_dots]].
  exists (dots body), n. split; [now rewrite dots_app, dots_repeat|]. split; [|exact (spaced_dots _ _ S)].
  apply dots_ends; [|exact N]. intros c E. symmetry. apply dot1_from; [now symmetry|discriminate].
Qed.
Lemma integer_not_nil s v : integer s v -> s <> [].
Proof. assert (N : forall v, ~ numeral [] v) by (intros w H; inversion H as [|x ? ? ? ? ? E]; destruct x; discriminate E). intros I ->. inversion I; subst; eapply N; eassumption. Qed.
Lemma timing_no_note sep l f t : timing_line sep l f t -> ~ is_note l.
Proof.
  intros (f0 & f1 & f2 & more & (body & n & -> & N & S) & L & (h & m & sec & ms & (hs & mins & secs & mss & E & H & _) & _) & _) (r & G).
  assert (B : exists y, body = f0 ++ y) by (inversion S; subst; eauto). destruct B as (y & ->). subst f0. destruct hs as [|c hs].
  - now apply integer_not_nil in H.
  - cbn [app] in G. injection G as -> _. pose proof (integer_no "N"%char _ _ ltac:(intros [K|[K|K]]; discriminate) H) as K. apply K. now left.
Qed.
Lemma arrow_dots l : contains (lit "-->") l -> contains (lit "-->") (dots l).
Proof. intros (a & b & ->). exists (dots a), (dots b). now rewrite !dots_app. Qed.

(** * Files *)

Definition plain_of (c : cue) (rows : list str) : list raw := plain_rows (cue_from c) (cue_to c) 0 rows.
Lemma as_lines ls ls' : as_webvtt ls ls' -> Forall (fun l => ~ In lf l) ls -> Forall (fun l => ~ In lf l) ls' /\
  exists cl cl' cs, Forall2 cleaned ls cl /\ Forall2 cleaned ls' cl' /\ cues_in cl cs /\ vtt_cues cl' cs /\ (ends_or_blank_line ls -> ends_or_blank cl /\ ends_or_blank cl').
Proof.
  induction 1 as [|l ls ls' B A IH|counter timing from to text rest rest' (NC & c' & CC & EC) (_ & c2 & CC2 & N2 & A2) (NT & t' & CT & T) (t2 & CT2 & HA) TX EB A IH]; intros F.
  - split; [constructor|]. exists [], [], []. split; [constructor|]. split; [constructor|]. split; [constructor|]. split; [constructor|]. intros _. split; now left.
  - inversion F as [|? ? F1 F2]; subst. destruct (IH F2) as (G & cl & cl' & cs & C & C' & Q & V & _). split; [now constructor|].
    exists ([] :: cl), ([] :: cl'), cs. split; [now constructor|]. split; [now constructor|]. split; [now constructor|].
    split; [apply vtt_other; [intros (x & E); discriminate E|intros (x & y & E); now destruct x|exact V]|]. intros _. split; right; eauto.
  - inversion F as [|? ? F1 F2]; subst. inversion F2 as [|? ? F3 F4]; subst. apply Forall_app in F4. destruct F4 as [F5 F6].
    destruct (IH F6) as (G & cl & cl' & cs & C & C' & Q & V & EE). destruct (text_lines_ok _ TX) as [_ (text' & CX & EX)]. destruct (EE EB) as [E1 E2].
    apply clean_line_iff in CC, CC2, CT, CT2. assert (c2 = c') by congruence. assert (t2 = t') by congruence. subst c2 t2. apply clean_line_iff in CC, CT. rewrite H in *. rewrite H0 in *.
    split; [constructor; [exact NC|]; constructor; [now apply dots_no|]; apply Forall_app; now split|].
    exists (c' :: t' :: text' ++ cl), (c' :: dots t' :: text' ++ cl'), (mkCue from to text' :: cs).
    split; [constructor; [exact CC|]; constructor; [exact CT|]; now apply Forall2_app|].
    split; [constructor; [exact CC|]; constructor; [now apply cleaned_dots|]; now apply Forall2_app|].
    split; [constructor; auto|]. split.
    + apply vtt_other; [exact N2|exact A2|]. pose proof (timing_dots _ _ _ T) as TD. constructor; auto; [exact (timing_no_note _ _ _ _ TD)|now apply arrow_dots].
    + intros [E|(l & more & [= <- <-] & B)]; [discriminate E|]. apply clean_line_iff in B. apply clean_line_iff in CC. congruence.
Qed.
Lemma all_rows cs : exists rowss, Forall2 cue_rows cs rowss.
Proof.
  induction cs as [|c cs (rowss & IH)]; [exists []; constructor|]. destruct (has_rows (cue_text c)) as (rows & R). exists (rows :: rowss). constructor; [|exact IH].
  specialize (R (cue_from c) (cue_to c)). now destruct c.
Qed.
Lemma lines_no_lf s ls : text_lines s ls -> Forall (fun l => ~ In lf l) ls.
Proof. induction 1; repeat constructor; auto. Qed.
Lemma cleaned_header : cleaned (lit "WEBVTT") (lit "WEBVTT").
Proof. apply clean_line_iff. reflexivity. Qed.
Lemma vtt_as_is s s' : webvtt_of s s' -> exists cs rowss, file_cues s cs /\ Forall2 cue_rows cs rowss /\
  vtt_reader_string s' = Ok (List.concat (map (fun p => plain_rows (cue_from (fst p)) (cue_to (fst p)) 0 (snd p)) (combine cs rowss))).
Proof.
  intros (ls & ls' & T & A & ->). destruct (as_lines _ _ A (lines_no_lf _ _ T)) as (G & cl & cl' & cs & C & C' & Q & V & _).
  destruct (all_rows cs) as (rowss & R). exists cs, rowss. split; [now exists ls, cl|]. split; [exact R|].
  apply vtt_string_iff. exists (lit "WEBVTT" :: [] :: ls'). split.
  { apply text_lines_text. constructor; [intros I; cbn in I; intuition discriminate|]. constructor; [auto|exact G]. }
  apply (vtt_headed _ (lit "WEBVTT") _ ([] :: cl') cs); [exact cleaned_header|now exists []|constructor; [exact cleaned_nothing|exact C']| |].
  - apply vtt_other; [intros (x & E); discriminate E|intros (x & y & E); now destruct x|exact V].
  - clear -R. induction R as [|c rows cs rowss R F IH]; cbn [combine map]; constructor; [now exists rows|exact IH].
Qed.

Lemma simple_rows_ok from to lines : forall n m, Forall simple_row lines -> rows n (with_line m (cue_look from to)) lines (plain_rows from to n lines).
Proof.
  induction lines as [|l lines IH]; intros n m F; cbn [plain_rows]; [constructor|]. inversion F as [|? ? (NE & N1 & N2 & NR) F2]; subst.
  change (styled_raw from to n plain_look l :: plain_rows from to (n + 1) lines) with ([] ++ [styled_raw from to n plain_look l] ++ plain_rows from to (n + 1) lines).
  replace [styled_raw from to n plain_look l] with (with_piece l (with_line n (cue_look from to))) by (destruct l; [congruence|reflexivity]).
  eapply rows_more; [now apply plain_lexed|apply (plain_pieces (with_line n (cue_look from to)) [all_white] [] l)| |apply (IH (n + 1) n); exact F2].
  exists [l]. split; [|cbn; now rewrite app_nil_r]. split; [discriminate|]. split; [reflexivity|]. now repeat constructor.
Qed.
Lemma same_cues s s' : webvtt_of s s' -> simple_cues s -> exists raws, subrip_reader_string s = Ok raws /\ vtt_reader_string s' = Ok raws.
Proof.
  intros W S. destruct (vtt_as_is _ _ W) as (cs & rowss & FC & R & V). eexists. split; [|exact V].
  specialize (S cs). assert (SS : forall c rows, In c cs -> cue_rows c rows -> Forall simple_row rows) by (intros c rows I H; apply Forall_forall; intros row J; exact (S c rows row FC I H J)).
  destruct FC as (ls & cl & T & C & Q). apply subrip_string_iff. exists ls. split; [exact T|]. exists cl, cs. eexists. split; [exact C|]. split; [exact Q|]. split; [|reflexivity].
  clear -R SS. induction R as [|c rows cs rowss R F IH]; cbn [combine map]; constructor.
  - pose proof (SS c rows (or_introl eq_refl) R) as SR. destruct R as (liness & P & ->). exists liness. split; [exact P|].
    exact (simple_rows_ok (cue_from c) (cue_to c) (List.concat liness) 0 0 SR).
  - apply IH. intros c' rows' I. apply SS. now right.
Qed.

(** * For the examples *)

Lemma cue_lines ls cs : cues_in ls cs -> forall c l, In c cs -> In l (cue_text c) -> In l ls /\ l <> [].
Proof.
  induction 1 as [|ls cs C IH|counter N|counter timing from to text rest cs N T F E C IH]; intros c l I J.
  - destruct I.
  - destruct (IH c l I J). split; [now right|assumption].
  - destruct I.
  - destruct I as [<-|I].
    + cbn [cue_text] in J. rewrite Forall_forall in F. split; [|exact (F _ J)]. right. right. apply in_or_app. now left.
    + destruct (IH c l I J) as [A B]. split; [|exact B]. right. right. apply in_or_app. now right.
Qed.
Lemma cleaned_in l l' c : cleaned l l' -> In c l' -> In c l.
Proof. intros (u & ends & -> & _ & _ & H) I. apply in_or_app. left. destruct H as [->|[_ ->]]; [apply in_or_app; now right|exact I]. Qed.
Lemma lines_in s ls : text_lines s ls -> forall l c, In l ls -> In c l -> In c s.
Proof.
  induction 1 as [|l N L|l rest ls N T IH]; intros x c I J; [destruct I| |].
  - destruct I as [<-|[]]. exact J.
  - apply in_or_app. destruct I as [<-|I]; [now left|]. right. right. exact (IH x c I J).
Qed.
Lemma simple_of s : ~ In "<"%char s -> ~ In "{"%char s -> ~ In (ascii_of_nat 226) s -> simple_cues s.
Proof.
  intros N1 N2 N3 cs c rows row (ls & cl & T & C & Q) I (liness & P & ->) J. apply in_concat in J. destruct J as (ps & K & J).
  assert (E : exists x, In x (cue_text c) /\ parts_of u2028 x ps).
  { clear -P K. induction P as [|x y xs ys P F IH]; [destruct K|]. destruct K as [<-|K]; [exists x; split; [now left|exact P]|]. destruct (IH K) as (z & A & B). exists z. split; [now right|exact B]. }
  destruct E as (x & X & NE & JN & FP). destruct (cue_lines _ _ Q c x I X) as [XL XN].
  assert (INS : forall a, In a x -> In a s).
  { intros a A. assert (L : exists l, In l ls /\ cleaned l x).
    { clear -C XL. induction C as [|u v us vs U F IH]; [destruct XL|]. destruct XL as [->|XL]; [exists u; split; [now left|exact U]|]. destruct (IH XL) as (l & L1 & L2). exists l. split; [now right|exact L2]. }
    destruct L as (l & L1 & L2). exact (lines_in _ _ T _ _ L1 (cleaned_in _ _ _ L2 A)). }
  destruct ps as [|p [|q ps]]; [now destruct NE| |].
  - cbn in JN. subst x. destruct J as [<-|[]]. split; [exact XN|]. split; [intros A; exact (N1 (INS _ A))|]. split; [intros A; exact (N2 (INS _ A))|].
    intros (a & b & ->). apply N3, INS. apply in_or_app. right. now left.
  - exfalso. apply N3, INS. rewrite JN. cbn [join]. apply in_or_app. right. now left.
Qed.
