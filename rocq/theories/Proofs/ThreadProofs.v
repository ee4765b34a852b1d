(** Conversions in several threads. *)
From Coq Require Import ZArith Lia List Bool Ascii Arith.
From Verif.Model Require Import Base Strings Iso6937Tables Utf Iso6937 Threads.
From Verif.Spec Require Import Outcome TextSpec UnicodeSpec Iso6937Spec ThreadSpec.
From Verif.Proofs Require Import StringProofs Iso6937Proofs.
Import ListNotations.
Local Open Scope Z_scope.

(** * Lists and schedules *)

Lemma nth_replace {A} (l : list A) : forall i j x t, nth_error l i = Some t ->
  nth_error (replace_nth i x l) j = if Nat.eqb j i then Some x else nth_error l j.
Proof.
  induction l as [|a l IH]; intros [|i] [|j] x t H; cbn in *; try discriminate; try reflexivity. now rewrite (IH i j x t H).
Qed.
Lemma replace_twice {A} (l : list A) : forall i x y, replace_nth i y (replace_nth i x l) = replace_nth i y l.
Proof. induction l as [|a l IH]; intros [|i] x y; cbn; [reflexivity..|]. now rewrite IH. Qed.
Lemma replace_same {A} (l : list A) : forall i x, nth_error l i = Some x -> replace_nth i x l = l.
Proof. induction l as [|a l IH]; intros [|i] x H; cbn in *; try discriminate; [congruence|]. now rewrite IH. Qed.
Lemma run_app a b p : run (a ++ b) p = run b (run a p).
Proof. unfold run. now rewrite fold_left_app. Qed.

Definition steps (n : nat) (x : globals * thread) : globals * thread := Nat.iter n (fun x => thread_step (fst x) (snd x)) x.
Lemma steps_S n x : steps (S n) x = steps n (thread_step (fst x) (snd x)).
Proof. unfold steps. induction n as [|n IH]; [reflexivity|]. cbn [Nat.iter nat_rect] in *. now rewrite IH. Qed.
Lemma steps_add a b x : steps (a + b) x = steps b (steps a x).
Proof. revert x. induction a as [|a IH]; intros x; [reflexivity|]. cbn [plus]. rewrite !steps_S. apply IH. Qed.
Lemma run_repeat i n : forall g ts t, nth_error ts i = Some t ->
  run (repeat i n) (mkP g ts) = mkP (fst (steps n (g, t))) (replace_nth i (snd (steps n (g, t))) ts).
Proof.
  induction n as [|n IH]; intros g ts t H.
  - cbn. now rewrite (replace_same ts i t H).
  - cbn [repeat]. unfold run. cbn [fold_left]. fold (run (repeat i n) (process_step i (mkP g ts))). unfold process_step. cbn [p_threads p_globals]. rewrite H.
    rewrite steps_S. cbn [fst snd]. destruct (thread_step g t) as [g' t']. rewrite (IH g' _ t'); [|rewrite (nth_replace ts i i t' t H); now rewrite Nat.eqb_refl].
    now rewrite replace_twice.
Qed.
Lemma finished_steps n g r : steps n (g, Finished r) = (g, Finished r).
Proof. induction n as [|n IH]; [reflexivity|]. now rewrite steps_S. Qed.

(** * The tables, once made *)

Definition globals_made : globals := mkG iso_main iso_diacriticals (map fst iso_diacriticals).
Lemma made_is : fold_left (fun g a => assign a g) making globals_empty = globals_made.
Proof. vm_compute. reflexivity. Qed.
Lemma view_made : view globals_made = tables_made.
Proof. vm_compute. reflexivity. Qed.

Lemma glyphs_checked :
  forallb (fun e => match fst e with
                    | [b] => negb (b =? 0) && negb (accent_b b) && has_key iso_main b
                    | [a; b] => accent_b a && negb (b =? 0) && negb (accent_b b) && existsb (Z.eqb a) (g_keys globals_made) && has_key (accent_map globals_made a) b
                    | _ => false
                    end) glyph_list = true.
Proof. vm_compute. reflexivity. Qed.
Definition pair_eqb (a b : Z * Z) : bool := (fst a =? fst b) && (snd a =? snd b).
Fixpoint cmap_eqb (a b : cmap) : bool :=
  match a, b with
  | [], [] => true
  | x :: s, y :: t => pair_eqb x y && cmap_eqb s t
  | _, _ => false
  end.
Lemma cmap_eqb_eq a : forall b, cmap_eqb a b = true -> a = b.
Proof.
  induction a as [|[k v] a IH]; intros [|[k' v'] b] H; try discriminate; [reflexivity|]. cbn in H. unfold pair_eqb in H. cbn [fst snd] in H.
  apply andb_true_iff in H. destruct H as [H H2]. apply andb_true_iff in H. destruct H as [H H1]. apply Z.eqb_eq in H, H1. subst. f_equal. now apply IH.
Qed.
Lemma lookups_checked :
  forallb (fun e => match fst e with
                    | [b] => (fst (cmap_index iso_main b) =? snd e) && cmap_eqb (snd (cmap_index iso_main b)) iso_main
                    | [a; b] => (fst (cmap_index (accent_map globals_made a) b) =? snd e) && cmap_eqb (snd (cmap_index (accent_map globals_made a) b)) (accent_map globals_made a)
                    | _ => false
                    end) glyph_list = true.
Proof. vm_compute. reflexivity. Qed.
Lemma glyph_single b c : glyph [b] c -> b <> 0 /\ accent_b b = false /\ has_key iso_main b = true /\ cmap_index iso_main b = (c, iso_main).
Proof.
  intros G. apply glyph_in in G. pose proof glyphs_checked as C. pose proof lookups_checked as L. rewrite forallb_forall in C, L. specialize (C _ G). specialize (L _ G).
  cbn [fst snd] in C, L. destruct (cmap_index iso_main b) as [v m]. cbn [fst snd] in L. rewrite !andb_true_iff, !negb_true_iff, Z.eqb_neq in C. rewrite andb_true_iff, Z.eqb_eq in L.
  destruct C as [[C1 C2] C3]. destruct L as [-> L]. apply cmap_eqb_eq in L. subst m. now repeat split.
Qed.
Lemma glyph_pair a b c : glyph [a; b] c -> accent_b a = true /\ b <> 0 /\ accent_b b = false /\ existsb (Z.eqb a) (g_keys globals_made) = true /\
  has_key (accent_map globals_made a) b = true /\ cmap_index (accent_map globals_made a) b = (c, accent_map globals_made a).
Proof.
  intros G. apply glyph_in in G. pose proof glyphs_checked as C. pose proof lookups_checked as L. rewrite forallb_forall in C, L. specialize (C _ G). specialize (L _ G).
  cbn [fst snd] in C, L. destruct (cmap_index (accent_map globals_made a) b) as [v m]. cbn [fst snd] in L. rewrite !andb_true_iff, !negb_true_iff, Z.eqb_neq in C.
  rewrite andb_true_iff, Z.eqb_eq in L. destruct C as [[[[C1 C2] C3] C4] C5]. destruct L as [-> L]. apply cmap_eqb_eq in L. subst m. now repeat split.
Qed.
Lemma glyph_shape bs c : glyph bs c -> (exists b, bs = [b]) \/ exists a b, bs = [a; b].
Proof. intros [|b R|b c' I|a m b c' A B N]; eauto. Qed.
Lemma update_same l d : NoDup (map fst l) -> diacritical_update l d (match diacritical_find l d with Some m => m | None => [] end) = l.
Proof.
  induction l as [|[k m] l IH]; intros N; [reflexivity|]. cbn [map fst] in N. inversion N as [|? ? N1 N2]; subst. cbn. destruct (k =? d) eqn:E; [reflexivity|].
  now rewrite IH.
Qed.
Lemma made_nodup : NoDup (map fst iso_diacriticals).
Proof. vm_compute. repeat (constructor; [intros H; repeat (destruct H as [H|H]; [discriminate H|]); destruct H|]). constructor. Qed.
Lemma update_made a : diacritical_update (g_accents globals_made) a (accent_map globals_made a) = g_accents globals_made.
Proof. apply update_same, made_nodup. Qed.

(** * Readable text in any schedule *)

(** Whatever is left to do gives what the job gives alone. *)
Definition on_course (j : job) (t : thread) : Prop :=
  match t with
  | Testing j' => j' = j
  | Making _ _ => False
  | Decoding s None o => exists parts w, Forall2 glyph parts w /\ bytes s = concat parts /\ alone j (GaveText (rev o ++ w))
  | Decoding s (Some a) o => exists b c parts w, glyph [a; b] c /\ Forall2 glyph parts w /\ bytes s = b :: concat parts /\ alone j (GaveText (rev o ++ c :: w))
  | Encoding w o => alone j (GaveBytes (o ++ flat_map (iso_encode_char tables_made) w))
  | Finished r => alone j r
  end.
Definition reads_only (l : list (variable * bool)) : Prop := forall v b, In (v, b) l -> b = false.

Lemma decode_alone s parts w : Forall2 glyph parts w -> bytes s = concat parts -> alone (ToUtf16 s) (GaveText w).
Proof. intros F E. exists w. split; [|reflexivity]. exact (decode_glyphs [] parts w F s E). Qed.
Lemma encode_alone w : alone (ToIso6937 w) (GaveBytes (flat_map (iso_encode_char tables_made) w)).
Proof. unfold alone. now rewrite encode_fresh. Qed.

Lemma accent_test u : ((193 <=? u) && (u <=? 207)) = accent_b u.
Proof. reflexivity. Qed.
Lemma course_step j t : readable_job j -> on_course j t ->
  fst (thread_step globals_made t) = globals_made /\ on_course j (snd (thread_step globals_made t)) /\ reads_only (accesses globals_made t).
Proof.
  intros R C. destruct t as [j'|todo j'|s d o|w o|r].
  - cbn in C. subst j'. split; [reflexivity|]. split.
    + change (is_nil (g_keys globals_made)) with false. cbn [thread_step snd]. change (is_nil (g_keys globals_made)) with false. destruct j as [s|w]; cbn [begin_job].
      * destruct R as (parts & w & F & E). exists parts, w. repeat split; [exact F|exact E|]. now apply (decode_alone s parts).
      * apply encode_alone.
    + intros v b [H|[]]. now inversion H.
  - destruct C.
  - destruct d as [a|].
    + destruct C as (b & c & parts & w & G & F & E & A). destruct s as [|x s]; [discriminate|]. cbn [bytes map] in E. rewrite char_code_is_code in E.
      injection E as E1 E2. destruct (glyph_pair a b c G) as (P1 & P2 & P3 & P4 & P5 & P6). cbn [thread_step accesses]. rewrite E1.
      destruct (Z.eqb_spec b 0) as [|_]; [contradiction|]. rewrite accent_test, P3, P4, P6, P5. cbn [fst snd negb]. rewrite update_made. split; [reflexivity|]. split.
      * exists parts, w. repeat split; [exact F|exact E2|]. cbn [rev]. now rewrite <- app_assoc.
      * intros v y [H|[H|[]]]; now inversion H.
    + destruct C as (parts & w & F & E & A). destruct s as [|x s].
      * cbn. split; [reflexivity|]. split; [|intros v b []]. destruct F as [|bs c parts w G F]; [now rewrite app_nil_r in A|].
        destruct (glyph_shape bs c G) as [(b & ->)|(a & b & ->)]; discriminate.
      * destruct F as [|bs c parts w G F]; [discriminate|]. cbn [bytes map] in E. rewrite char_code_is_code in E.
        destruct (glyph_shape bs c G) as [(b & ->)|(a & b & ->)]; cbn [concat app] in E; injection E as E1 E2.
        -- destruct (glyph_single b c G) as (P1 & P2 & P3 & P4). cbn [thread_step accesses]. rewrite E1.
           destruct (Z.eqb_spec b 0) as [|_]; [contradiction|]. rewrite accent_test, P2. cbn [g_main globals_made]. rewrite P4, P3. cbn [fst snd negb]. split; [reflexivity|]. split.
           ++ exists parts, w. repeat split; [exact F|exact E2|]. cbn [rev]. now rewrite <- app_assoc.
           ++ intros v y [H|[]]. now inversion H.
        -- destruct (glyph_pair a b c G) as (P1 & P2 & P3 & P4 & P5 & P6). cbn [thread_step accesses]. rewrite E1.
           assert (N : (a =? 0) = false). { unfold accent_b in P1. apply andb_true_iff in P1. apply Z.eqb_neq. lia. }
           rewrite N, accent_test, P1. cbn [fst snd]. split; [reflexivity|]. split; [|intros v y []]. exists b, c, parts, w. now repeat split.
  - destruct w as [|c w]; cbn [thread_step accesses fst snd]; split; try reflexivity; split.
    + cbn in *. now rewrite app_nil_r in C.
    + intros v b [].
    + rewrite view_made. cbn [on_course flat_map] in *. now rewrite <- app_assoc.
    + intros v b [H|[H|H]]; [now inversion H..|]. apply in_map_iff in H. destruct H as (d & H & _). now inversion H.
  - split; [reflexivity|]. split; [exact C|]. intros v b [].
Qed.

Definition all_on_course (js : list job) (p : process) : Prop := p_globals p = globals_made /\ Forall2 on_course js (p_threads p).
Lemma forall2_nth {A B} (P : A -> B -> Prop) l m : Forall2 P l m -> forall i y, nth_error m i = Some y -> exists x, nth_error l i = Some x /\ P x y.
Proof. induction 1 as [|x y l m H F IH]; intros [|i] z E; cbn in *; try discriminate; [injection E as <-; eauto|]. now apply IH. Qed.
Lemma forall2_replace {A B} (P : A -> B -> Prop) l m : Forall2 P l m -> forall i x y, nth_error l i = Some x -> P x y -> Forall2 P l (replace_nth i y m).
Proof. induction 1 as [|a b l m H F IH]; intros [|i] x y E Q; cbn in *; try discriminate; [injection E as ->; now constructor|]. constructor; [exact H|]. now apply (IH i x). Qed.
Lemma forall_nth {A} (P : A -> Prop) l i x : Forall P l -> nth_error l i = Some x -> P x.
Proof. intros F E. rewrite Forall_forall in F. apply F. now apply nth_error_In in E. Qed.

Lemma course_process js i p : Forall readable_job js -> all_on_course js p -> all_on_course js (process_step i p).
Proof.
  intros R [G F]. unfold process_step. destruct (nth_error (p_threads p) i) as [t|] eqn:E; [|now split].
  destruct (forall2_nth _ _ _ F i t E) as (j & J & C). destruct (course_step j t (forall_nth _ _ _ _ R J) C) as (S1 & S2 & _). rewrite G.
  destruct (thread_step globals_made t) as [g t']. cbn [fst snd] in *. subst g. split; [reflexivity|]. cbn [p_threads]. now apply (forall2_replace _ _ _ F i j).
Qed.
Lemma course_run js sch : Forall readable_job js -> forall p, all_on_course js p -> all_on_course js (run sch p).
Proof. intros R. unfold run. induction sch as [|i sch IH]; intros p A; [exact A|]. cbn [fold_left]. apply IH. now apply course_process. Qed.
Lemma course_begin js : all_on_course js (tables_ready js).
Proof. split; [apply made_is|]. cbn [p_threads tables_ready]. induction js; cbn; constructor; [reflexivity|assumption]. Qed.
Lemma course_no_race js p : Forall readable_job js -> all_on_course js p -> ~ race p.
Proof.
  intros R [G F] (i & j & t & u & v & w & x & _ & T & U & A & B & W). rewrite G in A, B.
  destruct (forall2_nth _ _ _ F i t T) as (a & J & C). destruct (course_step a t (forall_nth _ _ _ _ R J) C) as (_ & _ & RA). 
  destruct (forall2_nth _ _ _ F j u U) as (b & K & D). destruct (course_step b u (forall_nth _ _ _ _ R K) D) as (_ & _ & RB).
  apply RA in A. apply RB in B. destruct W; congruence.
Qed.
Theorem any_schedule js sch : Forall readable_job js ->
  let p := run sch (tables_ready js) in
  ~ race p /\ forall i j r, nth_error js i = Some j -> nth_error (p_threads p) i = Some (Finished r) -> alone j r.
Proof.
  intros R p. pose proof (course_run js sch R _ (course_begin js)) as A. split; [now apply (course_no_race js)|].
  intros i j r J T. destruct A as [_ F]. destruct (forall2_nth _ _ _ F i _ T) as (j' & J' & C). rewrite J in J'. injection J' as <-. exact C.
Qed.

(** * Threads come to an end *)

(** The steps that are left. *)
Definition left_over (t : thread) : nat :=
  match t with
  | Testing j => (length making + job_length j + 3)%nat
  | Making todo j => (length todo + job_length j + 2)%nat
  | Decoding s _ _ => S (length s)
  | Encoding w _ => S (length w)
  | Finished _ => O
  end.
Lemma begin_left j : left_over (begin_job j) = S (job_length j).
Proof. now destruct j. Qed.
Lemma step_left g t : (left_over (snd (thread_step g t)) <= left_over t - 1)%nat.
Proof.
  destruct t as [j|[|a todo] j|[|c s] d o|[|c w] o|r]; cbn [thread_step snd].
  - destruct (is_nil (g_keys g)).
    + cbn [left_over]. generalize (length making). intros. lia.
    + rewrite begin_left. cbn [left_over]. generalize (length making). intros. lia.
  - rewrite begin_left. cbn. lia.
  - cbn [left_over length]. lia.
  - cbn. lia.
  - destruct (code c =? 0); [cbn; lia|]. destruct ((193 <=? code c) && (code c <=? 207)); [cbn; lia|]. destruct d as [d|].
    + destruct (existsb (Z.eqb d) (g_keys g)); [|cbn; lia]. destruct (cmap_index (accent_map g d) (code c)). cbn. lia.
    + destruct (cmap_index (g_main g) (code c)). cbn. lia.
  - cbn. lia.
  - cbn. lia.
  - cbn. lia.
Qed.
Lemma none_left t : left_over t = O -> exists r, t = Finished r.
Proof. destruct t as [j|todo j|s d o|w o|r]; cbn [left_over]; intros H; [generalize dependent (length making); intros; lia|lia|discriminate|discriminate|eauto]. Qed.
Lemma run_left sch : forall i p t, nth_error (p_threads p) i = Some t ->
  exists t', nth_error (p_threads (run sch p)) i = Some t' /\ (left_over t' <= left_over t - count_occ Nat.eq_dec sch i)%nat.
Proof.
  induction sch as [|k sch IH]; intros i p t T.
  - exists t. split; [exact T|]. cbn. lia.
  - unfold run. cbn [fold_left]. fold (run sch (process_step k p)). unfold process_step at 1. destruct (nth_error (p_threads p) k) as [u|] eqn:U.
    + destruct (thread_step (p_globals p) u) as [g u'] eqn:S. cbn [count_occ]. destruct (Nat.eq_dec k i) as [->|NE].
      * rewrite U in T. injection T as <-. destruct (IH i (mkP g (replace_nth i u' (p_threads p))) u') as (t' & T' & L).
        { cbn [p_threads]. rewrite (nth_replace _ i i u' u U). now rewrite Nat.eqb_refl. }
        exists t'. split; [exact T'|]. pose proof (step_left (p_globals p) u) as SL. rewrite S in SL. cbn [snd] in SL. lia.
      * destruct (IH i (mkP g (replace_nth k u' (p_threads p))) t) as (t' & T' & L).
        { cbn [p_threads]. rewrite (nth_replace _ k i u' u U). destruct (Nat.eqb_spec i k); [congruence|exact T]. }
        exists t'. now split.
    + cbn [count_occ]. destruct (Nat.eq_dec k i) as [->|NE]; [congruence|]. destruct (IH i p t T) as (t' & T' & L). exists t'. now split.
Qed.
Theorem all_finish g js sch i j : nth_error js i = Some j -> (enough j <= count_occ Nat.eq_dec sch i)%nat ->
  exists r, nth_error (p_threads (run sch (mkP g (map Testing js)))) i = Some (Finished r).
Proof.
  intros J C. destruct (run_left sch i (mkP g (map Testing js)) (Testing j)) as (t & T & L).
  - cbn [p_threads]. now rewrite nth_error_map, J.
  - assert (Z : left_over t = O) by (unfold enough in C; cbn [left_over] in L; generalize dependent (length making); intros; lia).
    destruct (none_left t Z) as (r & ->). now exists r.
Qed.

(** * One thread after the other *)

Definition good (g : globals) : Prop := g = globals_empty \/ (g_keys g = map fst iso_diacriticals /\ map fst (g_accents g) = map fst iso_diacriticals).
Definition filled (g : globals) : Prop := g_keys g = map fst iso_diacriticals /\ map fst (g_accents g) = map fst iso_diacriticals.

Lemma find_map (l : list (Z * cmap)) d : diacritical_find l d = None <-> ~ In d (map fst l).
Proof.
  induction l as [|[k m] l IH]; cbn; [tauto|]. destruct (Z.eqb_spec k d) as [->|NE]; [split; [discriminate|tauto]|]. rewrite IH. tauto.
Qed.
Lemma view_filled g : filled g -> view g = mkTab (g_main g) (g_accents g).
Proof.
  intros [K A]. unfold view. f_equal. rewrite K, <- A. assert (N : NoDup (map fst (g_accents g))) by (rewrite A; apply made_nodup). clear K A.
  unfold accent_map. induction (g_accents g) as [|[k m] l IH]; [reflexivity|]. cbn [map fst]. inversion N as [|? ? N1 N2]; subst. cbn [diacritical_find]. rewrite Z.eqb_refl. f_equal.
  rewrite <- (IH N2) at 2. apply map_ext_in. intros d I. cbn. destruct (Z.eqb_spec k d) as [->|]; [contradiction|reflexivity].
Qed.
Lemma keys_update l d m : map fst (diacritical_update l d m) = map fst l.
Proof. induction l as [|[k x] l IH]; [reflexivity|]. cbn. destruct (k =? d) eqn:E; cbn; [reflexivity|]. now rewrite IH. Qed.
Lemma keys_test g d : filled g -> existsb (Z.eqb d) (g_keys g) = match diacritical_find (g_accents g) d with Some _ => true | None => false end.
Proof.
  intros [K A]. rewrite K, <- A. destruct (diacritical_find (g_accents g) d) as [m|] eqn:F.
  - apply existsb_exists. destruct (in_dec Z.eq_dec d (map fst (g_accents g))) as [I|N]; [exists d; split; [exact I|apply Z.eqb_refl]|].
    apply find_map in N. congruence.
  - apply not_true_is_false. intros H. apply existsb_exists in H. destruct H as (x & I & E). apply Z.eqb_eq in E. subst x. now apply find_map in F.
Qed.

Definition result_of (o : wstr) (r : res wstr) : outcome := match r with Ok w => GaveText (rev o ++ w) | _ => Crashed end.
Lemma decode_alone_steps s : forall g d o, filled g ->
  exists g', steps (S (length s)) (g, Decoding s d o) = (g', Finished (result_of o (snd (iso_decode_loop (view g) s d)))) /\
    filled g' /\ view g' = fst (iso_decode_loop (view g) s d).
Proof.
  induction s as [|c s IH]; intros g d o F.
  - exists g. cbn. rewrite app_nil_r. split; [reflexivity|]. split; [exact F|reflexivity].
  - cbn [length]. rewrite steps_S. cbn [fst snd thread_step iso_decode_loop]. destruct (code c =? 0).
    + rewrite finished_steps. exists g. cbn. rewrite app_nil_r. split; [reflexivity|]. split; [exact F|reflexivity].
    + destruct ((193 <=? code c) && (code c <=? 207)); [now apply IH|]. destruct d as [d|].
      * rewrite (keys_test g d F). rewrite (view_filled g F). cbn [t_diacriticals t_main]. unfold accent_map. destruct (diacritical_find (g_accents g) d) as [m|].
        -- destruct (cmap_index m (code c)) as [v m']. set (g1 := mkG (g_main g) (diacritical_update (g_accents g) d m') (g_keys g)).
           assert (F1 : filled g1) by (destruct F as [K A]; split; [exact K|cbn; now rewrite keys_update]).
           destruct (IH g1 None (v :: o) F1) as (g' & S & F' & V). rewrite (view_filled g1 F1) in S, V. cbn [g_main g_accents g1] in S, V.
           exists g'. rewrite S. destruct (iso_decode_loop _ s None) as [tab r]. cbn [fst snd] in *. split; [|now split]. f_equal. f_equal.
           destruct r; cbn; [now rewrite <- app_assoc|reflexivity..].
        -- rewrite finished_steps. exists g. split; [reflexivity|]. split; [exact F|]. now rewrite (view_filled g F).
      * rewrite (view_filled g F). cbn [t_diacriticals t_main]. destruct (cmap_index (g_main g) (code c)) as [v m']. set (g1 := mkG m' (g_accents g) (g_keys g)).
        assert (F1 : filled g1) by exact F. destruct (IH g1 None (v :: o) F1) as (g' & S & F' & V). rewrite (view_filled g1 F1) in S, V. cbn [g_main g_accents g1] in S, V.
        exists g'. rewrite S. destruct (iso_decode_loop _ s None) as [tab r]. cbn [fst snd] in *. split; [|now split]. f_equal. f_equal.
        destruct r; cbn; [now rewrite <- app_assoc|reflexivity..].
Qed.
Lemma encode_alone_steps w : forall g o, steps (S (length w)) (g, Encoding w o) = (g, Finished (GaveBytes (o ++ flat_map (iso_encode_char (view g)) w))).
Proof.
  induction w as [|c w IH]; intros g o; [cbn; now rewrite app_nil_r|]. cbn [length]. rewrite steps_S. cbn [fst snd thread_step]. rewrite IH. cbn [flat_map]. now rewrite app_assoc.
Qed.
Lemma making_steps l : forall g j, steps (length l) (g, Making l j) = (fold_left (fun g a => assign a g) l g, Making [] j).
Proof. induction l as [|a l IH]; intros g j; [reflexivity|]. cbn [length]. rewrite steps_S. apply IH. Qed.

Lemma filled_ensure g : good g -> filled (if is_nil (g_keys g) then globals_made else g) /\ view (if is_nil (g_keys g) then globals_made else g) = ensure (view g).
Proof.
  intros [->|F]; [split; [split; reflexivity|vm_compute; reflexivity]|]. pose proof F as [K A]. unfold ensure. rewrite (view_filled g F). cbn [t_diacriticals].
  assert (N : is_nil (g_keys g) = false) by now rewrite K. rewrite N. split; [exact F|]. rewrite (view_filled g F).
  destruct (g_accents g) as [|x l] eqn:E; [discriminate A|reflexivity].
Qed.
Lemma testing_steps g j : good g -> exists n, (n <= length making + 2)%nat /\ steps n (g, Testing j) = (if is_nil (g_keys g) then globals_made else g, begin_job j).
Proof.
  intros G. destruct (is_nil (g_keys g)) eqn:N.
  - assert (E : g = globals_empty) by (destruct G as [E|[K _]]; [exact E|rewrite K in N; discriminate]). subst g.
    exists (1 + (length making + 1))%nat. split; [lia|]. rewrite steps_add, steps_add. change (steps 1 (globals_empty, Testing j)) with (globals_empty, Making making j).
    rewrite making_steps, made_is. reflexivity.
  - exists 1%nat. split; [lia|]. unfold steps. cbn. now rewrite N.
Qed.
Definition call_result (t : tables) (j : job) : tables * outcome :=
  match j with
  | ToUtf16 s => (fst (iso6937_to_utf16 t s), match snd (iso6937_to_utf16 t s) with Ok w => GaveText w | _ => Crashed end)
  | ToIso6937 w => (fst (utf16_to_iso6937 t w), GaveBytes (snd (utf16_to_iso6937 t w)))
  end.
Lemma job_steps g j : good g -> exists g', steps (enough j) (g, Testing j) = (g', Finished (snd (call_result (view g) j))) /\ good g' /\ view g' = fst (call_result (view g) j).
Proof.
  intros G. destruct (testing_steps g j G) as (n & L & ST). destruct (filled_ensure g G) as [F V]. set (g1 := if is_nil (g_keys g) then globals_made else g) in *.
  assert (E : enough j = (n + (S (job_length j) + (enough j - n - S (job_length j))))%nat) by (unfold enough; lia).
  rewrite E, steps_add, ST, steps_add. destruct j as [s|w]; cbn [begin_job job_length call_result fst snd].
  - destruct (decode_alone_steps s g1 None [] F) as (g' & D & F' & V'). exists g'. rewrite D, finished_steps. unfold iso6937_to_utf16. rewrite <- V.
    split; [reflexivity|]. split; [now right|exact V'].
  - exists g1. rewrite encode_alone_steps, finished_steps. unfold utf16_to_iso6937. rewrite <- V. split; [reflexivity|]. split; [now right|reflexivity].
Qed.

Lemma in_sequence_cons t j js : in_sequence t (j :: js) = snd (call_result t j) :: in_sequence (fst (call_result t j)) js.
Proof. now destruct j. Qed.
Lemma replace_middle {A} (l m : list A) x y : replace_nth (length l) y (l ++ x :: m) = l ++ y :: m.
Proof. induction l as [|a l IH]; [reflexivity|]. cbn. now rewrite IH. Qed.
Lemma nth_middle {A} (l m : list A) x : nth_error (l ++ x :: m) (length l) = Some x.
Proof. induction l as [|a l IH]; [reflexivity|]. exact IH. Qed.
Lemma one_by_one_run js : forall g ts, good g ->
  p_threads (run (one_by_one (length ts) js) (mkP g (ts ++ map Testing js))) = ts ++ map Finished (in_sequence (view g) js).
Proof.
  induction js as [|j js IH]; intros g ts G; [reflexivity|]. cbn [one_by_one map]. rewrite run_app, (run_repeat (length ts) (enough j) g _ (Testing j)) by apply nth_middle.
  destruct (job_steps g j G) as (g' & S & G' & V). rewrite S. cbn [fst snd]. rewrite replace_middle, in_sequence_cons, <- V. cbn [map].
  specialize (IH g' (ts ++ [Finished (snd (call_result (view g) j))]) G'). rewrite app_length in IH. cbn [length] in IH. rewrite Nat.add_1_r, <- !app_assoc in IH. exact IH.
Qed.
Theorem one_at_a_time js : p_threads (run (one_by_one 0 js) (at_start js)) = map Finished (in_sequence tables_empty js).
Proof. apply (one_by_one_run js globals_empty []). now left. Qed.

(** * What goes wrong *)

Lemma readable_e_acute : readable [chr 0xC2; chr 101].
Proof.
  exists [[0xC2; 101]], [0xE9]. split; [|reflexivity]. constructor; [|constructor]. apply (glyph_accented 0xC2 0x301 101 0xE9); vm_compute; intuition discriminate.
Qed.
Definition two : list job := [ToUtf16 [chr 0xC2; chr 101]; ToUtf16 [chr 0xC2; chr 101]].
Lemma two_readable : Forall readable_job two.
Proof. repeat constructor; apply readable_e_acute. Qed.
(** The first thread is about to enter the first key of diacriticals; the second tests whether there are any. *)
Lemma first_use_race : exists sch, race (run sch (at_start two)).
Proof.
  exists (repeat 0%nat (length making - 12)). exists 0%nat, 1%nat.
  assert (E : exists t, nth_error (p_threads (run (repeat 0%nat (length making - 12)) (at_start two))) 0 = Some t /\ nth_error (p_threads (run (repeat 0%nat (length making - 12)) (at_start two))) 1 = Some (Testing (ToUtf16 [chr 0xC2; chr 101])) /\
    accesses (p_globals (run (repeat 0%nat (length making - 12)) (at_start two))) t = [(VDiacriticals, true)]).
  { eexists. split; [vm_compute; reflexivity|]. split; vm_compute; reflexivity. }
  destruct E as (t & E1 & E2 & E3). exists t, (Testing (ToUtf16 [chr 0xC2; chr 101])), VDiacriticals, true, false. split; [discriminate|]. rewrite E1, E2, E3.
  repeat split; [now left|now left|now left].
Qed.
Lemma first_use_crash : exists sch, In (Finished Crashed) (p_threads (run sch (at_start two))).
Proof. exists (repeat 0%nat (length making - 11) ++ repeat 1%nat 5). vm_compute. now right; left. Qed.
Lemma first_use_lost : exists sch, nth_error (p_threads (run sch (at_start [ToIso6937 [0xE9]; ToIso6937 [0xE9]]))) 1 = Some (Finished (GaveBytes [])) /\
  alone (ToIso6937 [0xE9]) (GaveBytes [chr 0xC2; chr 101]).
Proof. exists (repeat 0%nat (length making - 11) ++ repeat 1%nat 5). split; vm_compute; reflexivity. Qed.
Lemma unreadable_race : exists sch, race (run sch (tables_ready [ToUtf16 [chr 128]; ToUtf16 [chr 65]])).
Proof.
  exists [0%nat; 1%nat]. exists 0%nat, 1%nat, (Decoding [chr 128] None []), (Decoding [chr 65] None []), VMain, true, false. split; [discriminate|].
  split; [vm_compute; reflexivity|]. split; [vm_compute; reflexivity|]. split; [vm_compute; now left|]. split; [vm_compute; now left|now left].
Qed.

(** What the accesses of a step are: a map that it changes is one that it writes, and what it does depends only on the maps
    that it accesses. *)
Lemma find_update l d m d' : diacritical_find (diacritical_update l d m) d' =
  if d' =? d then match diacritical_find l d with Some _ => Some m | None => None end else diacritical_find l d'.
Proof.
  induction l as [|[k x] l IH]; cbn [diacritical_find diacritical_update]; [now destruct (d' =? d)|].
  destruct (Z.eqb_spec k d) as [->|N]; cbn [diacritical_find].
  - rewrite (Z.eqb_sym d d'). now destruct (d' =? d).
  - rewrite IH. destruct (Z.eqb_spec d' d) as [E|M]; [|reflexivity]. destruct (Z.eqb_spec k d') as [E'|]; [congruence|reflexivity].
Qed.
Lemma accent_update g d m k l d' : accent_map (mkG k (diacritical_update (g_accents g) d m) l) d' =
  if d' =? d then match diacritical_find (g_accents g) d with Some _ => m | None => [] end else accent_map g d'.
Proof. unfold accent_map. cbn [g_accents]. rewrite find_update. destruct (d' =? d); [now destruct (diacritical_find _ d)|reflexivity]. Qed.

Definition byte (k : Z) : Prop := 0 <= k < 256.
(** Maps are in the order of their keys, which are characters. *)
Definition above (k : Z) (m : cmap) : Prop := Forall (fun e => signed_char k < signed_char (fst e)) m.
Fixpoint ordered (m : cmap) : Prop := match m with [] => True | e :: t => byte (fst e) /\ above (fst e) t /\ ordered t end.
Lemma above_trans k k' m : signed_char k < signed_char k' -> above k' m -> above k m.
Proof. intros L. apply Forall_impl. intros e H. lia. Qed.
Lemma signed_inj a b : byte a -> byte b -> signed_char a = signed_char b -> a = b.
Proof. unfold byte, signed_char. intros A B. destruct (Z.ltb_spec a 128), (Z.ltb_spec b 128); lia. Qed.
Lemma above_set m k v j : signed_char j < signed_char k -> above j m -> above j (cmap_set m k v).
Proof.
  intros L. induction m as [|[k' v'] t IH]; cbn [cmap_set]; intros A; [constructor; [exact L|constructor]|]. inversion A as [|? ? H T]; subst.
  destruct (k' =? k); [now constructor|]. destruct (_ <? _); [constructor; [exact L|exact A]|constructor; [exact H|exact (IH T)]].
Qed.
Lemma ordered_set m k v : byte k -> ordered m -> ordered (cmap_set m k v).
Proof.
  intros K. induction m as [|[k' v'] t IH]; cbn [cmap_set ordered fst]; intros O; [split; [exact K|split; [constructor|exact I]]|].
  destruct O as (B & A & O). destruct (Z.eqb_spec k' k) as [->|N]; [cbn; tauto|]. destruct (Z.ltb_spec (signed_char k) (signed_char k')) as [L|L].
  - cbn [ordered fst]. split; [exact K|]. split; [constructor; [exact L|exact (above_trans _ _ _ L A)]|tauto].
  - cbn [ordered fst]. split; [exact B|]. split; [|now apply IH]. apply above_set; [|exact A].
    destruct (Z.eq_dec (signed_char k') (signed_char k)) as [E|]; [destruct (N (signed_inj _ _ B K E))|lia].
Qed.
Lemma above_index m k j : signed_char j < signed_char k -> above j m -> above j (snd (cmap_index m k)).
Proof.
  intros L. induction m as [|[k' v'] t IH]; cbn [cmap_index]; intros A; [constructor; [exact L|constructor]|]. inversion A as [|? ? H T]; subst.
  destruct (k' =? k); [exact A|]. destruct (_ <? _); [constructor; [exact L|exact A]|].
  specialize (IH T). destruct (cmap_index t k) as [r t']. now constructor.
Qed.
Lemma ordered_index m k : byte k -> ordered m -> ordered (snd (cmap_index m k)).
Proof.
  intros K. induction m as [|[k' v'] t IH]; cbn [cmap_index]; intros O; [split; [exact K|split; [constructor|exact I]]|].
  destruct O as (B & A & O). cbn [fst] in B, A. destruct (Z.eqb_spec k' k) as [->|N]; [cbn; tauto|].
  destruct (Z.ltb_spec (signed_char k) (signed_char k')) as [L|L].
  - cbn [snd ordered fst]. split; [exact K|]. split; [constructor; [exact L|exact (above_trans _ _ _ L A)]|tauto].
  - pose proof (above_index t k k') as A'. specialize (IH O). destruct (cmap_index t k) as [r t']. cbn [snd ordered fst] in *.
    split; [exact B|]. split; [|exact IH]. apply A'; [|exact A].
    destruct (Z.eq_dec (signed_char k') (signed_char k)) as [E|]; [destruct (N (signed_inj _ _ B K E))|lia].
Qed.
Lemma has_above m k j : signed_char k <= signed_char j -> above j m -> has_key m k = false.
Proof.
  intros L A. unfold has_key. induction A as [|[k' v'] t H _ IH]; [reflexivity|]. cbn [existsb fst] in *. rewrite IH, orb_false_r.
  apply Z.eqb_neq. intros ->. lia.
Qed.
Lemma index_has m k : ordered m -> has_key m k = true -> snd (cmap_index m k) = m.
Proof.
  induction m as [|[k' v'] t IH]; cbn [cmap_index ordered fst]; intros O H; [discriminate H|]. destruct O as (B & A & O).
  destruct (Z.eqb_spec k' k) as [->|N]; [reflexivity|]. apply Z.eqb_neq in N. unfold has_key in H. cbn [existsb fst] in H. rewrite N in H.
  cbn [orb] in H. fold (has_key t k) in H. destruct (Z.ltb_spec (signed_char k) (signed_char k')) as [L|L].
  - rewrite (has_above t k k') in H; [discriminate H|lia|exact A].
  - specialize (IH O H). destruct (cmap_index t k) as [r t']. cbn [snd] in *. now rewrite IH.
Qed.

Definition in_order (g : globals) : Prop := ordered (g_main g) /\ forall d, ordered (accent_map g d).
Definition byte_keyed (a : assignment) : Prop := match a with SetAccent _ k _ => byte k | SetMain k _ => byte k | SetKey _ => True end.
Definition bytes_left (t : thread) : Prop := match t with Making todo _ => Forall byte_keyed todo | _ => True end.
Lemma making_bytes : Forall byte_keyed making.
Proof.
  apply Forall_forall. intros a H.
  assert (X : forallb (fun a => match a with SetAccent _ k _ => (0 <=? k) && (k <? 256) | SetMain k _ => (0 <=? k) && (k <? 256) | SetKey _ => true end) making = true)
    by (vm_compute; reflexivity).
  rewrite forallb_forall in X. specialize (X a H). destruct a as [d k v|k v|d]; cbn [byte_keyed]; [| |exact I];
    apply andb_true_iff in X as [X Y]; apply Z.leb_le in X; apply Z.ltb_lt in Y; split; assumption.
Qed.
Lemma code_byte c : byte (code c).
Proof. unfold byte. pose proof (code_bounds c). lia. Qed.
Lemma accent_ordered g d m k d' : in_order g -> ordered m -> ordered (accent_map (mkG k (diacritical_update (g_accents g) d m) (g_keys g)) d').
Proof. intros G M. rewrite accent_update. destruct (d' =? d); [destruct (diacritical_find _ _); [exact M|exact I]|apply G]. Qed.
Lemma order_step g t : in_order g -> bytes_left t -> in_order (fst (thread_step g t)) /\ bytes_left (snd (thread_step g t)).
Proof.
  intros G B. pose proof G as (M & A). destruct t as [j|todo j|s d o|w o|r]; cbn [thread_step].
  - split; [exact G|]. cbn [snd]. destruct (is_nil _); [exact making_bytes|]. now destruct j.
  - destruct todo as [|a todo]; [split; [exact G|now destruct j]|]. cbn [bytes_left] in B. inversion B as [|? ? X Y]; subst.
    split; [|exact Y]. cbn [fst]. destruct a as [d k v|k v|d]; cbn [assign byte_keyed] in *.
    + split; [exact M|]. intros d'. apply accent_ordered; [exact G|]. now apply ordered_set.
    + split; [now apply ordered_set|exact A].
    + exact G.
  - destruct s as [|c s]; [split; [exact G|exact I]|]. destruct (_ =? 0); [split; [exact G|exact I]|].
    destruct (_ && _); [split; [exact G|exact I]|]. destruct d as [d|].
    + destruct (existsb _ _); [|split; [exact G|exact I]]. pose proof (ordered_index _ _ (code_byte c) (A d)) as X.
      destruct (cmap_index (accent_map g d) (code c)) as [v m]. split; [|exact I]. split; [exact M|]. intros d'. now apply accent_ordered.
    + pose proof (ordered_index _ _ (code_byte c) M) as X. destruct (cmap_index (g_main g) (code c)) as [v m].
      split; [|exact I]. split; [exact X|exact A].
  - destruct w; split; try exact G; exact I.
  - now split.
Qed.
Lemma replace_forall {A} (P : A -> Prop) x l : forall i, Forall P l -> P x -> Forall P (replace_nth i x l).
Proof. induction l as [|a l IH]; intros [|i] F X; cbn; try constructor; inversion F; subst; auto. Qed.
Lemma order_run sch : forall p, in_order (p_globals p) -> Forall bytes_left (p_threads p) ->
  in_order (p_globals (run sch p)) /\ Forall bytes_left (p_threads (run sch p)).
Proof.
  induction sch as [|i sch IH]; intros p G B; [now split|]. change (run (i :: sch) p) with (run sch (process_step i p)).
  unfold process_step. destruct (nth_error (p_threads p) i) as [t|] eqn:N; [|now apply IH].
  destruct (order_step (p_globals p) t G (forall_nth _ _ _ _ B N)) as (G' & B'). destruct (thread_step _ t) as [g' t'].
  apply IH; [exact G'|]. now apply replace_forall.
Qed.
Lemma order_start js : in_order globals_empty /\ Forall bytes_left (map Testing js).
Proof.
  split; [|apply Forall_forall; intros t H; apply in_map_iff in H as (j & <- & _); exact I].
  split; [exact I|]. intros d. unfold accent_map, globals_empty. cbn [g_accents].
  destruct (diacritical_find _ d) as [m|] eqn:E; [|exact I].
  enough (m = []) as -> by exact I. revert E. generalize iso_diacriticals as l. induction l as [|e l IH]; [discriminate|]. cbn.
  destruct (_ =? d); [congruence|exact IH].
Qed.

Lemma step_writes g t v : in_order g -> ~ same_map g (fst (thread_step g t)) v -> In (v, true) (accesses g t).
Proof.
  intros (M & A) N. destruct t as [j|todo j|s d o|w o|r]; cbn [thread_step fst accesses] in *.
  - destruct N. now destruct v.
  - destruct todo as [|a todo]; [destruct N; now destruct v|]. cbn [fst] in N. destruct a as [d k x|k x|d]; cbn [assign] in N.
    + destruct v as [|d'|]; try (destruct N; reflexivity). cbn [same_map] in N. rewrite accent_update in N.
      destruct (Z.eqb_spec d' d) as [->|]; [now left|destruct N; reflexivity].
    + destruct v as [|d'|]; try (destruct N; reflexivity). now left.
    + destruct v as [|d'|]; try (destruct N; reflexivity). now left.
  - destruct s as [|c s]; [destruct N; now destruct v|]. destruct (_ =? 0); [destruct N; now destruct v|].
    destruct (_ && _); [destruct N; now destruct v|]. destruct d as [d|].
    + destruct (existsb _ _); [|destruct N; now destruct v]. pose proof (index_has _ (code c) (A d)) as X.
      destruct (cmap_index (accent_map g d) (code c)) as [x m]. cbn [fst] in N.
      destruct v as [|d'|]; try (destruct N; reflexivity). cbn [same_map] in N. rewrite accent_update in N.
      destruct (Z.eqb_spec d' d) as [->|]; [|destruct N; reflexivity]. right. left. f_equal. apply negb_true_iff.
      destruct (has_key _ _); [|reflexivity]. destruct N. specialize (X eq_refl). cbn [snd] in X. subst m.
      unfold accent_map. destruct (diacritical_find _ d); reflexivity.
    + pose proof (index_has _ (code c) M) as X. destruct (cmap_index (g_main g) (code c)) as [x m]. cbn [fst] in N.
      destruct v as [|d'|]; try (destruct N; reflexivity). left. f_equal. apply negb_true_iff.
      destruct (has_key _ _); [|reflexivity]. destruct N. symmetry. exact (X eq_refl).
  - destruct w; destruct N; now destruct v.
  - destruct N; now destruct v.
Qed.
(** Every change that a step of a thread makes to a map counts as a write. *)
Theorem changes_are_writes js sch i t v : let p := run sch (at_start js) in
  nth_error (p_threads p) i = Some t -> ~ same_map (p_globals p) (p_globals (process_step i p)) v -> In (v, true) (accesses (p_globals p) t).
Proof.
  intros p N C. apply step_writes.
  - destruct (order_start js) as (G & B). exact (proj1 (order_run sch (at_start js) G B)).
  - unfold process_step in C. rewrite N in C. destruct (thread_step (p_globals p) t). exact C.
Qed.

Lemma find_same l : forall l' d, map fst l = map fst l' -> (diacritical_find l d = None <-> diacritical_find l' d = None).
Proof. intros l' d E. now rewrite !find_map, E. Qed.
Lemma view_same g g' : g_main g = g_main g' -> g_keys g = g_keys g' -> (forall d, In d (g_keys g) -> accent_map g d = accent_map g' d) -> view g = view g'.
Proof. intros M K A. unfold view. rewrite <- M, <- K. f_equal. apply map_ext_in. intros d D. now rewrite (A d D). Qed.
Lemma update_agrees g g' d m k k' l l' : same_variables g g' ->
  accent_map (mkG k (diacritical_update (g_accents g) d m) l) d = accent_map (mkG k' (diacritical_update (g_accents g') d m) l') d.
Proof.
  intros S. rewrite !accent_update, Z.eqb_refl. pose proof (find_same _ _ d S) as F.
  destruct (diacritical_find (g_accents g) d), (diacritical_find (g_accents g') d); try reflexivity; destruct F as [F F']; [now specialize (F' eq_refl)|now specialize (F eq_refl)].
Qed.
(** What a step does depends only on the maps that it accesses. *)
Theorem accesses_suffice g g' t : same_variables g g' -> (forall v w, In (v, w) (accesses g t) -> same_map g g' v) ->
  snd (thread_step g t) = snd (thread_step g' t) /\
  forall v, In (v, true) (accesses g t) -> same_map (fst (thread_step g t)) (fst (thread_step g' t)) v.
Proof.
  intros S H. destruct t as [j|todo j|s d o|w o|r]; cbn [thread_step fst snd accesses] in *.
  - pose proof (H _ _ (or_introl eq_refl)) as K. cbn [same_map] in K. rewrite K. split; [reflexivity|]. intros v [E|[]]. discriminate E.
  - destruct todo as [|a todo]; [split; [reflexivity|intros v []]|]. split; [reflexivity|]. cbn [fst]. destruct a as [d k x|k x|d]; intros v [E|[]]; injection E as <-;
      pose proof (H _ _ (or_introl eq_refl)) as K; cbn [same_map assign g_main g_keys] in *; rewrite K; try reflexivity. now apply update_agrees.
  - destruct s as [|c s]; [split; [reflexivity|intros v []]|]. destruct (_ =? 0); [split; [reflexivity|intros v []]|].
    destruct (_ && _); [split; [reflexivity|intros v []]|]. destruct d as [d|].
    + destruct (existsb (Z.eqb d) (g_keys g)) eqn:K.
      * pose proof (H _ _ (or_introl eq_refl)) as KK. cbn [same_map] in KK. rewrite <- KK, K.
        pose proof (H _ _ (or_intror (or_introl eq_refl))) as AA. cbn [same_map] in AA. rewrite <- AA.
        destruct (cmap_index _ _) as [x m]. split; [reflexivity|]. intros v [E|[E|[]]]; [discriminate E|]. injection E as <- _.
        cbn [same_map fst]. now apply update_agrees.
      * pose proof (H _ _ (or_introl eq_refl)) as KK. cbn [same_map] in KK. rewrite <- KK, K. split; [reflexivity|]. intros v [E|[]].
        injection E as <-. exact KK.
    + pose proof (H _ _ (or_introl eq_refl)) as K. cbn [same_map] in K. rewrite <- K. destruct (cmap_index _ _) as [x m].
      split; [reflexivity|]. intros v [E|[]]. injection E as <- _. reflexivity.
  - destruct w as [|c w]; [split; [reflexivity|intros v []]|].
    assert (V : view g = view g').
    { apply view_same; [exact (H VMain false (or_introl eq_refl))|exact (H VDiacriticals false (or_intror (or_introl eq_refl)))|].
      intros d D. apply (H (VAccent d) false). right. right. apply in_map_iff. now exists d. }
    cbn [snd fst]. rewrite V. split; [reflexivity|]. intros v [E|[E|E]]; try discriminate E. apply in_map_iff in E as (d & E & _). discriminate E.
  - split; [reflexivity|intros v []].
Qed.
(** A thread that follows a null pointer has entered it into the map, with operator[]. *)
Theorem crash_writes g t : t <> Finished Crashed -> snd (thread_step g t) = Finished Crashed -> In (VDiacriticals, true) (accesses g t).
Proof.
  intros N. destruct t as [j|todo j|s d o|w o|r]; cbn [thread_step accesses].
  - cbn [snd]. destruct (is_nil _); [discriminate|]. now destruct j.
  - destruct todo; [now destruct j|discriminate].
  - destruct s as [|c s]; [discriminate|]. destruct (_ =? 0); [discriminate|]. destruct (_ && _); [discriminate|]. destruct d as [d|].
    + destruct (existsb _ _); [destruct (cmap_index _ _); discriminate|now left].
    + destruct (cmap_index _ _); discriminate.
  - destruct w; discriminate.
  - intros E. destruct (N E).
Qed.
