(** Proofs about binary STL files that are cut short, and about stopping the writer. *)
From Coq Require Import ZArith Lia List Bool Ascii String.
From Verif.Model Require Import Base Strings Float TimeModel Types Iso6937 StlUtil StlBinReader StlBinWriter Saving.
From Verif.Spec Require Import Outcome Iso6937Spec StlFileSpec StlWriteSpec StlRoundTripSpec SavingSpec.
From Verif.Proofs Require Import Iso6937Proofs StlReadProofs StlUseProofs StlRoundTripProofs.
Import ListNotations.
Local Open Scope Z_scope.
Local Notation length := List.length.

Lemma blocks_cut g n : forall input l m, blocks_res n g input = Ok l -> (m < 128 * n)%nat ->
  blocks_res n g (firstn m input) = Throw no_block.
Proof.
  induction n as [|n IH]; intros input l m; cbn [blocks_res]; [lia|]. intros R M. apply bind_ok in R. destruct R as ([b rest] & E & R).
  apply read_block_iff in E. destruct E as [-> L]. cbn [fst snd] in R. apply bind_ok in R. destruct R as (y & B & R).
  apply bind_ok in R. destruct R as (l' & R & _). destruct (Nat.ltb_spec m 128) as [S|S].
  - unfold read_block. assert (S' : (length (firstn m (b ++ rest)) < 128)%nat) by (pose proof (firstn_le_length m (b ++ rest)); rewrite firstn_length in *; lia).
    apply Nat.ltb_lt in S'. rewrite S'. cbn [bind]. vm_compute. reflexivity.
  - rewrite firstn_app, firstn_all2 by lia. rewrite (proj2 (read_block_iff 128 "TTI" _ b (firstn (m - length b) rest)) (conj eq_refl L)).
    cbn [bind fst snd]. rewrite B. cbn [bind]. rewrite (IH rest l') by (assumption || lia). reflexivity.
Qed.

Lemma blocks_whole g n : forall input l m, blocks_res n g input = Ok l -> (128 * n <= m)%nat -> blocks_res n g (firstn m input) = Ok l.
Proof.
  induction n as [|n IH]; intros input l m; cbn [blocks_res]; [auto|]. intros R M. apply bind_ok in R. destruct R as ([b rest] & E & R).
  apply read_block_iff in E. destruct E as [-> L]. cbn [fst snd] in R. apply bind_ok in R. destruct R as (y & B & R).
  apply bind_ok in R. destruct R as (l' & R & X). rewrite firstn_app, firstn_all2 by lia.
  rewrite (proj2 (read_block_iff 128 "TTI" _ b (firstn (m - length b) rest)) (conj eq_refl L)).
  cbn [bind fst snd]. rewrite B. cbn [bind]. rewrite (IH rest l') by (assumption || lia). exact X.
Qed.

Lemma read_unfold h input g subs : snd (stl_binary_read input (after h)) = Ok (g, subs) -> exists head rest l,
  input = head ++ rest /\ length head = 1024%nat /\ read_gsi head = Ok g /\ blocks_res (Z.to_nat (tti_blocks g)) g rest = Ok l /\
  subs = fix_lines (top_row 0 (map snd l)) (maximum_rows g) (List.concat (map fst l)).
Proof.
  rewrite (proj1 (read_ok input (after h) (after_reached h))). unfold file_res. intros R. apply bind_ok in R.
  destruct R as ([head rest] & E & R). apply read_block_iff in E. destruct E as [-> L]. cbn [fst snd] in R.
  apply bind_ok in R. destruct R as (g' & G & R). apply bind_ok in R. destruct R as (l & B & R). injection R as -> <-.
  exists head, rest, l. auto.
Qed.

Lemma cut_header m input : (m < 1024)%nat -> header_missing (firstn m input).
Proof. intros M h. apply read_short. pose proof (firstn_le_length m input). rewrite firstn_length in *. lia. Qed.

Lemma cut_block h input g subs m : snd (stl_binary_read input (after h)) = Ok (g, subs) ->
  (1024 <= m)%nat -> Z.of_nat m < 1024 + 128 * tti_blocks g -> block_missing (firstn m input).
Proof.
  intros R M1 M2 h'. apply read_unfold in R. destruct R as (head & rest & l & -> & L & G & B & _).
  rewrite (proj1 (read_ok _ (after h') (after_reached h'))). unfold file_res. rewrite firstn_app, firstn_all2 by lia.
  rewrite (proj2 (read_block_iff 1024 "GSI" _ head (firstn (m - length head) rest)) (conj eq_refl L)). cbn [bind fst snd].
  rewrite G. cbn [bind]. rewrite (blocks_cut g _ rest l) by (assumption || lia). reflexivity.
Qed.

Lemma cut_spare h h' input g subs m : snd (stl_binary_read input (after h)) = Ok (g, subs) ->
  1024 + 128 * tti_blocks g <= Z.of_nat m -> (1024 <= m)%nat -> snd (stl_binary_read (firstn m input) (after h')) = Ok (g, subs).
Proof.
  intros R M2 M1. apply read_unfold in R. destruct R as (head & rest & l & -> & L & G & B & ->).
  rewrite (proj1 (read_ok _ (after h') (after_reached h'))). unfold file_res. rewrite firstn_app, firstn_all2 by lia.
  rewrite (proj2 (read_block_iff 1024 "GSI" _ head (firstn (m - length head) rest)) (conj eq_refl L)). cbn [bind fst snd].
  rewrite G. cbn [bind]. rewrite (blocks_whole g _ rest l) by (assumption || lia). reflexivity.
Qed.

Lemma cut_anywhere h input g subs m : snd (stl_binary_read input (after h)) = Ok (g, subs) ->
  ((m < 1024)%nat -> header_missing (firstn m input)) /\
  ((1024 <= m)%nat -> Z.of_nat m < 1024 + 128 * tti_blocks g -> block_missing (firstn m input)) /\
  ((1024 <= m)%nat -> 1024 + 128 * tti_blocks g <= Z.of_nat m -> forall h', snd (stl_binary_read (firstn m input) (after h')) = Ok (g, subs)).
Proof.
  intros R. split; [intros; now apply cut_header|]. split; [now apply (cut_block h _ g subs)|]. intros; now apply (cut_spare h).
Qed.

Lemma written_cut h n a ss file part : acceptable n a ss -> snd (write_stl_binary ss a (after h)) = Ok file ->
  Z.of_nat (length file) < 1024 + 128 * 100000 -> part_of part file ->
  ((length part < 1024)%nat -> header_missing part) /\ ((1024 <= length part)%nat -> block_missing part).
Proof.
  intros A W SZ (c & rest & E). destruct (header_comes_back h [] n a ss file A W SZ) as (k & g & raws & L & R & HB).
  assert (T : tti_blocks g = Z.of_nat k) by apply HB. assert (P : part = firstn (length part) file) by now rewrite E, firstn_app, firstn_all, Nat.sub_diag, app_nil_r.
  assert (S : (length part < length file)%nat) by (rewrite E, app_length; cbn; lia).
  destruct (cut_anywhere [] file g raws (length part) R) as (H1 & H2 & _). rewrite <- P in H1, H2. split; [exact H1|]. intros S'. apply H2; lia.
Qed.

(** * Stopping the writer *)

(** What is true of every state: nothing has been touched, or the file has what was written so far. *)
Definition well (ss : list subtitle) (a : writer_args) (t : tables) (m : medium) (old : option str) (s : save_state) : Prop :=
  match sv_at s with
  | Preparing => sv_file s = old
  | Writing waiting => exists bytes stored, snd (write_stl_binary ss a t) = Ok bytes /\ can_open m = true /\
      sv_file s = Some stored /\ bytes = stored ++ waiting /\ (length stored <= room m)%nat
  | Returned => exists bytes, snd (write_stl_binary ss a t) = Ok bytes /\
      (can_open m = false /\ sv_file s = old \/ can_open m = true /\ sv_file s = Some (firstn (room m) bytes))
  | Threw e => snd (write_stl_binary ss a t) = Throw e /\ sv_file s = old
  | Broken u => snd (write_stl_binary ss a t) = Undef u
  end.

Lemma well_step ss a t m old s n : well ss a t m old s -> well ss a t m old (save_step ss a t m s n).
Proof.
  unfold save_step, well at 1. destruct s as [f [| w | | e | u]]; cbn [sv_at sv_file]; intros H; [| |exact H..].
  - subst f. destruct (snd (write_stl_binary ss a t)) as [bytes|e|u] eqn:E; [|cbn; auto..].
    destruct (can_open m) eqn:C; cbn.
    + exists bytes, []. cbn. repeat split; auto. lia.
    + exists bytes. auto.
  - destruct H as (bytes & stored & W & C & -> & E & R). destruct w as [|x w].
    + cbn. exists bytes. split; [exact W|]. right. split; [exact C|]. rewrite E, app_nil_r, firstn_all2 by lia. reflexivity.
    + set (w' := x :: w) in *. assert (NE : (0 < length w')%nat) by (cbn; lia). clearbody w'. set (fits := Nat.min n (room m - length stored)).
      destruct (Nat.ltb_spec fits n) as [S1|S1], (Nat.ltb_spec fits (length w')) as [S2|S2]; cbn [andb sv_at sv_file].
      1: { exists bytes. split; [exact W|]. right. split; [exact C|]. f_equal. subst bytes. rewrite firstn_app, (firstn_all2 stored) by lia.
           assert (FE : fits = (room m - length stored)%nat) by (unfold fits in *; lia). now rewrite FE. }
      all: exists bytes, (stored ++ firstn fits w'); rewrite <- app_assoc, firstn_skipn, app_length, firstn_length;
        repeat split; auto; unfold fits; lia.
Qed.

Lemma well_run ss a t m old steps : well ss a t m old (save_run ss a t m old steps).
Proof.
  unfold save_run. assert (H : well ss a t m old (mkSave old Preparing)) by reflexivity. revert H. generalize (mkSave old Preparing).
  induction steps as [|n steps IH]; intros s H; [exact H|]. cbn. apply IH. now apply well_step.
Qed.

Lemma stopped h n a ss bytes m old steps : acceptable n a ss -> snd (write_stl_binary ss a (after h)) = Ok bytes ->
  Z.of_nat (length bytes) < 1024 + 128 * 100000 ->
  sv_file (save_run ss a (after h) m old steps) = old \/
  exists file, sv_file (save_run ss a (after h) m old steps) = Some file /\
    (file = bytes \/ header_missing file \/ block_missing file).
Proof.
  intros A W SZ. pose proof (well_run ss a (after h) m old steps) as H. unfold well in H.
  assert (P : forall file rest, bytes = file ++ rest -> file = bytes \/ header_missing file \/ block_missing file).
  { intros file [|c rest] E; [left; now rewrite E, app_nil_r|]. right.
    destruct (written_cut h n a ss bytes file A W SZ) as [H1 H2]; [now exists c, rest|].
    destruct (Nat.lt_ge_cases (length file) 1024); auto. }
  destruct (sv_at _) as [|w| |e|u].
  - now left.
  - destruct H as (b & stored & W' & _ & F & E & _). rewrite W in W'. injection W' as <-. right. exists stored. eauto.
  - destruct H as (b & W' & [[_ F]|[_ F]]); [now left|]. rewrite W in W'. injection W' as <-. right. exists (firstn (room m) bytes).
    split; [exact F|]. apply (P _ (skipn (room m) bytes)). now rewrite firstn_skipn.
  - left. apply H.
  - rewrite W in H. discriminate.
Qed.

Lemma stored_on_return h a ss m old steps : sv_at (save_run ss a (after h) m old steps) = Returned ->
  exists bytes, snd (write_stl_binary ss a (after h)) = Ok bytes /\
    (can_open m = true -> (length bytes <= room m)%nat -> sv_file (save_run ss a (after h) m old steps) = Some bytes).
Proof.
  intros R. pose proof (well_run ss a (after h) m old steps) as H. unfold well in H. rewrite R in H.
  destruct H as (bytes & W & H). exists bytes. split; [exact W|]. intros C L. destruct H as [[C' _]|[_ F]]; [congruence|].
  now rewrite F, firstn_all2.
Qed.

Lemma untouched_on_throw h a ss m old steps e : sv_at (save_run ss a (after h) m old steps) = Threw e ->
  sv_file (save_run ss a (after h) m old steps) = old.
Proof.
  intros R. pose proof (well_run ss a (after h) m old steps) as H. unfold well in H. rewrite R in H. apply H.
Qed.

(** It ends: once every byte has had its turn. *)
Lemma writing_ends ss a t m steps : forall w f, Forall (fun n => (0 < n)%nat) steps -> (length w < length steps)%nat ->
  sv_at (fold_left (save_step ss a t m) steps (mkSave f (Writing w))) = Returned.
Proof.
  assert (ST : forall l f, fold_left (save_step ss a t m) l (mkSave f Returned) = mkSave f Returned) by (induction l; auto).
  induction steps as [|n steps IH]; intros w f P L; [cbn in L; lia|]. cbn [fold_left]. unfold save_step at 2. cbn [sv_at sv_file].
  inversion P as [|? ? P1 P2]; subst. destruct w as [|x w]; [now rewrite ST|]. set (w' := x :: w) in *. assert (0 < length w')%nat by (cbn; lia). clearbody w'.
  set (c := match f with Some _ => _ | None => _ end). set (fits := Nat.min n (room m - length c)).
  destruct (Nat.ltb_spec fits n) as [S1|S1], (Nat.ltb_spec fits (length w')) as [S2|S2]; cbn [andb]; [now rewrite ST|apply IH; [exact P2|]..];
    rewrite skipn_length; cbn [length] in L; unfold fits in *; lia.
Qed.

Lemma save_ends ss a h bytes m old steps : snd (write_stl_binary ss a (after h)) = Ok bytes -> Forall (fun n => (0 < n)%nat) steps ->
  (S (length bytes) < length steps)%nat -> sv_at (save_run ss a (after h) m old steps) = Returned.
Proof.
  intros W P L. unfold save_run. destruct steps as [|n steps]; [cbn in L; lia|]. cbn [fold_left]. unfold save_step at 2. cbn [sv_at sv_file].
  rewrite W. inversion P; subst. destruct (can_open m).
  - apply writing_ends; [assumption|cbn [length] in L; lia].
  - assert (ST : forall l f, fold_left (save_step ss a (after h) m) l (mkSave f Returned) = mkSave f Returned) by (induction l; auto). now rewrite ST.
Qed.
