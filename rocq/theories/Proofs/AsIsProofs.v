(** Proofs of the theorems named [_as_is]. *)
From Coq Require Import ZArith List Bool Ascii String Lia Psatz.
From Verif.Model Require Import Base Strings Float TimeModel Types StlTables StlBinReader StlBinWriter.
From Verif.Spec Require Import Outcome TextSpec TimeSpec Utf8Spec Iso6937Spec StlTableSpec StlFileSpec StlWriteSpec AsIsSpec.
From Verif.Proofs Require Import StringProofs StlReadProofs StlWriteProofs StlRowProofs StlWriterProofs StlFileProofs StlUseProofs.
Import ListNotations.
Local Open Scope Z_scope.
Local Notation length := List.length.

(** * Frames *)

Lemma last_frame k t h m s f : 0 < k < 256 -> time_ok t -> within_second t -> timecode (k * 1000) t h m s f ->
  (f = k <-> last_half_frame k t).
Proof.
  intros K T W TC. pose proof (within_frame _ _ _ _ _ _ K T W TC) as FB. destruct W as [F W].
  destruct TC as (_ & _ & _ & _ & tr & R & NE & TIE). specialize (W tr R).
  destruct (time_ok_rate t T) as (tr' & R' & N & D). assert (tr' = tr) by congruence. subst tr'.
  set (x := t_frames t * den tr) in *. set (y := num tr) in *.
  split.
  - intros ->. exists tr. split; [exact R|]. fold x y. rewrite Z.abs_neq in NE, TIE by nia.
    destruct (Z.eq_dec ((2 * k - 1) * y) (2 * k * x)) as [E|E].
    + right. split; [exact E|]. apply TIE. nia.
    + left. nia.
  - intros (tr' & R'' & H). assert (tr' = tr) by congruence. subst tr'. fold x y in H.
    destruct (Z.eq_dec f k) as [E|E]; [exact E|exfalso]. assert (f <= k - 1) by lia.
    assert (x * (k * 1000) - f * (y * 1000) >= x * (k * 1000) - (k - 1) * (y * 1000)) by nia.
    destruct H as [H|[H EV]].
    + rewrite Z.abs_eq in NE by nia. nia.
    + rewrite Z.abs_eq in NE, TIE by nia. assert (f = k - 1) by nia. subst f.
      assert (X : Z.even (k - 1) = true) by (apply TIE; nia).
      replace (k - 1) with (Z.pred k) in X by lia. rewrite Z.even_pred, <- Z.negb_even, EV in X. discriminate.
Qed.
Lemma frames_as_is h k a ss : 0 < k < 256 -> acceptable (k * 1000) a ss ->
  exists file, snd (write_stl_binary ss a (after h)) = Ok file /\ (small file ->
  forall i b, block_at file i b ->
    exists s f1 f2, In s ss /\ byte_at b 8 f1 /\ byte_at b 12 f2 /\
    (within_second (s_from s) -> f1 <= k /\ (f1 = k <-> last_half_frame k (s_from s))) /\
    (within_second (s_to s) -> f2 <= k /\ (f2 = k <-> last_half_frame k (s_to s)))).
Proof.
  intros K A. destruct (write_ok h ss a _ A) as (file & E & W). exists file. split; [exact E|]. intros S i b B.
  destruct A as (_ & WR & HO & _).
  destruct (written_block _ _ _ _ i b HO (W S) B) as (s & rows & blocks & I & _ & SB & IB).
  destruct (block_times _ _ _ _ _ SB IB) as (h1 & m1 & s1 & f1 & h2 & m2 & s2 & f2 & T1 & T2 & _ & _ & _ & B1 & _ & _ & _ & B2).
  rewrite Forall_forall in WR. destruct (WR s I) as (_ & O1 & O2 & _).
  exists s, (f1 mod 256), (f2 mod 256). split; [exact I|]. split; [exact B1|]. split; [exact B2|]. split; intros C.
  - pose proof (within_frame _ _ _ _ _ _ K O1 C T1). rewrite Z.mod_small by lia. split; [lia|]. exact (last_frame _ _ _ _ _ _ K O1 C T1).
  - pose proof (within_frame _ _ _ _ _ _ K O2 C T2). rewrite Z.mod_small by lia. split; [lia|]. exact (last_frame _ _ _ _ _ _ K O2 C T2).
Qed.

(** * The number of the subtitle *)

Lemma number_as_is h n a ss : acceptable n a ss ->
  exists file, snd (write_stl_binary ss a (after h)) = Ok file /\ (small file ->
  forall i b, block_at file i b -> byte_at b 1 0 /\ byte_at b 2 0).
Proof.
  intros A. destruct (write_ok h ss a _ A) as (file & E & W). exists file. split; [exact E|]. intros S i b B.
  destruct A as (_ & WR & HO & _).
  destruct (written_block _ _ _ _ i b HO (W S) B) as (s & rows & blocks & I & _ & SB & IB).
  pose proof (subtitle_block_lengths _ _ _ _ SB) as BL. rewrite Forall_forall in BL. specialize (BL b IB).
  destruct SB as (h1 & m1 & s1 & f1 & h2 & m2 & s2 & f2 & top & first & its & text & chunks & T1 & T2 & _ & _ & _ & _ & _ & F).
  assert (X : exists c : Z * list Z, map char_code b = [1; 0; 0; fst c; 0; h1 mod 256; m1; s1; f1 mod 256; h2 mod 256; m2; s2; f2 mod 256; top mod 256; justification_of first; 0] ++ snd c).
  { clear - F IB. induction F as [|c b' cs bs X _ IH]; [contradiction|]. destruct IB as [->|I]; [now exists c|now apply IH]. }
  destruct X as (c & X).
  assert (Y : forall i, (i < 16)%nat -> byte_at b i (nth i (map char_code b) 0)).
  { intros j Hj. apply byte_at_iff; [lia|]. unfold get_int. rewrite code_char. change 0 with (char_code zero). now rewrite map_nth. }
  rewrite X in Y. split; [exact (Y 1%nat ltac:(lia))|exact (Y 2%nat ltac:(lia))].
Qed.

(** * Rows *)

Lemma rows_as_is h input g subs : snd (stl_binary_read input (after h)) = Ok (g, subs) ->
  exists raws top, stl_contents input g raws top /\
    Forall2 (fun r r' => exists row, 0 <= row <= top /\ on_row r row /\ on_row r' (row - Z.max 0 (top - maximum_rows g))) raws subs.
Proof.
  intros R. apply read_iff in R. destruct R as (raws & top & C & M). exists raws, top. split; [exact C|].
  assert (RW : forall r, In r raws -> exists row, on_row r row /\ 0 <= row <= top) by (intros; eapply contents_rows; eassumption).
  clear C. induction M as [|r s raws subs H M IH]; constructor.
  - destruct (RW r (or_introl eq_refl)) as (row & V & P). exists row. split; [exact P|]. split; [exact V|].
    destruct H as (row' & m & E & ->). unfold on_row in *. rewrite E in V. cbn in V. injection V as ->. reflexivity.
  - apply IH. intros; apply RW; now right.
Qed.
