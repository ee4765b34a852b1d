(** Writing a binary STL file and reading it back. *)
From Coq Require Import ZArith QArith Qabs Reals List Bool Ascii String Lia Lra.
From Flocq Require Import Core.
From Verif.Model Require Import Base Strings Float TimeModel Types Iso6937 StlTables StlBinReader StlBinWriter.
From Verif.Spec Require Import Outcome TextSpec TimeSpec Utf8Spec Iso6937Spec PositionSpec StlTableSpec StlFileSpec StlWriteSpec StlSamples StlRoundTripSpec.
From Verif.Proofs Require Import TimeProofs StringProofs Iso6937Proofs UtfProofs StlReadProofs StlRowProofs StlWriterProofs StlFileProofs StlUseProofs.
Import ListNotations.
Local Open Scope Z_scope.
Local Notation length := List.length.

(** * Items and cells *)

Inductive items_cells : Z -> bool -> bool -> list item -> list cell -> Prop :=
| items_nil row i u : items_cells row i u [] []
| items_break row i u its cells : items_cells (row + 1) i u its cells -> items_cells row i u (Break :: its) cells
| items_style row i u i' u' its cells : items_cells row i' u' its cells -> items_cells row i u (Style i' u' :: its) cells
| items_char row i u c part its cells : survives c part -> items_cells row i u its cells ->
    items_cells row i u (Char c :: its) (cells_of row i u part ++ cells).

Fixpoint breaks (its : list item) : nat :=
  match its with [] => O | Break :: its => S (breaks its) | _ :: its => breaks its end.

(** * Scanning the coded text *)

Definition nl : Z := 0x8A.
Fixpoint zjoin (rows : list (list Z)) : list Z :=
  match rows with [] => [] | [r] => r | r :: rest => r ++ nl :: zjoin rest end.

Inductive pieces_cells : list (Z * style * list Z) -> list cell -> Prop :=
| pieces_nil : pieces_cells [] []
| pieces_cons row s bs w ps cells : decodes None bs w -> pieces_cells ps cells ->
    pieces_cells ((row, s, bs) :: ps) (cells_of row (st_italic s) (st_underline s) w ++ cells).

(** [p] decodes completely. *)
Definition complete (p w : list Z) : Prop :=
  plain_text p /\ ~ In nl p /\ forall rest v, decodes None rest v -> decodes None (p ++ rest) (w ++ v).

Lemma complete_nil : complete [] [].
Proof. split; [constructor|]. split; [intros []|]. auto. Qed.
Lemma complete_app p q w v : complete p w -> complete q v -> complete (p ++ q) (w ++ v).
Proof.
  intros (A & B & C) (A' & B' & C'). split; [now apply Forall_app|]. split; [intros H; apply in_app_or in H; tauto|].
  intros rest x D. rewrite <- !app_assoc. auto.
Qed.
Lemma complete_decodes p w : complete p w -> decodes None p w.
Proof. intros (_ & _ & C). specialize (C [] [] (decodes_end None)). now rewrite !app_nil_r in C. Qed.
Lemma complete_empty w : complete [] w -> w = [].
Proof. intros C. apply complete_decodes in C. now inversion C. Qed.

Lemma written_complete c bs : written c bs -> ~ lone_mark c -> exists part, survives c part /\ complete bs part.
Proof.
  intros W L. destruct (written_survives c bs W L) as (part & S & D). exists part. split; [exact S|].
  destruct (written_bytes c bs W) as [P _]. rewrite Forall_forall in P. split; [|split; [|exact D]].
  - apply Forall_forall. intros b I. specialize (P b I). unfold plain_byte in P. lia.
  - intros I. specialize (P _ I). unfold plain_byte, nl in P. lia.
Qed.

Definition wst (i u : bool) : style := mkStyle (1, 1, 1) i u.

(** The bytes [bs], after the plain text [p] of the same piece, are [n] + 1 rows from [row] on with these cells. *)
Definition scans (row : Z) (i u : bool) (p bs : list Z) (n : nat) (cells : list cell) : Prop :=
  exists r0 rows ps s' ps', bs = zjoin (r0 :: rows) /\ Forall (fun r => ~ In nl r) (r0 :: rows) /\ length rows = n /\
    row_pieces (wst i u) (p ++ r0) ps s' /\ rows_pieces (row + 1) (st_italic s') (st_underline s') rows ps' /\
    pieces_cells (map (fun q => (row, fst q, snd q)) ps ++ ps') cells.

Lemma last_piece row s p w : complete p w ->
  pieces_cells (map (fun q => (row, fst q, snd q)) (if is_nil p then [] else [(s, p)])) (cells_of row (st_italic s) (st_underline s) w).
Proof.
  intros C. destruct p as [|b p]; cbn [is_nil map fst snd].
  - rewrite (complete_empty w C). constructor.
  - rewrite <- (app_nil_r (cells_of _ _ _ w)). constructor; [now apply complete_decodes|constructor].
Qed.

Lemma scans_fill row i u p w fill : complete p w -> scans row i u p (0x8F :: repeat 0x8F fill) 0 (cells_of row i u w).
Proof.
  intros C. exists (0x8F :: repeat 0x8F fill), []. do 3 eexists. split; [reflexivity|]. split.
  { constructor; [|constructor]. intros [H|H]; [discriminate H|]. apply repeat_spec in H. discriminate H. }
  split; [reflexivity|]. split; [apply row_filler; apply C|]. split; [constructor|]. rewrite app_nil_r. exact (last_piece row (wst i u) p w C).
Qed.

Lemma pieces_app ps qs c d : pieces_cells ps c -> pieces_cells qs d -> pieces_cells (ps ++ qs) (c ++ d).
Proof. induction 1; intros Q; cbn [app]; [exact Q|]. rewrite <- app_assoc. constructor; auto. Qed.

Lemma scans_break row i u p w bs n cells : complete p w -> scans (row + 1) i u [] bs n cells ->
  scans row i u p (nl :: bs) (S n) (cells_of row i u w ++ cells).
Proof.
  intros C (r0 & rows & ps & s' & ps' & -> & F & L & R & RS & P). cbn [app] in R.
  exists [], (r0 :: rows). do 3 eexists. split; [reflexivity|]. split; [constructor; [intros []|exact F]|]. split; [cbn; now rewrite L|].
  rewrite app_nil_r. split; [apply row_end; apply C|]. split; [econstructor; [exact R|exact RS]|].
  apply pieces_app; [exact (last_piece row (wst i u) p w C)|exact P].
Qed.

Lemma scans_control row i u i' u' p w c bs n cells : complete p w -> control c (wst i u) (wst i' u') -> c <> nl -> scans row i' u' [] bs n cells ->
  scans row i u p (c :: bs) n (cells_of row i u w ++ cells).
Proof.
  intros C K N (r0 & rows & ps & s' & ps' & -> & F & L & R & RS & P). cbn [app] in R.
  exists (c :: r0), rows. do 3 eexists. split; [destruct rows; reflexivity|]. split.
  { inversion F as [|? ? F1 F2]; subst. constructor; [|exact F2]. intros [E|I]; [now apply N|contradiction]. }
  split; [exact L|]. split; [eapply row_control; [apply C|exact K|exact R]|]. split; [exact RS|].
  cbn [map app fst snd]. apply (pieces_cons row (wst i u)); [now apply complete_decodes|exact P].
Qed.

(** What is true whatever plain text comes before. *)
Definition scans_all (row : Z) (i u : bool) (bs : list Z) (n : nat) (cells : list cell) : Prop :=
  forall p w, complete p w -> scans row i u p bs n (cells_of row i u w ++ cells).

Lemma scans_underline row i u u' bs n cells : scans_all row i u' bs n cells -> scans_all row i u (change u u' 0x82 0x83 ++ bs) n cells.
Proof.
  intros H p w C. destruct u, u'; cbn [change app]; try exact (H p w C).
  - apply (scans_control _ _ _ i false); [exact C|constructor|discriminate|]. apply (H [] [] complete_nil).
  - apply (scans_control _ _ _ i true); [exact C|constructor|discriminate|]. apply (H [] [] complete_nil).
Qed.
Lemma scans_italic row i i' u bs n cells : scans_all row i' u bs n cells -> scans_all row i u (change i i' 0x80 0x81 ++ bs) n cells.
Proof.
  intros H p w C. destruct i, i'; cbn [change app]; try exact (H p w C).
  - apply (scans_control _ _ _ false u); [exact C|constructor|discriminate|]. apply (H [] [] complete_nil).
  - apply (scans_control _ _ _ true u); [exact C|constructor|discriminate|]. apply (H [] [] complete_nil).
Qed.

Definition no_marks (its : list item) : Prop := forall c, In (Char c) its -> ~ lone_mark c.

Lemma scans_char row i u cs part bs n cells : complete cs part -> scans_all row i u bs n cells ->
  scans_all row i u (cs ++ bs) n (cells_of row i u part ++ cells).
Proof.
  intros C H p w P. destruct (H (p ++ cs) (w ++ part) (complete_app _ _ _ _ P C)) as (r0 & rows & ps & s' & ps' & -> & F & L & R & RS & PC).
  exists (cs ++ r0), rows. do 3 eexists. split; [destruct rows; cbn [zjoin]; now rewrite <- ?app_assoc|]. split.
  { inversion F as [|? ? F1 F2]; subst. constructor; [|exact F2]. intros I. apply in_app_or in I. destruct I as [I|I]; [now apply C|contradiction]. }
  split; [exact L|]. rewrite <- app_assoc in R. split; [exact R|]. split; [exact RS|].
  unfold cells_of in PC. rewrite map_app, <- app_assoc in PC. exact PC.
Qed.

Lemma coded_scans i u its bs : coded i u its bs -> no_marks its -> forall row fill,
  exists cells, items_cells row i u its cells /\ scans_all row i u (bs ++ repeat 0x8F fill) (breaks its) cells.
Proof.
  induction 1 as [i u|i u its bs _ IH|i u i' u' its bs _ IH|i u c cs its bs W _ IH]; intros NM row fill.
  - exists []. split; [constructor|]. rewrite <- !app_assoc. apply scans_underline, scans_italic. intros p w C. rewrite app_nil_r. cbn [app].
    now apply scans_fill.
  - destruct (IH (fun c I => NM c (or_intror I)) (row + 1) fill) as (cells & I & S). exists cells. split; [now constructor|].
    intros p w C. cbn [app breaks]. apply scans_break; [exact C|]. exact (S [] [] complete_nil).
  - destruct (IH (fun c I => NM c (or_intror I)) row fill) as (cells & I & S). exists cells. split; [now constructor|].
    rewrite <- !app_assoc. now apply scans_underline, scans_italic.
  - destruct (IH (fun c I => NM c (or_intror I)) row fill) as (cells & I & S).
    destruct (written_complete c cs W (NM c (or_introl eq_refl))) as (part & SU & C).
    exists (cells_of row i u part ++ cells). split; [now constructor|]. rewrite <- app_assoc. now apply scans_char.
Qed.

(** * Lines and items *)

Lemma items_app_chars row i u w its cells : items_cells row i u (map Char w ++ its) cells ->
  exists parts rest, Forall2 survives w parts /\ items_cells row i u its rest /\ cells = cells_of row i u (List.concat parts) ++ rest.
Proof.
  revert cells. induction w as [|c w IH]; intros cells H; cbn [map app] in H.
  - exists [], cells. split; [constructor|]. split; [exact H|reflexivity].
  - inversion H as [| | |? ? ? ? part ? cells' S I]; subst. destruct (IH _ I) as (parts & rest & F & R & ->).
    exists (part :: parts), rest. split; [now constructor|]. split; [exact R|]. cbn [List.concat]. unfold cells_of. now rewrite map_app, app_assoc.
Qed.
Lemma items_app_breaks row i u k its cells : items_cells row i u (repeat Break k ++ its) cells -> items_cells (row + Z.of_nat k) i u its cells.
Proof.
  revert row. induction k as [|k IH]; intros row H; cbn [repeat app] in H; [now rewrite Z.add_0_r|].
  inversion H as [|? ? ? ? ? I| |]; subst. apply IH in I. now replace (row + Z.of_nat (S k)) with (row + 1 + Z.of_nat k) by lia.
Qed.
Lemma items_app_blocks bs parts : Forall2 block_items bs parts -> forall row i u its cells, items_cells row i u (List.concat parts ++ its) cells ->
  exists i' u' bcs rest, Forall2 (block_cells row) bs bcs /\ items_cells row i' u' its rest /\ cells = List.concat bcs ++ rest.
Proof.
  induction 1 as [|b part bs parts (w & U & ->) _ IH]; intros row i u its cells H; cbn [List.concat app] in H.
  - exists i, u, [], cells. split; [constructor|]. split; [exact H|reflexivity].
  - rewrite <- app_assoc in H. inversion H as [| |? ? ? ? ? ? ? I|]; subst. destruct (items_app_chars _ _ _ _ _ _ I) as (ps & rest & S & R & ->).
    destruct (IH _ _ _ _ _ R) as (i' & u' & bcs & rest' & F & R' & ->).
    exists i', u', (cells_of row (b_italic b) (b_underline b) (List.concat ps) :: bcs), rest'. split; [|split; [exact R'|cbn [List.concat]; now rewrite app_assoc]].
    constructor; [|exact F]. exists w, ps. auto.
Qed.

Lemma lines_items_cells last lrs its : line_items last lrs its -> forall row i u cells,
  downwards (match last with Some r => r :: map snd lrs | None => map snd lrs end) ->
  match last with Some r => row = r | None => match lrs with x :: _ => row = snd x | [] => True end end ->
  items_cells row i u its cells -> lines_cells (map fst lrs) (map snd lrs) cells.
Proof.
  induction 1 as [last|last l r rest parts its B _ IH]; intros row i u cells D T H.
  - inversion H; subst. constructor.
  - assert (E : items_cells r i u (List.concat parts ++ its) cells /\ downwards (r :: map snd rest)).
    { destruct last as [r'|]; cbn [map snd fst] in *.
      - subst. apply items_app_breaks in H. inversion D as [| |? ? ? LT D']; subst. split; [|exact D'].
        replace (r' + Z.of_nat (Z.to_nat (r - r'))) with r in H by lia. exact H.
      - subst. now split. }
    destruct E as [E D']. destruct (items_app_blocks _ _ B _ _ _ _ _ E) as (i' & u' & bcs & rest' & F & R & ->).
    cbn [map fst snd]. constructor; [exists bcs; now split|]. eapply IH; [exact D'|reflexivity|exact R].
Qed.

Lemma breaks_app a b : breaks (a ++ b) = (breaks a + breaks b)%nat.
Proof. induction a as [|[| |] a IH]; cbn; auto. Qed.
Lemma breaks_chars w : breaks (map Char w) = O.
Proof. induction w; cbn; auto. Qed.
Lemma breaks_repeat k : breaks (repeat Break k) = k.
Proof. induction k; cbn; auto. Qed.
Lemma breaks_blocks bs parts : Forall2 block_items bs parts -> breaks (List.concat parts) = O.
Proof. induction 1 as [|b part bs parts (w & _ & ->) _ IH]; cbn [List.concat app]; [reflexivity|]. cbn. now rewrite breaks_app, breaks_chars, IH. Qed.

Lemma lines_breaks last lrs its : line_items last lrs its -> forall row top,
  downwards (match last with Some r => r :: map snd lrs | None => map snd lrs end) ->
  match last with Some r => row = r | None => match lrs with x :: _ => row = snd x | [] => True end end ->
  row <= top -> Forall (fun r => r <= top) (map snd lrs) -> row + Z.of_nat (breaks its) <= top.
Proof.
  induction 1 as [last|last l r rest parts its B _ IH]; intros row top D T U F.
  - cbn. lia.
  - cbn [map snd] in *. inversion F as [|? ? F1 F2]; subst. rewrite !breaks_app, (breaks_blocks _ _ B).
    assert (D' : downwards (r :: map snd rest)).
    { destruct last as [r'|]; [now inversion D|exact D]. }
    specialize (IH r top D' eq_refl F1 F2). destruct last as [r'|].
    + inversion D; subst. rewrite breaks_repeat. lia.
    + subst. cbn [breaks]. lia.
Qed.

Lemma downwards_least rows r : downwards (r :: rows) -> Forall (fun k => r <= k) rows.
Proof.
  revert r. induction rows as [|x rows IH]; intros r D; [constructor|]. inversion D; subst. constructor; [lia|].
  specialize (IH x ltac:(assumption)). eapply Forall_impl; [|exact IH]. cbv beta. lia.
Qed.
Lemma least_first rows top : downwards rows -> least rows top -> hd_error rows = Some top.
Proof.
  intros D [I L]. destruct rows as [|r rows]; [destruct I|]. cbn. f_equal. apply downwards_least in D. rewrite Forall_forall in D.
  inversion L; subst. destruct I as [->|I]; [reflexivity|]. specialize (D _ I). lia.
Qed.

(** * Blocks *)

Definition reference_of (just : Z) : href :=
  if just =? 1 then LEFT_OF_SCREEN else if just =? 3 then RIGHT_OF_SCREEN else HORIZONTAL_CENTRE_OF_SCREEN.

(** What the pieces of a block have in common. *)
Definition common (g : gsi) (from to : time) (just : Z) (r : raw) : Prop :=
  r_from r = from /\ r_to r = to /\ h_ref (r_hpos r) = reference_of just /\
  exists row, r_vpos r = mkV None (Some row) (Some (maximum_rows g)) (Some TOP_OF_SCREEN).

Lemma pieces_raws g from to just ps cells : pieces_cells ps cells ->
  exists raws, Forall2 (piece_raw g from to just) ps raws /\ raws_cells raws cells /\ Forall (common g from to just) raws.
Proof.
  induction 1 as [|row s bs w ps cells D _ (raws & F & (parts & C & ->) & T)].
  - exists []. split; [constructor|]. split; [exists []; split; [constructor|reflexivity]|constructor].
  - pose proof (wide_to_utf8_ok w (decodes_scalars _ _ _ D)) as U.
    eexists (_ :: raws). split; [constructor; [|exact F]; exists w, (Utf.wide_to_utf8 w); split; [exact D|split; [exact U|reflexivity]]|].
    split.
    + exists (cells_of row (st_italic s) (st_underline s) w :: parts). split; [|reflexivity]. constructor; [|exact C].
      exists row, w. split; [reflexivity|]. split; [exact U|reflexivity].
    + constructor; [|exact T]. split; [reflexivity|]. split; [reflexivity|]. split; [reflexivity|]. exists row. reflexivity.
Qed.

Lemma zjoin_in rows : forall r b, In r rows -> In b r -> In b (zjoin rows).
Proof.
  induction rows as [|x rows IH]; intros r b I B; [destruct I|]. destruct rows as [|y rows].
  - destruct I as [->|[]]. exact B.
  - change (In b (x ++ nl :: zjoin (y :: rows))). apply in_or_app. destruct I as [->|I]; [now left|]. right. right. now apply (IH r).
Qed.
Lemma bytes_map_chr r : Forall (fun b => 0 <= b < 256) r -> bytes (map chr r) = r.
Proof. intros F. unfold bytes. induction F as [|b r B _ IH]; cbn [map]; [reflexivity|]. now rewrite char_code_chr, IH. Qed.
Lemma zjoin_text rows : Forall (Forall (fun b => 0 <= b < 256)) rows -> bytes (join [ascii_of_nat 0x8A] (map (map chr) rows)) = zjoin rows.
Proof.
  intros F. induction F as [|r rows R F IH]; [reflexivity|]. destruct rows as [|x rows].
  - cbn [map join zjoin]. now apply bytes_map_chr.
  - change (bytes (map chr r ++ [ascii_of_nat 0x8A] ++ join [ascii_of_nat 0x8A] (map (map chr) (x :: rows))) = r ++ nl :: zjoin (x :: rows)).
    unfold bytes in *. rewrite !map_app, IH. f_equal. now apply bytes_map_chr.
Qed.

Lemma codes_range b : Forall (fun v => 0 <= v < 256) (map char_code b).
Proof. apply Forall_forall. intros v I. apply in_map_iff in I. destruct I as (c & <- & _). rewrite <- code_char. pose proof (code_bounds c). lia. Qed.

Lemma code_byte (b : str) p v q : map char_code b = p ++ v :: q -> byte_at b (length p) v.
Proof.
  intros E. assert (L : (length p < length b)%nat) by (rewrite <- (map_length char_code), E, app_length; cbn; lia).
  apply byte_at_iff; [exact L|]. unfold get_int. rewrite code_char, <- (map_nth char_code), E, app_nth2, Nat.sub_diag by lia. reflexivity.
Qed.

Lemma scan_raws g b e h1 m1 s1 f1 h2 m2 s2 f2 top just chunk r0 rows ps s' ps' raws :
  map char_code b = [1; 0; 0; e; 0; h1; m1; s1; f1; h2; m2; s2; f2; top; just; 0] ++ chunk -> length chunk = 112%nat ->
  chunk = zjoin (r0 :: rows) -> Forall (fun r => ~ In nl r) (r0 :: rows) ->
  row_pieces (wst false false) r0 ps s' -> rows_pieces (top + 1) (st_italic s') (st_underline s') rows ps' ->
  Forall2 (piece_raw g (mkT (h1 * 3600 + m1 * 60 + s1) f1 (Some (mkR (frame_rate g) 1))) (mkT (h2 * 3600 + m2 * 60 + s2) f2 (Some (mkR (frame_rate g) 1))) just)
    (map (fun q => (top, fst q, snd q)) ps ++ ps') raws ->
  block_read g b raws (Some (top + Z.of_nat (length rows))).
Proof.
  intros E L EC F R RS PR.
  assert (LB : length b = 128%nat) by (rewrite <- (map_length char_code), E, app_length, L; reflexivity).
  assert (RG : Forall (Forall (fun b => 0 <= b < 256)) (r0 :: rows)).
  { apply Forall_forall. intros r I. apply Forall_forall. intros v V. pose proof (codes_range b) as C. rewrite E in C. apply Forall_app in C. destruct C as [_ C].
    rewrite Forall_forall in C. apply C. rewrite EC. now apply (zjoin_in _ r). }
  replace (top + Z.of_nat (length rows)) with (top + Z.of_nat (length (map (map chr) (r0 :: rows))) - 1) by (rewrite map_length; cbn [length]; lia).
  eapply block_text with (text := skipn 16 b) (just := just); [exact LB| | | | | | |discriminate| | | |exact PR].
  - exact (code_byte b [1; 0; 0; e; 0; h1; m1; s1; f1; h2; m2; s2; f2; top; just] _ _ E).
  - exists h1, m1, s1, f1. split; [exact (code_byte b [1; 0; 0; e; 0] _ _ E)|]. split; [exact (code_byte b [1; 0; 0; e; 0; h1] _ _ E)|].
    split; [exact (code_byte b [1; 0; 0; e; 0; h1; m1] _ _ E)|]. split; [exact (code_byte b [1; 0; 0; e; 0; h1; m1; s1] _ _ E)|reflexivity].
  - exists h2, m2, s2, f2. split; [exact (code_byte b [1; 0; 0; e; 0; h1; m1; s1; f1] _ _ E)|]. split; [exact (code_byte b [1; 0; 0; e; 0; h1; m1; s1; f1; h2] _ _ E)|].
    split; [exact (code_byte b [1; 0; 0; e; 0; h1; m1; s1; f1; h2; m2] _ _ E)|]. split; [exact (code_byte b [1; 0; 0; e; 0; h1; m1; s1; f1; h2; m2; s2] _ _ E)|reflexivity].
  - exact (code_byte b [1; 0; 0; e; 0; h1; m1; s1; f1; h2; m2; s2; f2] _ _ E).
  - exact (code_byte b [1; 0; 0; e; 0; h1; m1; s1; f1; h2; m2; s2; f2; top] _ _ E).
  - exists (firstn 16 b), []. rewrite app_nil_r, firstn_skipn. split; [reflexivity|]. rewrite firstn_length, skipn_length. lia.
  - apply map_char_inj. change (map char_code (join [ascii_of_nat 138] (map (map chr) (r0 :: rows)))) with (bytes (join [ascii_of_nat 138] (map (map chr) (r0 :: rows)))).
    rewrite zjoin_text by exact RG. rewrite <- EC, <- skipn_map, E. reflexivity.
  - apply Forall_forall. intros r I. apply in_map_iff in I. destruct I as (z & <- & I). rewrite Forall_forall in F, RG. specialize (F z I). specialize (RG z I).
    intros A. apply F. apply (in_map char_code) in A. change (map char_code (map chr z)) with (bytes (map chr z)) in A. rewrite bytes_map_chr in A by exact RG. exact A.
  - assert (M : map bytes (map (map chr) (r0 :: rows)) = r0 :: rows).
    { rewrite map_map. rewrite <- (map_id (r0 :: rows)) at 2. apply map_ext_in. intros z I. apply bytes_map_chr. rewrite Forall_forall in RG. now apply RG. }
    rewrite M. econstructor; [exact R|exact RS].
Qed.

Lemma scan_block g b e h1 m1 s1 f1 h2 m2 s2 f2 top just chunk n cells :
  map char_code b = [1; 0; 0; e; 0; h1; m1; s1; f1; h2; m2; s2; f2; top; just; 0] ++ chunk -> length chunk = 112%nat ->
  scans top false false [] chunk n cells ->
  exists raws, block_read g b raws (Some (top + Z.of_nat n)) /\ raws_cells raws cells /\
    Forall (common g (mkT (h1 * 3600 + m1 * 60 + s1) f1 (Some (mkR (frame_rate g) 1))) (mkT (h2 * 3600 + m2 * 60 + s2) f2 (Some (mkR (frame_rate g) 1))) just) raws.
Proof.
  intros E L (r0 & rows & ps & s' & ps' & EC & F & N & R & RS & PC). cbn [app] in R.
  destruct (pieces_raws g (mkT (h1 * 3600 + m1 * 60 + s1) f1 (Some (mkR (frame_rate g) 1))) (mkT (h2 * 3600 + m2 * 60 + s2) f2 (Some (mkR (frame_rate g) 1))) just _ _ PC) as (raws & PR & RC & T).
  exists raws. split; [|now split]. rewrite <- N. now apply (scan_raws g b e h1 m1 s1 f1 h2 m2 s2 f2 top just chunk r0 rows ps s' ps').
Qed.

(** * Subtitles *)

Lemma items_from_lines last lrs its : line_items last lrs its -> forall c, In (Char c) its ->
  exists l b w, In l (map fst lrs) /\ In b (l_blocks l) /\ utf8 (b_text b) w /\ In c w.
Proof.
  induction 1 as [last|last l r rest parts its B _ IH]; intros c I; [destruct I|].
  apply in_app_or in I. destruct I as [I|I].
  { destruct last as [r'|]; [|destruct I]. apply repeat_spec in I. discriminate I. }
  apply in_app_or in I. destruct I as [I|I].
  - exists l. assert (X : exists b w, In b (l_blocks l) /\ utf8 (b_text b) w /\ In c w).
    { clear IH. induction B as [|b part bs parts (w & U & ->) _ IHB]; [destruct I|]. cbn [List.concat app] in I. destruct I as [E|I]; [discriminate E|].
      apply in_app_or in I. destruct I as [I|I].
      - apply in_map_iff in I. destruct I as (c' & [= <-] & I). exists b, w. split; [now left|]. now split.
      - destruct (IHB I) as (b' & w' & B' & U' & I'). exists b', w'. split; [now right|]. now split. }
    destruct X as (b & w & X). exists b, w. split; [now left|exact X].
  - destruct (IH c I) as (l' & b & w & L & X). exists l', b, w. split; [now right|exact X].
Qed.

Lemma map_fst_combine {A B : Type} (l : list A) (m : list B) : length l = length m -> map fst (combine l m) = l.
Proof. revert m. induction l as [|a l IH]; intros [|b m] L; cbn in *; try discriminate; [reflexivity|]. f_equal. apply IH. lia. Qed.
Lemma map_snd_combine {A B : Type} (l : list A) (m : list B) : length l = length m -> map snd (combine l m) = m.
Proof. revert m. induction l as [|a l IH]; intros [|b m] L; cbn in *; try discriminate; [reflexivity|]. f_equal. apply IH. lia. Qed.

(** What is read from the blocks of a subtitle. *)
Definition reads_as (g : gsi) (n : Z) (s : subtitle) (rows : list Z) (bs : list str) : Prop :=
  exists h1 m1 s1 f1 h2 m2 s2 f2 first rawss lasts,
    timecode n (s_from s) h1 m1 s1 f1 /\ timecode n (s_to s) h2 m2 s2 f2 /\ hd_error (s_lines s) = Some first /\
    length rawss = length lasts /\ Forall2 (fun b x => block_read g b (fst x) (snd x)) bs (combine rawss lasts) /\
    Forall (fun o => exists k, o = Some k /\ k <= 23) lasts /\ same_text s rows (List.concat rawss) /\
    Forall (common g (mkT (h1 mod 256 * 3600 + m1 * 60 + s1) (f1 mod 256) (Some (mkR (frame_rate g) 1)))
                     (mkT (h2 mod 256 * 3600 + m2 * 60 + s2) (f2 mod 256) (Some (mkR (frame_rate g) 1))) (justification_of first)) (List.concat rawss).

Lemma chunked_nonempty k t : ~ chunked k t [].
Proof. intros H. inversion H. Qed.

Lemma read_one g n s rows b : subtitle_blocks n s rows [b] -> no_lone_marks s -> downwards rows -> length (s_lines s) = length rows ->
  Forall (fun r => 0 <= r <= 23) rows -> reads_as g n s rows [b].
Proof.
  intros (h1 & m1 & s1 & f1 & h2 & m2 & s2 & f2 & top & first & its & text & chunks & T1 & T2 & LE & HD & LI & CO & CH & F) NM DW LR RG.
  inversion F as [|chunk ? ? ? E F']; subst. inversion F'; subst. clear F F'.
  inversion CH as [? ? TN TL|? ? ? ? ? ? CH']; subst; [|destruct (chunked_nonempty _ _ CH')]. cbn [fst snd] in E.
  pose proof (least_first rows top DW LE) as HR. destruct rows as [|r rows]; [discriminate HR|]. injection HR as ->.
  destruct (s_lines s) as [|l ls] eqn:EL; [discriminate LR|].
  assert (NI : no_marks its).
  { intros c I. destruct (items_from_lines _ _ _ LI c I) as (l' & b' & w & L' & B & U & C). rewrite map_fst_combine in L' by exact LR.
    rewrite <- EL in L'. exact (NM l' b' w c L' B U C). }
  destruct (coded_scans _ _ _ _ CO NI top (112 - length text)) as (cells & IC & SC).
  specialize (SC [] [] complete_nil). cbn [cells_of map app] in SC.
  assert (LC : length (text ++ repeat 0x8F (112 - length text)) = 112%nat) by (rewrite app_length, repeat_length; lia).
  assert (TOP : 0 <= top <= 23) by exact (Forall_inv RG).
  rewrite (Z.mod_small top 256) in E by lia.
  destruct (scan_block g b _ _ _ _ _ _ _ _ _ _ _ _ _ _ E LC SC) as (raws & BR & RC & CM).
  exists h1, m1, s1, f1, h2, m2, s2, f2, first, [raws], [Some (top + Z.of_nat (breaks its))].
  split; [exact T1|]. split; [exact T2|]. split; [rewrite EL; exact HD|]. split; [reflexivity|].
  split; [constructor; [exact BR|constructor]|].
  split.
  { constructor; [|constructor]. eexists. split; [reflexivity|]. apply (lines_breaks _ _ _ LI top 23); [now rewrite map_snd_combine by exact LR|reflexivity|lia|].
    rewrite map_snd_combine by exact LR. eapply Forall_impl; [|exact RG]. cbv beta. lia. }
  cbn [List.concat]. rewrite app_nil_r. split; [|exact CM]. exists cells. split; [|exact RC]. rewrite EL.
  pose proof (lines_items_cells _ _ _ LI top false false cells) as X. rewrite map_fst_combine, map_snd_combine in X by exact LR.
  apply X; [exact DW|reflexivity|exact IC].
Qed.

(** * Long plain lines *)

Inductive simple : list Z -> list Z -> Prop :=
| simple_end : simple [0x8F] []
| simple_byte b part bs w : complete [b] part -> simple bs w -> simple (b :: bs) (part ++ w).

Definition plain_items (its : list item) : Prop :=
  forall x, In x its -> x = Style false false \/ exists c, x = Char c /\ ~ lone_mark c /\ forall cs, written c cs -> (length cs <= 1)%nat.

Lemma plain_coded i u its bs : coded i u its bs -> i = false -> u = false -> plain_items its -> forall row,
  exists w, simple bs w /\ items_cells row false false its (cells_of row false false w).
Proof.
  induction 1 as [i u|i u its bs _ _|i u i' u' its bs C IH|i u c cs its bs W C IH]; intros -> -> P row.
  - exists []. split; [constructor|constructor].
  - exfalso. destruct (P Break (or_introl eq_refl)) as [H|(c & H & _)]; discriminate H.
  - assert (E : i' = false /\ u' = false).
    { destruct (P _ (or_introl eq_refl)) as [[= -> ->]|(c & H & _)]; [now split|discriminate H]. }
    destruct E as [-> ->]. destruct (IH eq_refl eq_refl (fun x I => P x (or_intror I)) row) as (w & S & I). exists w. split; [exact S|now constructor].
  - destruct (IH eq_refl eq_refl (fun x I => P x (or_intror I)) row) as (w & S & I).
    destruct (P _ (or_introl eq_refl)) as [H|(c' & [= <-] & NL & L)]; [discriminate H|]. specialize (L cs W).
    destruct (written_complete c cs W NL) as (part & SU & CP). exists (part ++ w). split.
    + destruct cs as [|b [|b' cs]]; [|now constructor|cbn in L; lia]. rewrite (complete_empty part CP). exact S.
    + unfold cells_of. rewrite map_app. now constructor.
Qed.

Lemma simple_split t rest w : simple (t ++ rest) w -> rest <> [] -> exists w1 w2, complete t w1 /\ simple rest w2 /\ w = w1 ++ w2.
Proof.
  revert w. induction t as [|b t IH]; intros w S N; cbn [app] in S.
  - exists [], w. split; [exact complete_nil|]. now split.
  - inversion S as [A B|? part ? w' C S']; subst.
    + exfalso. apply N. destruct t; cbn in *; congruence.
    + destruct (IH _ S' N) as (w1 & w2 & C1 & S2 & ->). exists (part ++ w1), w2. split; [|split; [exact S2|apply app_assoc]].
      exact (complete_app [b] t part w1 C C1).
Qed.
Lemma simple_fill t w fill : simple t w -> forall row, scans_all row false false (t ++ repeat 0x8F fill) 0 (cells_of row false false w).
Proof.
  intros S row. induction S as [|b part bs w C S IH].
  - intros p w C. unfold cells_of at 2. cbn [map]. rewrite app_nil_r. cbn [app]. now apply scans_fill.
  - unfold cells_of. rewrite map_app. exact (scans_char row false false [b] part _ 0 _ C IH).
Qed.
Lemma complete_scans t w row : complete t w -> scans row false false [] t 0 (cells_of row false false w).
Proof.
  intros C. exists t, []. do 3 eexists. split; [reflexivity|]. split; [constructor; [apply C|constructor]|]. split; [reflexivity|].
  split; [apply row_end; apply C|]. split; [constructor|]. rewrite app_nil_r. exact (last_piece row (wst false false) t w C).
Qed.

Lemma chunks_scan k t cs : chunked k t cs -> forall w row, simple t w ->
  exists ws, Forall2 (fun c v => scans row false false [] (snd c) 0 (cells_of row false false v)) cs ws /\ w = List.concat ws.
Proof.
  induction 1 as [k t N L|k t rest cs L N _ IH]; intros w row S.
  - exists [w]. split; [|cbn; now rewrite app_nil_r]. constructor; [|constructor]. cbn [snd].
    exact (simple_fill t w _ S row [] [] complete_nil).
  - destruct (simple_split t rest w S N) as (w1 & w2 & C & S2 & ->). destruct (IH w2 row S2) as (ws & F & ->).
    exists (w1 :: ws). split; [|reflexivity]. constructor; [|exact F]. now apply complete_scans.
Qed.

Lemma raws_cells_app a b c d : raws_cells a c -> raws_cells b d -> raws_cells (a ++ b) (c ++ d).
Proof.
  intros (p & F & ->) (q & G & ->). exists (p ++ q). split; [now apply Forall2_app|]. symmetry. apply concat_app.
Qed.

Lemma blocks_scan g h1 m1 s1 f1 h2 m2 s2 f2 top just cs bs ws : Forall (fun c => length (snd c) = 112%nat) cs ->
  Forall2 (fun chunk b => map char_code b = [1; 0; 0; fst chunk; 0; h1; m1; s1; f1; h2; m2; s2; f2; top; just; 0] ++ snd chunk) cs bs ->
  Forall2 (fun c v => scans top false false [] (snd c) 0 (cells_of top false false v)) cs ws ->
  exists rawss : list (list raw), length rawss = length bs /\
    Forall2 (fun b x => block_read g b (fst x) (snd x)) bs (combine rawss (repeat (Some top) (length bs))) /\
    raws_cells (List.concat rawss) (cells_of top false false (List.concat ws)) /\
    Forall (common g (mkT (h1 * 3600 + m1 * 60 + s1) f1 (Some (mkR (frame_rate g) 1))) (mkT (h2 * 3600 + m2 * 60 + s2) f2 (Some (mkR (frame_rate g) 1))) just) (List.concat rawss).
Proof.
  intros L F. revert ws. induction F as [|c b cs bs E F IH]; intros ws S; inversion S as [|? w ? ws' S1 S2]; subst.
  - exists []. split; [reflexivity|]. split; [constructor|]. split; [exists []; split; [constructor|reflexivity]|constructor].
  - inversion L as [|? ? L1 L2]; subst. destruct (IH L2 ws' S2) as (rawss & LN & BR & RC & CM).
    destruct (scan_block g b _ _ _ _ _ _ _ _ _ _ _ _ _ _ E L1 S1) as (raws & B & R & C). exists (raws :: rawss).
    split; [cbn; congruence|]. cbn [Z.of_nat] in B. rewrite Z.add_0_r in B.
    split; [constructor; [exact B|exact BR]|]. cbn [List.concat]. split; [|now apply Forall_app].
    unfold cells_of. rewrite map_app. now apply raws_cells_app.
Qed.

Lemma read_many g n s l row bs : subtitle_blocks n s [row] bs -> no_lone_marks s -> s_lines s = [l] -> plain_line l ->
  0 <= row <= 23 -> reads_as g n s [row] bs.
Proof.
  intros (h1 & m1 & s1 & f1 & h2 & m2 & s2 & f2 & top & first & its & text & chunks & T1 & T2 & LE & HD & LI & CO & CH & F) NM EL PL RG.
  assert (top = row) by (destruct LE as [[->|[]] _]; reflexivity). subst top. rewrite EL in *. cbn [combine] in LI.
  assert (PI : plain_items its).
  { inversion LI as [|? ? ? ? parts its' B LI']; subst. inversion LI'; subst. cbn [app]. rewrite app_nil_r.
    assert (G : forall b, In b (l_blocks l) -> b_italic b = false /\ b_underline b = false /\ forall w c, utf8 (b_text b) w -> In c w -> ~ lone_mark c /\ forall cs, written c cs -> (length cs <= 1)%nat).
    { intros b I. destruct (PL b I) as (I1 & I2 & W). split; [exact I1|]. split; [exact I2|]. intros w c U C. split; [|intros cs; now apply (W w c cs)].
      apply (NM l b w c); [rewrite EL; now left|exact I|exact U|exact C]. }
    clear - B G. induction B as [|b part bs parts (w & U & ->) _ IH]; [intros x []|]. intros x I. cbn [List.concat app] in I.
    destruct (G b (or_introl eq_refl)) as (I1 & I2 & W). destruct I as [<-|I]; [left; now rewrite I1, I2|].
    apply in_app_or in I. destruct I as [I|I]; [|now apply IH; [intros b' B'; apply G; now right|]].
    apply in_map_iff in I. destruct I as (c & <- & I). right. exists c. split; [reflexivity|]. exact (W w c U I). }
  destruct (plain_coded _ _ _ _ CO eq_refl eq_refl PI row) as (w & S & IC).
  destruct (chunks_scan _ _ _ CH w row S) as (ws & SC & ->).
  rewrite (Z.mod_small row 256) in F by lia.
  destruct (blocks_scan g _ _ _ _ _ _ _ _ _ _ _ _ _ (chunk_lengths _ _ _ CH) F SC) as (rawss & LN & BR & RC & CM).
  exists h1, m1, s1, f1, h2, m2, s2, f2, first, rawss, (repeat (Some row) (length bs)).
  split; [exact T1|]. split; [exact T2|]. split; [rewrite EL; exact HD|]. split; [now rewrite repeat_length|]. split; [exact BR|].
  split; [apply Forall_forall; intros o I; apply repeat_spec in I; subst; exists row; split; [reflexivity|lia]|]. split; [|exact CM].
  eexists. split; [|exact RC]. rewrite EL.
  pose proof (lines_items_cells _ _ _ LI row false false _ (downwards_one row) eq_refl IC) as X. exact X.
Qed.

(** * Header *)

Lemma numeral_c s v : numeral s v -> c_number s v.
Proof. intros N. rewrite <- (app_nil_r s). apply (c_number_plain [] s v []); [constructor|exact N|intros []]. Qed.
Lemma number_value b at_ n s v : bytes_at b at_ n s -> cval s = v -> number_at b at_ n v.
Proof. intros B <-. exists s. split; [exact B|apply c_number_total]. Qed.

Lemma disk_rate fps dfc : disk_format fps dfc -> exists r, In (dfc, r) reader_rates.
Proof.
  intros (x & _ & [(r & c & I & _ & ->)|[_ ->]]); [|exists 25; cbn; tauto].
  destruct I as [[= _ <-]|[[= _ <-]|[[= _ <-]|[[= _ <-]|[]]]]]; [exists 23|exists 24|exists 25|exists 30]; cbn; tauto.
Qed.

Lemma header_reads a dfc lang d rn nt ns nl blocks subs longest r :
  header_ok a -> length dfc = 8%nat -> In (dfc, r) reader_rates -> In (lang, w_language a, d) ebu_languages ->
  counter 2 (w_revision_number a) rn -> counter 5 blocks nt -> counter 5 subs ns -> counter 2 longest nl ->
  blocks < 100000 -> subs < 100000 ->
  exists g, header_read (List.concat (StlWriteProofs.gsi_fields a dfc lang rn nt ns nl)) g /\ header_back a subs blocks g /\ frame_rate g = r.
Proof.
  intros H LD RR LI C1 C2 C3 C4 B1 B2.
  destruct (fields_at a dfc lang rn nt ns nl []) as [HA L]; try assumption; eauto using counter_length, language_length.
  rewrite app_nil_r in HA. destruct HA.
  assert (N2 : number 5 blocks nt) by (apply counter_number; [exact C2|exact B1]).
  assert (N3 : number 5 subs ns) by (apply counter_number; [exact C3|exact B2]).
  assert (N1 : number 2 (w_revision_number a) rn).
  { apply counter_number; [exact C1|]. change (10 ^ Z.of_nat 2) with 100. destruct H as (_ & _ & _ & _ & _ & _ & _ & _ & RN & _). lia. }
  exists (mkGsi 850 r DISPLAY_STANDARD_OPEN_SUBTITLING LANGUAGE_GROUP_LATIN (w_language a)
    (field 32 (w_original_programme_title a)) (field 32 (w_original_episode_title a)) (field 32 (w_translated_programme_title a))
    (field 32 (w_translated_episode_title a)) (field 32 (w_translator_name a)) (field 32 (w_translator_contact_details a))
    (lit "0000000000000000") (w_creation_date a) (w_revision_date a) rn blocks subs 1 (cval nl) 23 TIMECODE_STATUS_INTENDED_FOR_USE
    (lit "00000000") (lit "00000000") 1 1 (w_country_of_origin a) (field 32 (w_publisher a)) (field 32 (w_editor_name a)) (field 32 (w_editor_contact_details a))).
  split; [|split; [|reflexivity]].
  - unfold header_read. cbn [code_page_number frame_rate g_display_standard g_language_group g_language original_programme_title
       original_episode_title translated_programme_title translated_episode_title translator_name translator_contact_details
       subtitle_list_reference_code creation_date revision_date revision_number tti_blocks number_of_subtitles subtitle_groups
       maximum_characters maximum_rows g_timecode_status start_of_programme first_in_cue disks disk_sequence_number country_of_origin
       publisher editor_name editor_contact_details].
    split; [exact L|]. split; [eapply number_value; [eassumption|reflexivity]|]. split; [exists dfc; now split|].
    split; [exists (lit "0"), (lit "Open subtitling"); split; [assumption|cbn; tauto]|].
    split; [exists (lit "00"), (lit "Latin"); split; [assumption|cbn; tauto]|].
    split; [exists lang, d; now split|]. repeat (split; [assumption|]).
    split; [exists nt; split; [assumption|apply numeral_c, N2]|]. split; [exists ns; split; [assumption|apply numeral_c, N3]|].
    split; [eapply number_value; [eassumption|reflexivity]|]. split; [eapply number_value; [eassumption|reflexivity]|].
    split; [exists 23; split; [eapply number_value; [eassumption|reflexivity]|right; split; [discriminate|reflexivity]]|].
    split; [exists (lit "1"), (lit "Intended for use"); split; [assumption|cbn; tauto]|].
    split; [assumption|]. split; [assumption|]. split; [eapply number_value; [eassumption|reflexivity]|]. split; [eapply number_value; [eassumption|reflexivity]|].
    repeat (split; [assumption|]). assumption.
  - unfold header_back. cbn. split; [reflexivity|]. repeat (split; [reflexivity|]). split; [exact N1|]. repeat (split; [reflexivity|]). reflexivity.
Qed.

(** * Files *)

(** Everything read from the blocks of the file. *)
Lemma blocks_back g n ss : forall rowss blockss, length ss = length rowss ->
  Forall2 (fun sr bs => reads_as g n (fst sr) (snd sr) bs) (combine ss rowss) blockss ->
  exists rawss (lasts : list (option Z)) groups, length rawss = length lasts /\
    Forall2 (fun b x => block_read g b (fst x) (snd x)) (List.concat blockss) (combine rawss lasts) /\
    Forall (fun o => exists k, o = Some k /\ k <= 23) lasts /\ List.concat rawss = List.concat groups /\
    Forall2 (fun sr rs => same_text (fst sr) (snd sr) rs /\
      exists h1 m1 s1 f1 h2 m2 s2 f2 first, timecode n (s_from (fst sr)) h1 m1 s1 f1 /\ timecode n (s_to (fst sr)) h2 m2 s2 f2 /\ hd_error (s_lines (fst sr)) = Some first /\
       Forall (common g (mkT (h1 mod 256 * 3600 + m1 * 60 + s1) (f1 mod 256) (Some (mkR (frame_rate g) 1)))
                     (mkT (h2 mod 256 * 3600 + m2 * 60 + s2) (f2 mod 256) (Some (mkR (frame_rate g) 1))) (justification_of first)) rs)
      (combine ss rowss) groups.
Proof.
  induction ss as [|s ss IH]; intros [|rows rowss] blockss L F; try discriminate L.
  - inversion F; subst. exists [], [], []. split; [reflexivity|]. split; [constructor|]. split; [constructor|]. split; [reflexivity|constructor].
  - cbn [combine] in F. inversion F as [|? bs ? bss R F']; subst. destruct (IH rowss bss ltac:(cbn in L; lia) F') as (rawss & lasts & groups & LN & BR & LA & EG & FG).
    destruct R as (h1 & m1 & s1 & f1 & h2 & m2 & s2 & f2 & first & rawss' & lasts' & T1 & T2 & HD & LN' & BR' & LA' & ST & CM). cbn [fst snd] in *.
    exists (rawss' ++ rawss), (lasts' ++ lasts), (List.concat rawss' :: groups).
    split; [rewrite !app_length; lia|]. split.
    { cbn [List.concat]. assert (EC : combine (rawss' ++ rawss) (lasts' ++ lasts) = combine rawss' lasts' ++ combine rawss lasts).
      { clear - LN'. revert lasts' LN'. induction rawss' as [|x r IH]; intros [|y l] L; try discriminate L; [reflexivity|]. cbn. f_equal. apply IH. cbn in L. lia. }
      rewrite EC. now apply Forall2_app. }
    split; [now apply Forall_app|]. split; [rewrite concat_app; cbn [List.concat]; now rewrite EG|].
    cbn [combine]. constructor; [|exact FG]. cbn [fst snd]. split; [exact ST|]. exists h1, m1, s1, f1, h2, m2, s2, f2, first. auto.
Qed.

Lemma highest_some lasts : Forall (fun o => exists k, o = Some k /\ k <= 23) lasts -> exists top, highest_row lasts top /\ top <= 23.
Proof.
  induction 1 as [|o l (k & -> & K) _ (top & (A & B & C) & T)].
  - exists 0. split; [|lia]. split; [now left|]. split; [lia|intros r []].
  - exists (Z.max k top). split; [|lia]. split; [|split; [lia|]].
    + destruct (Z.max_spec k top) as [[M ->]|[M ->]]; [|right; now left]. destruct A as [->|A]; [now left|right; now right].
    + intros r [[= ->]|I]; [lia|]. specialize (C r I). lia.
Qed.

Lemma moved_none raws : Forall (fun r => exists row rows, r_vpos r = mkV None (Some row) (Some rows) (Some TOP_OF_SCREEN)) raws -> Forall2 (moved_up 0) raws raws.
Proof.
  induction 1 as [|r raws (row & rows & E) _ IH]; constructor; [|exact IH]. exists row, rows. split; [exact E|].
  rewrite Z.sub_0_r. destruct r; cbn in *. now subst.
Qed.

(** The conditions under which the text of a subtitle comes back. *)
Definition comes_back (s : subtitle) (rows : list Z) (bs : list str) : Prop :=
  no_lone_marks s /\ (length bs = 1%nat /\ downwards rows \/ exists l, s_lines s = [l] /\ plain_line l).

Definition back (n : Z) (g : gsi) (sr : subtitle * list Z) (rs : list raw) : Prop :=
  same_text (fst sr) (snd sr) rs /\
  exists h1 m1 s1 f1 h2 m2 s2 f2 first, timecode n (s_from (fst sr)) h1 m1 s1 f1 /\ timecode n (s_to (fst sr)) h2 m2 s2 f2 /\ hd_error (s_lines (fst sr)) = Some first /\
    Forall (common g (mkT (h1 mod 256 * 3600 + m1 * 60 + s1) (f1 mod 256) (Some (mkR (frame_rate g) 1)))
                     (mkT (h2 mod 256 * 3600 + m2 * 60 + s2) (f2 mod 256) (Some (mkR (frame_rate g) 1))) (justification_of first)) rs.

(** The parts of a file, and what is read from it once it is known what is read from its blocks. *)
Lemma file_parts h n a ss file : acceptable n a ss -> snd (write_stl_binary ss a (after h)) = Ok file ->
  Z.of_nat (length file) < 1024 + 128 * 100000 ->
  exists rowss blockss head dfc g, Forall2 (fun s rows => mapM stl_vertical_position (s_lines s) = Ok rows) ss rowss /\ Forall2 has_rows ss rowss /\
  Forall2 (fun sr bs => subtitle_blocks n (fst sr) (snd sr) bs) (combine ss rowss) blockss /\
  file = head ++ List.concat (List.concat blockss) /\ length file = (1024 + 128 * length (List.concat blockss))%nat /\
  make_gsi a (Z.of_nat (length (List.concat blockss))) (Z.of_nat (length ss)) (longest_line ss) = Ok head /\
  disk_format (w_fps a) dfc /\ In (dfc, frame_rate g) reader_rates /\ header_back a (Z.of_nat (length ss)) (Z.of_nat (length (List.concat blockss))) g /\
  forall h' rawss (lasts : list (option Z)), length rawss = length lasts ->
    Forall2 (fun b x => block_read g b (fst x) (snd x)) (List.concat blockss) (combine rawss lasts) ->
    Forall (fun o => exists k, o = Some k /\ k <= 23) lasts ->
    Forall (fun r => exists row rows, r_vpos r = mkV None (Some row) (Some rows) (Some TOP_OF_SCREEN)) (List.concat rawss) ->
    snd (stl_binary_read file (after h')) = Ok (g, List.concat rawss).
Proof.
  intros A W SZ. destruct (write_parts_gsi h ss a n A) as (rowss & blockss & head & E & EX & B & BL & MG & P). rewrite W in E. apply Ok_inj in E.
  assert (SM : small (head ++ List.concat (List.concat blockss))).
  { rewrite <- E. unfold small. lia. }
  destruct (P SM) as (lang & d & longest & R & D & LI & LO & (rn & nt & ns & nl & C1 & C2 & C3 & C4 & EH)). clear P SM.
  assert (H : header_ok a) by apply A. set (dfc := StlUtil.stl_frame_rate_to_dfc (w_fps a)) in *.
  assert (L : length head = 1024%nat).
  { rewrite EH. apply (fields_at a dfc lang rn nt ns nl []); try assumption; eauto using disk_format_length, counter_length, language_length. }
  assert (LF : length file = (1024 + 128 * length (List.concat blockss))%nat) by (rewrite E, app_length, L, (blocks_length _ BL); reflexivity).
  pose proof (Forall2_len _ _ _ R) as LR. pose proof (blocks_many n ss rowss blockss B LR) as BM.
  assert (NB : Z.of_nat (length (List.concat blockss)) < 100000) by (rewrite LF in SZ; lia).
  assert (NS : Z.of_nat (length ss) < 100000) by (eapply Z.le_lt_trans; [apply inj_le, BM|exact NB]).
  destruct (disk_rate _ _ D) as (r & IR).
  destruct (header_reads a dfc lang d rn nt ns nl _ _ _ r H (disk_format_length _ _ D) IR LI C1 C2 C3 C4 NB NS) as (g & HR & HB & FR).
  exists rowss, blockss, head, dfc, g. split; [exact EX|]. split; [exact R|]. split; [exact B|]. split; [exact E|]. split; [exact LF|]. split; [exact MG|]. split; [exact D|].
  split; [now rewrite FR|]. split; [exact HB|]. intros h' rawss lasts LN BR LA VP. destruct (highest_some lasts LA) as (top & HI & T).
  apply read_iff. exists (List.concat rawss), top.
  assert (MR : maximum_rows g = 23) by apply HB. assert (TB : tti_blocks g = Z.of_nat (length (List.concat blockss))) by apply HB.
  split.
  - exists head, (List.concat blockss), [], rawss, lasts.
    split; [now rewrite app_nil_r|]. split; [rewrite EH; exact HR|]. split; [rewrite TB, Z.max_r by apply Nat2Z.is_nonneg; reflexivity|]. split; [exact BR|]. split; [exact LN|]. split; [reflexivity|exact HI].
  - rewrite MR. replace (Z.max 0 (top - 23)) with 0 by lia. now apply moved_none.
Qed.

Lemma file_back h h' n a ss file : acceptable n a ss -> snd (write_stl_binary ss a (after h)) = Ok file ->
  Z.of_nat (length file) < 1024 + 128 * 100000 ->
  exists rowss blockss, Forall2 (fun s rows => mapM stl_vertical_position (s_lines s) = Ok rows) ss rowss /\ Forall2 has_rows ss rowss /\
  Forall2 (fun sr bs => subtitle_blocks n (fst sr) (snd sr) bs) (combine ss rowss) blockss /\
  length file = (1024 + 128 * length (List.concat blockss))%nat /\
  (Forall2 (fun sr bs => comes_back (fst sr) (snd sr) bs) (combine ss rowss) blockss ->
   exists dfc g groups, disk_format (w_fps a) dfc /\ In (dfc, frame_rate g) reader_rates /\
     header_back a (Z.of_nat (length ss)) (Z.of_nat (length (List.concat blockss))) g /\
     snd (stl_binary_read file (after h')) = Ok (g, List.concat groups) /\ Forall2 (back n g) (combine ss rowss) groups).
Proof.
  intros A W SZ. destruct (file_parts h n a ss file A W SZ) as (rowss & blockss & head & dfc & g & EX & R & B & _ & LF & _ & D & IR & HB & RD).
  pose proof (Forall2_len _ _ _ R) as LR. exists rowss, blockss. split; [exact EX|]. split; [exact R|]. split; [exact B|]. split; [exact LF|]. intros CB.
  assert (RA : Forall2 (fun sr bs => reads_as g n (fst sr) (snd sr) bs) (combine ss rowss) blockss).
  { clear - R B CB. revert blockss B CB. induction R as [|s rows ss rowss [RO RG] R IH]; intros blockss B CB; inversion B as [|? bs ? bss B1 B2]; subst; [constructor|].
    inversion CB as [|? ? ? ? CB1 CB2]; subst. cbn [combine]. constructor; [|now apply IH]. cbn [fst snd] in *.
    destruct CB1 as (NM & [[L1 DW]|(l & EL & PL)]).
    - destruct bs as [|b [|b' bs]]; try discriminate L1. apply read_one; try assumption. apply (Forall2_len _ _ _ RO).
    - rewrite EL in RO. inversion RO as [|? row ? rest RO1 RO2]; subst. inversion RO2; subst. apply (read_many g n s l); try assumption. exact (Forall_inv RG). }
  destruct (blocks_back g n ss rowss blockss LR RA) as (rawss & lasts & groups & LN & BR & LA & EG & FG).
  exists dfc, g, groups. split; [exact D|]. split; [exact IR|]. split; [exact HB|]. split; [|exact FG]. rewrite <- EG. apply (RD h' rawss lasts LN BR LA). rewrite EG.
  apply Forall_forall. intros r0 I. apply in_concat in I. destruct I as (rs & IG & I).
  clear - FG IG I. induction FG as [|sr rs' srs gs (ST & h1 & m1 & s1 & f1 & h2 & m2 & s2 & f2 & first & _ & _ & _ & CM) _ IH]; [destruct IG|].
  destruct IG as [->|IG]; [|now apply IH]. rewrite Forall_forall in CM. destruct (CM _ I) as (_ & _ & _ & row & V). eauto.
Qed.

Lemma one_block n srs blockss : Forall2 (fun sr bs => subtitle_blocks n (fst sr) (snd sr) bs) srs blockss ->
  length (List.concat blockss) = length srs -> Forall (fun bs => length bs = 1%nat) blockss.
Proof.
  intros F. assert (NE : Forall (fun bs => (1 <= length bs)%nat) blockss).
  { induction F as [|sr bs srs bss SB _ IH]; constructor; [|exact IH].
    destruct SB as (h1 & m1 & s1 & f1 & h2 & m2 & s2 & f2 & top & first & its & text & chunks & _ & _ & _ & _ & _ & _ & CH & F).
    apply Forall2_len in F. destruct chunks; [destruct (chunked_nonempty _ _ CH)|]. cbn [length] in F. unfold str in *. lia. }
  rewrite (Forall2_len _ _ _ F). clear F srs.
  assert (G : (length blockss <= length (List.concat blockss))%nat).
  { induction NE as [|bs bss N _ IH]; cbn; [lia|]. rewrite app_length. lia. }
  revert NE G. induction blockss as [|bs bss IH]; intros NE G E; [constructor|]. inversion NE as [|? ? N1 N2]; subst. cbn [List.concat length] in *. rewrite app_length in *.
  assert (G' : (length bss <= length (List.concat bss))%nat). { clear - N2. induction N2 as [|b l N _ IH]; cbn; [lia|]. rewrite app_length. lia. }
  constructor; [lia|]. apply IH; [exact N2|exact G'|lia].
Qed.

Lemma all_comes_back ss : forall rowss blockss, Forall no_lone_marks ss -> length ss = length rowss -> length (combine ss rowss) = length blockss ->
  Forall downwards rowss -> Forall (fun bs : list str => length bs = 1%nat) blockss ->
  Forall2 (fun sr bs => comes_back (fst sr) (snd sr) bs) (combine ss rowss) blockss.
Proof.
  induction ss as [|s ss IH]; intros [|rows rowss] [|bs blockss] NM L1 L2 D B; cbn in L1, L2; try lia; [constructor|].
  inversion NM; inversion D; inversion B; subst. cbn [combine]. constructor; [|apply IH; auto]. split; [assumption|]. left. now split.
Qed.
Lemma all_plain_back ss : forall rowss blockss, Forall no_lone_marks ss -> length ss = length rowss -> length (combine ss rowss) = length blockss ->
  Forall (fun s => exists l, s_lines s = [l] /\ plain_line l) ss ->
  Forall2 (fun sr (bs : list str) => comes_back (fst sr) (snd sr) bs) (combine ss rowss) blockss.
Proof.
  induction ss as [|s ss IH]; intros [|rows rowss] [|bs blockss] NM L1 L2 D; cbn in L1, L2; try lia; [constructor|].
  inversion NM; inversion D; subst. cbn [combine]. constructor; [|apply IH; auto]. split; [assumption|]. now right.
Qed.

Lemma back_side n g sr rs : back n g sr rs -> same_side (fst sr) rs.
Proof.
  intros (_ & h1 & m1 & s1 & f1 & h2 & m2 & s2 & f2 & first & _ & _ & HD & CM) l E. assert (l = first) by congruence. subst l.
  eapply Forall_impl; [|exact CM]. intros r (_ & _ & H & _). rewrite H. unfold justification_of. now destruct (h_ref (l_hpos first)).
Qed.

Lemma short_back h h' n a ss file : acceptable n a ss -> Forall no_lone_marks ss -> snd (write_stl_binary ss a (after h)) = Ok file ->
  length file = (1024 + 128 * length ss)%nat -> Z.of_nat (length ss) < 100000 ->
  exists rowss, Forall2 (fun s rows => mapM stl_vertical_position (s_lines s) = Ok rows) ss rowss /\ Forall2 has_rows ss rowss /\
    (Forall downwards rowss -> exists dfc g groups, disk_format (w_fps a) dfc /\ In (dfc, frame_rate g) reader_rates /\
     snd (stl_binary_read file (after h')) = Ok (g, List.concat groups) /\ Forall2 (back n g) (combine ss rowss) groups).
Proof.
  intros A NM W LF LS. destruct (file_back h h' n a ss file A W) as (rowss & blockss & EX & R & B & LB & F); [rewrite LF; lia|].
  exists rowss. split; [exact EX|]. split; [exact R|]. intros D. pose proof (Forall2_len _ _ _ R) as LR.
  destruct F as (dfc & g & groups & DF & IR & _ & RD & FG); [|exists dfc, g, groups; auto].
  apply all_comes_back; try assumption; [apply (Forall2_len _ _ _ B)|]. apply (one_block n (combine ss rowss)); [exact B|].
  rewrite combine_length. unfold str in *. lia.
Qed.

Lemma Forall2_weaken {A B : Type} (P Q : A -> B -> Prop) l m : (forall a b, P a b -> Q a b) -> Forall2 P l m -> Forall2 Q l m.
Proof. intros H. induction 1; constructor; auto. Qed.

Lemma text_back h h' n a ss file : acceptable n a ss -> Forall no_lone_marks ss -> snd (write_stl_binary ss a (after h)) = Ok file ->
  length file = (1024 + 128 * length ss)%nat -> Z.of_nat (length ss) < 100000 ->
  exists rowss, Forall2 has_rows ss rowss /\
    (Forall downwards rowss -> exists g groups, snd (stl_binary_read file (after h')) = Ok (g, List.concat groups) /\
      Forall2 (fun sr rs => same_text (fst sr) (snd sr) rs /\ same_side (fst sr) rs) (combine ss rowss) groups).
Proof.
  intros A NM W LF LS. destruct (short_back h h' n a ss file A NM W LF LS) as (rowss & _ & R & F). exists rowss. split; [exact R|]. intros D.
  destruct (F D) as (dfc & g & groups & _ & _ & RD & FG). exists g, groups. split; [exact RD|]. eapply Forall2_weaken; [|exact FG].
  intros sr rs X. split; [apply X|exact (back_side n g sr rs X)].
Qed.

Lemma rows_own ss : forall rowss rowss', Forall2 (fun s rows => mapM stl_vertical_position (s_lines s) = Ok rows) ss rowss -> Forall2 has_own_rows ss rowss' -> rowss = rowss'.
Proof.
  induction ss as [|s ss IH]; intros rowss rowss' F G; inversion F as [|? rows ? rs M F']; inversion G as [|? rows' ? rs' O G']; subst; [reflexivity|].
  f_equal; [|now apply IH]. clear - M O. revert rows M. induction O as [|l k ls ks (V & K & K7 & K14) _ IH]; intros rows M; cbn [mapM] in M.
  - now apply Ok_inj in M.
  - rewrite (own_rows l k V K) in M. cbn [bind] in M. destruct (mapM _ ls) as [rs|e|u]; [|discriminate M..]. cbn [bind] in M. apply Ok_inj in M. subst.
    f_equal; [|now apply IH]. destruct (Z.eqb_spec k 7), (Z.eqb_spec k 14); try reflexivity; contradiction.
Qed.

Lemma own_text_back h h' n a ss rowss file : acceptable n a ss -> Forall no_lone_marks ss -> Forall2 has_own_rows ss rowss -> Forall downwards rowss ->
  snd (write_stl_binary ss a (after h)) = Ok file -> length file = (1024 + 128 * length ss)%nat -> Z.of_nat (length ss) < 100000 ->
  exists g groups, snd (stl_binary_read file (after h')) = Ok (g, List.concat groups) /\
      Forall2 (fun sr rs => same_text (fst sr) (snd sr) rs /\ same_side (fst sr) rs) (combine ss rowss) groups.
Proof.
  intros A NM O D W LF LS. destruct (short_back h h' n a ss file A NM W LF LS) as (rowss' & EX & _ & F). rewrite (rows_own ss rowss' rowss EX O) in F.
  destruct (F D) as (dfc & g & groups & _ & _ & RD & FG). exists g, groups. split; [exact RD|]. eapply Forall2_weaken; [|exact FG].
  intros sr rs X. split; [apply X|exact (back_side n g sr rs X)].
Qed.

Lemma long_text_back h h' n a ss file : acceptable n a ss -> Forall no_lone_marks ss -> Forall (fun s => exists l, s_lines s = [l] /\ plain_line l) ss ->
  snd (write_stl_binary ss a (after h)) = Ok file -> Z.of_nat (length file) < 1024 + 128 * 100000 ->
  exists rowss g groups, Forall2 has_rows ss rowss /\ snd (stl_binary_read file (after h')) = Ok (g, List.concat groups) /\
      Forall2 (fun sr rs => same_text (fst sr) (snd sr) rs /\ same_side (fst sr) rs) (combine ss rowss) groups.
Proof.
  intros A NM P W SZ. destruct (file_back h h' n a ss file A W SZ) as (rowss & blockss & _ & R & B & _ & F). pose proof (Forall2_len _ _ _ R) as LR.
  destruct F as (dfc & g & groups & DF & IR & _ & RD & FG).
  { apply all_plain_back; try assumption. apply (Forall2_len _ _ _ B). }
  exists rowss, g, groups. split; [exact R|]. split; [exact RD|]. eapply Forall2_weaken; [|exact FG].
  intros sr rs X. split; [apply X|exact (back_side n g sr rs X)].
Qed.

(** * Times *)

Lemma frame_close (k X N f : Z) : 0 < k -> 0 < N -> 2 * Z.abs (X * (k * 1000) - f * (N * 1000)) <= N * 1000 ->
  (Qabs (inject_Z (f * 1) / inject_Z k - inject_Z X / inject_Z N) <= 1 # Z.to_pos (2 * k))%Q.
Proof.
  intros K P H. assert (E : (inject_Z (f * 1) / inject_Z k - inject_Z X / inject_Z N == (f * N - X * k) # Z.to_pos (k * N))%Q).
  { rewrite Z.mul_1_r. destruct k as [|k|k], N as [|N|N]; try lia. unfold Qdiv, Qinv, inject_Z. cbn [Qnum Qden Z.to_pos Z.mul].
    unfold Qeq, Qminus, Qplus, Qopp, Qmult. cbn [Qnum Qden]. rewrite ?Pos.mul_1_l, ?Pos.mul_1_r, ?Pos2Z.inj_mul. lia. }
  rewrite E. unfold Qle, Qabs. cbn [Qnum Qden]. rewrite !Z2Pos.id by nia. nia.
Qed.
Lemma frame_exact (k X N f g : Z) : 0 < k -> 0 < N -> 2 * Z.abs (X * (k * 1000) - f * (N * 1000)) <= N * 1000 -> X * k = g * N ->
  (inject_Z (f * 1) / inject_Z k == inject_Z X / inject_Z N)%Q.
Proof.
  intros K P H E. assert (f = g) by nia. subst g.
  rewrite Z.mul_1_r. destruct k as [|k|k], N as [|N|N]; try lia. unfold Qdiv, Qinv, inject_Z. cbn [Qnum Qden Z.to_pos].
  unfold Qeq, Qmult. cbn [Qnum Qden]. rewrite ?Pos.mul_1_l, ?Z.mul_1_r. lia.
Qed.

Lemma time_back k t h m s f : 0 < k < 256 -> time_ok t -> time_small t -> timecode (k * 1000) t h m s f ->
  let t' := mkT (h mod 256 * 3600 + m * 60 + s) (f mod 256) (Some (mkR k 1)) in
  close_to k t t' /\ (on_a_frame k t -> same_instant k t t').
Proof.
  intros K T [WS S] TC t'. destruct (within_frame k t h m s f K T WS TC) as [F1 F2].
  assert (SEC : t' = mkT (t_seconds t) f (Some (mkR k 1))).
  { destruct TC as (E & H0 & M & SS & _). unfold t'. rewrite !Z.mod_small by lia. now rewrite E. }
  rewrite SEC. clear t' SEC. destruct TC as (_ & _ & _ & _ & tr & R & NE & _). destruct (time_ok_rate t T) as (tr' & R' & N & D).
  assert (tr' = tr) by congruence. subst tr'. split.
  - intros tr' RT. assert (tr' = tr) by congruence. subst tr'. split; [reflexivity|]. unfold instant_at, frames_duration. cbn [t_seconds t_frames num den].
    pose proof (frame_close k (t_frames t * den tr) (num tr) f ltac:(lia) N NE) as C.
    setoid_replace (inject_Z (t_seconds t) + inject_Z (f * 1) / inject_Z k - (inject_Z (t_seconds t) + inject_Z (t_frames t * den tr) / inject_Z (num tr)))%Q
      with (inject_Z (f * 1) / inject_Z k - inject_Z (t_frames t * den tr) / inject_Z (num tr))%Q by ring. exact C.
  - intros (tr' & f' & RT & E) tr'' RT'. assert (tr' = tr) by congruence. assert (tr'' = tr) by congruence. subst. split; [reflexivity|].
    unfold instant_at, frames_duration. cbn [t_seconds t_frames num den]. rewrite (frame_exact k (t_frames t * den tr) (num tr) f f' ltac:(lia) N NE E). reflexivity.
Qed.

Lemma whole_format k dfc r : In k [24; 25; 30] -> disk_format (f_of_int k) dfc -> In (dfc, r) reader_rates -> r = k.
Proof.
  intros K (x & V & D) I. assert (x = IZR k).
  { assert (V' : float_value (f_of_int k) (IZR k)) by (apply FloatProofs.f_of_int_ok; destruct K as [<-|[<-|[<-|[]]]]; lia).
    destruct V as (_ & _ & <-). now destruct V' as (_ & _ & V'). }
  subst x. destruct D as [(q & c & J & AB & ->)|[NO ->]].
  - assert (Q : (Rabs (IZR k - q) < 1 / 2)%R) by lra. apply Rabs_lt_inv in AB.
    destruct J as [[= <- <-]|[[= <- <-]|[[= <- <-]|[[= <- <-]|[]]]]]; destruct K as [<-|[<-|[<-|[]]]]; try (exfalso; lra);
      destruct I as [[= <-]|[[= <-]|[[= <-]|[[= <-]|[]]]]]; reflexivity.
  - exfalso. destruct K as [<-|[<-|[<-|[]]]]; [apply (Rle_not_lt _ _ (NO 24%R _ (or_intror (or_introl eq_refl))))
      |apply (Rle_not_lt _ _ (NO 25%R _ (or_intror (or_intror (or_introl eq_refl)))))
      |apply (Rle_not_lt _ _ (NO 30%R _ (or_intror (or_intror (or_intror (or_introl eq_refl))))))];
      rewrite Rminus_diag_eq by reflexivity; rewrite Rabs_R0; lra.
Qed.

Lemma times_back h h' k a ss file : In k [24; 25; 30] -> w_fps a = f_of_int k -> acceptable (k * 1000) a ss -> Forall no_lone_marks ss ->
  Forall (fun s => time_small (s_from s) /\ time_small (s_to s)) ss -> snd (write_stl_binary ss a (after h)) = Ok file ->
  length file = (1024 + 128 * length ss)%nat -> Z.of_nat (length ss) < 100000 ->
  exists rowss, Forall2 has_rows ss rowss /\
    (Forall downwards rowss -> exists g groups, snd (stl_binary_read file (after h')) = Ok (g, List.concat groups) /\
      Forall2 (fun sr rs => same_text (fst sr) (snd sr) rs /\ same_times k (fst sr) rs) (combine ss rowss) groups).
Proof.
  intros K FP A NM TS W LF LS. destruct (short_back h h' (k * 1000) a ss file A NM W LF LS) as (rowss & _ & R & F). exists rowss. split; [exact R|]. intros D.
  destruct (F D) as (dfc & g & groups & DF & IR & RD & FG). rewrite FP in DF. pose proof (whole_format k dfc _ K DF IR) as FR. rewrite <- FR in K.
  exists g, groups. split; [exact RD|]. assert (WR : Forall writable ss) by apply A.
  assert (KB : 0 < k < 256) by (rewrite <- FR; destruct K as [<-|[<-|[<-|[]]]]; lia).
  clear - FG FR TS WR R KB. revert groups FG. induction R as [|s rows ss rowss _ _ IH]; intros groups FG; inversion FG as [|? rs ? gs B FG']; subst; [constructor|].
  inversion TS as [|? ? [TS1 TS2] TS']; inversion WR as [|? ? WR1 WR']; subst. cbn [combine]. constructor; [|now apply IH]. cbn [fst snd] in *.
  destruct B as (ST & h1 & m1 & s1 & f1 & h2 & m2 & s2 & f2 & first & T1 & T2 & _ & CM). split; [exact ST|]. cbn [fst] in *.
  destruct WR1 as (_ & W1 & W2 & _). destruct (time_back _ _ _ _ _ _ KB W1 TS1 T1) as [C1 E1]. destruct (time_back _ _ _ _ _ _ KB W2 TS2 T2) as [C2 E2].
  eapply Forall_impl; [|exact CM]. intros r (RF & RT & _). rewrite RF, RT. auto.
Qed.

(** * Rates *)

Lemma rate_back fps x : float_value fps x -> (Rabs x <= 255)%R ->
  exists y r, StlUtil.stl_dfc_to_frame_rate (StlUtil.stl_frame_rate_to_dfc fps) = Ok y /\ float_value y r /\ format_rate x r.
Proof.
  intros V B. destruct (dfc_ok fps x V B) as (x' & V' & D). assert (x' = x) by (destruct V as (_ & _ & <-); now destruct V' as (_ & _ & ->)). subst x'.
  assert (V24 : float_value (f_of_int 24) 24) by now apply FloatProofs.f_of_int_ok.
  assert (V25 : float_value (f_of_int 25) 25) by now apply FloatProofs.f_of_int_ok.
  assert (V30 : float_value (f_of_int 30) 30) by now apply FloatProofs.f_of_int_ok.
  destruct D as [(r & c & I & AB & E)|[NO E]]; rewrite E.
  - destruct I as [[= <- <-]|[[= <- <-]|[[= <- <-]|[[= <- <-]|[]]]]].
    + do 2 eexists. split; [reflexivity|]. split; [exact f23976_value|]. left. eexists. split; [now left|exact AB].
    + do 2 eexists. split; [reflexivity|]. split; [exact V24|]. left. eexists. split; [right; now left|exact AB].
    + do 2 eexists. split; [reflexivity|]. split; [exact V25|]. left. eexists. split; [right; right; now left|exact AB].
    + do 2 eexists. split; [reflexivity|]. split; [exact V30|]. left. eexists. split; [right; right; right; now left|exact AB].
  - do 2 eexists. split; [reflexivity|]. split; [exact V25|]. right. split; [exact NO|reflexivity].
Qed.

Lemma code_refused s : (exists y, StlUtil.stl_dfc_to_frame_rate s = Ok y) <-> In s (map (fun x => lit (snd x)) disk_formats).
Proof.
  unfold StlUtil.stl_dfc_to_frame_rate. cbn [disk_formats map snd]. split.
  - intros (y & E). destruct (str_eqb s (lit "STL23.01")) eqn:A; [apply str_eqb_iff in A; subst; now left|].
    destruct (str_eqb s (lit "STL24.01")) eqn:B; [apply str_eqb_iff in B; subst; right; now left|].
    destruct (str_eqb s (lit "STL25.01")) eqn:C; [apply str_eqb_iff in C; subst; right; right; now left|].
    destruct (str_eqb s (lit "STL30.01")) eqn:D; [apply str_eqb_iff in D; subst; right; right; right; now left|discriminate E].
  - intros [<-|[<-|[<-|[<-|[]]]]]; eexists; reflexivity.
Qed.

(** * Everything written can be read *)

Lemma glyph_no_unassigned : forallb (fun e => forallb (fun b => negb (b =? 0xC9) && negb (b =? 0xCC)) (fst e)) glyph_list
  && forallb (fun e => negb (fst e =? 0xC9) && negb (fst e =? 0xCC)) lone_marks = true.
Proof. vm_compute. reflexivity. Qed.
Definition assigned (b : Z) : Prop := b <> 0xC9 /\ b <> 0xCC.
Lemma glyph_assigned bs c : glyph bs c -> Forall assigned bs.
Proof.
  intros G. apply glyph_in in G. pose proof glyph_no_unassigned as F. apply andb_true_iff in F. destruct F as [F _].
  rewrite forallb_forall in F. specialize (F _ G). cbn [fst] in F. rewrite forallb_forall in F. apply Forall_forall. intros b I. specialize (F b I). unfold assigned. lia.
Qed.
Lemma written_assigned c bs : written c bs -> Forall assigned bs.
Proof.
  intros [c' bs' G _|a c' I|c' d bs' _ G|c' _ _ _]; eauto using glyph_assigned.
  pose proof glyph_no_unassigned as F. apply andb_true_iff in F. destruct F as [_ F]. rewrite forallb_forall in F.
  specialize (F _ I). cbn [fst] in F. constructor; [unfold assigned; lia|constructor].
Qed.
Lemma change_assigned a b on off : assigned on -> assigned off -> Forall assigned (change a b on off).
Proof. intros A B. destruct a, b; cbn; auto using Forall_nil, Forall_cons. Qed.
Lemma coded_assigned i u its bs : coded i u its bs -> Forall assigned bs.
Proof.
  assert (K : assigned 0x80 /\ assigned 0x81 /\ assigned 0x82 /\ assigned 0x83 /\ assigned 0x8A /\ assigned 0x8F) by (unfold assigned; lia).
  destruct K as (K0 & K1 & K2 & K3 & KA & KF).
  induction 1 as [i u|i u its bs _ IH|i u i' u' its bs _ IH|i u c cs its bs W _ IH].
  - apply Forall_app. split; [now apply change_assigned|]. apply Forall_app. split; [now apply change_assigned|]. now repeat constructor.
  - now constructor.
  - apply Forall_app. split; [now apply change_assigned|]. apply Forall_app. split; [now apply change_assigned|]. exact IH.
  - apply Forall_app. split; [now apply (written_assigned c)|exact IH].
Qed.
Lemma chunks_assigned k t cs : chunked k t cs -> Forall assigned t -> Forall (fun c => Forall assigned (snd c)) cs.
Proof.
  assert (KF : assigned 0x8F) by (unfold assigned; lia).
  induction 1 as [k t N L|k t rest cs L N _ IH]; intros F.
  - constructor; [|constructor]. cbn [snd]. apply Forall_app. split; [exact F|]. apply Forall_forall. intros b I. apply repeat_spec in I. now subst.
  - apply Forall_app in F. destruct F. constructor; [assumption|auto].
Qed.

Lemma assigned_decodes s : Forall assigned (bytes s) -> exists w, decodes None (bytes s) w.
Proof.
  intros F. destruct (pure_decode_cases s None I) as [[P U]|[[w P] U]]; [|exists w; now apply pure_decode_sound].
  exfalso. destruct U as [(a & b & q & E & _)|(p & a & b & q & E & _ & A & _)]; [discriminate|].
  rewrite E in F. apply Forall_app in F. destruct F as [_ F]. inversion F as [|? ? [X Y] _]; subst. lia.
Qed.

Lemma row_pieces_within s bs ps s' : row_pieces s bs ps s' -> forall P : Z -> Prop, Forall P bs -> Forall (fun q => Forall P (snd q)) ps.
Proof.
  induction 1 as [s p PT|s p rest PT|s s' s'' p c rest ps PT C _ IH]; intros P F.
  - destruct p; cbn [is_nil]; constructor; [exact F|constructor].
  - apply Forall_app in F. destruct F as [F _]. destruct p; cbn [is_nil]; constructor; [exact F|constructor].
  - apply Forall_app in F. destruct F as [F G]. inversion G; subst. constructor; [exact F|auto].
Qed.
Lemma rows_pieces_within row i u rows ps : rows_pieces row i u rows ps -> forall P : Z -> Prop, Forall (Forall P) rows -> Forall (fun q => Forall P (snd q)) ps.
Proof.
  induction 1 as [row i u|row i u bs rest ps s ps' R _ IH]; intros P F; [constructor|]. inversion F as [|? ? F1 F2]; subst. apply Forall_app. split; [|now apply IH].
  pose proof (row_pieces_within _ _ _ _ R P F1) as X. apply Forall_forall. intros q I. apply in_map_iff in I. destruct I as (x & <- & I). rewrite Forall_forall in X. now apply X.
Qed.

Lemma block_reads g b e h1 m1 s1 f1 h2 m2 s2 f2 top just chunk :
  map char_code b = [1; 0; 0; e; 0; h1; m1; s1; f1; h2; m2; s2; f2; top; just; 0] ++ chunk -> length chunk = 112%nat -> Forall assigned chunk ->
  exists raws last, block_read g b raws last /\
    Forall (common g (mkT (h1 * 3600 + m1 * 60 + s1) f1 (Some (mkR (frame_rate g) 1))) (mkT (h2 * 3600 + m2 * 60 + s2) f2 (Some (mkR (frame_rate g) 1))) just) raws.
Proof.
  intros E L A.
  assert (LB : length b = 128%nat) by (rewrite <- (map_length char_code), E, app_length, L; reflexivity).
  set (from := mkT (h1 * 3600 + m1 * 60 + s1) f1 (Some (mkR (frame_rate g) 1))). set (to := mkT (h2 * 3600 + m2 * 60 + s2) f2 (Some (mkR (frame_rate g) 1))).
  set (text := skipn 16 b).
  assert (ET : bytes text = chunk) by (unfold bytes, text; rewrite <- skipn_map, E; reflexivity).
  pose proof (rows_cut_pieces (split (is_any_of [chr 138]) text) top false false) as RP.
  destruct (split_inv (chr 138) text) as [J F].
  assert (AR : Forall (Forall assigned) (map bytes (split (is_any_of [chr 138]) text))).
  { apply Forall_forall. intros r I. apply in_map_iff in I. destruct I as (x & <- & I). apply Forall_forall. intros v V. unfold bytes in V. apply in_map_iff in V. destruct V as (c & <- & V).
    rewrite <- ET in A. rewrite Forall_forall in A. apply A. unfold bytes. apply in_map. rewrite <- J. clear - I V.
    induction (split (is_any_of [chr 138]) text) as [|y l IH]; [destruct I|]. destruct l as [|z l].
    - destruct I as [->|[]]. exact V.
    - change (In c (y ++ [chr 138] ++ join [chr 138] (z :: l))). apply in_or_app. destruct I as [->|I]; [now left|]. right. apply in_or_app. right. now apply IH. }
  pose proof (rows_pieces_within _ _ _ _ _ RP assigned AR) as AP.
  assert (X : exists raws, Forall2 (piece_raw g from to just) (map piece_bytes (rows_cut top false false (split (is_any_of [chr 138]) text))) raws /\ Forall (common g from to just) raws).
  { clear RP. induction (rows_cut top false false (split (is_any_of [chr 138]) text)) as [|p ps IH]; [exists []; split; constructor|].
    cbn [map] in AP. inversion AP as [|? ? AP1 AP2]; subst. destruct (IH AP2) as (raws & F1 & F2). destruct p as [[row s] x]. cbn [piece_bytes snd] in AP1.
    destruct (assigned_decodes x AP1) as (w & D). pose proof (wide_to_utf8_ok w (decodes_scalars _ _ _ D)) as U.
    eexists (_ :: raws). split; [constructor; [|exact F1]; exists w, (Utf.wide_to_utf8 w); split; [exact D|split; [exact U|reflexivity]]|].
    constructor; [|exact F2]. split; [reflexivity|]. split; [reflexivity|]. split; [reflexivity|]. exists row. reflexivity. }
  destruct X as (raws & PR & CM). exists raws. eexists. split; [|exact CM].
  eapply block_text with (text := text) (just := just) (from := from) (to := to); [exact LB| | | | | | | | | |exact RP|exact PR].
  - exact (code_byte b [1; 0; 0; e; 0; h1; m1; s1; f1; h2; m2; s2; f2; top; just] _ _ E).
  - exists h1, m1, s1, f1. split; [exact (code_byte b [1; 0; 0; e; 0] _ _ E)|]. split; [exact (code_byte b [1; 0; 0; e; 0; h1] _ _ E)|].
    split; [exact (code_byte b [1; 0; 0; e; 0; h1; m1] _ _ E)|]. split; [exact (code_byte b [1; 0; 0; e; 0; h1; m1; s1] _ _ E)|reflexivity].
  - exists h2, m2, s2, f2. split; [exact (code_byte b [1; 0; 0; e; 0; h1; m1; s1; f1] _ _ E)|]. split; [exact (code_byte b [1; 0; 0; e; 0; h1; m1; s1; f1; h2] _ _ E)|].
    split; [exact (code_byte b [1; 0; 0; e; 0; h1; m1; s1; f1; h2; m2] _ _ E)|]. split; [exact (code_byte b [1; 0; 0; e; 0; h1; m1; s1; f1; h2; m2; s2] _ _ E)|reflexivity].
  - exact (code_byte b [1; 0; 0; e; 0; h1; m1; s1; f1; h2; m2; s2; f2] _ _ E).
  - exact (code_byte b [1; 0; 0; e; 0; h1; m1; s1; f1; h2; m2; s2; f2; top] _ _ E).
  - exists (firstn 16 b), []. unfold text. rewrite app_nil_r, firstn_skipn. split; [reflexivity|]. rewrite firstn_length, skipn_length. lia.
  - apply split_not_nil.
  - symmetry. exact J.
  - eapply Forall_impl; [|exact F]. intros y. apply free_not_in.
Qed.

(** What every piece of a subtitle has. *)
Definition pieces_of (n : Z) (g : gsi) (s : subtitle) (rs : list raw) : Prop :=
  exists h1 m1 s1 f1 h2 m2 s2 f2 first, timecode n (s_from s) h1 m1 s1 f1 /\ timecode n (s_to s) h2 m2 s2 f2 /\ hd_error (s_lines s) = Some first /\
    Forall (common g (mkT (h1 mod 256 * 3600 + m1 * 60 + s1) (f1 mod 256) (Some (mkR (frame_rate g) 1)))
                     (mkT (h2 mod 256 * 3600 + m2 * 60 + s2) (f2 mod 256) (Some (mkR (frame_rate g) 1))) (justification_of first)) rs.

Lemma subtitle_reads n g s rows bs : subtitle_blocks n s rows bs ->
  exists rawss lasts, length rawss = length lasts /\ Forall2 (fun b x => block_read g b (fst x) (snd x)) bs (combine rawss lasts) /\ pieces_of n g s (List.concat rawss).
Proof.
  intros (h1 & m1 & s1 & f1 & h2 & m2 & s2 & f2 & top & first & its & text & chunks & T1 & T2 & LE & HD & LI & CO & CH & F).
  pose proof (chunk_lengths _ _ _ CH) as CL. pose proof (chunks_assigned _ _ _ CH (coded_assigned _ _ _ _ CO)) as CA.
  assert (X : exists rawss lasts, length rawss = length lasts /\ Forall2 (fun b x => block_read g b (fst x) (snd x)) bs (combine rawss lasts) /\
    Forall (common g (mkT (h1 mod 256 * 3600 + m1 * 60 + s1) (f1 mod 256) (Some (mkR (frame_rate g) 1)))
                     (mkT (h2 mod 256 * 3600 + m2 * 60 + s2) (f2 mod 256) (Some (mkR (frame_rate g) 1))) (justification_of first)) (List.concat rawss)).
  { clear CH CO LI. induction F as [|c b cs bs E F IH]; [exists [], []; split; [reflexivity|]; split; constructor|].
    inversion CL; inversion CA; subst. destruct IH as (rawss & lasts & LN & BR & CM); try assumption.
    destruct (block_reads g b _ _ _ _ _ _ _ _ _ _ _ _ E) as (raws & last & B & C); try assumption.
    exists (raws :: rawss), (last :: lasts). split; [cbn; congruence|]. split; [constructor; [exact B|exact BR]|]. cbn [List.concat]. now apply Forall_app. }
  destruct X as (rawss & lasts & LN & BR & CM). exists rawss, lasts. split; [exact LN|]. split; [exact BR|].
  exists h1, m1, s1, f1, h2, m2, s2, f2, first. auto.
Qed.

Lemma highest_any (lasts : list (option Z)) : exists top, highest_row lasts top.
Proof.
  induction lasts as [|o l (top & A & B & C)].
  - exists 0. split; [now left|]. split; [lia|intros r []].
  - destruct o as [k|].
    + exists (Z.max k top). split; [|split; [lia|]].
      * destruct (Z.max_spec k top) as [[M ->]|[M ->]]; [|right; now left]. destruct A as [->|A]; [now left|right; now right].
      * intros r [[= ->]|I]; [lia|]. specialize (C r I). lia.
    + exists top. split; [destruct A as [->|A]; [now left|right; now right]|]. split; [exact B|]. intros r [H|I]; [discriminate H|auto].
Qed.

Definition moved_by (d : Z) (r : raw) : raw :=
  mkRaw (r_text r) (r_font r) (r_font_size r) (r_effect r) (r_effect_colour r) (r_colour r) (r_bold r) (r_italic r)
    (r_underline r) (r_hpos r) (mkV None (match v_line (r_vpos r) with Some row => Some (row - d) | None => None end) (v_lines (r_vpos r)) (Some TOP_OF_SCREEN)) (r_from r) (r_to r)
    (r_fade_up r) (r_fade_down r).
Lemma moved_any g from to just d rs : Forall (common g from to just) rs -> Forall2 (moved_up d) rs (map (moved_by d) rs).
Proof.
  induction 1 as [|r rs (_ & _ & _ & row & V) _ IH]; constructor; [|exact IH]. exists row, (maximum_rows g). split; [exact V|].
  unfold moved_by. now rewrite V.
Qed.

(** The pieces of some blocks and the last rows of those. *)
Definition blocks_rows (g : gsi) (bs : list str) (rs : list raw) (lasts : list (option Z)) : Prop :=
  exists rawss, length rawss = length lasts /\ Forall2 (fun b x => block_read g b (fst x) (snd x)) bs (combine rawss lasts) /\ rs = List.concat rawss.
Lemma any_parts h h' n a ss file : acceptable n a ss -> snd (write_stl_binary ss a (after h)) = Ok file ->
  Z.of_nat (length file) < 1024 + 128 * 100000 ->
  exists dfc head rowss blockss g top groups groups' lastss, disk_format (w_fps a) dfc /\ In (dfc, frame_rate g) reader_rates /\
    written_as n ss rowss file head blockss /\ length file = (1024 + 128 * length (List.concat blockss))%nat /\
    header_back a (Z.of_nat (length ss)) (Z.of_nat (length (List.concat blockss))) g /\
    snd (stl_binary_read file (after h')) = Ok (g, List.concat groups') /\
    length groups = length lastss /\ Forall2 (fun bs x => blocks_rows g bs (fst x) (snd x)) blockss (combine groups lastss) /\ highest_row (List.concat lastss) top /\
    Forall2 (Forall2 (moved_up (Z.max 0 (top - maximum_rows g)))) groups groups' /\ Forall2 (pieces_of n g) ss groups.
Proof.
  intros A W SZ. destruct (write_parts h ss a n A) as (rowss & blockss & head & E & EX & B & BL & P). rewrite W in E. apply Ok_inj in E.
  assert (SM : small (head ++ List.concat (List.concat blockss))).
  { rewrite <- E. unfold small. lia. }
  destruct (P SM) as (lang & dd & longest & R & D & LI & LO & (rn & nt & ns & nl & C1 & C2 & C3 & C4 & EH)). clear P SM.
  assert (H : header_ok a) by apply A. set (dfc := StlUtil.stl_frame_rate_to_dfc (w_fps a)) in *.
  assert (L : length head = 1024%nat).
  { rewrite EH. apply (fields_at a dfc lang rn nt ns nl []); try assumption; eauto using disk_format_length, counter_length, language_length. }
  assert (LF : length file = (1024 + 128 * length (List.concat blockss))%nat) by (rewrite E, app_length, L, (blocks_length _ BL); reflexivity).
  pose proof (Forall2_len _ _ _ R) as LR. pose proof (blocks_many n ss rowss blockss B LR) as BM.
  assert (NB : Z.of_nat (length (List.concat blockss)) < 100000) by (rewrite LF in SZ; lia).
  assert (NS : Z.of_nat (length ss) < 100000) by (eapply Z.le_lt_trans; [apply inj_le, BM|exact NB]).
  destruct (disk_rate _ _ D) as (r & IR).
  destruct (header_reads a dfc lang dd rn nt ns nl _ _ _ r H (disk_format_length _ _ D) IR LI C1 C2 C3 C4 NB NS) as (g & HR & HB & FR).
  assert (X : exists rawss groups lastss, length rawss = length (List.concat lastss) /\ Forall2 (fun b x => block_read g b (fst x) (snd x)) (List.concat blockss) (combine rawss (List.concat lastss)) /\
    List.concat rawss = List.concat groups /\ length groups = length lastss /\ Forall2 (fun bs x => blocks_rows g bs (fst x) (snd x)) blockss (combine groups lastss) /\ Forall2 (pieces_of n g) ss groups).
  { clear - R B. revert blockss B. induction R as [|s rows ss rowss _ _ IH]; intros blockss B; inversion B as [|? bs ? bss B1 B2]; subst.
    - exists [], [], []. split; [reflexivity|]. split; [constructor|]. split; [reflexivity|]. split; [reflexivity|]. split; constructor.
    - destruct (IH bss B2) as (rawss & groups & lastss & LN & BR & EC & LG & FG & FP). destruct (subtitle_reads n g s rows bs B1) as (rawss' & lasts' & LN' & BR' & PO).
      exists (rawss' ++ rawss), (List.concat rawss' :: groups), (lasts' :: lastss). cbn [List.concat]. split; [rewrite !app_length; lia|]. split.
      { assert (EQ : forall lasts, combine (rawss' ++ rawss) (lasts' ++ lasts) = combine rawss' lasts' ++ combine rawss lasts).
        { intros lasts. clear - LN'. revert lasts' LN'. induction rawss' as [|x r IH]; intros [|y l] L; try discriminate L; [reflexivity|]. cbn. f_equal. apply IH. cbn in L. lia. }
        rewrite EQ. now apply Forall2_app. }
      split; [rewrite concat_app; cbn [List.concat]; now rewrite EC|]. split; [cbn; now rewrite LG|]. split; [|now constructor]. cbn [combine]. constructor; [|exact FG]. exists rawss'. auto. }
  destruct X as (rawss & groups & lastss & LN & BR & EC & LG & FG & FP).
  destruct (highest_any (List.concat lastss)) as (top & HI). set (d := Z.max 0 (top - maximum_rows g)).
  exists dfc, head, rowss, blockss, g, top, groups, (map (map (moved_by d)) groups), lastss.
  split; [exact D|]. split; [now rewrite FR|]. split; [now repeat (split; [first [exact E|exact L|exact R]|])|]. split; [exact LF|]. split; [exact HB|].
  assert (MV : Forall2 (Forall2 (moved_up d)) groups (map (map (moved_by d)) groups)).
  { clear - FP. induction FP as [|s rs ss gs (h1 & m1 & s1 & f1 & h2 & m2 & s2 & f2 & first & _ & _ & _ & CM) _ IH]; constructor; [|exact IH]. eapply moved_any; exact CM. }
  split; [|now repeat (split; [first [exact LG|exact FG|exact HI|exact MV]|])].
  apply read_iff. exists (List.concat groups), top.
  assert (TB : tti_blocks g = Z.of_nat (length (List.concat blockss))) by apply HB.
  split.
  - exists head, (List.concat blockss), [], rawss, (List.concat lastss).
    split; [now rewrite app_nil_r|]. split; [rewrite EH; exact HR|]. split; [rewrite TB, Z.max_r by apply Nat2Z.is_nonneg; reflexivity|]. split; [exact BR|]. split; [exact LN|]. split; [now rewrite EC|exact HI].
  - fold d. clear - MV. induction MV as [|a b l m X _ IH]; cbn [List.concat]; [constructor|]. now apply Forall2_app.
Qed.

Lemma any_back h h' n a ss file : acceptable n a ss -> snd (write_stl_binary ss a (after h)) = Ok file ->
  Z.of_nat (length file) < 1024 + 128 * 100000 ->
  exists dfc head rowss blockss g d groups groups', disk_format (w_fps a) dfc /\ In (dfc, frame_rate g) reader_rates /\
    written_as n ss rowss file head blockss /\ length file = (1024 + 128 * length (List.concat blockss))%nat /\
    header_back a (Z.of_nat (length ss)) (Z.of_nat (length (List.concat blockss))) g /\
    snd (stl_binary_read file (after h')) = Ok (g, List.concat groups') /\
    Forall2 (fun bs rs => blocks_read g bs rs) blockss groups /\ Forall2 (Forall2 (moved_up d)) groups groups' /\ Forall2 (pieces_of n g) ss groups.
Proof.
  intros A W SZ. destruct (any_parts h h' n a ss file A W SZ) as (dfc & head & rowss & blockss & g & top & groups & groups' & lastss & D & IR & WA & LF & HB & RD & LG & FB & HI & MV & PO).
  exists dfc, head, rowss, blockss, g, (Z.max 0 (top - maximum_rows g)), groups, groups'. repeat (split; [first [exact D|exact IR|exact WA|exact LF|exact HB|exact RD]|]).
  split; [|now split]. clear - FB LG. revert blockss lastss FB LG. induction groups as [|rs groups IH]; intros blockss [|l lastss] FB LG; try discriminate LG; cbn [combine] in FB; inversion FB as [|bs x bss xs (rawss & LN & BR & E) FB']; subst; constructor.
  - exists rawss, l. auto.
  - apply (IH bss lastss FB'). now injection LG.
Qed.

Lemma moved_times d r r' : moved_up d r r' -> r_from r' = r_from r /\ r_to r' = r_to r.
Proof. intros (row & rows & _ & ->). now split. Qed.

Lemma zip_read g d blockss groups groups' : Forall2 (fun bs rs => blocks_read g bs rs) blockss groups -> Forall2 (Forall2 (moved_up d)) groups groups' ->
  Forall2 (read_from g d) blockss groups'.
Proof.
  intros F. revert groups'. induction F as [|bs rs bss gs B _ IH]; intros groups' M; inversion M; subst; constructor; [|auto]. now exists rs.
Qed.

Lemma written_is_read h h' n a ss file : acceptable n a ss -> snd (write_stl_binary ss a (after h)) = Ok file ->
  Z.of_nat (length file) < 1024 + 128 * 100000 ->
  exists head rowss blockss g d groups, written_as n ss rowss file head blockss /\ snd (stl_binary_read file (after h')) = Ok (g, List.concat groups) /\ header_back a (Z.of_nat (length ss)) (Z.of_nat (length (List.concat blockss))) g /\ Forall2 (read_from g d) blockss groups.
Proof.
  intros A W SZ. destruct (any_back h h' n a ss file A W SZ) as (dfc & head & rowss & blockss & g & d & groups & groups' & D & IR & WA & LF & HB & RD & FB & MV & PO).
  exists head, rowss, blockss, g, d, groups'. split; [exact WA|]. split; [exact RD|]. split; [exact HB|]. now apply (zip_read g d blockss groups).
Qed.

Lemma all_times_back h h' k a ss file : In k [24; 25; 30] -> w_fps a = f_of_int k -> acceptable (k * 1000) a ss ->
  Forall (fun s => time_small (s_from s) /\ time_small (s_to s)) ss -> snd (write_stl_binary ss a (after h)) = Ok file ->
  Z.of_nat (length file) < 1024 + 128 * 100000 ->
  exists head rowss blockss g d groups, written_as (k * 1000) ss rowss file head blockss /\
    snd (stl_binary_read file (after h')) = Ok (g, List.concat groups) /\
    Forall2 (read_from g d) blockss groups /\ Forall2 (same_times k) ss groups.
Proof.
  intros K FP A TS W SZ. destruct (any_back h h' _ a ss file A W SZ) as (dfc & head & rowss & blockss & g & d & groups & groups' & DF & IR & WA & LF & HB & RD & FB & MV & PO).
  exists head, rowss, blockss, g, d, groups'. split; [exact WA|]. split; [exact RD|]. split; [now apply (zip_read g d blockss groups)|].
  rewrite FP in DF. pose proof (whole_format k dfc _ K DF IR) as FR. assert (WR : Forall writable ss) by apply A.
  assert (KB : 0 < k < 256) by (destruct K as [<-|[<-|[<-|[]]]]; lia).
  clear - PO MV FR TS WR KB. revert groups' MV. induction PO as [|s rs ss gs B _ IH]; intros groups' MV; inversion MV as [|? rs' ? gs' M MV']; subst; constructor.
  - inversion TS as [|? ? [TS1 TS2] _]; inversion WR as [|? ? (_ & W1 & W2 & _) _]; subst. destruct B as (h1 & m1 & s1 & f1 & h2 & m2 & s2 & f2 & first & T1 & T2 & _ & CM).
    destruct (time_back _ _ _ _ _ _ KB W1 TS1 T1) as [C1 E1]. destruct (time_back _ _ _ _ _ _ KB W2 TS2 T2) as [C2 E2].
    clear - M CM C1 E1 C2 E2. induction M as [|r r' rs rs' X _ IH]; constructor; inversion CM as [|? ? (RF & RT & _) CM']; subst; [|now apply IH].
    destruct (moved_times _ _ _ X) as [-> ->]. rewrite RF, RT. auto.
  - inversion TS; inversion WR; subst. now apply IH.
Qed.

Lemma header_comes_back h h' n a ss file : acceptable n a ss -> snd (write_stl_binary ss a (after h)) = Ok file ->
  Z.of_nat (length file) < 1024 + 128 * 100000 ->
  exists k g raws, length file = (1024 + 128 * k)%nat /\ snd (stl_binary_read file (after h')) = Ok (g, raws) /\ header_back a (Z.of_nat (length ss)) (Z.of_nat k) g.
Proof.
  intros A W SZ. destruct (any_back h h' n a ss file A W SZ) as (dfc & head & rowss & blockss & g & d & groups & groups' & D & IR & WA & LF & HB & RD & _).
  exists (length (List.concat blockss)), g, (List.concat groups'). auto.
Qed.

(** * Samples *)

Definition plain_b (text : str) : bool := forallb (fun c => (1 <=? char_code c) && (char_code c <? 128)) text.
Lemma plain_chars text w c : plain_b text = true -> utf8 text w -> In c w -> 1 <= c < 128.
Proof.
  intros P U I. destruct (plain_utf8 text P) as [U' _]. assert (E : w = map char_code text) by (rewrite <- (utf8_to_wide_ok _ _ U); now apply utf8_to_wide_ok).
  subst w. apply in_map_iff in I. destruct I as (x & <- & I). unfold plain_b in P. rewrite forallb_forall in P. specialize (P x I). lia.
Qed.
Lemma marks_above : forallb (fun e => 128 <=? snd e) lone_marks = true.
Proof. vm_compute. reflexivity. Qed.
Lemma plain_no_marks s : forallb (fun l => forallb (fun b => plain_b (b_text b)) (l_blocks l)) (s_lines s) = true -> no_lone_marks s.
Proof.
  intros F l b w c L B U I M. rewrite forallb_forall in F. specialize (F l L). rewrite forallb_forall in F. specialize (F b B).
  pose proof (plain_chars _ _ _ F U I) as C. apply in_map_iff in M. destruct M as (e & E & M). pose proof marks_above as A. rewrite forallb_forall in A. specialize (A e M). lia.
Qed.
Lemma plain_glyphs : forallb (fun e => (128 <=? snd e) || (length (fst e) <=? 1)%nat) glyph_list = true.
Proof. vm_compute. reflexivity. Qed.
Lemma plain_substitutes : forallb (fun c => match substitute (Z.of_nat c) with Some d => d <? 128 | None => true end) (seq 0 128) = true.
Proof. vm_compute. reflexivity. Qed.
Lemma plain_is_plain l : forallb (fun b => plain_b (b_text b) && negb (b_italic b) && negb (b_underline b)) (l_blocks l) = true -> plain_line l.
Proof.
  intros F b B. rewrite forallb_forall in F. specialize (F b B). apply andb_true_iff in F. destruct F as [F F3]. apply andb_true_iff in F. destruct F as [F1 F2].
  split; [now destruct (b_italic b)|]. split; [now destruct (b_underline b)|]. intros w c bs U I W. pose proof (plain_chars _ _ _ F1 U I) as C.
  pose proof plain_glyphs as G. rewrite forallb_forall in G.
  destruct W as [c bs X _|a c X|c d bs X Y|c _ _ _]; cbn [length]; try lia.
  - specialize (G _ (proj1 (glyph_in _ _) X)). cbn [fst snd] in G. apply orb_true_iff in G. destruct G as [G|G]; [lia|now apply Nat.leb_le].
  - pose proof plain_substitutes as S. rewrite forallb_forall in S. specialize (S (Z.to_nat c)). rewrite Z2Nat.id in S by lia. rewrite X in S.
    assert (IS : In (Z.to_nat c) (seq 0 128)) by (apply in_seq; lia). specialize (S IS). specialize (G _ (proj1 (glyph_in _ _) Y)). cbn [fst snd] in G. apply orb_true_iff in G. destruct G as [G|G]; [lia|now apply Nat.leb_le].
Qed.

Definition accent_text : str := repeat "a"%char 111 ++ [ascii_of_nat 0xC3; ascii_of_nat 0xA9].
Lemma accent_utf8 : utf8 accent_text (repeat 97 111 ++ [0xE9]).
Proof.
  exists (repeat [97] 111 ++ [[0xC3; 0xA9]]). split; [|vm_compute; reflexivity].
  apply Forall2_app.
  - generalize 111%nat. intros k. induction k as [|k IH]; constructor; [exact (utf8_one 97 ltac:(lia))|exact IH].
  - constructor; [exact (utf8_two 3 41 ltac:(unfold six; lia) ltac:(lia))|constructor].
Qed.
Lemma accent_only w : utf8 accent_text w -> w = repeat 97 111 ++ [0xE9].
Proof. intros U. rewrite <- (utf8_to_wide_ok _ _ U). exact (utf8_to_wide_ok _ _ accent_utf8). Qed.
Lemma accent_lost : exists s w file g raws, acceptable 25000 sample_args [s] /\ no_lone_marks s /\
  (exists l b, s_lines s = [l] /\ l_blocks l = [b] /\ utf8 (b_text b) w) /\ In 0xE9 w /\ representable 0xE9 /\
  snd (write_stl_binary [s] sample_args (after [])) = Ok file /\ snd (stl_binary_read file (after [])) = Ok (g, raws) /\
  forall r w, In r raws -> utf8 (r_text r) w -> ~ In 0xE9 w.
Proof.
  exists (long_subtitle accent_text), (repeat 97 111 ++ [0xE9]). do 3 eexists. split.
  { split; [exact (whole_rate 25 ltac:(lia))|]. split.
    - constructor; [|constructor]. split; [discriminate|]. split; [apply sample_times; lia|]. split; [apply sample_times; lia|].
      constructor; [|constructor]. apply (sample_lines 20 false _ _ ltac:(lia) accent_utf8). intros I. apply in_app_or in I. destruct I as [I|[I|[]]]; [|discriminate I].
      apply repeat_spec in I. discriminate I.
    - split; [exact sample_header_ok|]. split; [cbn; lia|]. repeat constructor. }
  split. { intros l b w c [<-|[]] [<-|[]] U I M. cbn [b_text] in U. rewrite (accent_only w U) in I. apply in_map_iff in M. destruct M as (e & E & M).
    pose proof marks_above as A. assert (C : 128 <= c /\ c <> 0xE9).
    { assert (B : forallb (fun e => (128 <=? snd e) && negb (snd e =? 0xE9)) lone_marks = true) by (vm_compute; reflexivity). rewrite forallb_forall in B. specialize (B e M). lia. }
    apply in_app_or in I. destruct I as [I|[I|[]]]; [apply repeat_spec in I|]; lia. }
  split; [do 2 eexists; split; [reflexivity|]; split; [reflexivity|exact accent_utf8]|]. split; [apply in_or_app; right; now left|].
  split. { exists [0xC2; 0x65]. apply glyph_in. assert (X : existsb (fun e => (snd e =? 0xE9) && match fst e with [0xC2; 0x65] => true | _ => false end) glyph_list = true) by (vm_compute; reflexivity).
    apply existsb_exists in X. destruct X as ([bs c] & I & X). cbn [fst snd] in X. apply andb_true_iff in X. destruct X as [X Y]. apply Z.eqb_eq in X. subst c.
    destruct bs as [|b1 [|b2 [|]]]; try discriminate; repeat (destruct b1 as [|b1|]; try discriminate); repeat (destruct b2 as [|b2|]; try discriminate). exact I. }
  split; [vm_compute; reflexivity|]. split; [vm_compute; reflexivity|].
  intros r w I U. destruct I as [<-|[<-|[]]]; cbn [r_text] in U; rewrite <- (utf8_to_wide_ok _ _ U); vm_compute; intuition discriminate.
Qed.

Lemma fifty : exists fps y, float_value fps 50 /\ StlUtil.stl_dfc_to_frame_rate (StlUtil.stl_frame_rate_to_dfc fps) = Ok y /\ float_value y 25.
Proof.
  exists (f_of_int 50). eexists. split; [now apply FloatProofs.f_of_int_ok|]. split; [vm_compute; reflexivity|]. now apply (FloatProofs.f_of_int_ok 25).
Qed.

Lemma film_rate : exists file g raws r x, bytes_at file 3 8 (lit "STL23.01") /\ StlUtil.stl_dfc_to_frame_rate (lit "STL23.01") = Ok x /\
  float_value x (IZR 12570329 / 524288) /\ snd (stl_binary_read file (after [])) = Ok (g, raws) /\ In r raws /\ t_rate (r_from r) = Some (mkR 23 1).
Proof.
  exists (firstn 3 (sample_header "00001" "23") ++ lit "STL23.01" ++ skipn 11 (sample_header "00001" "23") ++ sample_block 20 0 sample_text).
  do 4 eexists. split; [apply at_bytes; vm_compute; reflexivity|]. split; [reflexivity|]. split; [exact f23976_value|]. split; [vm_compute; reflexivity|]. split; [now left|reflexivity].
Qed.
