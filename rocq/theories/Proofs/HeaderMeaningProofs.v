(** What the header of a binary STL file says. *)
From Coq Require Import ZArith List Bool Ascii String Lia.
From Verif.Model Require Import Base Strings Float TimeModel Types StlTables StlUtil StlBinReader StlBinWriter.
From Verif.Spec Require Import Outcome TextSpec Utf8Spec Iso6937Spec StlFileSpec StlWriteSpec StlSamples HeaderMeaningSpec.
From Verif.Proofs Require Import StringProofs Iso6937Proofs UtfProofs StlReadProofs StlWriterProofs StlFileProofs StlUseProofs.
Import ListNotations.
Local Open Scope Z_scope.
Local Notation length := List.length.

(** * Bytes and characters *)

Lemma cons_same {A} (x y : A) l m : x :: l = y :: m -> x = y /\ l = m.
Proof. intros E. now inversion E. Qed.
Lemma utf8_parts_length w parts : Forall2 utf8_char w parts -> (length w <= length (List.concat parts))%nat.
Proof.
  induction 1 as [|v p w parts C F IH]; [cbn; lia|]. cbn [List.concat]. rewrite app_length. cbn [length].
  inversion C; subst; cbn [length]; lia.
Qed.
Lemma utf8_shorter s w : utf8 s w -> (length w <= length s)%nat.
Proof. intros (parts & F & E). apply utf8_parts_length in F. rewrite <- E, map_length in F. exact F. Qed.
Lemma utf8_ascii s w : Forall (fun c => char_code c < 128) s -> utf8 s w -> length w = length s.
Proof.
  intros A (parts & F & E). revert s A E. induction F as [|v p w parts C F IH]; intros s A E.
  - destruct s; [reflexivity|discriminate E].
  - inversion C; subst; destruct s as [|ch s]; try discriminate E; cbn [map List.concat app] in E; apply cons_same in E as [E0 E1]; inversion A; subst.
    + cbn [length]. f_equal. now apply IH.
    + unfold six in *. lia.
    + unfold six in *. lia.
    + unfold six in *. lia.
Qed.
Lemma blocks_shorter ks ws : Forall2 (fun k w => utf8 (b_text k) w) ks ws -> (length (List.concat ws) <= length (List.concat (map b_text ks)))%nat.
Proof. induction 1 as [|k w ks ws U F IH]; [cbn; lia|]. cbn [List.concat map]. rewrite !app_length. apply utf8_shorter in U. lia. Qed.
Lemma blocks_ascii ks ws : Forall (fun k => Forall (fun c => char_code c < 128) (b_text k)) ks -> Forall2 (fun k w => utf8 (b_text k) w) ks ws ->
  length (List.concat ws) = length (List.concat (map b_text ks)).
Proof. intros A F. induction F as [|k w ks ws U F IH]; [reflexivity|]. inversion A; subst. cbn [List.concat map]. rewrite !app_length. rewrite (utf8_ascii _ _ ltac:(eassumption) U). f_equal. now apply IH. Qed.
Lemma rows_shorter ls : forall ns, Forall2 characters_of ls ns -> Forall2 Z.le ns (map bytes_of_line ls).
Proof.
  induction ls as [|l ls IH]; intros ns F; inversion F as [|? n ? ns' (ws & W & ->) F']; subst; [constructor|]. cbn [map]. constructor; [|now apply IH].
  unfold bytes_of_line. apply blocks_shorter in W. lia.
Qed.
Lemma rows_ascii ls : Forall (fun l => Forall (fun k => Forall (fun c => char_code c < 128) (b_text k)) (l_blocks l)) ls -> forall ns, Forall2 characters_of ls ns -> ns = map bytes_of_line ls.
Proof.
  induction 1 as [|l ls A F IH]; intros ns G; inversion G as [|? n ? ns' (ws & W & ->) G']; subst; [reflexivity|]. cbn [map]. f_equal; [|now apply IH].
  unfold bytes_of_line. now rewrite (blocks_ascii _ _ A W).
Qed.
Lemma longest_le ss n m : longest_row ss n -> longest_is ss m -> n <= m.
Proof.
  intros (ns & F & _ & I) [A J]. apply rows_shorter in F. destruct I as [I|[-> ->]].
  - clear -F A I. induction F as [|x y ns all H F IH]; [destruct I|]. inversion A; subst. destruct I as [->|I]; [lia|auto].
  - cbv zeta in J. destruct (map bytes_of_line (List.concat (map s_lines ss))) as [|x all]; [|inversion F]. destruct J as [[]|[_ ->]]. lia.
Qed.
Lemma longest_ascii ss n : only_ascii ss -> longest_row ss n -> longest_is ss n.
Proof.
  intros A (ns & F & L & I). assert (ns = map bytes_of_line (List.concat (map s_lines ss))) as ->; [|now split].
  apply rows_ascii; [|exact F]. clear -A. induction A as [|s ss H A IH]; [constructor|]. cbn [map List.concat]. apply Forall_app. now split.
Qed.
Lemma longest_unique ss n m : longest_is ss n -> longest_is ss m -> n = m.
Proof.
  intros [A I] [B J]. rewrite Forall_forall in A, B. destruct I as [I|[E ->]], J as [J|[E' ->]].
  - apply A in J. apply B in I. lia.
  - rewrite E' in I. destruct I.
  - rewrite E in J. destruct J.
  - reflexivity.
Qed.

Lemma longest_counted h n a ss c : acceptable n a ss -> longest_row ss c ->
  exists file, snd (write_stl_binary ss a (after h)) = Ok file /\ (small file ->
    exists nl m, bytes_at file 251 2 nl /\ c <= m /\ (only_ascii ss -> m = c) /\ (m < 100 -> number 2 m nl)).
Proof.
  intros A C. destruct (counters_written h n a ss A) as (file & E & W). exists file. split; [exact E|]. intros S.
  destruct (W S) as (rn & nt & ns & nl & m & _ & _ & _ & B & L & _ & _ & _ & N). exists nl, m. split; [exact B|]. split; [now apply (longest_le ss)|].
  split; [|exact N]. intros O. apply (longest_unique ss); [exact L|]. now apply longest_ascii.
Qed.
Lemma longest_ascii_counted h n a ss c : acceptable n a ss -> only_ascii ss -> longest_row ss c -> c < 100 ->
  exists file, snd (write_stl_binary ss a (after h)) = Ok file /\ (small file -> exists nl, bytes_at file 251 2 nl /\ number 2 c nl).
Proof.
  intros A O C L. destruct (longest_counted h n a ss c A C) as (file & E & W). exists file. split; [exact E|]. intros S.
  destruct (W S) as (nl & m & B & _ & M & N). rewrite (M O) in N. exists nl. split; [exact B|now apply N].
Qed.

(** * The first subtitle *)

Lemma header_fields h n a ss : acceptable n a ss ->
  exists file, snd (write_stl_binary ss a (after h)) = Ok file /\ (small file ->
    bytes_at file 0 3 (lit "850") /\ bytes_at file 264 8 (lit "00000000") /\
    Forall (fun x => let '(at_, len, s) := x in bytes_at file at_ len (field len s)) (header_strings a)).
Proof.
  intros A. destruct (write_ok h ss a n A) as (file & E & W). exists file. split; [exact E|]. intros S.
  destruct A as (_ & _ & HO & _). pose proof (strings_at n a ss file HO (W S)) as ST.
  destruct (written_structure n a ss file HO (W S)) as (rowss & blockss & dfc & lang & d & longest & rn & nt & ns & nl & _ & _ & _ & _ & _ & _ & _ & _ & _ & _ & _ & HA & _).
  destruct HA. now split.
Qed.
Lemma zeros_numeral : numeral (lit "00") 0.
Proof. change (lit "00") with (["0"%char] ++ ["0"%char]). apply (numeral_more _ 0 _ 0); [apply numeral_one|]; split; (reflexivity || lia). Qed.
Lemma numeral_zeros v : numeral (lit "00") v -> v = 0.
Proof. intros N. exact (numeral_unique _ _ _ N zeros_numeral). Qed.
Lemma zeros_tell s f : 0 <= s -> (tells (lit "00000000") s f <-> s = 0 /\ f = 0).
Proof.
  intros S. split.
  - intros (h & m & x & k & E & (Lh & Nh) & (Lm & Nm) & (Lx & Nx) & (Lk & Nk)).
    destruct h as [|? [|? [|]]], m as [|? [|? [|]]], x as [|? [|? [|]]], k as [|? [|? [|]]]; try discriminate.
    cbn [app] in E. change (lit "00000000") with (repeat "0"%char 8) in E. cbn [repeat] in E. injection E as <- <- <- <- <- <- <- <-.
    apply numeral_zeros in Nh, Nm, Nx, Nk. split; [|exact Nk].
    pose proof (Z.div_mod s 60 ltac:(lia)). pose proof (Z.div_mod (s / 60) 60 ltac:(lia)). rewrite Z.div_div in * by lia. change (60 * 60) with 3600 in *. lia.
  - intros [-> ->]. exists (lit "00"), (lit "00"), (lit "00"), (lit "00"). split; [reflexivity|]. repeat split; exact zeros_numeral.
Qed.
Lemma first_told h n a s ss : acceptable n a (s :: ss) ->
  exists file f, snd (write_stl_binary (s :: ss) a (after h)) = Ok file /\ (small file ->
    bytes_at file 264 8 f /\ forall k, tells f (t_seconds (s_from s)) k <-> t_seconds (s_from s) = 0 /\ k = 0).
Proof.
  intros A. destruct (header_fields h n a (s :: ss) A) as (file & E & W). exists file, (lit "00000000"). split; [exact E|]. intros S.
  destruct (W S) as (_ & B & _). split; [exact B|]. intros k. apply zeros_tell. destruct A as (_ & WR & _). now destruct (Forall_inv WR) as (_ & (T & _) & _).
Qed.

(** * Code page 850 *)

Definition lead_clear (k : nat) : bool :=
  match nth_error code_page_850 (64 + k) with
  | Some v => let b := 192 + Z.of_nat k in
      if b <? 0xE0 then (v <? (b - 0xC0) * 64) || ((b - 0xC0) * 64 + 64 <=? v) else if b <? 0xF0 then v <? 0x800 else v <? 0x10000
  | None => true end.
Lemma leads_clear : forallb lead_clear (seq 0 64) = true.
Proof. vm_compute. reflexivity. Qed.
Lemma lead_cases v l : utf8_char v l -> 128 <= v -> forall b p, l = b :: p ->
  0xC2 <= b < 0xE0 /\ (b - 0xC0) * 64 <= v < (b - 0xC0) * 64 + 64 \/ 0xE0 <= b < 0xF0 /\ 0x800 <= v \/ 0xF0 <= b /\ 0x10000 <= v.
Proof. intros U V b p E. destruct U; unfold six, scalar in *; apply cons_same in E as [<- _]; lia. Qed.
Lemma lead_not_850 c v p : 128 <= v -> utf8_char v (char_code c :: p) -> ~ char_850 c v.
Proof.
  intros V U C. pose proof (char_range c) as CB. pose proof (lead_cases _ _ U V _ _ eq_refl) as K.
  destruct C as [[C _]|[_ C]]; [lia|].
  pose proof leads_clear as F. rewrite forallb_forall in F. specialize (F (Z.to_nat (char_code c - 192))).
  assert (I : In (Z.to_nat (char_code c - 192)) (seq 0 64)) by (apply in_seq; lia). specialize (F I). unfold lead_clear in F.
  replace (64 + Z.to_nat (char_code c - 192))%nat with (Z.to_nat (char_code c - 128)) in F by lia. rewrite C in F.
  replace (192 + Z.of_nat (Z.to_nat (char_code c - 192))) with (char_code c) in F by lia. cbv zeta in F.
  destruct (Z.ltb_spec (char_code c) 0xE0).
  - apply orb_true_iff in F as [F|F]; [apply Z.ltb_lt in F|apply Z.leb_le in F]; lia.
  - destruct (Z.ltb_spec (char_code c) 0xF0); apply Z.ltb_lt in F; lia.
Qed.
Lemma same_in_850 w : forall s x y, utf8 s w -> reads_850 (s ++ x) (w ++ y) -> ascii_only w.
Proof.
  intros s x y (parts & F & E). revert s E. induction F as [|v p w parts C F IH]; intros s E R; [constructor|].
  destruct (Z.lt_ge_cases v 128) as [V|V].
  - inversion C; subst; unfold six in *; try lia. destruct s as [|c s]; [discriminate|]. cbn [map List.concat app] in E. apply cons_same in E as [E0 E1].
    cbn [app] in R. inversion R; subst. constructor; [exact V|]. now apply (IH s).
  - exfalso. assert (exists b q, p = b :: q) as (b & q & ->) by (inversion C; subst; eauto).
    destruct s as [|c s]; [discriminate|]. cbn [map List.concat app] in E. apply cons_same in E as [<- _]. cbn [app] in R. inversion R; subst.
    now apply (lead_not_850 c v q).
Qed.
Lemma ascii_in_850 w : forall s, utf8 s w -> ascii_only w -> reads_850 s w /\ length s = length w.
Proof.
  intros s (parts & F & E) A. revert s E. induction F as [|v p w parts C F IH]; intros s E.
  - destruct s; [split; [constructor|reflexivity]|discriminate].
  - inversion A; subst. inversion C; subst; unfold six in *; try lia. destruct s as [|c s]; [discriminate|]. cbn [map List.concat app] in E. apply cons_same in E as [E0 E1].
    destruct (IH ltac:(assumption) s E1) as [R L]. split; [|cbn; now rewrite L]. constructor; [left; lia|exact R].
Qed.
Lemma spaces_in_850 k : reads_850 (repeat " "%char k) (repeat 32 k).
Proof. induction k as [|k IH]; constructor; [left; split; reflexivity|exact IH]. Qed.
Lemma field_in_850 len s w : utf8 s w -> (reads_850 (field len s) (w ++ repeat 32 (len - length w)) <-> ascii_only w).
Proof.
  intros U. split; [now apply same_in_850|]. intros A. destruct (ascii_in_850 w s U A) as [R L]. unfold field. rewrite L. apply Forall2_app; [exact R|apply spaces_in_850].
Qed.
Lemma ascii_from_850 s w : reads_850 s w -> ascii_only w -> utf8 s w.
Proof.
  intros R A. exists (map (fun v => [v]) w). induction R as [|c v s w C R IH]; [split; [constructor|reflexivity]|]. inversion A; subst.
  destruct (IH ltac:(assumption)) as [F E]. pose proof (char_range c) as CR.
  destruct C as [[C ->]|[C N]].
  - cbn [map List.concat app]. split; [constructor; [apply utf8_one; lia|exact F]|now rewrite E].
  - exfalso. apply nth_error_In in N. assert (G : forallb (fun v => 128 <=? v) code_page_850 = true) by reflexivity.
    rewrite forallb_forall in G. specialize (G v N). apply Z.leb_le in G. lia.
Qed.
Lemma text_from_850 s w : reads_850 s w -> (utf8 s w <-> ascii_only w).
Proof.
  intros R. split; [|now apply ascii_from_850]. intros U. apply (same_in_850 w s [] []); [exact U|]. now rewrite !app_nil_r.
Qed.
Lemma strings_in_850 h n a ss : acceptable n a ss ->
  exists file, snd (write_stl_binary ss a (after h)) = Ok file /\ (small file -> bytes_at file 0 3 (lit "850") /\
    forall at_ len s w, In (at_, len, s) (header_strings a) -> utf8 s w ->
      exists f, bytes_at file at_ len f /\ (reads_850 f (w ++ repeat 32 (len - length w)) <-> ascii_only w)).
Proof.
  intros A. destruct (header_fields h n a ss A) as (file & E & W). exists file. split; [exact E|]. intros S. destruct (W S) as (B & _ & F).
  split; [exact B|]. intros at_ len s w I U. rewrite Forall_forall in F. specialize (F _ I). cbv beta iota in F. exists (field len s). split; [exact F|now apply field_in_850].
Qed.
Lemma app_same (p : str) : forall p' q q', p ++ q = p' ++ q' -> length p = length p' -> p = p' /\ q = q'.
Proof. induction p as [|c p IH]; intros [|c' p'] q q' E L; try discriminate; [now split|]. injection E as -> E. injection L as L. destruct (IH _ _ _ E L) as [-> ->]. now split. Qed.
Lemma bytes_same (b : str) at_ n s t : bytes_at b at_ n s -> bytes_at b at_ n t -> s = t.
Proof.
  intros (p & q & -> & P & L) (p' & q' & E & P' & L'). apply app_same in E as [_ E]; [|congruence]. now apply app_same in E as [-> _]; [|congruence].
Qed.
Lemma bytes_before (b c : str) at_ n s : bytes_at b at_ n s -> bytes_at (b ++ c) at_ n s.
Proof. intros (p & q & -> & P & L). exists p, (q ++ c). split; [now rewrite <- !app_assoc|now split]. Qed.
Lemma texts_from_850 h input g subs at_ t f w : snd (stl_binary_read input (after h)) = Ok (g, subs) -> In (at_, t) (header_texts g) ->
  bytes_at input at_ 32 f -> reads_850 f w -> (utf8 t w <-> ascii_only w).
Proof.
  intros E I B R. apply read_iff in E as (raws & top & (head & blocks & rest & rawss & lasts & -> & H & _) & _).
  assert (BT : bytes_at head at_ 32 t).
  { unfold header_read in H. repeat match goal with X : _ /\ _ |- _ => destruct X end.
    cbn [header_texts In] in I. repeat (destruct I as [I|I]; [injection I as <- <-; assumption|]). destruct I. }
  rewrite (bytes_same _ _ _ _ _ (bytes_before _ _ _ _ _ BT) B). now apply text_from_850.
Qed.

(** * Samples *)

Definition e_acute : str := map byte [0xC3; 0xA9].
Lemma e_utf8 : utf8 e_acute [0xE9].
Proof. exists [[0xC3; 0xA9]]. split; [|reflexivity]. constructor; [|constructor]. apply (utf8_two 3 41); unfold six; lia. Qed.
Lemma e_acceptable : acceptable 25000 sample_args [long_subtitle e_acute].
Proof.
  split; [exact (whole_rate 25 ltac:(lia))|]. split.
  - constructor; [|constructor]. split; [discriminate|]. split; [apply sample_times; lia|]. split; [apply sample_times; lia|].
    constructor; [|constructor]. apply (sample_lines 20 false [0xE9]); [lia|exact e_utf8|]. intros [E|[]]. discriminate.
  - split; [exact sample_header_ok|]. split; [cbn; lia|]. repeat constructor.
Qed.
Lemma e_row : longest_row [long_subtitle e_acute] 1.
Proof.
  exists [1]. split; [|split; [repeat constructor; lia|left; now left]]. constructor; [|constructor]. exists [[0xE9]]. split; [|reflexivity].
  constructor; [exact e_utf8|constructor].
Qed.
Lemma number_two : number 2 2 (lit "02").
Proof. split; [reflexivity|]. change (lit "02") with (["0"%char] ++ ["2"%char]). apply (numeral_more _ 0 _ 2); [apply numeral_one|]; split; (reflexivity || lia). Qed.
Lemma sample_row : longest_row [sample_subtitle] 5 /\ only_ascii [sample_subtitle].
Proof.
  split.
  - exists [5; 3]. split; [|split; [repeat constructor; lia|left; now left]].
    constructor; [|constructor; [|constructor]].
    + exists [map char_code (lit "Hello")]. split; [|reflexivity]. constructor; [exact (proj1 (plain_utf8 (lit "Hello") eq_refl))|constructor].
    + exists [map char_code (lit "you")]. split; [|reflexivity]. constructor; [exact (proj1 (plain_utf8 (lit "you") eq_refl))|constructor].
  - repeat constructor.
Qed.
Definition e_args : writer_args :=
  mkW (f_of_int 25) LANGUAGE_ENGLISH e_acute [] [] [] [] [] (lit "260101") (lit "260102") 1 (lit "GBR") [] (lit "Editor") [].
Lemma e_args_acceptable : acceptable 25000 e_args [sample_subtitle].
Proof.
  destruct sample_acceptable as (R & W & _ & _ & L). split; [exact R|]. split; [exact W|]. split; [unfold header_ok; cbn; lia|]. split; [cbn; lia|exact L].
Qed.
Lemma e_field_850 : reads_850 (field 32 e_acute) ([0x251C; 0xAE] ++ repeat 32 30).
Proof. apply Forall2_app; [|apply spaces_in_850]. constructor; [right; split; [vm_compute; discriminate|reflexivity]|]. constructor; [right; split; [vm_compute; discriminate|reflexivity]|constructor]. Qed.
(** A file without subtitles and with an e with an acute accent as its title. *)
Definition e_title : str := byte 0x82 :: spaces 31.
Definition e_file : str := firstn 16 (sample_header "00000" "23") ++ e_title ++ skipn 48 (sample_header "00000" "23").
Lemma e_title_850 : reads_850 e_title (0xE9 :: repeat 32 31).
Proof. constructor; [right; split; [vm_compute; discriminate|reflexivity]|apply spaces_in_850]. Qed.
Lemma e_title_not_utf8 : ~ utf8 e_title (0xE9 :: repeat 32 31).
Proof. intros U. apply (text_from_850 _ _ e_title_850) in U. apply Forall_inv in U. lia. Qed.
