(** The times of any SSA file. *)
From Coq Require Import ZArith List Bool Ascii String Lia.
From Verif.Model Require Import Base Strings TimeModel Types Lines Ssa.
From Verif.Spec Require Import Outcome TextSpec LinesSpec RawSpec SsaTagSpec SsaSpec SsaUseSpec CollectSpec CollectReadSpec.
From Verif.Proofs Require Import LinesProofs SsaProofs TextFileProofs CollectReadProofs.
Import ListNotations.
Local Open Scope Z_scope.
Local Notation length := List.length.

Definition maybe_ms (t : time) : Prop := t_rate t = Some (mkR 1000 1) \/ t = mkT 0 0 None.
Lemma event_maybe f ev key v ev' : event_entry f ev key v ev' -> times_meet maybe_ms (ev_sub ev) -> Forall (times_meet maybe_ms) (ev_out ev) ->
  times_meet maybe_ms (ev_sub ev') /\ Forall (times_meet maybe_ms) (ev_out ev').
Proof.
  intros E G O. assert (KEEP : forall r, same_clock (ev_sub ev) r -> times_meet maybe_ms r) by (intros r K; exact (meets_clock _ _ _ K G)).
  destruct E as [r st l rt out x t T|r st l rt out x t T|r st l rt out x name s _ _|ev x name _ _|r st l rt out x _ _|ev x _|r st l rt out x y _ _|ev|r st l rt out x y _ _|ev|r st l rt out x raws T|ev key x N];
    cbn [ev_sub ev_out] in *; try (split; [apply KEEP; now repeat split|exact O]).
  - split; [|exact O]. destruct G as (G1 & G2 & G3 & G4). repeat split; try assumption. left. now apply ssa_time_rate in T.
  - split; [|exact O]. destruct G as (G1 & G2 & G3 & G4). repeat split; try assumption. left. now apply ssa_time_rate in T.
  - split; [apply KEEP; repeat split|]. apply Forall_app. split; [exact O|]. apply ssa_text_clock in T. revert T. apply Forall_impl. exact KEEP.
Qed.
Lemma events_maybe f kvs ev ev' : in_turn (event_step f) ev kvs ev' -> times_meet maybe_ms (ev_sub ev) -> Forall (times_meet maybe_ms) (ev_out ev) -> Forall (times_meet maybe_ms) (ev_out ev').
Proof.
  induction 1 as [|ev kv ev1 kvs ev2 S T IH]; intros G O; [exact O|]. destruct S as (v' & _ & E). destruct (event_maybe _ _ _ _ _ E G O). now apply IH.
Qed.
Lemma ssa_line_maybe f l f' : ssa_line_read f l f' -> Forall (times_meet maybe_ms) (sr_subs f) -> Forall (times_meet maybe_ms) (sr_subs f').
Proof.
  intros L R. destruct L as [f line B|f line s B|f line h p B I|f line s B N|f line l key body f' B N K E]; try exact R.
  destruct E as [x y ss sf ef subs body v _|x y ss sf ef subs body v _|x y ss sf ef subs body|x y ss sf ef subs body st _ _|x y ss sf ef subs body parts keys P F|x y ss sf ef subs body raws D|f key body _]; cbn [sr_subs] in *; try exact R.
  apply Forall_app. split; [exact R|]. destruct D as (_ & vs & ev & V & T & ->). apply (events_maybe _ _ _ _ T); [|constructor].
  repeat split; now right.
Qed.
Lemma ssa_maybe s raws : ssa_reader_string s = Ok raws -> Forall (times_meet maybe_ms) raws.
Proof.
  intros E. apply ssa_string_iff in E. destruct E as (ls & f & TL & T & ->). assert (H : Forall (times_meet maybe_ms) (sr_subs new_file)) by constructor. clear TL.
  induction T as [|g l f1 ls f2 L T IH]; [exact H|]. apply IH. exact (ssa_line_maybe _ _ _ L H).
Qed.
Lemma ssa_file_maybe s raws : ssa_reader_file s = Ok raws -> Forall (times_meet maybe_ms) raws.
Proof. intros E. destruct (ssa_any_file s) as (bs & ls & _ & _ & S). rewrite S in E. exact (ssa_maybe _ _ E). Qed.
