(** What the lives of an HTTP client transport are compared with. *)
From Coq Require Import List Arith Bool.
From Verif Require Import HlifeModel.
Import ListNotations.
Local Open Scope nat_scope.

(** Whatever the schedule does, if in every round each action of vs gets a turn, P comes to hold at the end of a round. *)
Inductive inevitable (c : hlconf) (vs : list hlact) (P : hl -> Prop) : hl -> Prop :=
| inev_now : forall s, P s -> inevitable c vs P s
| inev_round : forall s, (forall b, (forall v, In v vs -> In v b) -> inevitable c vs P (hlrun c s b)) -> inevitable c vs P s.

(** The turns: the call goes on; the i/o thread does what there is to do; handlers return; the network is done with what Close waits for (the
    exchanges of the DELETE and of the authorization, TLS shutdowns, connecting, reading); time passes. *)
Definition calling : list hlact := [VCall].
Definition io_turns : list hlact := [VTake; VShut; VSpawn; VReturn; VStop].
Definition sse_turns : list hlact := [VTest; VDialled false; VGranted; VGone; VHeard; VWake].
Definition net_turns : list hlact := [VNet JDelete RNothing; VNet JAuth RNothing].
Definition all_turns : list hlact := calling ++ io_turns ++ sse_turns ++ net_turns.

(** Start is not called after Close. *)
Fixpoint start_first (h : list hlact) : Prop := match h with [] => True | VClose _ :: r => ~ In VStart r | _ :: r => start_first r end.

Definition reach (c : hlconf) (s : hl) : Prop := exists h, s = hlrun c hl0 h.
Definition reach_once (c : hlconf) (s : hl) : Prop := exists h, start_first h /\ s = hlrun c hl0 h.

(** Close, called by w, is running; the destructor is. *)
Definition closing_by (w : caller) (s : hl) : Prop := exists p, hl_call s = Some (w, p) /\ In p [KDelete; KSse false; KJoin false; KStop false; KWait false; KLast false].
Definition destroying_by (w : caller) (s : hl) : Prop := exists p, hl_call s = Some (w, p) /\ In p [KSse true; KJoin true; KStop true; KWait true; KLast true].
(** Close has returned, more than n times in all. *)
Definition returned (n : nat) (s : hl) : Prop := n < length (hl_rets s).

(** All futures of requests are ready. *)
Definition all_ready (s : hl) : Prop := ~ In None (hl_futs s).
(** No thread of the transport is left. *)
Definition no_threads (s : hl) : Prop := hl_io s = INone /\ hl_sse s = SNone.

(** The future of request k is ready. *)
Definition answered (k : nat) (s : hl) : Prop := exists o, nth_error (hl_futs s) k = Some (Some o).
(** The whole HTTP response to request k has been read; it calls no handler. *)
Definition arrived (k : nat) (s : hl) : Prop := exists i r, (r = RAnswer \/ r = RNothing) /\ In (QEnd (JPost k i) r) (hl_ready s).
(** The transport is gone or being closed, or a handler on the i/o thread has called Close or the destructor. *)
Definition interrupted (s : hl) : Prop :=
  hl_life s <> Alive \/ hl_stop s = true \/ (exists p, hl_call s = Some (ByIo, p)) \/ (exists b, In (ByIo, b) (hl_rets s)).
(** The turns of the i/o thread that need no peer. *)
Definition own_turns : list hlact := [VTake; VSpawn; VReturn].
