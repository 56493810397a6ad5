(** What the lives of shared-memory transports are compared with. *)
From Coq Require Import List Arith Bool.
From Verif Require Import SegModel.
Import ListNotations.
Local Open Scope nat_scope.

(** The schedule h gives every action of vs at least k turns, round by round, whatever else happens in between. *)
Inductive rounds (vs : list gact) : nat -> list gact -> Prop :=
| rounds_0 : forall h, rounds vs 0 h
| rounds_S : forall k b h, (forall v, In v vs -> In v b) -> rounds vs k h -> rounds vs (S k) (b ++ h).

(** Transport i. *)
Definition at_ (i : nat) (w : segs) (s : seg) : Prop := nth_error (gw_ends w) i = Some s.
Definition queue (q : nat) (w : segs) : list gmsg := nth q (gw_qs w) [].

(** Close, or the destructor, has been called and has not returned. *)
Definition leaving (s : seg) : Prop := In (sg_pc s) [CBye; CConn; CStop; CJoin; CRemove; CFail; DStop; DJoin; DRemove].
(** Its processing thread exists and has not ended. *)
Definition live (s : seg) : Prop := sg_thread s <> None /\ sg_thread s <> Some KEnded.

(** The owner of transport i leaves it alone. *)
Definition left_alone (i : nat) (h : list gact) : Prop := forall v, In v h -> v <> GStart i /\ v <> GClose i /\ v <> GDestroy i.

(** One creator, transport 0, and n openers. *)
Definition sole (n : nat) : list bool := true :: repeat false n.
(** While h runs the names of the channel exist. *)
Definition chan_kept (w : segs) (h : list gact) : Prop := forall p r, h = p ++ r -> gw_chan (grun w p) <> None.
