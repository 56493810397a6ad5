(** What the statements on stopping and destroying a Server or a Client mean. *)
From Coq Require Import List Arith Bool.
From Verif Require Import DownModel.
Import ListNotations.
Local Open Scope nat_scope.

(** A server or a client, on any transport. *)
Definition made (o : object) : Prop := exists close drop, o = a_server close drop \/ o = a_client close drop.

(** A history from a new object. *)
Definition after (o : object) (h : list dev) : down := drun o (down0 o) h.

(** A part was used after it had gone. *)
Definition broken (s : down) : Prop := dn_fate s <> None.

(** The transport will call no handler, and none runs. *)
Definition quiet (s : down) : Prop := dn_open s = false /\ dn_calls s = [].

(** The application's thread is not inside Stop, Disconnect or a destructor. *)
Definition outside (s : down) : Prop := dn_pc s = Free.

(** Stop or Disconnect has been called and has not returned; the destructor is running; the object is gone. *)
Definition stopping (s : down) : Prop :=
  dn_pc s = StopKeep \/ dn_pc s = StopClose \/ dn_pc s = StopAwait \/ dn_pc s = StopSwap \/ exists ws, dn_pc s = StopWait ws.
Definition gone (s : down) : Prop := dn_pc s = FallEnd /\ dn_left s = 0.

(** Nothing of the object runs: no handler, no background task, no keepalive thread; and the transport is shut. *)
Definition at_rest (s : down) : Prop := quiet s /\ dn_work s = [] /\ dn_keep s = None.

(** The object's own threads going on, and those of the application's handlers. *)
Definition inner (e : dev) : Prop := match e with EHand _ | EWork _ | EKeep | EOwn => True | _ => False end.

(** The transport is not started again. *)
Definition no_start (h : list dev) : Prop := ~ In EStart h.
