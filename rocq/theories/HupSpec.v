(** What coming up and going down is compared with. *)
From Coq Require Import List Arith Bool.
From Verif Require Import HupModel.
Import ListNotations.
Local Open Scope nat_scope.

(** In a call of Stop; in the destructor. *)
Definition stopping (s : hup) : Prop := (hu_pc s = SIo \/ hu_pc s = SStreams) /\ hu_fate s = None.
Definition dying (s : hup) : Prop := (hu_pc s = DIo \/ hu_pc s = DStreams) /\ hu_fate s = None.

(** What the server does by itself, with no call and no request: the call in progress goes on, its threads end, a write returns. *)
Definition inner (v : uev) : bool := match v with UGo | UIoEnd | UWritten _ _ | UTick _ => true | _ => false end.
(** Something happens. *)
Definition happens (s : hup) (v : uev) : Prop := hup_step s v <> s.
(** How many such things happen in a history. *)
Inductive worked : hup -> list uev -> nat -> Prop :=
| wk_nil : forall s, worked s [] 0
| wk_some : forall s v h n, inner v = true -> happens s v -> worked (hup_step s v) h n -> worked s (v :: h) (S n)
| wk_none : forall s v h n, hup_step s v = s -> worked s h n -> worked s (v :: h) n
| wk_other : forall s v h n, inner v = false -> worked (hup_step s v) h n -> worked s (v :: h) n.

(** The call returns at some point of the history. *)
Definition returns (s : hup) (h : list uev) : Prop := exists h1 h2, h = h1 ++ h2 /\ hu_pc (hup_run s h1) = UOut /\ hu_fate (hup_run s h1) = None.
Definition vanishes (s : hup) (h : list uev) : Prop := hu_fate (hup_run s h) = Some UFreed.

(** The application starts a server only when its thread is not there. *)
Fixpoint proper (s : hup) (h : list uev) : Prop :=
  match h with [] => True | v :: h => (match v with UStart => hu_io s = None | _ => True end) /\ proper (hup_step s v) h end.

(** The server is started, stopped or destroyed, or accepting a connection fails. *)
Definition calls_or_fails (v : uev) : bool := match v with UStart | UStop | UDestroy | UAcceptErr => true | _ => false end.
