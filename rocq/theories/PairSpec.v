(** What the lives of a pair of in-memory transports are compared with. *)
From Coq Require Import List Arith Bool.
From Verif Require Import PairModel.
Import ListNotations.
Local Open Scope nat_scope.

(** The schedule h gives every action of vs at least k turns, round by round, whatever else happens in between. *)
Inductive turns (vs : list pact) : nat -> list pact -> Prop :=
| turns_0 : forall h, turns vs 0 h
| turns_S : forall k b h, (forall v, In v vs -> In v b) -> turns vs k h -> turns vs (S k) (b ++ h).

(** The thread that hands over messages has decided to sleep, or sleeps. *)
Definition asleep (s : pside) : Prop := en_worker s = Some WChecked \/ en_worker s = Some WBlocked.
(** It has ended or never existed. *)
Definition ended (s : pside) : Prop := en_worker s = None \/ en_worker s = Some WEnded.
(** Nothing of this end runs: neither that thread, nor a request handler, nor Start. *)
Definition quiet (s : pside) : Prop := en_jobs s = 0 /\ ended s /\ ~ In (en_pc s) [SSpawn; SStop; SJoin].
(** Its destructor has been called; it has told the thread; it has returned. *)
Definition dying (s : pside) : Prop := In (en_pc s) [DNotify; DStop; DJoin; EFreed].
Definition told (s : pside) : Prop := In (en_pc s) [DStop; DJoin].
Definition starting (s : pside) : Prop := In (en_pc s) [SStop; SJoin].

(** The application destroys an end only when nothing of either end runs, and not from one of its own handlers; afterwards it no
    longer uses or starts the other. *)
Fixpoint careful (p : pair) (h : list pact) : Prop :=
  match h with
  | [] => True
  | v :: h =>
      match v with
      | ADestroy e => quiet (side e p) /\ quiet (side (negb e) p)
      | AStart e | ASend e _ _ => ~ dying (side (negb e) p)
      | AInDestroy _ => False
      | _ => True
      end /\ careful (pstep p v) h
  end.

(** The other end sends nothing. *)
Definition silent (e : bool) (h : list pact) : Prop :=
  forall v, In v h -> match v with ASend e' _ _ | AJob e' _ => e' = e | _ => True end.
