(** Independent specification for message sizes. *)
From Coq Require Import Ascii String List Arith NArith ZArith Bool.
From Verif Require Import StrModel RpcModel MapModel MemModel ShmModel GaugeModel.
Import ListNotations.
Local Open Scope nat_scope.

(** The size configured at a side. *)
Definition size_of (ma mb : N) (x : side) : N := match x with SideA => ma | SideB => mb end.

(** A text both the sender and the queue, which has the size of the creator, have room for. *)
Definition fits (ma mb : N) (x : side) (m : bstr) : Prop :=
  (N.of_nat (length m) <= size_of ma mb x)%N /\ (N.of_nat (length m) <= ma)%N.

(** What the sides have received and sent, and what waits in the queues, is the same. *)
Definition same_traffic (s s' : hpair) : Prop :=
  forall x, hm_got (hp_ep s' x) = hm_got (hp_ep s x) /\ hp_q s' x = hp_q s x /\ hp_sent s' x = hp_sent s x.
