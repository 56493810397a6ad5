(** C61: request ids generated by the transports. *)
From Coq Require Import Ascii String List Permutation Arith NArith ZArith Bool Lia ZifyBool ZifyNat ZifyN.
From Verif Require Import StrModel StrProofs DoubleModel JsonModel RpcModel RouterModel MapModel MemModel MemSpec PendModel WqModel StdioModel StdioSpec HttpModel ShmModel ShmSpec IdSpec IdProofs.
Import ListNotations.
Local Open Scope nat_scope.

(** C61. Two ids generated by a 32-bit counter are equal exactly when the calls are a multiple
    of 2^32 apart, so ids less than 2^32 calls apart are distinct. *)
Theorem C61_equal_exactly : forall p i j,
  nth_id p i = nth_id p j <-> N.modulo i (2 ^ 32) = N.modulo j (2 ^ 32).
Proof. exact nth_id_inj. Qed.
Print Assumptions C61_equal_exactly.

Theorem C61_distinct : forall p i j, (i < j)%N -> (j < i + 2 ^ 32)%N -> nth_id p i <> nth_id p j.
Proof. exact nth_id_distinct. Qed.
Print Assumptions C61_distinct.

(** C61, in memory. Whatever else happens, the requests an endpoint issues without an id carry
    the successive ids mem-req-1, mem-req-2, ..., so no two are alike. *)
Theorem C61_memory_ids : forall ha hb vs x, Forall auto_ev vs -> (begins x vs < 2 ^ 32)%N ->
  issued_keys (run (sys0 ha hb) vs x) =
  map (fun k => nth_id (bs "mem-req-") (N.of_nat k)) (seq 0 (N.to_nat (begins x vs))).
Proof. intros ha hb vs x F B. now apply mem_ids. Qed.
Print Assumptions C61_memory_ids.

Theorem C61_memory : forall ha hb vs x, Forall auto_ev vs -> (begins x vs < 2 ^ 32)%N ->
  NoDup (issued_keys (run (sys0 ha hb) vs x)).
Proof. exact mem_fresh. Qed.
Print Assumptions C61_memory.

Example C61_memory_applies :
  let r := {| rq_id := IdNull; rq_method := bs "ping"; rq_params := None |} in
  let vs := [EStart SideA; EBegin SideA r; EBegin SideB r; EBegin SideA r; ETransmit SideA 0] in
  Forall auto_ev vs /\ begins SideA vs = 2%N /\
  issued_keys (run (sys0 true true) vs SideA) = [bs "mem-req-1"; bs "mem-req-2"].
Proof. cbn zeta. split; [repeat constructor|]. split; vm_compute; reflexivity. Qed.

(** C61 with ids chosen by the application: an id may be generated that is already in use, and
    the request that was using it is never answered: its promise is broken. *)
Theorem C61_chosen_id_refuted : exists ha hb vs x t,
  ~ NoDup (issued_keys (run (sys0 ha hb) vs x)) /\ In (t, OBroken) (ep_done (run (sys0 ha hb) vs x)).
Proof.
  pose (r i := {| rq_id := i; rq_method := bs "ping"; rq_params := None |}).
  exists true, true, [EStart SideA; EStart SideB; EBegin SideA (r (IdStr (bs "mem-req-1"))); EBegin SideA (r IdNull)], SideA, 0.
  split.
  - vm_compute. intro N. inversion N. apply H1. now left.
  - vm_compute. now left.
Qed.
Print Assumptions C61_chosen_id_refuted.

(** C61, stdio. *)
Theorem C61_stdio : forall now ms max vs, Forall auto_sev vs -> (stdio_begins vs < 2 ^ 32)%N ->
  NoDup (keys_used (stdio_run (stdio_start now ms max) vs)).
Proof. exact stdio_fresh. Qed.
Print Assumptions C61_stdio.

Example C61_stdio_applies :
  let r := {| rq_id := IdStr []; rq_method := bs "ping"; rq_params := None |} in
  let vs := [SBegin r; SBegin r; SRegister 1; SRegister 0; SDisconnect; SBegin r] in
  Forall auto_sev vs /\ stdio_begins vs = 3%N /\
  keys_used (stdio_run (stdio_start 0 30000 1048576) vs) = [bs "req-2"; bs "req-1"; bs "req-3"].
Proof. cbn zeta. split; [repeat constructor; now right|]. split; vm_compute; reflexivity. Qed.

(** C61, shared memory: the counter is 64 bits wide and shared by the transports of a process,
    so the values the calls draw from it are those of a counter that many threads increment. *)
Theorem C61_shm : forall c h max vs, Forall auto_hact vs -> NoDup (draws vs) ->
  Forall (fun old => (old < 2 ^ 64 - 1)%N) (draws vs) -> NoDup (shm_keys (hrun c (shm0 h max) vs)).
Proof. exact shm_fresh. Qed.
Print Assumptions C61_shm.

Theorem C61_shm_counter : forall i j, (N.of_nat i < 2 ^ 64)%N -> (N.of_nat j < 2 ^ 64)%N ->
  shm_counter i = shm_counter j -> i = j.
Proof. intros i j A B. rewrite (shm_counter_value i A), (shm_counter_value j B). lia. Qed.
Print Assumptions C61_shm_counter.

Example C61_shm_applies :
  let r := {| rq_id := IdNull; rq_method := bs "ping"; rq_params := None |} in
  let vs := [AStart; ABegin r 4; ABegin r 1; ARegister 1; ARegister 0] in
  Forall auto_hact vs /\ NoDup (draws vs) /\ Forall (fun old => (old < 2 ^ 64 - 1)%N) (draws vs) /\
  shm_keys (hrun true (shm0 true 65536) vs) = [bs "shm-req-2"; bs "shm-req-5"].
Proof.
  cbn zeta. split; [repeat constructor; now left|]. split; [repeat constructor; cbn; intuition discriminate|].
  split; [repeat constructor|vm_compute; reflexivity].
Qed.

(** C61, the HTTP server. *)
Theorem C61_http_server : forall i j a b, id_key i = [] -> id_key j = [] ->
  send_key i a = send_key j b -> a = b.
Proof.
  intros i j a b A B. unfold send_key. rewrite A, B. intro E. injection E. intro E1. now apply print_N_inj in E1.
Qed.
Print Assumptions C61_http_server.
