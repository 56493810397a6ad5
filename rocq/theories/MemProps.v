(** C15-C18 for the in-memory transport pair (src/mcp/InMemoryTransport.cpp).

    A history is any list of events: both sides' calls, the steps of both processing
    loops and the completions of the handler threads, in any order. *)
From Coq Require Import Ascii String List Permutation Arith NArith ZArith Bool Lia.
From Verif Require Import StrModel DoubleModel JsonModel JsonSpec JsonProofs RpcModel RpcSpec RpcProofs RouterModel
  MapModel MemModel MemSpec MemProofs.
Import ListNotations.
Local Open Scope nat_scope.

(** C15: no future is completed twice. *)
Theorem C15_memory_at_most_once : forall ha hb vs x,
  NoDup (map fst (ep_done (run (sys0 ha hb) vs x))).
Proof. exact at_most_once. Qed.

(** C15: when ids are not reused, a completion has one of the stated causes. *)
Theorem C15_memory_for_cause : forall ha hb vs x t o,
  NoDup (issued_keys (run (sys0 ha hb) vs x)) ->
  In (t, o) (ep_done (run (sys0 ha hb) vs x)) ->
  exists r, In (t, r) (ep_issued (run (sys0 ha hb) vs x)) /\ cause ha hb vs x r o.
Proof. exact for_cause. Qed.

Definition ask (i : rpcid) : request := {| rq_id := i; rq_method := bs "tools/list"; rq_params := None |}.
Definition answer : response :=
  {| rs_id := IdNull; rs_result := Some (JObj [(bs "tools", JArr [])]); rs_error := None |}.

(** C15 fails when two outstanding requests share an id string: the second registration
    destroys the first promise, whose future then breaks although nothing happened to it.
    The integer 5 and the string 5 are such a pair. *)
Theorem C15_memory_reused_id_refuted : exists ha hb vs x t,
  In (t, OBroken) (ep_done (run (sys0 ha hb) vs x)).
Proof.
  exists true, true, [EStart SideA; EStart SideB; EBegin SideA (ask (IdInt 5)); EBegin SideA (ask (IdStr (bs "5")))], SideA, 0.
  vm_compute. now left.
Qed.

(** C16: Close is the step EDisconnect followed, after anything else that may happen in
    between, by the step EFailAll. *)
Theorem C16_memory_close_completes : forall ha hb vs1 vs2 vs3 x t r,
  In (t, r) (ep_issued (run (sys0 ha hb) vs1 x)) ->
  exists o, In (t, o) (ep_done (run (sys0 ha hb) (vs1 ++ EDisconnect x :: vs2 ++ EFailAll x :: vs3) x)) /\
    (In (t, o) (ep_done (run (sys0 ha hb) (vs1 ++ EDisconnect x :: vs2) x)) \/
     o = OClosed (error_response (IdStr (id_key (rq_id r))) (-32603) (bs "Transport closed") None)).
Proof. exact close_completes. Qed.

(** C17: at every moment, what one side has sent is what the other has processed followed
    by what it still holds, in the same order. *)
Theorem C17_fifo : forall ha hb vs x,
  ep_sent (run (sys0 ha hb) vs x) =
  ep_processed (run (sys0 ha hb) vs (other x)) ++
  match ep_current (run (sys0 ha hb) vs (other x)) with Some m => [m] | None => [] end ++
  ep_queue (run (sys0 ha hb) vs (other x)).
Proof. exact fifo_reachable. Qed.

(** C17: and a connected peer whose loop goes on processes all of it. *)
Theorem C17_delivered : forall ha hb vs x, ep_connected (run (sys0 ha hb) vs (other x)) = true ->
  exists n, ep_processed (run (sys0 ha hb) (vs ++ EDispatch (other x) :: turns (other x) n) (other x)) =
            ep_sent (run (sys0 ha hb) vs x).
Proof. exact all_delivered. Qed.

(** C18: an answer is the one the peer's handler gave to that very request. *)
Theorem C18_answer_matches : forall ha hb vs x t resp, Forall good_ev vs ->
  NoDup (issued_keys (run (sys0 ha hb) vs x)) ->
  In (t, OResp resp) (ep_done (run (sys0 ha hb) vs x)) ->
  exists r h, In (t, r) (ep_issued (run (sys0 ha hb) vs x)) /\
    In (r, h) (ep_served (run (sys0 ha hb) vs (other x))) /\ resp = reply (rq_id r) h.
Proof. exact answer_matches. Qed.

(** C18: and when nothing is left in transit, every request has been answered. *)
Theorem C18_all_answered : forall vs, Forall good_ev vs -> Forall no_close vs ->
  let s := run (sys0 true true) (EStart SideA :: EStart SideB :: vs) in
  (forall x, NoDup (issued_keys (s x))) -> (forall x, idle (s x)) ->
  forall x t r, In (t, r) (ep_issued (s x)) ->
  exists h, In (r, h) (ep_served (s (other x))) /\ In (t, OResp (reply (rq_id r) h)) (ep_done (s x)).
Proof. exact all_answered. Qed.

(** Two requests from A and one from B at the same time, answered out of order. *)
Definition busy : list ev :=
  [EBegin SideA (ask (IdInt 7)); EBegin SideA (ask (IdStr [])); EBegin SideB (ask (IdStr (bs "b-1")));
   ETransmit SideA 1; ETransmit SideA 0; EPop SideB; ETransmit SideB 0; EDispatch SideB; EPop SideB; EDispatch SideB;
   EHandler SideB 1 (HReturn answer); EHandler SideB 0 (HThrow (bs "boom"));
   EPop SideA; EDispatch SideA; EPop SideA; EDispatch SideA; EHandler SideA 0 HNull; EPop SideA; EDispatch SideA;
   EPop SideB; EDispatch SideB].

Example C18_busy_good : Forall good_ev busy /\ Forall no_close busy.
Proof.
  assert (forall i, id_ok i -> (forall s, i = IdStr s -> plain s) -> good_request (ask i)) as G.
  { intros i H1 H2. split; [exact H1|]. split; [exact H2|]. split; [discriminate|].
    split; [now apply plainb_plain|]. discriminate. }
  split.
  - unfold busy. repeat (apply Forall_cons; [|]); try apply Forall_nil; try exact I.
    + apply G; [cbn; lia|discriminate].
    + apply G; [cbn; intuition discriminate|]. intros s E. injection E as <-. now apply plainb_plain.
    + apply G; [cbn; intuition discriminate|]. intros s E. injection E as <-. now apply plainb_plain.
    + split; [left; discriminate|]. split; [|discriminate]. intros v E. injection E as <-.
      split; [now apply okb_ok|now apply key_inb_not].
  - unfold busy. repeat (apply Forall_cons; [exact I|]). apply Forall_nil.
Qed.

Example C18_busy_run :
  let s := run (sys0 true true) (EStart SideA :: EStart SideB :: busy) in
  (forall x, NoDup (issued_keys (s x))) /\ (forall x, idle (s x)) /\
  map fst (ep_done (s SideA)) = [0; 1] /\ map fst (ep_done (s SideB)) = [0] /\
  ep_connected (s SideA) = true /\ length (ep_sent (s SideA)) = 3.
Proof.
  split.
  - intros []; vm_compute; repeat (constructor; [cbn; intuition discriminate|]); constructor.
  - split; [intros []; vm_compute; auto|]. vm_compute. auto.
Qed.

(** Half-way through, one request is pending and the close completes it. *)
Example C16_pending :
  let s := run (sys0 true true) [EStart SideA; EStart SideB; EBegin SideA (ask (IdInt 7)); ETransmit SideA 0] in
  In (0, ask (IdInt 7)) (ep_issued (s SideA)) /\ ep_done (s SideA) = [].
Proof. vm_compute. auto. Qed.

Print Assumptions C15_memory_at_most_once.
Print Assumptions C15_memory_for_cause.
Print Assumptions C15_memory_reused_id_refuted.
Print Assumptions C16_memory_close_completes.
Print Assumptions C17_fifo.
Print Assumptions C17_delivered.
Print Assumptions C18_answer_matches.
Print Assumptions C18_all_answered.
