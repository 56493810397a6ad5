(** C183: notifications between the ends of an in-memory pair (src/mcp/InMemoryTransport.cpp). *)
From Coq Require Import Ascii String List Arith NArith ZArith Bool Lia.
From Verif Require Import StrModel DoubleModel JsonModel JsonSpec JsonProofs RpcModel RpcSpec RpcProofs RouterModel MapModel
  MemModel MemSpec MemProofs NoteSpec NoteProofs.
Import ListNotations.
Local Open Scope nat_scope.

(** C183: in every history in which the receiving end has a request handler, what its notification
    handler has been given is a first part of what the other end sent while this one was open: in order,
    each once, each as it was sent, and nothing else. *)
Theorem C183_in_order_partial : forall (ha hb : bool) (vs : list ev) (x : side),
  Forall good_ev vs -> (match other x with SideA => ha | SideB => hb end) = true ->
  exists rest, notes_sent x vs = ep_notified (run (sys0 ha hb) vs (other x)) ++ rest.
Proof.
  intros ha hb vs x G H. destruct (heard_run ha hb (other x) vs H G) as [_ E]. rewrite other_other in E. eauto.
Qed.
Print Assumptions C183_in_order_partial.

(** C183: and all of it once the receiving end, open, has had its turns. *)
Theorem C183_delivered_partial : forall (ha hb : bool) (vs : list ev) (x : side),
  Forall good_ev vs -> (match other x with SideA => ha | SideB => hb end) = true -> opened (other x) vs = true ->
  exists n, ep_notified (run (sys0 ha hb) (vs ++ EDispatch (other x) :: turns (other x) n) (other x)) = notes_sent x vs.
Proof. intros ha hb vs x G H O. now apply notes_delivered. Qed.
Print Assumptions C183_delivered_partial.

(** C183: an end says it is connected exactly from Start to the next Close. *)
Theorem C183_connected : forall (ha hb : bool) (vs : list ev) (x : side),
  ep_connected (run (sys0 ha hb) vs x) = opened x vs.
Proof. exact conn_run. Qed.
Print Assumptions C183_connected.

Definition note (m : string) : notification := {| nt_method := bs m; nt_params := Some (JObj [(bs "n", JInt 1)]) |}.
Definition talk : list ev :=
  [EStart SideA; ENotify SideA (note "a"); EStart SideB; ENotify SideA (note "b"); ENotify SideA (note "c");
   EPop SideB; EDispatch SideB; EDisconnect SideB; ENotify SideA (note "d"); EStart SideB; ENotify SideA (note "e"); EPop SideB].

Example C183_meets : Forall good_ev talk /\ opened SideB talk = true /\
  notes_sent SideA talk = [note "b"; note "c"; note "e"] /\
  ep_notified (run (sys0 true true) talk SideB) = [note "b"].
Proof.
  split; [|vm_compute; auto]. unfold talk, note. repeat apply Forall_cons; try exact I; [.. |apply Forall_nil];
    (split; [discriminate|split; [now apply plainb_plain|intros p E; injection E as <-; now apply okb_ok]]).
Qed.

(** C183 fails where the receiving end has no request handler: a request is handed to the notification
    handler as a notification nobody sent. *)
Theorem C183_request_refuted : exists (vs : list ev) (r : request) (n : notification),
  Forall good_ev vs /\ notes_sent SideA vs = [] /\ In (EBegin SideA r) vs /\
  ep_notified (run (sys0 true false) vs SideB) = [n] /\ nt_method n = rq_method r /\ nt_params n = rq_params r /\
  ep_served (run (sys0 true false) vs SideB) = [] /\ ep_done (run (sys0 true false) vs SideA) = [].
Proof.
  exists [EStart SideA; EStart SideB; EBegin SideA {| rq_id := IdInt 1; rq_method := bs "ping"; rq_params := None |};
          ETransmit SideA 0; EPop SideB; EDispatch SideB],
    {| rq_id := IdInt 1; rq_method := bs "ping"; rq_params := None |}, {| nt_method := bs "ping"; nt_params := None |}.
  split; [|vm_compute; auto 10].
  repeat apply Forall_cons; try exact I; [|apply Forall_nil].
  split; [cbn; lia|]. split; [discriminate|]. split; [discriminate|]. split; [now apply plainb_plain|discriminate].
Qed.
Print Assumptions C183_request_refuted.
