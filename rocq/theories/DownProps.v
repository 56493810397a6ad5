(** C186 and C187: stopping and destroying a Server or a Client. *)
From Coq Require Import List Arith Bool Lia.
From Verif Require Import DownModel DownSpec DownProofs DownFall.
Import ListNotations.
Local Open Scope nat_scope.

(** C186, the part that holds: as long as the destructor has not been called nothing is used that is not there, whatever runs. *)
Theorem C186_alive_partial : forall o h, made o -> ~ In EFall h -> ~ broken (after o h).
Proof. exact no_fall_safe. Qed.
Print Assumptions C186_alive_partial.

(** C186, the part that holds: destroyed when its transport hands over nothing and no handler runs, with background tasks and
    the keepalive thread in whatever state, the object is taken down without any thread using a part that has gone. *)
Theorem C186_quiet_partial : forall o h h', made o -> outside (after o h) -> quiet (after o h) -> ~ broken (after o (h ++ EFall :: h')).
Proof. exact quiet_safe. Qed.
Print Assumptions C186_quiet_partial.

(** And the destructor can always be brought to its end by its own threads. *)
Theorem C186_ends_partial : forall o h h', made o -> outside (after o h) -> quiet (after o h) ->
  exists h'', Forall inner h'' /\ gone (after o ((h ++ EFall :: h') ++ h'')).
Proof. exact quiet_ends. Qed.
Print Assumptions C186_ends_partial.

(** A server whose transport was closed while a task it had launched went on, with the keepalive thread set going afterwards. *)
Definition a_task : list dev := [EStart; ECall HToolTask false] ++ repeat (EHand 0) 15.
Definition closing : list dev := [EStop None; EOwn; EOwn; EOwn; EOwn].
Example C186_quiet_ex : let o := a_server true true in
  let h := a_task ++ closing ++ repeat (EWork 0) 4 ++ [EOwn; EKeepOn; EKeep] in
  made o /\ outside (after o h) /\ quiet (after o h) /\ dn_stops (after o h) = 1 /\ dn_keep (after o h) = Some (tl ktouches) /\
  dn_pc (after o (h ++ EFall :: repeat EOwn 3)) = FallKeep /\
  gone (after o (h ++ EFall :: repeat EKeep 6 ++ repeat EOwn 64)).
Proof. intros o h. split; [now exists true, true; left|]. vm_compute. repeat split. Qed.

(** C186, the part that holds, for the transports whose Close returns when no handler runs: what Stop or Disconnect has returned
    from, and has not been started again, may be destroyed. *)
Theorem C186_stopped_partial : forall o h ws k h', made o -> ob_close o = true ->
  dn_pc (after o h) = StopWait ws -> outside (after o (h ++ [EOwn])) ->
  no_start k -> outside (after o ((h ++ [EOwn]) ++ k)) -> ~ broken (after o (((h ++ [EOwn]) ++ k) ++ EFall :: h')).
Proof. exact stopped_safe. Qed.
Print Assumptions C186_stopped_partial.

Example C186_stopped_ex : let o := a_client true false in
  let h := [EStart; ECall HSampleTask false] ++ repeat (EHand 0) 9 ++ closing ++ repeat (EWork 0) 6 in
  made o /\ dn_pc (after o h) = StopWait [0] /\ outside (after o (h ++ [EOwn])) /\ no_start [ECall HNote false; EHand 0] /\
  outside (after o ((h ++ [EOwn]) ++ [ECall HNote false; EHand 0])).
Proof.
  intros o h. split; [now exists true, false; right|]. do 2 (split; [vm_compute; reflexivity|]).
  split; [|vm_compute; reflexivity]. intros [H|[H|[]]]; discriminate.
Qed.

(** C186 fails: neither destructor closes the transport first, and it is the first part declared, so it is the last to go. A message
    that arrives meanwhile, or a handler that runs, finds the other parts gone, whatever the transport. *)
Theorem C186_live_refuted : forall close drop,
  dn_fate (after (a_server close drop) [EStart; EFall; EOwn; EOwn; ECall HToolsList false; EHand 0; EHand 0; EHand 0]) = Some (ByHandler, PRegistryMutex) /\
  dn_fate (after (a_client close drop) ([EStart; EFall; ECall HElicitTask false] ++ repeat (EHand 0) 5 ++ repeat EOwn 7 ++ [EHand 0])) = Some (ByHandler, PTaskWorkers).
Proof. intros close drop. split; vm_compute; reflexivity. Qed.
Print Assumptions C186_live_refuted.

(** Such a handler leaves a background task nobody waits for: it too uses what has gone. *)
Theorem C186_task_refuted : forall close drop,
  dn_fate (after (a_server close drop) ([EStart; ECall HToolTask true] ++ repeat (EHand 0) 8 ++ [EFall; EOwn] ++ repeat EOwn 26 ++ [EWork 0])) = Some (ByWorker, PReceivedTasks).
Proof. intros close drop. vm_compute. reflexivity. Qed.
Print Assumptions C186_task_refuted.

(** C186 fails, for the transports that hand requests to threads of their own and forget them: Stop has returned and the object is destroyed
    while a request is being handled. *)
Theorem C186_stopped_refuted : forall drop, let o := a_server false drop in
  let h := [EStart; ECall HToolsList false; EStop None; EOwn; EOwn; EOwn; EOwn; EOwn] in
  dn_stops (after o h) = 1 /\ outside (after o h) /\
  dn_fate (after o (h ++ [EFall; EOwn; EOwn; EHand 0; EHand 0; EHand 0])) = Some (ByHandler, PRegistryMutex).
Proof. intros drop. vm_compute. auto. Qed.
Print Assumptions C186_stopped_refuted.

(** C187, the part that holds, for the transports whose Close returns when no handler runs: when Stop or Disconnect returns the transport is shut,
    and no handler, no background task and no keepalive thread runs. *)
Theorem C187_rest_partial : forall o h ws, made o -> ob_close o = true ->
  dn_pc (after o h) = StopWait ws -> outside (after o (h ++ [EOwn])) -> at_rest (after o (h ++ [EOwn])).
Proof. exact stop_rest. Qed.
Print Assumptions C187_rest_partial.

(** And nothing starts to run by itself: only starting the transport or the keepalive thread again sets anything going. *)
Theorem C187_stays_partial : forall o h h', made o -> at_rest (after o h) -> no_start h' -> ~ In EKeepOn h' -> at_rest (after o (h ++ h')).
Proof. exact rest_stays. Qed.
Print Assumptions C187_stays_partial.

(** C187, the part that holds: whatever has been going on, Stop or Disconnect called from outside the background tasks can always be
    brought to return by the threads of the object. *)
Theorem C187_returns_partial : forall o h, made o -> stopping (after o h) -> dn_self (after o h) = None ->
  exists h', Forall inner h' /\ outside (after o (h ++ h')) /\ ~ broken (after o (h ++ h')) /\ dn_stops (after o (h ++ h')) = S (dn_stops (after o h)).
Proof. exact stop_returns_after. Qed.
Print Assumptions C187_returns_partial.

(** Three tasks launched, the keepalive thread in a round and a fourth request half handled when Stop is called. *)
Example C187_ex : let o := a_server true true in
  let h := [EStart; EKeepOn; EKeep; ECall HToolTask false; ECall HToolTask true; ECall HToolTask false; ECall HToolTask false]
           ++ repeat (EHand 0) 15 ++ repeat (EHand 0) 15 ++ repeat (EHand 0) 15 ++ repeat (EHand 0) 8 ++ [EWork 1; EStop None] in
  let k := repeat EKeep 6 ++ [EOwn; EOwn; EOwn; EOwn] ++ repeat (EHand 0) 20 ++ [EOwn; EOwn] ++ repeat (EWork 0) 4 ++ repeat (EWork 1) 3 ++ repeat (EWork 2) 4 ++ repeat (EWork 3) 4 in
  made o /\ stopping (after o h) /\ dn_self (after o h) = None /\ length (dn_work (after o h)) = 4 /\ length (dn_calls (after o h)) = 1 /\
  dn_group (after o h) = [0; 1; 2] /\ dn_pc (after o (h ++ k)) = StopWait [0; 1; 2; 3] /\ outside (after o ((h ++ k) ++ [EOwn])).
Proof. intros o h k. split; [now exists true, true; left|]. split; [left; vm_compute; reflexivity|]. vm_compute. repeat split. Qed.

(** C187 fails, for the transports that hand requests to threads of their own: Stop returns while a request is being handled, and that handler
    then starts a background task nobody has waited for. *)
Theorem C187_late_refuted : forall drop, let o := a_server false drop in
  let h := [EStart; ECall HToolTask false; EStop None; EOwn; EOwn; EOwn; EOwn; EOwn] in
  dn_stops (after o h) = 1 /\ outside (after o h) /\ dn_calls (after o h) <> [] /\
  dn_work (after o (h ++ repeat (EHand 0) 8)) = [(0, wtouches ToolWork false)].
Proof. intros drop. vm_compute. repeat split. discriminate. Qed.
Print Assumptions C187_late_refuted.

(** C187 fails: a background task that stops the server and waits for it never sees it return. *)
Theorem C187_self_refuted : forall close drop, let o := a_server close drop in
  let h := a_task ++ [EStop (Some 0); EOwn; EOwn; EOwn; EOwn] in
  running (after o h) 0 = true /\ forall h', dn_pc (after o (h ++ h')) = StopWait [0].
Proof. exact self_never. Qed.
Print Assumptions C187_self_refuted.
