(** Stdio transport: C15, C16 (stdio part), C19, C20, C21. *)
From Coq Require Import Ascii String List Arith NArith ZArith Bool Lia.
From Verif Require Import StrModel FramerModel DoubleModel JsonModel RpcModel RouterModel MapModel MemModel
  PendModel WqModel StdioModel StdioSpec WqProofs StdioProofs.
Import ListNotations.
Local Open Scope nat_scope.

(** C15. No history completes a request twice. *)
Theorem C15_stdio_at_most_once : forall now ms max vs,
  NoDup (map fst (pt_done (st_tab (stdio_run (stdio_start now ms max) vs)))).
Proof. exact stdio_at_most_once. Qed.

(** C15. While the ids in use are distinct, a request completes only because a response
    bearing its id arrived, its own deadline had passed at a sweep, the transport was closed,
    or it was sent when the transport was not connected; and with the matching outcome. *)
Theorem C15_stdio_for_cause : forall now ms max vs t o,
  let s := stdio_run (stdio_start now ms max) vs in
  NoDup (keys_used s) -> In (t, o) (pt_done (st_tab s)) ->
  exists k r, In (t, k) (pt_keys (st_tab s)) /\ o = Some r /\ stdio_cause (stdio_start now ms max) vs t k r.
Proof. exact stdio_for_cause. Qed.

(** C16. Close fails every request registered before it that is still pending. *)
Theorem C16_stdio_close_completes : forall now ms max vs1 vs2 vs3 t k,
  In (t, k) (pt_keys (st_tab (stdio_run (stdio_start now ms max) vs1))) ->
  exists o, In (t, o) (pt_done (st_tab (stdio_run (stdio_start now ms max) (vs1 ++ SDisconnect :: vs2 ++ SFailAll :: vs3)))) /\
    (In (t, o) (pt_done (st_tab (stdio_run (stdio_start now ms max) (vs1 ++ SDisconnect :: vs2)))) \/
     o = Some (failure k (bs "Transport closed"))).
Proof. exact stdio_close. Qed.

(** C19. The byte count is that of the frames held, and is within the configured maximum. *)
Theorem C19_queue_bounded : forall now ms max vs,
  let w := st_wq (stdio_run (stdio_start now ms max) vs) in
  w_bytes w = total (held w) /\ (w_bytes w <= N.max max 1)%N.
Proof. exact queue_bounded. Qed.

(** C19. While connected: accepted minus written, counting a frame as written when its last
    byte has gone out. *)
Theorem C19_queue_balance : forall now ms max vs,
  let w := st_wq (stdio_run (stdio_start now ms max) vs) in
  w_connected w = true -> (w_bytes w + size (w_wrote w) = total (w_accepted w) + partial w)%N.
Proof. exact queue_balance. Qed.

(** C19. A frame that fits is taken whole; one that does not is refused whole, with an error
    report, and disconnects. *)
Theorem C19_accept_or_refuse : forall now ms max vs p,
  let w := st_wq (stdio_run (stdio_start now ms max) vs) in
  let (ok, w') := enqueue p w in
  ok = N.leb (total (held w) + size (encode p)) (N.max max 1) /\
  w_wrote w' = w_wrote w /\
  (ok = true -> held w' = held w ++ [encode p] /\ w_accepted w' = w_accepted w ++ [encode p] /\
     w_connected w' = w_connected w /\ w_errors w' = w_errors w) /\
  (ok = false -> held w' = held w /\ w_accepted w' = w_accepted w /\ w_connected w' = false /\
     length (w_errors w') = S (length (w_errors w))).
Proof. exact accept_or_refuse. Qed.

(** C20. What has been written is always a prefix of the accepted frames, in order. *)
Theorem C20_written_prefix : forall now ms max vs, exists rest,
  concat (w_accepted (st_wq (stdio_run (stdio_start now ms max) vs))) =
  w_wrote (st_wq (stdio_run (stdio_start now ms max) vs)) ++ rest.
Proof. exact stdio_written_prefix. Qed.

(** C20. And nothing is stuck: from any connected state the writer alone can bring out every
    accepted byte. *)
Theorem C20_writer_drains : forall now ms max vs,
  let s := stdio_run (stdio_start now ms max) vs in
  st_connected s = true ->
  exists us, w_wrote (st_wq (stdio_run s (map SWriter us))) = concat (w_accepted (st_wq s)).
Proof. exact stdio_writer_drains. Qed.

(** C21. A sweep completes, with a timeout error, exactly the pending requests whose deadline
    has come, and leaves the others pending. *)
Theorem C21_sweep_exact : forall now ms max vs,
  let s := stdio_run (stdio_start now ms max) vs in
  (forall t o, In (t, o) (pt_done (st_tab (sweep s))) <->
     In (t, o) (pt_done (st_tab s)) \/
     exists k r d, In (k, t) (pt_pend (st_tab s)) /\ In (t, (r, d)) (st_reg s) /\ (d <= st_now s)%Z /\
       o = Some (failure k (bs "Request timeout"))) /\
  (forall k t, In (k, t) (pt_pend (st_tab (sweep s))) <->
     In (k, t) (pt_pend (st_tab s)) /\ exists r d, In (t, (r, d)) (st_reg s) /\ (st_now s < d)%Z).
Proof. exact stdio_sweep_exact. Qed.

(** C21. The deadline is the moment of registration plus the timeout configured then. *)
Theorem C21_deadline : forall now ms max vs t r d,
  In (t, (r, d)) (st_reg (stdio_run (stdio_start now ms max) vs)) ->
  exists vs1 n vs2, vs = vs1 ++ SRegister n :: vs2 /\
    let s1 := stdio_run (stdio_start now ms max) vs1 in
    pt_next (st_tab s1) = t /\ (d = st_now s1 + st_timeout s1 * 1000000)%Z.
Proof. exact deadline_origin. Qed.

(** C21. A completed request keeps its outcome: an answered request never times out. *)
Theorem C21_outcome_final : forall now ms max vs ws t o o',
  In (t, o) (pt_done (st_tab (stdio_run (stdio_start now ms max) vs))) ->
  In (t, o') (pt_done (st_tab (stdio_run (stdio_start now ms max) (vs ++ ws)))) -> o' = o.
Proof. exact stdio_final. Qed.

(** C21. Timely: with a timeout that is not changed, once the deadline of a request has come
    and the transport is connected, the next pass of the timeout thread completes it. *)
Theorem C21_timely : forall now ms max vs t rq d, Forall fixed_timeout vs ->
  let s := stdio_run (stdio_start now ms max) vs in
  st_connected s = true -> In (t, (rq, d)) (st_reg s) -> (d <= st_now s)%Z ->
  exists o, In (t, o) (pt_done (st_tab (stdio_run s [SPlan; SSweep]))).
Proof. exact stdio_timely. Qed.

(** C21. The condition on the timeout is needed: when it is lowered while the timeout thread
    sleeps, a request stays pending past its deadline until the older deadline. *)
Theorem C21_timely_refuted : exists vs t rq d,
  let s := stdio_run (stdio_start 0 30000 1048576) vs in
  st_connected s = true /\ In (t, (rq, d)) (st_reg s) /\ (d < st_now s)%Z /\
  forall ws, Forall (fun v => v = SPlan \/ v = SSweep) ws ->
    forall o, ~ In (t, o) (pt_done (st_tab (stdio_run s ws))).
Proof. exact stdio_timely_refuted. Qed.

(** C65. A request pending when the connection is lost, without Close, stays pending: once the
    timeout thread has seen the loss no deadline, however long past, completes it. *)
Theorem C65_lost_connection_refuted : exists vs t,
  let s := stdio_run (stdio_start 0 30000 1048576) vs in
  In t (map fst (st_reg s)) /\ st_connected s = false /\
  forall ws, Forall (fun v => match v with SMessage _ _ | SFailAll => False | _ => True end) ws ->
    forall o, ~ In (t, o) (pt_done (st_tab (stdio_run s ws))).
Proof. exact stdio_lost_refuted. Qed.

(** C66. A request whose SendRequest overlaps Close can be registered after Close has failed
    all pending requests; only a response could still complete it, and the reader is gone. *)
Theorem C66_close_race_refuted : exists vs t,
  let s := stdio_run (stdio_start 0 30000 1048576) vs in
  In SFailAll vs /\ In t (map fst (st_reg s)) /\
  forall ws, Forall (fun v => match v with SMessage _ _ | SFailAll => False | _ => True end) ws ->
    forall o, ~ In (t, o) (pt_done (st_tab (stdio_run s ws))).
Proof. exact stdio_close_race_refuted. Qed.

Definition st_h : handlers := {| h_request := None; h_notification := None; h_error := true |}.
Definition st_answer : bstr := bs "{""jsonrpc"":""2.0"",""id"":""a"",""result"":{""ok"":true}}".
Definition st_rq (i : rpcid) : request := {| rq_id := i; rq_method := bs "ping"; rq_params := None |}.

(** Three requests: the first is answered after a second, the second times out, the third,
    sent later and given its id by the transport, is failed by Close. *)
Definition st_hist : list sev :=
  [SPlan; SBegin (st_rq (IdStr (bs "a"))); SRegister 0; SEnqueue 0;
   SWriter WLoop; SWriter WPop; SWriter (WPut 7);
   SBegin (st_rq (IdInt 7)); SRegister 0; SEnqueue 0;
   STime 1000000000; SMessage st_h st_answer; SSweep; SPlan; SWriter (WPut 20);
   SBegin (st_rq IdNull); SRegister 0; SEnqueue 0;
   STime 29000000000; SSweep].

Example stdio_ex :
  let s := stdio_run (stdio_start 0 30000 1048576) st_hist in
  st_connected s = true /\
  pt_keys (st_tab s) = [(0, bs "a"); (1, bs "7"); (2, bs "req-1")] /\
  map fst (pt_done (st_tab s)) = [0; 1] /\
  nth_error (pt_done (st_tab s)) 1 = Some (1, Some (failure (bs "7") (bs "Request timeout"))) /\
  pt_pend (st_tab s) = [(bs "req-1", 2)] /\
  map (fun x => (fst x, snd (snd x))) (st_reg s) = [(0, 30000000000%Z); (1, 30000000000%Z); (2, 31000000000%Z)] /\
  st_now s = 30000000000%Z /\
  size (w_wrote (st_wq s)) = 27%N /\ (27 < w_bytes (st_wq s))%N /\ partial (st_wq s) = 27%N /\
  NoDup (keys_used s) /\ Forall fixed_timeout st_hist.
Proof.
  cbv zeta. split; [vm_compute; reflexivity|]. split; [vm_compute; reflexivity|]. split; [vm_compute; reflexivity|].
  split; [vm_compute; reflexivity|]. split; [vm_compute; reflexivity|]. split; [vm_compute; reflexivity|].
  split; [vm_compute; reflexivity|]. split; [vm_compute; reflexivity|]. split; [vm_compute; reflexivity|].
  split; [vm_compute; reflexivity|]. split.
  - assert (keys_used (stdio_run (stdio_start 0 30000 1048576) st_hist) = [bs "a"; bs "7"; bs "req-1"]) as -> by (vm_compute; reflexivity).
    repeat constructor; cbn; intuition discriminate.
  - repeat constructor.
Qed.

(** Its close completes the third request. *)
Example stdio_close_ex :
  nth_error (pt_done (st_tab (stdio_run (stdio_start 0 30000 1048576) (st_hist ++ [SDisconnect; SQuit; SFailAll])))) 2 =
  Some (2, Some (failure (bs "req-1") (bs "Transport closed"))).
Proof. vm_compute. reflexivity. Qed.

(** A frame that does not fit. *)
Example stdio_overflow_ex :
  let w := st_wq (stdio_run (stdio_start 0 30000 100) [SFrame (bs "{""a"":1}"); SFrame (repeat "x"%char 90)]) in
  w_connected w = false /\ length (w_accepted w) = 1 /\ length (w_errors w) = 1 /\ w_bytes w = 28%N.
Proof. vm_compute. auto. Qed.

Print Assumptions C15_stdio_at_most_once.
Print Assumptions C15_stdio_for_cause.
Print Assumptions C16_stdio_close_completes.
Print Assumptions C19_queue_bounded.
Print Assumptions C19_queue_balance.
Print Assumptions C19_accept_or_refuse.
Print Assumptions C20_written_prefix.
Print Assumptions C20_writer_drains.
Print Assumptions C21_sweep_exact.
Print Assumptions C21_deadline.
Print Assumptions C21_outcome_final.
Print Assumptions C21_timely.
Print Assumptions C21_timely_refuted.
Print Assumptions C65_lost_connection_refuted.
Print Assumptions C66_close_race_refuted.
