From Coq Require Import Ascii String List Permutation Arith NArith ZArith Bool Lia.
From Verif Require Import StrModel StrProofs DoubleModel JsonModel JsonSpec JsonProofs ObjSpec ObjProofs MapModel MapProofs RpcModel TaskModel TaskSpec TaskProofs DescModel DescSpec DescProofs RegModel RegSpec ValModel ValSpec ValProofs ReadModel SubModel LogModel ErrModel ErrSpec CancelModel ServModel ServSpec ServProofs CallProofs PeerModel PeerSpec PeerProofs.
Import ListNotations.
Local Open Scope nat_scope.

(** C103. Whatever a server asks, a client's reply has the id of the request and either a result or
    an error. *)
Theorem C103_reply : forall a mid q c r c', peer_dispatch a mid q c = (Reply r, c') -> answers q r.
Proof. exact peer_answers. Qed.
Print Assumptions C103_reply.

(** The reply comes at once, unless the request is for the result of a task that has not ended. *)
Theorem C103_waits : forall a mid q c t c', peer_dispatch a mid q c = (Waits t, c') ->
  c' = c /\ rq_method q = bs "tasks/result" /\ unfinished t (cl_tasks c).
Proof. exact peer_waits. Qed.
Print Assumptions C103_waits.
Theorem C103_after_wait : forall q strict k t p, exists r, peer_finish (rq_id q) strict k t p = Reply r /\ answers q r.
Proof.
  intros q strict k t p. destruct (peer_finish (rq_id q) strict k t p) as [r|x] eqn:E; [|now apply peer_finish_waits in E].
  exists r. split; [reflexivity|now apply peer_finish_answers in E].
Qed.
Print Assumptions C103_after_wait.

Theorem C103_unknown : forall a mid q c, ~ In (rq_method q) peer_methods ->
  exists r, peer_dispatch a mid q c = (Reply r, c) /\ fails r (-32601) (bs "Method not found").
Proof. exact peer_unknown. Qed.
Print Assumptions C103_unknown.

(** A request for which the application has no handler, or which needs a capability the client does
    not have, is refused and changes nothing. *)
Theorem C103_refused : forall a mid q c m, (rq_method q, m) = (bs "roots/list", bs "No roots/list handler registered") /\ ap_roots a = None \/
    (rq_method q, m) = (bs "elicitation/create", bs "No elicitation handler registered") /\ ap_elicit a = None \/
    (rq_method q, m) = (bs "sampling/createMessage", bs "No sampling handler registered") /\ ap_sample a = None /\ ap_sample_stop a = None /\ ~ task_request q \/
    (rq_method q, m) = (bs "tasks/get", bs "Tasks not supported") /\ ~ has_tasks (cl_caps c) \/
    (rq_method q, m) = (bs "tasks/list", bs "Task listing not supported") /\ ~ has_task_list (cl_caps c) \/
    (rq_method q, m) = (bs "tasks/result", bs "Tasks not supported") /\ ~ has_tasks (cl_caps c) \/
    (rq_method q, m) = (bs "tasks/cancel", bs "Task cancellation not supported") /\ ~ has_task_cancel (cl_caps c) \/
    (rq_method q, m) = (bs "elicitation/create", bs "Task-augmented elicitation not supported") /\ ap_elicit a <> None /\ task_request q /\
      (cl_strict c = true -> ElicitRequest (or_null (rq_params q))) /\ ~ has_task_elicit (cl_caps c) \/
    (rq_method q, m) = (bs "sampling/createMessage", bs "Task-augmented sampling not supported") /\ task_request q /\ ~ has_task_sampling (cl_caps c) ->
  exists r, peer_dispatch a mid q c = (Reply r, c) /\ fails r (-32001) m.
Proof. exact refuses. Qed.
Print Assumptions C103_refused.

(** A server's ping of a client succeeds. *)
Theorem C103_ping : forall a mid q c strict, carried (request_ping strict) q ->
  exists r, peer_dispatch a mid q c = (Reply r, c) /\ forall r', delivered r r' -> returns (request_ping strict) r' (Ret tt).
Proof.
  intros a mid q c strict (m & p & read & [= <- <- <-] & M & _). rewrite peer_ping by exact M.
  destruct (respond_result (rq_id q) (JObj [])) as (r & R & S). exists r. rewrite R. split; [reflexivity|]. intros r' D.
  destruct (delivered_result _ _ _ S D) as [(v & V1 & V2) E]. eexists _, _, _. split; [reflexivity|]. cbn beta. rewrite E, V1.
  destruct (same_obj_inv _ _ V2) as (o1 & o' & -> & _). cbn [is_obj negb]. now rewrite andb_false_r.
Qed.
Print Assumptions C103_ping.

(** What a ping makes of a reply: an error, or no result, is a failure; a result that is not an object is one too if the server is
    strict; anything else is a success. *)
Theorem C103_ping_checked : forall strict r,
  (rs_error r <> None \/ rs_result r = None -> returns (request_ping strict) r (Threw (bs "ping failed"))) /\
  (forall v, rs_error r = None -> rs_result r = Some v ->
     (strict = false \/ (exists o, v = JObj o) -> returns (request_ping strict) r (Ret tt)) /\
     (strict = true -> (forall o, v <> JObj o) -> returns (request_ping strict) r (Threw (bs "Validation failed: ping result shape")))).
Proof.
  intros strict r. split.
  - intros H. eexists _, _, _. split; [reflexivity|]. cbn beta. destruct (rs_error r); [reflexivity|]. destruct H as [H|H]; [now elim H|].
    now rewrite H.
  - intros v E R. split; intros H.
    + eexists _, _, _. split; [reflexivity|]. cbn beta. rewrite E, R. destruct H as [-> |(o & ->)]; [reflexivity|]. now rewrite andb_false_r.
    + intros N. eexists _, _, _. split; [reflexivity|]. cbn beta. rewrite E, R, H. destruct v; try reflexivity. now elim (N l).
Qed.
Print Assumptions C103_ping_checked.

(** An application with two roots, an elicitation handler that accepts, and a sampling handler. *)
Definition demo_app : app :=
  {| ap_roots := Some (Ret [{| ro_uri := bs "file:///a"; ro_name := Some (bs "a"); ro_meta := None |}; {| ro_uri := bs "file:///b"; ro_name := None; ro_meta := Some (JObj [(bs "x", JInt 1)]) |}]);
     ap_elicit := Some (fun e => if beq (el_message e) (bs "name?") then Ret {| ed_action := bs "accept"; ed_content := Some (JObj [(bs "name", JStr (bs "Ann"))]); ed_id := el_id e |} else Threw (bs "no"));
     ap_sample := Some (fun m _ _ _ => Ret (JObj [(bs "content", JArr [make_text (bs "hi")]); (bs "model", JStr (bs "m")); (bs "role", JStr (bs "assistant")); (bs "seen", m)]));
     ap_sample_stop := None; ap_now := bs "2025-01-01T00:00:00Z" |}.
Definition bare_app : app := {| ap_roots := None; ap_elicit := None; ap_sample := None; ap_sample_stop := None; ap_now := bs "t" |}.
Definition demo_ccaps : ccaps :=
  {| cc_roots := Some true; cc_sampling := true; cc_elicit := Some []; cc_tasks := Some (true, true, true, true); cc_exp := []; cc_ext := [] |}.
Definition demo_client : client := client0 true demo_ccaps.
Definition q_of {A : Type} (k : call A) : request :=
  match k with Sends m p _ => {| rq_id := IdInt 9; rq_method := m; rq_params := p |} | Returns _ => {| rq_id := IdInt 9; rq_method := []; rq_params := None |} end.
Definition demo_elicit : elicit :=
  {| el_message := bs "name?"; el_schema := JObj [(bs "type", JStr (bs "object"))]; el_title := None; el_mode := Some (bs "form"); el_url := None; el_id := Some (bs "e1"); el_meta := None |}.
Definition demo_sampling : sampling :=
  {| sm_messages := [JObj [(bs "role", JStr (bs "user")); (bs "content", make_text (bs "hello"))]]; sm_prefs := None; sm_system := Some (bs "be brief"); sm_context := None;
     sm_max := Some 50%Z; sm_temperature := None; sm_stop := Some [bs "."]; sm_meta := None |}.

Example C103_ex : exists r, peer_dispatch demo_app false (q_of (request_ping true)) demo_client = (Reply r, demo_client) /\ rs_id r = IdInt 9 /\
  exists r, peer_dispatch bare_app false {| rq_id := IdInt 3; rq_method := bs "tools/call"; rq_params := None |} demo_client = (Reply r, demo_client) /\ rs_result r = None.
Proof. eexists. split; [reflexivity|]. split; [reflexivity|]. eexists. split; reflexivity. Qed.

(** C104. What a server's request for the roots returns is what the client's handler returned, except
    for roots without a uri. *)
Theorem C104_roundtrip_partial : forall a mid q c l strict peer, ap_roots a = Some (Ret l) -> carried (request_roots strict peer) q ->
  exists r, peer_dispatch a mid q c = (Reply r, c) /\
    forall r', delivered r r' -> exists l', returns (request_roots strict peer) r' (Ret l') /\ Forall2 same_root (filter has_uri l) l'.
Proof. exact roots_round. Qed.
Print Assumptions C104_roundtrip_partial.

(** A client that fails, or that has no handler, cannot be told from one without roots. *)
Theorem C104_error_refuted : forall a mid q c x strict peer, (ap_roots a = Some (Threw x) \/ ap_roots a = None) -> carried (request_roots strict peer) q ->
  exists r m n, peer_dispatch a mid q c = (Reply r, c) /\ fails r n m /\
    (ap_roots a = Some (Threw x) -> n = (-32603)%Z /\ m = x) /\ (ap_roots a = None -> n = (-32001)%Z) /\
    forall r', delivered r r' -> returns (request_roots strict peer) r' (Ret []).
Proof. exact roots_threw. Qed.
Print Assumptions C104_error_refuted.

(** Nor can one that has not been asked. *)
Theorem C104_unasked : forall strict peer, cc_roots peer = None <-> request_roots strict peer = Returns (Ret []).
Proof. intros strict peer. unfold request_roots. destruct (cc_roots peer); split; easy. Qed.
Print Assumptions C104_unasked.

Example C104_ex : carried (request_roots true demo_ccaps) (q_of (request_roots true demo_ccaps)) /\
  exists r l, peer_dispatch demo_app false (q_of (request_roots true demo_ccaps)) demo_client = (Reply r, demo_client) /\ roots_reply true r = Ret l /\ length l = 2.
Proof. split; [eexists _, _, _; repeat split; constructor|]. eexists _, _. split; [reflexivity|]. split; [vm_compute; reflexivity|reflexivity]. Qed.

(** C105. What the client's elicitation handler is given is what the server's caller asked, and what
    the caller gets is what the handler returned. *)
Theorem C105_roundtrip_partial : forall a mid q c f e strict peer, ap_elicit a = Some f -> carried (request_elicit strict peer e) q ->
  exists e', same_elicit e e' /\
    forall r, f e' = Ret r -> (cl_strict c = true \/ strict = true -> proper r) ->
       exists x, peer_dispatch a mid q c = (Reply x, c) /\
         forall x', delivered x x' -> exists r', returns (request_elicit strict peer e) x' (Ret r') /\ same_elicited r r'.
Proof. intros a mid q c f e strict peer A K. destruct (elicit_round a mid q c f e strict peer A K) as (e' & E & G & _). exists e'. now split. Qed.
Print Assumptions C105_roundtrip_partial.

(** If the handler throws, the client says so but the caller gets an empty action and no error. *)
Theorem C105_error_refuted : forall a mid q c f e strict peer, ap_elicit a = Some f -> carried (request_elicit strict peer e) q ->
  exists e', same_elicit e e' /\ forall what, f e' = Threw what ->
       exists x, peer_dispatch a mid q c = (Reply x, c) /\ fails x (-32603) what /\
         forall x', delivered x x' -> returns (request_elicit strict peer e) x' (Ret {| ed_action := []; ed_content := None; ed_id := None |}).
Proof. intros a mid q c f e strict peer A K. destruct (elicit_round a mid q c f e strict peer A K) as (e' & E & _ & G & _). exists e'. now split. Qed.
Print Assumptions C105_error_refuted.

(** The same when a strict client finds that the handler's action is none of the three. *)
Theorem C105_improper_refuted : forall a mid q c f e strict peer, ap_elicit a = Some f -> carried (request_elicit strict peer e) q ->
  exists e', same_elicit e e' /\ forall r, f e' = Ret r -> cl_strict c = true -> ~ proper r ->
       exists x, peer_dispatch a mid q c = (Reply x, c) /\ fails x (-32603) (bs "Invalid elicitation result shape") /\
         forall x', delivered x x' -> returns (request_elicit strict peer e) x' (Ret {| ed_action := []; ed_content := None; ed_id := None |}).
Proof. intros a mid q c f e strict peer A K. destruct (elicit_round a mid q c f e strict peer A K) as (e' & E & _ & _ & G). exists e'. now split. Qed.
Print Assumptions C105_improper_refuted.

Example C105_ex : carried (request_elicit true demo_ccaps demo_elicit) (q_of (request_elicit true demo_ccaps demo_elicit)) /\
  exists r x, peer_dispatch demo_app false (q_of (request_elicit true demo_ccaps demo_elicit)) demo_client = (Reply r, demo_client) /\
    elicit_reply true r = Ret x /\ ed_action x = bs "accept" /\ ed_id x = Some (bs "e1").
Proof.
  split; [eexists _, _, _; split; [reflexivity|]; split; [reflexivity|]; constructor; apply same_refl|].
  eexists _, _. split; [vm_compute; reflexivity|]. split; [vm_compute; reflexivity|]. split; reflexivity.
Qed.

(** C106. What the client's sampling handler is given is the server's messages, model preferences,
    system prompt and context; what the caller gets is the handler's value or its error. *)
Theorem C106_roundtrip_partial : forall a q c f s, the_sampler a = Some f -> carried (request_message s) q -> params_ok c q ->
  exists m p y x, given s m p y x /\
    (forall v, f m p y x = Ret v -> (cl_strict c = true -> CreateMessageResult v) ->
       exists r, peer_dispatch a false q c = (Reply r, c) /\
         forall r', delivered r r' -> exists v', returns (request_message s) r' (Ret v') /\ same v v') /\
    (forall what, f m p y x = Threw what ->
       exists r, peer_dispatch a false q c = (Reply r, c) /\ fails r (-32603) what /\
         forall r', delivered r r' -> exists v' e, returns (request_message s) r' (Ret v') /\ read_error v' = Some e /\ er_code e = (-32603)%Z /\ er_message e = what).
Proof. exact sample_round. Qed.
Print Assumptions C106_roundtrip_partial.

(** A request cancelled while the handler runs is answered with an error, not with the value. *)
Theorem C106_cancelled : forall a q c f s, the_sampler a = Some f -> carried (request_message s) q -> params_ok c q ->
  exists r n, peer_dispatch a true q c = (Reply r, c) /\ fails r (-32603) n /\
    ((forall m p y x what, f m p y x <> Threw what) -> n = bs "Cancelled").
Proof. exact sample_cancelled. Qed.
Print Assumptions C106_cancelled.

(** The limit on tokens, the temperature, the stop sequences and the metadata are sent, but no
    handler can depend on them. *)
Theorem C106_dropped_refuted : forall a mid c i s s',
  sm_messages s' = sm_messages s -> sm_prefs s' = sm_prefs s -> sm_system s' = sm_system s -> sm_context s' = sm_context s ->
  peer_dispatch a mid {| rq_id := i; rq_method := bs "sampling/createMessage"; rq_params := Some (message_params s' None) |} c =
  peer_dispatch a mid {| rq_id := i; rq_method := bs "sampling/createMessage"; rq_params := Some (message_params s None) |} c.
Proof. exact sample_drops. Qed.
Print Assumptions C106_dropped_refuted.

Example C106_ex : carried (request_message demo_sampling) (q_of (request_message demo_sampling)) /\ params_ok demo_client (q_of (request_message demo_sampling)) /\
  exists r o, peer_dispatch demo_app false (q_of (request_message demo_sampling)) demo_client = (Reply r, demo_client) /\ value_or_error r = JObj o /\
    obj_get (bs "seen") o = Some (JArr (sm_messages demo_sampling)).
Proof.
  split; [eexists _, _, _; split; [reflexivity|]; split; [reflexivity|]; constructor; apply same_refl|].
  split; [intros _; apply create_params_iff; vm_compute; reflexivity|].
  eexists _, _. split; [vm_compute; reflexivity|]. split; vm_compute; reflexivity.
Qed.

(** C107. A request made as a task is answered at once with a new task, and the handler's work is
    the worker's. *)
Theorem C107_elicit : forall strict caps h a mid q e ttl s peer f, let c := peer_run (client0 strict caps) h in
  few_requests (h ++ [PAsk a mid q]) -> ap_elicit a = Some f -> has_task_elicit caps -> carried (request_elicit_task s peer e ttl) q ->
  exists r e' t, same_elicit e e' /\ peer_dispatch a mid q c = (Reply r, peer_step c (PAsk a mid q)) /\ starts_task ttl (WElicit e') c t (peer_step c (PAsk a mid q)) /\
    forall r', delivered r r' -> returns (request_elicit_task s peer e ttl) r' (Ret (t, None)).
Proof.
  intros strict caps h a mid q e ttl s peer f c F A C. apply (elicit_started strict caps h a mid q e ttl s peer f); try assumption.
  apply can_elicit_iff. now rewrite (proj2 (run_fixed strict caps h)).
Qed.
Print Assumptions C107_elicit.
Theorem C107_sample : forall strict caps h a mid q p ttl s peer f, let c := peer_run (client0 strict caps) h in
  few_requests (h ++ [PAsk a mid q]) -> the_sampler a = Some f -> has_task_sampling caps -> params_ok c q -> carried (request_message_task s peer p ttl) q ->
  exists r m p' y x t, given p m p' y x /\ peer_dispatch a mid q c = (Reply r, peer_step c (PAsk a mid q)) /\
    starts_task ttl (WSample m p' y x) c t (peer_step c (PAsk a mid q)) /\
    forall r', delivered r r' -> returns (request_message_task s peer p ttl) r' (Ret (t, None)).
Proof.
  intros strict caps h a mid q p ttl s peer f c F A C. apply (sample_started strict caps h a mid q p ttl s peer f); try assumption.
  apply can_sample_iff. now rewrite (proj2 (run_fixed strict caps h)).
Qed.
Print Assumptions C107_sample.

(** In every history each task has one worker, which runs at most once; the task has an outcome if
    the worker is done, and the outcome is the worker's or that of a cancellation. *)
Theorem C107_outcome : forall strict caps h, few_requests h -> let c := peer_run (client0 strict caps) h in
  Permutation (map fst (cl_workers c) ++ map (fun x => fst (fst x)) (cl_ran c)) (ids (cl_tasks c)) /\ NoDup (ids (cl_tasks c)) /\
  (forall i w t, In (i, w, t) (cl_ran c) -> TaskSpec.outcome i (cl_tasks c) <> None /\ exists a, t = peer_worker a strict i w) /\
  (forall i x, TaskSpec.outcome i (cl_tasks c) = Some x ->
     (exists w t, In (i, w, t) (cl_ran c) /\ x = (at_error t, at_payload t)) \/
     (x = (true, error_object (-32603) (bs "Cancelled") None) /\ exists e, In e h /\ cancels_task i e)).
Proof.
  intros strict caps h F c. destruct (pinv_run strict caps h F) as (vs & Fv & I). fold c in I. split; [exact (pi_ids _ _ _ _ _ I)|]. split; [|split].
  - rewrite (pi_tasks _ _ _ _ _ I). now apply ids_unique.
  - intros i w t R. split; [exact (pi_ran _ _ _ _ _ I i w t R)|exact (pi_work _ _ _ _ _ I i w t R)].
  - exact (pi_won _ _ _ _ _ I).
Qed.
Print Assumptions C107_outcome.

(** The tasks of a client are those of a task store, so what C22 to C25 and C67 say holds of them. *)
Theorem C107_store : forall strict caps h, few_requests h -> exists vs, few vs /\ cl_tasks (peer_run (client0 strict caps) h) = ts_run tstore0 vs.
Proof. intros strict caps h F. destruct (pinv_run strict caps h F) as (vs & Fv & I). exists vs. split; [exact Fv|exact (pi_tasks _ _ _ _ _ I)]. Qed.
Print Assumptions C107_store.

(** The result of a task, asked for at any time after its worker is done, is what its handler
    returned, marked with the task. *)
Theorem C107_elicit_result : forall strict caps h1 a n h2 i e f r q a' mid, few_requests (h1 ++ PWork a n :: h2) ->
  nth_error (cl_workers (peer_run (client0 strict caps) h1)) n = Some (i, WElicit e) ->
  (forall ev, In ev h1 -> ~ cancels_task i ev) ->
  ap_elicit a = Some f -> f e = Ret r -> (strict = true -> proper r) ->
  let c := peer_run (client0 strict caps) (h1 ++ PWork a n :: h2) in
  has_tasks caps -> requests q (bs "tasks/result") (JObj [(bs "taskId", JStr i)]) ->
  exists x o, peer_dispatch a' mid q c = (Reply x, c) /\ succeeds x (JObj o) /\ tells_elicited o r /\ related_to i (obj_get (bs "_meta") o).
Proof.
  intros strict caps h1 a n h2 i e f r q a' mid. intros F N NC A R V c C. apply (elicit_ends strict caps h1 a n h2 i e f); try assumption.
  apply can_task_iff. now rewrite (proj2 (run_fixed strict caps _)).
Qed.
Print Assumptions C107_elicit_result.
Theorem C107_sample_result : forall strict caps h1 a n h2 i m p y z f o q a' mid, few_requests (h1 ++ PWork a n :: h2) ->
  nth_error (cl_workers (peer_run (client0 strict caps) h1)) n = Some (i, WSample m p y z) ->
  (forall ev, In ev h1 -> ~ cancels_task i ev) ->
  the_sampler a = Some f -> f m p y z = Ret (JObj o) -> (strict = true -> CreateMessageResult (JObj o)) ->
  let c := peer_run (client0 strict caps) (h1 ++ PWork a n :: h2) in
  has_tasks caps -> requests q (bs "tasks/result") (JObj [(bs "taskId", JStr i)]) ->
  exists x o', peer_dispatch a' mid q c = (Reply x, c) /\ succeeds x (JObj o') /\
    (forall k, k <> bs "_meta" -> obj_get k o' = obj_get k o) /\ related_to i (obj_get (bs "_meta") o').
Proof.
  intros strict caps h1 a n h2 i m p y z f o q a' mid. intros F N NC A R V c C. apply (sample_ends strict caps h1 a n h2 i m p y z f); try assumption.
  apply can_task_iff. now rewrite (proj2 (run_fixed strict caps _)).
Qed.
Print Assumptions C107_sample_result.
Theorem C107_threw : forall strict caps h1 a n h2 i w what q a' mid, few_requests (h1 ++ PWork a n :: h2) ->
  nth_error (cl_workers (peer_run (client0 strict caps) h1)) n = Some (i, w) ->
  (forall ev, In ev h1 -> ~ cancels_task i ev) -> work_threw a w what ->
  let c := peer_run (client0 strict caps) (h1 ++ PWork a n :: h2) in
  has_tasks caps -> requests q (bs "tasks/result") (JObj [(bs "taskId", JStr i)]) ->
  exists x o, peer_dispatch a' mid q c = (Reply x, c) /\ fails x (-32603) what /\
    rs_error x = Some (JObj o) /\ exists d, obj_get (bs "data") o = Some (JObj d) /\ related_to i (obj_get (bs "_meta") d).
Proof.
  intros strict caps h1 a n h2 i w what q a' mid. intros F N NC T c C. apply (threw_ends strict caps h1 a n h2 i w); try assumption.
  apply can_task_iff. now rewrite (proj2 (run_fixed strict caps _)).
Qed.
Print Assumptions C107_threw.

(** And the task itself then has ended: completed if the handler returned a proper value, failed with
    the handler's message if it threw. *)
Theorem C107_status : forall strict caps h1 a n h2 i w, few_requests (h1 ++ PWork a n :: h2) ->
  nth_error (cl_workers (peer_run (client0 strict caps) h1)) n = Some (i, w) ->
  (forall ev, In ev h1 -> ~ cancels_task i ev) ->
  let c := peer_run (client0 strict caps) (h1 ++ PWork a n :: h2) in
  exists t, ts_get i (cl_tasks c) = Some t /\
    (forall what, work_threw a w what -> tk_status t = bs "failed" /\ tk_message t = Some what) /\
    (work_gave strict a w -> tk_status t = bs "completed" /\ tk_message t = None).
Proof. exact status_ends. Qed.
Print Assumptions C107_status.

(** A cancellation that comes first wins, whatever the worker does later. *)
Theorem C107_cancelled : forall strict caps h1 a mid q h2 i q' a' mid',
  let c1 := peer_run (client0 strict caps) h1 in
  let c := peer_run (client0 strict caps) (h1 ++ PAsk a mid q :: h2) in
  few_requests (h1 ++ PAsk a mid q :: h2) -> unfinished i (cl_tasks c1) -> has_task_cancel caps ->
  requests q (bs "tasks/cancel") (JObj [(bs "taskId", JStr i)]) ->
  (exists r t, peer_dispatch a mid q c1 = (Reply r, snd (peer_dispatch a mid q c1)) /\ succeeds r (task_json t) /\ tk_id t = i /\ tk_status t = bs "cancelled") /\
  (requests q' (bs "tasks/result") (JObj [(bs "taskId", JStr i)]) ->
   exists x o, peer_dispatch a' mid' q' c = (Reply x, c) /\ fails x (-32603) (bs "Cancelled") /\
     rs_error x = Some (JObj o) /\ exists d, obj_get (bs "data") o = Some (JObj d) /\ related_to i (obj_get (bs "_meta") d)).
Proof.
  intros strict caps h1 a mid q h2 i q' a' mid' c1 c F U C Q. destruct (cancel_wins strict caps h1 a mid q h2 i q' a' mid' F U) as [W1 W2]; [|exact Q|].
  - apply can_cancel_iff. now rewrite (proj2 (run_fixed strict caps h1)).
  - split; [exact W1|]. apply W2. apply can_task_iff. rewrite (proj2 (run_fixed strict caps _)). destruct C as (l & m & e & C). unfold has_tasks. now rewrite C.
Qed.
Print Assumptions C107_cancelled.

(** A task that is over, or that never was, cannot be cancelled: the answer says so, and no task changes. *)
Theorem C107_not_cancellable : forall strict caps h a mid q i, let c := peer_run (client0 strict caps) h in
  few_requests h -> ~ unfinished i (cl_tasks c) -> has_task_cancel caps -> requests q (bs "tasks/cancel") (JObj [(bs "taskId", JStr i)]) ->
  exists r, fst (peer_dispatch a mid q c) = Reply r /\ fails r (-32602) (bs "Task is not cancellable") /\
    forall j, ts_get j (cl_tasks (snd (peer_dispatch a mid q c))) = ts_get j (cl_tasks c) /\
              TaskSpec.outcome j (cl_tasks (snd (peer_dispatch a mid q c))) = TaskSpec.outcome j (cl_tasks c).
Proof.
  intros strict caps h a mid q i c F U C Q. apply (cancel_loses strict caps h a mid q i F U); [|exact Q].
  apply can_cancel_iff. now rewrite (proj2 (run_fixed strict caps h)).
Qed.
Print Assumptions C107_not_cancellable.

Definition demo_start : pev := PAsk demo_app false (q_of (request_elicit_task true demo_ccaps demo_elicit (Some 60%Z))).
Definition demo_cancel : request := {| rq_id := IdInt 4; rq_method := bs "tasks/cancel"; rq_params := Some (JObj [(bs "taskId", JStr (bs "task-1"))]) |}.
Example C107_ex : carried (request_elicit_task true demo_ccaps demo_elicit (Some 60%Z)) (q_of (request_elicit_task true demo_ccaps demo_elicit (Some 60%Z))) /\
  nth_error (cl_workers (peer_run demo_client [demo_start])) 0 = Some (bs "task-1", WElicit demo_elicit) /\
  few_requests [demo_start; PWork demo_app 0] /\ (forall ev, In ev [demo_start] -> ~ cancels_task (bs "task-1") ev) /\
  has_tasks (cl_caps demo_client) /\ has_task_elicit (cl_caps demo_client) /\ has_task_cancel (cl_caps demo_client) /\
  option_map fst (TaskSpec.outcome (bs "task-1") (cl_tasks (peer_run demo_client [demo_start; PWork demo_app 0]))) = Some false /\
  unfinished (bs "task-1") (cl_tasks (peer_run demo_client [demo_start])) /\
  option_map fst (TaskSpec.outcome (bs "task-1") (cl_tasks (peer_run demo_client [demo_start; PAsk demo_app false demo_cancel; PWork demo_app 0]))) = Some true.
Proof.
  split; [eexists _, _, _; split; [reflexivity|]; split; [reflexivity|]; constructor; apply same_refl|].
  split; [vm_compute; reflexivity|]. split; [vm_compute; reflexivity|]. split.
  - intros ev [<-|[]] (a & mid & q & o & E & M & _). injection E as _ _ <-. discriminate M.
  - split; [discriminate|]. split; [repeat eexists|]. split; [repeat eexists|]. split; [vm_compute; reflexivity|].
    split; [split; vm_compute; [discriminate|reflexivity]|vm_compute; reflexivity].
Qed.

(** C108. A progress notification that a server sends reaches the client's progress handler with
    the same token, value and message; in strict mode, if the token is not empty and the value is
    between 0 and 1, and not otherwise. *)
Theorem C108_progress_partial : forall t p m n strict ea, arrives (progress_note t p m) n -> ea_progress ea = true -> dbl_canonical p ->
  ((strict = true -> t <> [] /\ between_0_and_1 p) -> ef_call (peer_notice strict ea n) = Some (HProgress t p m)) /\
  (strict = true -> t = [] \/ ~ between_0_and_1 p -> peer_notice strict ea n = silent).
Proof.
  intros t p m n strict ea A E C. rewrite (progress_arrives _ _ _ _ strict ea A E). cbn [ef_call]. pose proof (unit_iff p C) as U. split.
  - intros H. destruct strict; [|reflexivity]. destruct (H eq_refl) as [H1 H2]. rewrite (proj2 U H2). destruct t; [easy|reflexivity].
  - intros -> H. assert (negb match t with [] => true | _ :: _ => false end && unit_range p = false)%bool as ->; [|reflexivity].
    destruct H as [-> |H]; [reflexivity|]. destruct (unit_range p); [now contradiction H; apply U|]. now rewrite andb_false_r.
Qed.
Print Assumptions C108_progress_partial.

(** Progress that another server writes as an integer is read as 0, and an integer token as the empty
    one, which a strict client then drops. *)
Theorem C108_integer_refuted : exists n ea o, nt_method n = bs "notifications/progress" /\ nt_params n = Some (JObj o) /\
  obj_get (bs "progress") o = Some (JInt 1) /\ obj_get (bs "progressToken") o = Some (JInt 7) /\
  ef_call (peer_notice false ea n) = Some (HProgress [] (DZero false) (bs "done")) /\ ef_call (peer_notice true ea n) = None.
Proof.
  exists {| nt_method := bs "notifications/progress"; nt_params := Some (JObj [(bs "progressToken", JInt 7); (bs "progress", JInt 1); (bs "message", JStr (bs "done"))]) |}.
  exists {| ea_progress := true; ea_status := false; ea_other := [] |}. eexists. repeat split.
Qed.
Print Assumptions C108_integer_refuted.

(** The token a server's handler sees is the client's text, or its number as text: sent back, it is
    no longer a number. *)
Theorem C108_token : forall o m s, obj_get (bs "_meta") o = Some (JObj m) -> obj_get (bs "progressToken") m = Some (JStr s) -> s <> [] ->
  progress_token (Some (JObj o)) = Some s.
Proof. intros o m [|c s] M T N; [easy|]. unfold progress_token. now rewrite M, T. Qed.
Print Assumptions C108_token.
(** Without a token, or with an empty one, the handler sees none. *)
Theorem C108_no_token : forall params, (forall o m v, params = Some (JObj o) -> obj_get (bs "_meta") o = Some (JObj m) ->
    obj_get (bs "progressToken") m = Some v -> v = JStr [] \/ (forall s, v <> JStr s) /\ (forall z, v <> JInt z)) ->
  progress_token params = None.
Proof.
  intros [[| | | | | |o]|] H; try reflexivity. unfold progress_token. destruct (obj_get (bs "_meta") o) as [[| | | | | |m]|] eqn:M; try reflexivity.
  destruct (obj_get (bs "progressToken") m) as [v|] eqn:T; [|reflexivity]. destruct (H o m v eq_refl M T) as [-> |[A B]]; [reflexivity|].
  destruct v; try reflexivity; [now contradiction (B z)|now contradiction (A s)].
Qed.
Print Assumptions C108_no_token.
Theorem C108_token_refuted : forall o m z p text, obj_get (bs "_meta") o = Some (JObj m) -> obj_get (bs "progressToken") m = Some (JInt z) ->
  exists t b, progress_token (Some (JObj o)) = Some t /\ nt_params (progress_note t p text) = Some (JObj b) /\ obj_get (bs "progressToken") b = Some (JStr (print_Z z)).
Proof. intros o m z p text M T. exists (print_Z z). eexists. split; [unfold progress_token; now rewrite M, T|]. split; reflexivity. Qed.
Print Assumptions C108_token_refuted.

Example C108_ex : arrives (progress_note (bs "t") (DFin false 1 (-1)) (bs "half")) (progress_note (bs "t") (DFin false 1 (-1)) (bs "half")) /\
  between_0_and_1 (DFin false 1 (-1)) /\ ~ between_0_and_1 (DFin false 3 (-1)) /\ dbl_canonical (DFin false 4503599627370496 (-53)).
Proof.
  split; [split; [reflexivity|constructor; apply same_refl]|]. split; [vm_compute; discriminate|].
  split; [vm_compute; intros H; now apply H|]. split; [split; vm_compute; discriminate|]. split; [vm_compute; reflexivity|left; vm_compute; discriminate].
Qed.

(** C109. The status notification of a task brings the application the same task, in strict mode too. *)
Theorem C109_status : forall t n strict ea, arrives (status_note t) n -> ea_status ea = true ->
  peer_notice strict ea n = {| ef_call := Some (HStatus t); ef_cancel := None; ef_lists := None |}.
Proof. exact status_arrives. Qed.
Print Assumptions C109_status.
Example C109_ex : exists t, arrives (status_note t) (status_note t) /\ tk_status t = bs "completed" /\
  ef_call (peer_notice true {| ea_progress := false; ea_status := true; ea_other := [] |} (status_note t)) = Some (HStatus t).
Proof.
  exists {| tk_id := bs "task-1"; tk_status := bs "completed"; tk_message := Some (bs "ok"); tk_created := bs "a"; tk_updated := bs "b"; tk_ttl := Some 5%Z; tk_poll := None |}.
  split; [split; [reflexivity|constructor; apply same_refl]|]. split; [reflexivity|vm_compute; reflexivity].
Qed.

(** C110. A notification goes to the handler registered for its method, with its parameters, and to no
    other; its method is then looked at for cached lists. Cancellations, and the progress and task
    notifications that have handlers of their own, are apart. *)
Theorem C110_routed_partial : forall strict ea n, nt_method n <> bs "notifications/cancelled" ->
  (nt_method n = bs "notifications/progress" -> ea_progress ea = false \/ nt_params n = None) ->
  (nt_method n = bs "notifications/tasks/status" -> ea_status ea = false \/ nt_params n = None) ->
  ef_cancel (peer_notice strict ea n) = None /\ ef_lists (peer_notice strict ea n) = Some (nt_method n) /\
  (In (nt_method n) (ea_other ea) -> ef_call (peer_notice strict ea n) = Some (HOther (nt_method n) (or_null (nt_params n)))) /\
  (~ In (nt_method n) (ea_other ea) -> ef_call (peer_notice strict ea n) = None).
Proof. exact other_notice. Qed.
Print Assumptions C110_routed_partial.

(** A cancellation reaches no handler, and cancels the request it names by text or by number. *)
Theorem C110_cancelled : forall strict ea n, nt_method n = bs "notifications/cancelled" ->
  ef_call (peer_notice strict ea n) = None /\ ef_lists (peer_notice strict ea n) = None /\
  forall i, ef_cancel (peer_notice strict ea n) = Some i <->
    i <> [] /\ exists o, nt_params n = Some (JObj o) /\ (obj_get (bs "id") o = Some (JStr i) \/ exists z, obj_get (bs "id") o = Some (JInt z) /\ i = print_Z z).
Proof. exact cancelled_notice. Qed.
Print Assumptions C110_cancelled.

(** The specification names the request in requestId, which this client does not read; and a handler
    registered for the method of cancellations or of progress is not called. *)
Theorem C110_refuted : exists strict ea n, In (nt_method n) (ea_other ea) /\ nt_method n = bs "notifications/cancelled" /\
  nt_params n = Some (JObj [(bs "requestId", JInt 3)]) /\ peer_notice strict ea n = silent.
Proof.
  exists true, {| ea_progress := true; ea_status := true; ea_other := [bs "notifications/cancelled"] |}.
  exists {| nt_method := bs "notifications/cancelled"; nt_params := Some (JObj [(bs "requestId", JInt 3)]) |}. split; [now left|]. repeat split.
Qed.
Print Assumptions C110_refuted.
Example C110_ex : ef_call (peer_notice true {| ea_progress := false; ea_status := true; ea_other := [bs "notifications/message"] |}
    {| nt_method := bs "notifications/message"; nt_params := Some (JInt 1) |}) = Some (HOther (bs "notifications/message") (JInt 1)) /\
  ef_cancel (peer_notice true {| ea_progress := false; ea_status := true; ea_other := [] |}
    {| nt_method := bs "notifications/cancelled"; nt_params := Some (JObj [(bs "id", JInt 12)]) |}) = Some (bs "12").
Proof. split; vm_compute; reflexivity. Qed.
