(** Theorems about following tasks kept by the peer, and about the server's calls on itself. *)
From Coq Require Import Ascii String List Permutation Arith NArith ZArith Bool Lia.
From Verif Require Import StrModel StrProofs DoubleModel JsonModel JsonSpec JsonProofs ObjSpec ObjProofs MapModel MapProofs RpcModel TaskModel TaskSpec TaskProofs DescModel DescSpec DescProofs RegModel RegSpec TmplModel ValModel ValSpec ValProofs ReadModel SubModel LogModel ErrModel ErrSpec CancelModel ServModel ServSpec ServProofs CallProofs CallTaskProofs ServProps PeerModel PeerSpec PeerProofs PeerProps TrackModel TrackSpec TrackProofs.
Import ListNotations.
Local Open Scope nat_scope.

(** C115. GetTask gives the task as the peer keeps it, or throws; nothing changes there. *)
Theorem C115_get : forall strict x i, may_ask x ->
  gives (call_get strict i) x (match ts_get i (kept x) with Some t => Ret t | None => Threw (bs "Unknown task") end) (kept x).
Proof. exact gives_get. Qed.
Print Assumptions C115_get.

(** ListTasks gives every task the peer has, in the order of creation, each as it stands. *)
Theorem C115_list : forall strict x vs, few vs -> kept x = ts_run tstore0 vs -> may_list x ->
  exists l, gives (call_tasks strict) x (Ret l) (kept x) /\ map tk_id l = ids (kept x) /\ forall t, In t l -> ts_get (tk_id t) (kept x) = Some t.
Proof. exact gives_tasks. Qed.
Print Assumptions C115_list.

(** Page by page, while tasks are created and end in between, the caller gets each task once, in
    the order of creation. *)
Theorem C115_pages : forall strict n vs pages us, fetched strict n vs None pages us -> (0 < n < 2 ^ 63)%Z -> (N.of_nat (creations us) < 2 ^ 63)%N ->
  map tk_id (concat pages) = ids (ts_run tstore0 us) /\ Forall (fun page => (Z.of_nat (length page) <= n)%Z) pages.
Proof. exact fetched_all. Qed.
Print Assumptions C115_pages.
Theorem C115_pages_end : forall strict n x vs, (0 < n < 2 ^ 63)%Z -> (N.of_nat (creations vs) < 2 ^ 63)%N -> kept x = ts_run tstore0 vs -> may_list x ->
  exists pages, fetched strict n vs None pages vs.
Proof. exact fetch_ends. Qed.
Print Assumptions C115_pages_end.

(** CancelTask of an unfinished task gives the cancelled task; its result is then an error; no
    other task changes. *)
Theorem C115_cancel : forall strict x vs i, few vs -> kept x = ts_run tstore0 vs -> may_cancel x -> unfinished i (kept x) ->
  exists t ts, gives (call_cancel strict i) x (Ret t) ts /\
    tk_id t = i /\ tk_status t = bs "cancelled" /\ ts_get i ts = Some t /\
    TaskSpec.outcome i ts = Some (true, JObj [(bs "code", JInt (-32603)); (bs "message", JStr (bs "Cancelled"))]) /\
    forall j, j <> i -> ts_get j ts = ts_get j (kept x) /\ TaskSpec.outcome j ts = TaskSpec.outcome j (kept x).
Proof. exact cancel_unfinished. Qed.
Print Assumptions C115_cancel.
(** Of a finished or unknown one it throws, and no task changes. *)
Theorem C115_cancel_late : forall strict x vs i, few vs -> kept x = ts_run tstore0 vs -> may_cancel x -> ~ unfinished i (kept x) ->
  exists ts, gives (call_cancel strict i) x (Threw (bs "Task is not cancellable")) ts /\ same_tasks (kept x) ts.
Proof. exact cancel_finished. Qed.
Print Assumptions C115_cancel_late.

(** Calls the peer does not support throw and change nothing. *)


Theorem C115_unsupported : forall strict x,
  (~ may_ask x -> forall i, gives (call_get strict i) x (Threw (bs "Tasks not supported")) (kept x)) /\
  (~ may_list x -> forall c n, gives (call_list strict c n) x (Threw (bs "Task listing not supported")) (kept x)) /\
  (~ may_cancel x -> forall i, gives (call_cancel strict i) x (Threw (bs "Task cancellation not supported")) (kept x)).
Proof.
  intros strict x. split; [|split]; intros H *; [now apply unknown_get|now apply unknown_list|now apply unknown_cancel].
Qed.
Print Assumptions C115_unsupported.

(** C115. In strict mode an answer that is not of the shape in the schema makes the call throw; one that is, does not. *)
Theorem C115_strict : forall i c n r v, rs_error r = None -> rs_result r = Some v ->
  (TaskShape v -> returns (call_get true i) r (Ret (parse_task v)) /\ returns (call_cancel true i) r (Ret (parse_task v))) /\
  (~ TaskShape v -> returns (call_get true i) r (Threw (bs "Validation failed: tasks/get result shape")) /\
                    returns (call_cancel true i) r (Threw (bs "Validation failed: tasks/cancel result shape"))) /\
  (ListTasksResult v -> returns (call_list true c n) r (Ret (parse_tasks v)) /\ returns (call_tasks true) r (Ret (fst (parse_tasks v)))) /\
  (~ ListTasksResult v -> returns (call_list true c n) r (Threw (bs "Validation failed: tasks/list result shape")) /\
                          returns (call_tasks true) r (Threw (bs "Validation failed: tasks/list result shape"))).
Proof.
  intros i c n r v E R. unfold call_get, call_cancel, call_list, call_tasks, map_call, returns.
  split; [|split; [|split]]; intro G; split; do 3 eexists; (split; [reflexivity|]); unfold call_list, map_call.
  all: try (apply (expect_strict _ _ TaskShape _ _ _ _ _ task_iff E R); exact G).
  all: try (apply (expect_strict _ _ ListTasksResult _ _ _ _ _ tasks_iff E R); exact G).
  all: destruct (expect_strict _ _ ListTasksResult parse_tasks (bs "tasks/list failed") (bs "Validation failed: tasks/list result shape") _ _ tasks_iff E R) as (X & Y & _).
  - now rewrite (X G).
  - now rewrite (Y G).
Qed.
Print Assumptions C115_strict.

Definition two_tasks : list tev := [TCreate KToolCall None (bs "t0"); TCreate KToolCall (Some 60%Z) (bs "t1")].
Definition at_server : side := AtServer demo_world false false false (set_tasks (ts_run tstore0 two_tasks) demo_server).
Definition at_client : side := AtClient demo_app false (peer_run demo_client [demo_start]).
Definition at_bare : side := AtClient demo_app false (client0 false {| cc_roots := None; cc_sampling := false; cc_elicit := None; cc_tasks := None; cc_exp := []; cc_ext := [] |}).
Example C115_ex : few two_tasks /\ kept at_server = ts_run tstore0 two_tasks /\ may_ask at_client /\ may_list at_client /\ may_cancel at_client /\ may_cancel at_server /\
  unfinished (bs "task-2") (kept at_server) /\ unfinished (bs "task-1") (kept at_client) /\ ids (kept at_server) = [bs "task-1"; bs "task-2"] /\
  ~ unfinished (bs "task-9") (kept at_server) /\ ~ may_ask at_bare /\ ~ may_list at_bare /\ ~ may_cancel at_bare.
Proof.
  split; [vm_compute; reflexivity|]. split; [reflexivity|]. split; [discriminate|]. split; [repeat eexists|]. split; [repeat eexists|]. split; [repeat eexists|].
  split; [split; vm_compute; [discriminate|reflexivity]|]. split; [split; vm_compute; [discriminate|reflexivity]|]. split; [vm_compute; reflexivity|].
  split; [intros [H _]; apply H; vm_compute; reflexivity|]. split; [intro H; now apply H|]. split; intros (? & ? & ? & H); discriminate H.
Qed.

(** C116. GetTaskResult of a task that ended well gives its result, marked with the task; a strict
    caller who remembers what the task was for takes it if it has the right shape. *)
Theorem C116_result : forall strict m x i o k, may_ask x -> TaskSpec.outcome i (kept x) = Some (false, JObj o) -> ts_kind i (kept x) = Some k ->
  ok (JObj o) -> keeps_kind x k ->
  aget i m = None \/ aget i m = Some k -> (strict = true \/ strict_side x = true -> kind_result k (JObj o)) ->
  gives_such (call_result strict m i) x (marked i o) (kept x).
Proof. exact gives_result. Qed.
Print Assumptions C116_result.

(** Of a task that failed or was cancelled, the error object, as a value; of one the peer does not
    have, too. While the task is unfinished the call waits. *)
Theorem C116_failure : forall strict m x i c s k, may_ask x ->
  TaskSpec.outcome i (kept x) = Some (true, JObj [(bs "code", JInt c); (bs "message", JStr s)]) -> ts_kind i (kept x) = Some k -> (- 2 ^ 63 <= c < 2 ^ 63)%Z ->
  gives_such (call_result strict m i) x (marked_error i c s) (kept x).
Proof. intros strict m x i c s k H1 H2 H3 H4. apply (gives_failure strict m x i c s k H1 H2 H3). unfold int64. exact H4. Qed.
Print Assumptions C116_failure.
Theorem C116_unknown : forall strict m x i, may_ask x -> ts_get i (kept x) = None ->
  gives_such (call_result strict m i) x (fun v => exists o, v = JObj o /\ obj_get (bs "code") o = Some (JInt (-32602)) /\ obj_get (bs "message") o = Some (JStr (bs "Unknown task"))) (kept x).
Proof. exact gives_unknown. Qed.
Print Assumptions C116_unknown.
Theorem C116_waits : forall strict m x i q, may_ask x -> unfinished i (kept x) -> carried (call_result strict m i) q -> handles x q = (Waits i, kept x).
Proof. exact gives_wait. Qed.
Print Assumptions C116_waits.

(** CallToolTask gives a new task of the server. *)
Theorem C116_tool : forall strict ops w pre mid s n a ttl t h vs, n <> [] -> sv_reg s = reg_run ops -> tool_now n (rev ops) = Some (t, Some h) ->
  ~ supports t Forbidden -> few (vs ++ [TCreate KToolCall ttl (w_now w)]) -> sv_tasks s = ts_run tstore0 vs ->
  exists k ts, gives (call_tool_task strict n a ttl) (AtServer w pre mid false s) (Ret (k, None)) ts /\
    ts = ts_run tstore0 (vs ++ [TCreate KToolCall ttl (w_now w)]) /\ ts_get (tk_id k) ts = Some k /\ ts_get (tk_id k) (sv_tasks s) = None /\
    tk_status k = bs "working" /\ tk_ttl k = ttl /\ k = new_task (ts_next (sv_tasks s)) (w_now w) ttl.
Proof.
  intros strict ops w pre mid s n a ttl t h vs N R H S F T. eexists _, _. split; [exact (tool_started strict ops w pre mid s n a ttl t h vs N R H S T)|]. split; [reflexivity|].
  assert (sinv (creations vs) (ts_run tstore0 vs)) as I by (apply sinv_run; eapply few_app; exact F).
  split; [rewrite ts_run_app, <- T; unfold ts_get; cbn; rewrite aget_aset_same; reflexivity|]. split; [|now repeat split].
  rewrite T. destruct (ts_get _ _) eqn:E; [|reflexivity]. exfalso.
  assert (In (tk_id (new_task (ts_next (sv_tasks s)) (w_now w) ttl)) (ids (ts_run tstore0 vs))) as J by (apply (known_id _ _ _ I); rewrite T, E; discriminate).
  rewrite (si_ids _ _ I), (si_order _ _ I) in J. apply in_map_iff in J as (j & J1 & J2). apply in_seq in J2. cbn [new_task tk_id] in J1. apply task_name_inj in J1.
  unfold few in F. rewrite creations_snoc in F. rewrite T, (si_next _ _ I) in J1 by lia. rewrite N.mod_small in J1 by (change two64 with (2 ^ 64)%N; lia). lia.
Qed.
Print Assumptions C116_tool.
(** Later the caller gets what the tool's handler returned, in any history in which nobody else
    ended the task. *)
Theorem C116_tool_result : forall strict m w pre mid post s vs ttl now us now' ws out,
  let i := tk_id (new_task (ts_next (ts_run tstore0 vs)) now ttl) in
  let a := tool_worker (sv_strict s) i now' (Ret out) in
  few (vs ++ TCreate KToolCall ttl now :: us ++ TTerminal a :: ws) -> untouched i (vs ++ us) ->
  sv_tasks s = ts_run tstore0 (vs ++ TCreate KToolCall ttl now :: us ++ TTerminal a :: ws) ->
  (strict = true \/ sv_strict s = true -> Forall Content (to_content out)) ->
  Forall ok (to_content out) -> (forall v, to_struct out = Some v \/ to_meta out = Some v -> ok v) ->
  gives_such (call_result strict (remember i KToolCall m) i) (AtServer w pre mid post s) (fun v => exists o, v = JObj o /\
    same_opt (Some (JArr (to_content out))) (obj_get (bs "content") o) /\ same_opt (to_struct out) (obj_get (bs "structuredContent") o) /\
    obj_get (bs "isError") o = Some (JBool (to_error out)) /\ related_to i (obj_get (bs "_meta") o)) (sv_tasks s).
Proof. exact tool_told. Qed.
Print Assumptions C116_tool_result.
Theorem C116_tool_threw : forall strict m w pre mid post s vs ttl now us now' ws what,
  let i := tk_id (new_task (ts_next (ts_run tstore0 vs)) now ttl) in
  let a := tool_worker (sv_strict s) i now' (Threw what) in
  few (vs ++ TCreate KToolCall ttl now :: us ++ TTerminal a :: ws) -> untouched i (vs ++ us) ->
  sv_tasks s = ts_run tstore0 (vs ++ TCreate KToolCall ttl now :: us ++ TTerminal a :: ws) ->
  gives_such (call_result strict m i) (AtServer w pre mid post s) (marked_error i (-32603) what) (sv_tasks s).
Proof. exact tool_failed. Qed.
Print Assumptions C116_tool_threw.

(** A server gets what the client's elicitation and sampling handlers returned. *)
Theorem C116_elicit_result : forall strict m scl caps h1 b n h2 i e f r a mid, few_requests (h1 ++ PWork b n :: h2) ->
  nth_error (cl_workers (peer_run (client0 scl caps) h1)) n = Some (i, WElicit e) ->
  (forall ev, In ev h1 -> ~ cancels_task i ev) ->
  ap_elicit b = Some f -> f e = Ret r -> (strict = true \/ scl = true -> proper r) -> (forall v, ed_content r = Some v -> ok v) ->
  cc_tasks caps <> None -> i <> [] ->
  let c := peer_run (client0 scl caps) (h1 ++ PWork b n :: h2) in
  gives_such (call_result strict (remember i KElicitation m) i) (AtClient a mid c) (fun v => exists o, v = JObj o /\
    obj_get (bs "action") o = Some (JStr (ed_action r)) /\ same_opt (ed_content r) (obj_get (bs "content") o) /\
    obj_get (bs "elicitationId") o = option_map JStr (ed_id r) /\ related_to i (obj_get (bs "_meta") o)) (cl_tasks c).
Proof. exact elicit_told. Qed.
Print Assumptions C116_elicit_result.
Theorem C116_sample_result : forall strict m scl caps h1 b n h2 i x p y z f o a mid, few_requests (h1 ++ PWork b n :: h2) ->
  nth_error (cl_workers (peer_run (client0 scl caps) h1)) n = Some (i, WSample x p y z) ->
  (forall ev, In ev h1 -> ~ cancels_task i ev) ->
  the_sampler b = Some f -> f x p y z = Ret (JObj o) -> (strict = true \/ scl = true -> CreateMessageResult (JObj o)) -> ok (JObj o) ->
  cc_tasks caps <> None -> i <> [] ->
  let c := peer_run (client0 scl caps) (h1 ++ PWork b n :: h2) in
  gives_such (call_result strict (remember i KCreateMessage m) i) (AtClient a mid c) (marked i o) (cl_tasks c).
Proof. exact sample_told. Qed.
Print Assumptions C116_sample_result.
Theorem C116_peer_threw : forall strict m scl caps h1 b n h2 i w what a mid, few_requests (h1 ++ PWork b n :: h2) ->
  nth_error (cl_workers (peer_run (client0 scl caps) h1)) n = Some (i, w) ->
  (forall ev, In ev h1 -> ~ cancels_task i ev) -> work_threw b w what -> cc_tasks caps <> None ->
  let c := peer_run (client0 scl caps) (h1 ++ PWork b n :: h2) in
  gives_such (call_result strict m i) (AtClient a mid c) (marked_error i (-32603) what) (cl_tasks c).
Proof. exact peer_failed. Qed.
Print Assumptions C116_peer_threw.

(** C116. TaskResult: in strict mode a result that is not of the shape the task's kind has makes the call throw, if the caller
    remembers the kind; every other answer is passed on, and an answer without result or error gives null. *)
Theorem C116_strict : forall m i r,
  (forall e, rs_error r = Some e -> forall strict, returns (call_result strict m i) r (Ret e)) /\
  (rs_error r = None -> rs_result r = None -> forall strict, returns (call_result strict m i) r (Ret JNull)) /\
  (forall v, rs_error r = None -> rs_result r = Some v ->
    returns (call_result false m i) r (Ret v) /\
    (aget i m = None -> returns (call_result true m i) r (Ret v)) /\
    forall k, aget i m = Some k -> (kind_result k v -> returns (call_result true m i) r (Ret v)) /\
      (~ kind_result k v -> returns (call_result true m i) r (Threw (bs "Validation failed: tasks/result payload shape")))).
Proof.
  intros m i r. split; [|split].
  - intros e E strict. do 3 eexists. split; [reflexivity|]. cbn beta. now rewrite E.
  - intros E R strict. do 3 eexists. split; [reflexivity|]. cbn beta. now rewrite E, R.
  - intros v E R. split; [|split].
    + do 3 eexists. split; [reflexivity|]. cbn beta. rewrite E, R. now destruct (aget i m).
    + intro G. do 3 eexists. split; [reflexivity|]. cbn beta. now rewrite E, R, G.
    + intros k K. split; intro G; do 3 eexists; (split; [reflexivity|]); cbn beta; rewrite E, R, K.
      * apply kind_iff in G. now rewrite G.
      * destruct (kind_shape k v) eqn:X; [now apply kind_iff in X|reflexivity].
Qed.
Print Assumptions C116_strict.

Example C116_ex :
  let out := {| to_content := [make_text (bs "hi")]; to_struct := Some (JInt 3); to_meta := None; to_error := false |} in
  let h := [TCreate KToolCall None (bs "t0"); TEmit 0; TTerminal (tool_worker true (bs "task-1") (bs "t1") (Ret out))] in
  let s := set_tasks (ts_run tstore0 h) demo_server in
  few h /\ untouched (bs "task-1") [TEmit 0] /\ Forall Content (to_content out) /\ Forall ok (to_content out) /\
  (forall v, to_struct out = Some v \/ to_meta out = Some v -> ok v) /\
  exists r v, dispatch demo_world false false false (q_of (call_result true (remember (bs "task-1") KToolCall []) (bs "task-1"))) s = (Reply r, s) /\
    returns (call_result true (remember (bs "task-1") KToolCall []) (bs "task-1")) r (Ret v) /\
    ser v = bs "{""content"":[{""type"":""text"",""text"":""hi""}],""structuredContent"":3,""isError"":false,""_meta"":{""modelcontextprotocol.io/related-task"":{""taskId"":""task-1""}}}".
Proof.
  cbv zeta. split; [vm_compute; reflexivity|]. split; [intros a [E|[]]; discriminate E|]. split; [constructor; [apply content_iff; reflexivity|constructor]|].
  split; [repeat constructor; try (now apply plain_bs); cbn [In]; intuition discriminate|]. split; [intros v [E|E]; [injection E as <-; constructor; lia|discriminate]|].
  eexists _, _. split; [vm_compute; reflexivity|]. split; [eexists _, _, _; split; [reflexivity|vm_compute; reflexivity]|vm_compute; reflexivity].
Qed.

(** C117. A server has no way to call a tool of its client as a task: whatever the client, its
    tools and its capabilities, the call throws. *)
Theorem C117_refuted : forall strict a mid c n args ttl,
  gives (call_tool_task strict n args ttl) (AtClient a mid c) (Threw (bs "Method not found")) (cl_tasks c).
Proof. exact client_has_no_tools. Qed.
Print Assumptions C117_refuted.
Example C117_ex : carried (call_tool_task true (bs "echo") (JObj []) (Some 60%Z)) (q_of (call_tool_task true (bs "echo") (JObj []) (Some 60%Z))) /\
  may_ask at_client.
Proof. split; [eexists _, _, _; split; [reflexivity|]; split; [reflexivity|]; constructor; apply same_refl|discriminate]. Qed.

(** C118. The server's own CallTool gives the content and the error flag the handler returned; what
    the handler threw, it throws; a tool that is not there is null. *)
Theorem C118_tool_partial : forall ops w g n a t h, g = reg_run ops -> tool_now n (rev ops) = Some (t, Some h) ->
  (forall out, w_tool w h a = Ret out -> exists o, own_tool w g n a = Ret (JObj o) /\
     obj_get (bs "content") o = Some (JArr (to_content out)) /\ obj_get (bs "isError") o = Some (JBool (to_error out))) /\
  (forall what, w_tool w h a = Threw what -> own_tool w g n a = Threw what).
Proof.
  intros ops w g n a t h G H. destruct (own_tool_runs ops w g n a t h G H) as [A B]. split; [|exact B].
  intros out E. destruct (A out E) as (o & O1 & O2 & O3 & _). exists o. now repeat split.
Qed.
Print Assumptions C118_tool_partial.
Theorem C118_tool_none : forall ops w g n a, g = reg_run ops -> (forall t h, tool_now n (rev ops) <> Some (t, Some h)) -> own_tool w g n a = Ret JNull.
Proof. exact own_tool_none. Qed.
Print Assumptions C118_tool_none.
(** Structured content and metadata, which a client gets for the same call, are lost. *)
Theorem C118_tool_refuted : exists ops w s q n a h out v, sv_reg s = reg_run ops /\ tool_now n (rev ops) = Some (echo_tool, Some h) /\ w_tool w h a = Ret out /\
  to_struct out = Some (JInt 3) /\ to_meta out = Some (JObj [(bs "k", JInt 1)]) /\
  requests q (bs "tools/call") (call_params n a) /\ (exists r o, dispatch w false false false q s = (Reply r, s) /\ succeeds r (JObj o) /\
     obj_get (bs "structuredContent") o = Some (JInt 3) /\ obj_get (bs "_meta") o = Some (JObj [(bs "k", JInt 1)])) /\
  own_tool w (sv_reg s) n a = Ret (JObj v) /\ obj_get (bs "structuredContent") v = None /\ obj_get (bs "_meta") v = None.
Proof.
  set (out := {| to_content := [make_text (bs "hi")]; to_struct := Some (JInt 3); to_meta := Some (JObj [(bs "k", JInt 1)]); to_error := false |}).
  exists demo_ops, {| w_tool := fun _ _ => Ret out; w_read := w_read demo_world; w_prompt := w_prompt demo_world; w_complete := w_complete demo_world;
                      w_sample := w_sample demo_world; w_now := w_now demo_world; w_connected := true |}, demo_server, (ask (bs "tools/call") (call_params (bs "echo") (JObj []))), (bs "echo"), (JObj []), 1, out.
  eexists. split; [reflexivity|]. split; [vm_compute; reflexivity|]. split; [reflexivity|]. split; [reflexivity|]. split; [reflexivity|].
  split; [split; [reflexivity|]; eexists; split; [reflexivity|apply same_refl]|].
  split; [eexists _, _; split; [vm_compute; reflexivity|]; split; [split; reflexivity|]; split; vm_compute; reflexivity|].
  split; [vm_compute; reflexivity|]. split; vm_compute; reflexivity.
Qed.
Print Assumptions C118_tool_refuted.
(** GetPrompt and ReadResource give what a client would get; what is not there is null. *)
Theorem C118_prompt : forall ops w g n a, g = reg_run ops ->
  (forall d h, prompt_now n (rev ops) = Some (d, Some h) ->
    (forall x ms, w_prompt w h a = Ret (x, ms) -> exists v, own_prompt w g n a = Ret v /\ tells_prompt v x ms) /\
    (forall what, w_prompt w h a = Threw what -> own_prompt w g n a = Threw what)) /\
  (prompt_now n (rev ops) = None -> own_prompt w g n a = Ret JNull).
Proof. intros ops w g n a G. split; [intros d h; now apply own_prompt_runs|now apply own_prompt_none]. Qed.
Print Assumptions C118_prompt.

(** C118. A prompt registered with an empty handler makes GetPrompt throw. *)
Theorem C118_empty : forall ops w g n a d, g = reg_run ops -> prompt_now n (rev ops) = Some (d, None) -> own_prompt w g n a = Threw (bs "bad_function_call").
Proof. intros ops w g n a d -> H. destruct (RegProofs.pinv_run ops) as (_ & A & _). unfold own_prompt. rewrite (A n), H. reflexivity. Qed.
Print Assumptions C118_empty.
Theorem C118_read : forall w pre q s u, u <> [] -> requests q (bs "resources/read") (JObj [(bs "uri", JStr u)]) ->
  exists r, dispatch w pre false false q s = (Reply r, s) /\
    ((exists v, succeeds r v /\ server_reads w s u = Ret v) \/ (exists m, fails r (-32603) m /\ server_reads w s u = Threw m) \/
     (fails r (-32002) (bs "Resource not found") /\ server_reads w s u = Ret JNull)).
Proof. exact own_reads. Qed.
Print Assumptions C118_read.
Example C118_ex : tool_now (bs "echo") (rev demo_ops) = Some (echo_tool, Some 1) /\ own_tool demo_world (sv_reg demo_server) (bs "nope") JNull = Ret JNull /\
  own_tool demo_world (sv_reg demo_server) (bs "boom") JNull = Threw (bs "boom") /\
  (exists v, own_prompt demo_world (sv_reg demo_server) (bs "greet") JNull = Ret v /\ ser v = bs "{""description"":""greeting"",""messages"":[{""type"":""text"",""text"":""hello""}]}") /\
  server_reads demo_world demo_server (bs "x:y") = Ret JNull.
Proof.
  split; [vm_compute; reflexivity|]. split; [vm_compute; reflexivity|]. split; [vm_compute; reflexivity|].
  split; [eexists; split; vm_compute; reflexivity|vm_compute; reflexivity].
Qed.
