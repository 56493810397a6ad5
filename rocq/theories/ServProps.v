From Coq Require Import Ascii String List Permutation Arith NArith ZArith Bool Lia.
From Verif Require Import StrModel StrProofs DoubleModel JsonModel JsonSpec JsonProofs ObjSpec ObjProofs MapModel MapProofs RpcModel TaskModel TaskSpec TaskProofs DescModel DescSpec DescProofs RegModel RegSpec RegProofs TmplModel ValModel ValSpec ValProofs ReadModel SubModel LogModel ErrModel ErrSpec ErrProofs ServModel ServSpec ServProofs CallProofs CapProofs CallTaskProofs.
Import ListNotations.
Local Open Scope nat_scope.

(** C42. Whatever the request, the handlers and the state, a reply has the id of the request and
    either a result or an error. *)
Theorem C42_reply : forall w pre mid post q s r s', dispatch w pre mid post q s = (Reply r, s') -> answers q r.
Proof. exact dispatch_answers. Qed.
Print Assumptions C42_reply.

(** There is a reply at once, unless the request is for the result of a task that has not ended. *)
Theorem C42_waits : forall w pre mid post q s t s', dispatch w pre mid post q s = (Waits t, s') ->
  s' = s /\ rq_method q = bs "tasks/result" /\ parse_task_id (rq_params q) = (true, t) /\ unfinished t (sv_tasks s).
Proof. exact dispatch_waits. Qed.
Print Assumptions C42_waits.

(** And when that task has ended, the reply is of the same kind. *)
Theorem C42_after_wait : forall q strict k t p, exists r, finish_result (rq_id q) strict k t p = Reply r /\ answers q r.
Proof.
  intros q strict k t p. destruct (finish_result (rq_id q) strict k t p) as [r|x] eqn:E; [|now apply finish_waits in E].
  exists r. split; [reflexivity|now apply finish_answers in E].
Qed.
Print Assumptions C42_after_wait.

Theorem C42_unknown : forall w pre mid post q s, ~ In (rq_method q) methods ->
  exists r, dispatch w pre mid post q s = (Reply r, s) /\ fails r (-32601) (bs "Method not found").
Proof.
  intros w pre mid post q s N. rewrite (dispatch_unknown _ _ _ _ _ _ N).
  destruct (respond_fails (rq_id q) METHOD_NOT_FOUND (bs "Method not found")) as (r & A & B). exists r. cbn in A. injection A as <-. split; [reflexivity|exact B].
Qed.
Print Assumptions C42_unknown.

(** C75. A request answered with an error changes nothing in the server, with one exception. *)
Theorem C75_no_effect_partial : forall w pre mid post q s r s', dispatch w pre mid post q s = (Reply r, s') -> rs_error r <> None ->
  ~ (post = true /\ rq_method q = bs "tools/call" /\ task_request q) -> quiet s s'.
Proof. exact error_quiet. Qed.
Print Assumptions C75_no_effect_partial.

(** A server with one tool, which may be called as a task, and one prompt. *)
Definition echo_tool : tool :=
  {| tl_name := bs "echo"; tl_title := None; tl_desc := bs "says it again"; tl_input := JObj []; tl_icons := None; tl_annot := None;
     tl_output := None; tl_exec := Some (JObj [(bs "taskSupport", JStr (bs "optional"))]); tl_meta := None |}.
Definition demo_ops : list reg_op := [RegTool echo_tool (Some 1); RegToolName (bs "boom") (Some 2); RegPromptName (bs "greet") (Some 3)].
Definition demo_server : server :=
  {| sv_strict := true; sv_name := bs "demo"; sv_caps := {| sc_exp := []; sc_prompts := Some false; sc_resources := None; sc_tools := Some true;
       sc_tasks := Some (true, true, true); sc_sampling := false; sc_completions := true; sc_logging := true |};
     sv_client := ccaps0; sv_reg := reg_run demo_ops; sv_tasks := tstore0; sv_subs := subs0; sv_level := LDebug; sv_sent := [] |}.
Definition demo_world : world :=
  {| w_tool := fun h a => if Nat.eqb h 1 then Ret {| to_content := [make_text (ser a)]; to_struct := Some a; to_meta := None; to_error := false |} else Threw (bs "boom");
     w_read := {| rd_direct := fun _ _ => PThrow (bs "none"); rd_template := fun _ _ _ => PThrow (bs "none") |};
     w_prompt := fun h a => Ret (bs "greeting", [make_text (bs "hello")]);
     w_complete := Some (fun _ n v _ => Ret {| cp_values := [v ++ bs "1"; v ++ bs "2"]; cp_total := Some 7%Z; cp_more := true |});
     w_sample := None; w_now := bs "2025-01-01T00:00:00Z"; w_connected := true |}.
Definition ask (m : bstr) (p : json) : request := {| rq_id := IdInt 5; rq_method := m; rq_params := Some p |}.

(** The exception: a call as a task whose token is cancelled before the reply is sent is answered
    with an error, but its task exists and runs. *)
Theorem C75_cancelled_call_refuted : exists w q s r s', dispatch w false false true q s = (Reply r, s') /\
  fails r (-32603) (bs "Cancelled") /\ ts_get (bs "task-1") (sv_tasks s) = None /\ ts_get (bs "task-1") (sv_tasks s') <> None.
Proof.
  exists demo_world, (ask (bs "tools/call") (task_params (bs "echo") JNull None)), demo_server. eexists _, _.
  split; [vm_compute; reflexivity|]. split; [|split; [reflexivity|vm_compute; discriminate]].
  split; [reflexivity|]. eexists. split; [reflexivity|]. split; [|split; reflexivity].
  repeat constructor; cbn [In map fst]; intuition discriminate.
Qed.
Print Assumptions C75_cancelled_call_refuted.

Example C75_ex : exists r s', dispatch demo_world false false false (ask (bs "tools/call") (call_params (bs "nope") JNull)) demo_server = (Reply r, s') /\
  rs_error r <> None.
Proof. eexists _, _. split; [vm_compute; reflexivity|discriminate]. Qed.

(** C76. A call of a registered tool that need not be a task runs the handler registered last under
    that name, with the arguments given, and answers what it returned, or says what it threw. The
    request may be cancelled while it runs (second flag of dispatch). *)
Theorem C76_call : forall ops w pre q s n a t h, n <> [] -> sv_reg s = reg_run ops ->
  tool_now n (rev ops) = Some (t, Some h) -> ~ supports t Required ->
  requests q (bs "tools/call") (call_params n a) ->
  exists a', same a a' /\
    (forall out, w_tool w h a' = Ret out -> (sv_strict s = true -> Forall Content (to_content out)) ->
       exists r v, dispatch w pre false false q s = (Reply r, s) /\ succeeds r v /\ tells_tool v out) /\
    (forall out, w_tool w h a' = Ret out -> sv_strict s = true -> ~ Forall Content (to_content out) ->
       exists r, dispatch w pre false false q s = (Reply r, s) /\ fails r (-32603) (bs "Invalid tool result shape")) /\
    (forall what, w_tool w h a' = Threw what ->
       exists r, dispatch w pre false false q s = (Reply r, s) /\ fails r (-32603) what) /\
    (forall out, w_tool w h a' = Ret out ->
       exists r, dispatch w pre true false q s = (Reply r, s) /\ fails r (-32603) (bs "Cancelled")).
Proof. intros. now apply (call_runs ops w pre q s n a) with (t := t). Qed.
Print Assumptions C76_call.

(** A name without handler. *)
Theorem C76_unknown : forall ops w pre mid q s n a, n <> [] -> sv_reg s = reg_run ops -> (forall t h, tool_now n (rev ops) <> Some (t, Some h)) ->
  requests q (bs "tools/call") (call_params n a) ->
  exists r, dispatch w pre mid false q s = (Reply r, s) /\ fails r (-32003) (bs "Tool not found").
Proof. intros. now apply call_unknown with ops n a. Qed.
Print Assumptions C76_unknown.

(** Tools that must, and tools that must not, be called as tasks. *)
Theorem C76_required : forall ops w pre mid q s n a t h, n <> [] -> sv_reg s = reg_run ops -> tool_now n (rev ops) = Some (t, Some h) ->
  supports t Required -> requests q (bs "tools/call") (call_params n a) ->
  exists r, dispatch w pre mid false q s = (Reply r, s) /\ fails r (-32601) (bs "Tool requires task-augmented invocation").
Proof. intros. now apply call_required with ops n a t h. Qed.
Print Assumptions C76_required.

Theorem C76_forbidden : forall ops w pre mid q s n a ttl t h, n <> [] -> sv_reg s = reg_run ops -> tool_now n (rev ops) = Some (t, Some h) ->
  supports t Forbidden -> requests q (bs "tools/call") (task_params n a ttl) ->
  exists r, dispatch w pre mid false q s = (Reply r, s) /\ fails r (-32601) (bs "Tool does not support task-augmented invocation").
Proof. intros. now apply call_forbidden with ops n a t h ttl. Qed.
Print Assumptions C76_forbidden.

(** What the client returns to its caller. *)
Theorem C76_client : forall r r' v, succeeds r v -> delivered r r' -> same v (value_or_error r').
Proof. exact succeeds_read. Qed.
Print Assumptions C76_client.

Example C76_ex : tool_now (bs "echo") (rev demo_ops) = Some (echo_tool, Some 1) /\ ~ supports echo_tool Required /\
  requests (ask (bs "tools/call") (call_params (bs "echo") (JInt 4))) (bs "tools/call") (call_params (bs "echo") (JInt 4)) /\
  exists r, dispatch demo_world false false false (ask (bs "tools/call") (call_params (bs "echo") (JInt 4))) demo_server = (Reply r, demo_server) /\
    ser (value_or_error r) = bs "{""content"":[{""type"":""text"",""text"":""4""}],""structuredContent"":4,""isError"":false}".
Proof.
  split; [reflexivity|]. split. { intros (o & [= <-] & H). discriminate H. }
  split. { split; [reflexivity|]. eexists. split; [reflexivity|apply same_refl]. }
  eexists. split; vm_compute; reflexivity.
Qed.

(** C77. The same for prompts. *)
Theorem C77_get : forall ops w q s n a d h, sv_reg s = reg_run ops -> prompt_now n (rev ops) = Some (d, Some h) ->
  requests q (bs "prompts/get") (call_params n a) ->
  exists a', same a a' /\
    (forall x ms, w_prompt w h a' = Ret (x, ms) -> (sv_strict s = true -> Forall PromptMessage ms) ->
       exists r v, dispatch w false false false q s = (Reply r, s) /\ succeeds r v /\ tells_prompt v x ms) /\
    (forall what, w_prompt w h a' = Threw what -> exists r, dispatch w false false false q s = (Reply r, s) /\ fails r (-32603) what).
Proof. intros. now apply prompt_runs with ops n d. Qed.
Print Assumptions C77_get.

Theorem C77_unknown : forall ops w q s n a, sv_reg s = reg_run ops -> prompt_now n (rev ops) = None ->
  requests q (bs "prompts/get") (call_params n a) ->
  exists r, dispatch w false false false q s = (Reply r, s) /\ fails r (-32004) (bs "Prompt not found").
Proof. intros. now apply prompt_unknown with ops n a. Qed.
Print Assumptions C77_unknown.

Example C77_ex : exists r, dispatch demo_world false false false (ask (bs "prompts/get") (call_params (bs "greet") JNull)) demo_server = (Reply r, demo_server) /\
  ser (value_or_error r) = bs "{""description"":""greeting"",""messages"":[{""type"":""text"",""text"":""hello""}]}".
Proof. eexists. split; vm_compute; reflexivity. Qed.

(** C78. A completion request reaches the handler with the reference, argument and context of the
    caller, and the caller receives the very completion that the handler returned. *)
Theorem C78_complete : forall w pre mid post q s f ref name value ctx, w_complete w = Some f ->
  requests q (bs "completion/complete") (complete_params ref name value ctx) ->
  exists ref' ctx', same ref ref' /\ same_opt ctx ctx' /\
    (forall c, f ref' name value ctx' = Ret c -> exists r, dispatch w pre mid post q s = (Reply r, s) /\
       forall strict r', delivered r r' -> complete_reply strict r' = Ret c) /\
    (forall what, f ref' name value ctx' = Threw what -> exists r, dispatch w pre mid post q s = (Reply r, s) /\ fails r (-32603) what).
Proof. exact complete_runs. Qed.
Print Assumptions C78_complete.

Example C78_ex : exists r, dispatch demo_world false false false (ask (bs "completion/complete") (complete_params JNull (bs "x") (bs "a") None)) demo_server = (Reply r, demo_server) /\
  complete_reply true r = Ret {| cp_values := [bs "a1"; bs "a2"]; cp_total := Some 7%Z; cp_more := true |}.
Proof. eexists. split; vm_compute; reflexivity. Qed.

(** C79. The caller of a tool or prompt is given the error, with its code and message. *)
Theorem C79_call : forall r r' c m, fails r c m -> delivered r r' -> int32 c ->
  exists e, read_error (value_or_error r') = Some e /\ er_code e = c /\ er_message e = m.
Proof. exact fails_read. Qed.
Print Assumptions C79_call.

(** The task calls throw the message. *)
Theorem C79_tasks : forall A strict valid (read : json -> A) failed invalid r r' c m, fails r c m -> delivered r r' ->
  expect strict valid read failed invalid r' = Threw m.
Proof.
  intros A strict valid read failed invalid r r' c m (R & o & E & N & C & M) (_ & D1 & D2). rewrite R in D1. apply same_opt_none in D1.
  rewrite E in D2. inversion D2 as [|x v H X Y]; subst x. unfold expect. rewrite <- Y.
  assert (exists o', v = JObj o') as [o' ->] by (apply same_obj_inv in H as (? & ? & -> & _); eauto).
  unfold error_message, get_str. now rewrite (same_get_str _ _ _ _ N H M).
Qed.
Print Assumptions C79_tasks.

(** But the caller of Complete is told that there are no completions, whatever the error, and the
    caller of Initialize that the server has no capabilities. *)
Theorem C79_complete_refuted : forall strict r r' c m, fails r c m -> delivered r r' -> complete_reply strict r' = Ret completion0.
Proof.
  intros strict r r' c m (R & _) (_ & D1 & _). rewrite R in D1. apply same_opt_none in D1. unfold complete_reply. now rewrite D1.
Qed.
Print Assumptions C79_complete_refuted.
Theorem C79_initialize_refuted : forall known r r' c m, fails r c m -> delivered r r' -> init_reply known r' = scaps0.
Proof.
  intros known r r' c m (R & o & E & _) (_ & _ & D2). rewrite E in D2. inversion D2 as [|x v H X Y]; subst x. unfold init_reply. now rewrite <- Y.
Qed.
Print Assumptions C79_initialize_refuted.
Example C79_ex : exists r s', dispatch demo_world false false false (ask (bs "tools/call") (call_params (bs "boom") JNull)) demo_server = (Reply r, s') /\
  fails r (-32603) (bs "boom").
Proof.
  eexists _, _. split; [vm_compute; reflexivity|]. split; [reflexivity|]. eexists. split; [reflexivity|]. split; [|split; reflexivity].
  repeat constructor; cbn [In map fst]; intuition discriminate.
Qed.

(** C74. After initialize the client knows the server's experimental and task capabilities, and which
    of the others there are. *)
Theorem C74_server_partial : forall s known v, same (init_result s) v ->
  let c := sv_caps s in
  let c' := init_reply known {| rs_id := IdNull; rs_result := Some v; rs_error := None |} in
  same (JObj (sc_exp c)) (JObj (sc_exp c')) /\ same_presence (sc_prompts c) (sc_prompts c') /\ same_presence (sc_resources c) (sc_resources c') /\
  same_presence (sc_tools c) (sc_tools c') /\ sc_tasks c' = sc_tasks c /\ sc_sampling c' = sc_sampling c /\
  sc_completions c' = sc_completions c /\ sc_logging c' = sc_logging c.
Proof. exact server_caps_back. Qed.
Print Assumptions C74_server_partial.

(** And the server knows the client's roots, sampling, elicitation and task capabilities. *)
Theorem C74_client_partial : forall w pre mid post q s name version c, requests q (bs "initialize") (init_params name version c) ->
  exists r s', dispatch w pre mid post q s = (Reply r, s') /\ succeeds r (init_result s) /\
    cc_roots (sv_client s') = cc_roots c /\ cc_sampling (sv_client s') = cc_sampling c /\
    cc_elicit (sv_client s') = cc_elicit c /\ cc_tasks (sv_client s') = cc_tasks c.
Proof.
  intros w pre mid post q s name version c (M & p & P & S). rewrite dispatch_initialize by exact M. rewrite P. unfold handle_initialize.
  rewrite (client_caps_back _ _ _ _ S). cbn [fst snd].
  eexists _, _. split; [reflexivity|]. split; [now split|]. destruct (w_connected w); repeat split.
Qed.
Print Assumptions C74_client_partial.

(** The flags are lost: a client believes that everything offered also announces changes and takes
    subscriptions. *)
Theorem C74_flags_refuted : exists s known v, v = init_result s /\ sc_prompts (sv_caps s) = Some false /\
  sc_prompts (init_reply known {| rs_id := IdNull; rs_result := Some v; rs_error := None |}) = Some true.
Proof. exists demo_server, scaps0. eexists. split; [reflexivity|]. split; reflexivity. Qed.
Print Assumptions C74_flags_refuted.

(** Extensions and experimental capabilities never reach the server: no client of this library is
    ever taken for one with the ui extension, whatever it declares. *)
Theorem C74_extensions_refuted : forall w pre mid post q s name version c d s', requests q (bs "initialize") (init_params name version c) ->
  dispatch w pre mid post q s = (d, s') -> cc_ext (sv_client s') = [] /\ cc_exp (sv_client s') = [] /\ ui_client s' = false.
Proof.
  intros w pre mid post q s name version c d s' (M & p & P & S). rewrite dispatch_initialize by exact M. rewrite P. unfold handle_initialize.
  rewrite (client_caps_back _ _ _ _ S). cbn [fst snd]. intros K. apply pair_equal_spec in K as [_ <-]. destruct (w_connected w); repeat split.
Qed.
Print Assumptions C74_extensions_refuted.

Example C74_ex : let c := {| cc_roots := Some true; cc_sampling := true; cc_elicit := Some [bs "form"; bs "url"]; cc_tasks := Some (true, false, true, true);
                             cc_exp := []; cc_ext := [(UIEXT, JObj [])] |} in
  exists r s', dispatch demo_world false false false (ask (bs "initialize") (init_params (bs "c") (bs "1") c)) demo_server = (Reply r, s') /\
    sv_client s' = {| cc_roots := Some true; cc_sampling := true; cc_elicit := Some [bs "form"; bs "url"]; cc_tasks := Some (true, false, true, true);
                      cc_exp := []; cc_ext := [] |} /\
    sv_sent s' = INIT_NOTES /\ sc_tasks (init_reply scaps0 r) = Some (true, true, true).
Proof. eexists _, _. split; [vm_compute; reflexivity|]. split; [|split]; vm_compute; reflexivity. Qed.

(** C80. A call as a task is answered with a new working task with the requested time to live. *)
Theorem C80_created : forall ops w pre mid q s n a ttl t h vs, n <> [] -> sv_reg s = reg_run ops -> tool_now n (rev ops) = Some (t, Some h) ->
  ~ supports t Forbidden -> requests q (bs "tools/call") (task_params n a ttl) -> sv_tasks s = ts_run tstore0 vs ->
  exists r v s' k, dispatch w pre mid false q s = (Reply r, s') /\ succeeds r v /\
    sv_tasks s' = ts_run tstore0 (vs ++ [TCreate KToolCall ttl (w_now w)]) /\
    k = fst (parse_created v) /\ tk_status k = bs "working" /\ tk_ttl k = ttl /\ tk_id k = tk_id (new_task (ts_next (ts_run tstore0 vs)) (w_now w) ttl).
Proof.
  intros ops w pre mid q s n a ttl t h vs N R H S Q T. destruct (call_task ops w pre q s n a N R mid t h ttl H S Q) as (r & v & D & V & E).
  exists r, v. eexists _, _. split; [exact D|]. split; [exact V|]. split; [cbn; rewrite ts_run_app, T; reflexivity|]. split; [reflexivity|].
  rewrite E, (proj1 (parse_created_json _ _ _ (same_refl _))), T. repeat split.
Qed.
Print Assumptions C80_created.

(** Later the caller gets what the handler returned, with a note of the task, from tasks/result, in
    any history in which nobody else ended the task. *)
Theorem C80_result : forall w pre mid post q s vs ttl now us now' ws out,
  let i := tk_id (new_task (ts_next (ts_run tstore0 vs)) now ttl) in
  let a := tool_worker (sv_strict s) i now' (Ret out) in
  few (vs ++ TCreate KToolCall ttl now :: us ++ TTerminal a :: ws) -> untouched i (vs ++ us) ->
  sv_tasks s = ts_run tstore0 (vs ++ TCreate KToolCall ttl now :: us ++ TTerminal a :: ws) ->
  (sv_strict s = true -> Forall Content (to_content out)) ->
  requests q (bs "tasks/result") (JObj [(bs "taskId", JStr i)]) ->
  exists r o, dispatch w pre mid post q s = (Reply r, s) /\ succeeds r (JObj o) /\
    obj_get (bs "content") o = Some (JArr (to_content out)) /\ obj_get (bs "structuredContent") o = to_struct out /\
    obj_get (bs "isError") o = Some (JBool (to_error out)) /\ related_to i (obj_get (bs "_meta") o).
Proof. exact task_result. Qed.
Print Assumptions C80_result.

Theorem C80_threw : forall w pre mid post q s vs ttl now us now' ws what,
  let i := tk_id (new_task (ts_next (ts_run tstore0 vs)) now ttl) in
  let a := tool_worker (sv_strict s) i now' (Threw what) in
  few (vs ++ TCreate KToolCall ttl now :: us ++ TTerminal a :: ws) -> untouched i (vs ++ us) ->
  sv_tasks s = ts_run tstore0 (vs ++ TCreate KToolCall ttl now :: us ++ TTerminal a :: ws) ->
  requests q (bs "tasks/result") (JObj [(bs "taskId", JStr i)]) ->
  exists r o, dispatch w pre mid post q s = (Reply r, s) /\ fails r (-32603) what /\
    rs_error r = Some (JObj o) /\ exists d, obj_get (bs "data") o = Some (JObj d) /\ related_to i (obj_get (bs "_meta") d).
Proof. exact task_threw. Qed.
Print Assumptions C80_threw.

Example C80_ex :
  let out := {| to_content := [make_text (bs "hi")]; to_struct := None; to_meta := None; to_error := false |} in
  let h := [TCreate KToolCall None (bs "t0"); TEmit 0; TTerminal (tool_worker true (bs "task-1") (bs "t1") (Ret out))] in
  let s := set_tasks (ts_run tstore0 h) demo_server in
  exists r, dispatch demo_world false false false (ask (bs "tasks/result") (JObj [(bs "taskId", JStr (bs "task-1"))])) s = (Reply r, s) /\
    ser (value_or_error r) = bs "{""content"":[{""type"":""text"",""text"":""hi""}],""isError"":false,""_meta"":{""modelcontextprotocol.io/related-task"":{""taskId"":""task-1""}}}".
Proof. eexists. split; vm_compute; reflexivity. Qed.
