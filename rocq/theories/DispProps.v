(** What a server does over whole histories of requests: C28, C29, C37, C38 as seen by a peer;
    C90, C91. *)
From Coq Require Import Ascii String List Permutation Arith NArith ZArith Bool Lia.
From Verif Require Import StrModel StrProofs DoubleModel JsonModel JsonSpec ObjSpec RpcModel MapModel TaskModel TaskSpec DescModel DescSpec RegModel RegSpec RegProofs RegProps ValModel ValSpec ValProps ReadModel SubModel SubSpec SubProps LogModel LogSpec LogProofs LogProps ServModel ServSpec ServProofs CallProofs ServProps DispSpec DispProofs.
Import ListNotations.
Local Open Scope nat_scope.

(** C28, C29: whatever was handled before, a client that pages through the lists gets what is
    registered: each entry once, in order. Here for a server that is not strict; C70 says how
    a strict one differs. *)
Theorem C28_tools_served : forall ops l w s i, (N.of_nat (length ops) < 2 ^ 63)%N -> sv_strict (handled_all l s) = false -> sv_reg s = reg_run ops ->
  exists ts, tools_of ops ts /\ forall n, (0 < n < 2 ^ 63)%Z ->
    forall pages, follow (asked w (handled_all l s) i (bs "tools/list")) (bs "tools") n None pages -> concat pages = map tool_json ts.
Proof.
  intros ops l w s i H S R. destruct (C28_tools ops H) as (ts & T & P). exists ts. split; [exact T|]. intros n N pages F.
  apply (proj2 (P n N)). eapply follow_ext; [|exact F]. intro p. rewrite asked_tools by exact S. now rewrite all_reg, R.
Qed.
Print Assumptions C28_tools_served.

Theorem C28_resources_served : forall ops l w s i, (N.of_nat (length ops) < 2 ^ 63)%N -> sv_strict (handled_all l s) = false -> sv_reg s = reg_run ops ->
  exists ts, resources_of (ui_client (handled_all l s)) ops ts /\ forall n, (0 < n < 2 ^ 63)%Z ->
    forall pages, follow (asked w (handled_all l s) i (bs "resources/list")) (bs "resources") n None pages -> concat pages = map resource_json ts.
Proof.
  intros ops l w s i H S R. destruct (C28_resources (ui_client (handled_all l s)) ops H) as (ts & T & P). exists ts. split; [exact T|]. intros n N pages F.
  apply (proj2 (P n N)). eapply follow_ext; [|exact F]. intro p. rewrite asked_resources by exact S. now rewrite all_reg, R.
Qed.
Print Assumptions C28_resources_served.

Theorem C28_templates_served : forall ops l w s i, (N.of_nat (length ops) < 2 ^ 63)%N -> sv_strict (handled_all l s) = false -> sv_reg s = reg_run ops ->
  exists ts, templates_of ops ts /\ forall n, (0 < n < 2 ^ 63)%Z ->
    forall pages, follow (asked w (handled_all l s) i (bs "resources/templates/list")) (bs "resourceTemplates") n None pages -> concat pages = map template_json ts.
Proof.
  intros ops l w s i H S R. destruct (C28_templates ops H) as (ts & T & P). exists ts. split; [exact T|]. intros n N pages F.
  apply (proj2 (P n N)). eapply follow_ext; [|exact F]. intro p. rewrite asked_templates by exact S. now rewrite all_reg, R.
Qed.
Print Assumptions C28_templates_served.

Theorem C28_prompts_served : forall ops l w s i, (N.of_nat (length ops) < 2 ^ 63)%N -> sv_strict (handled_all l s) = false -> sv_reg s = reg_run ops ->
  exists ts, prompts_of ops ts /\ forall n, (0 < n < 2 ^ 63)%Z ->
    forall pages, follow (asked w (handled_all l s) i (bs "prompts/list")) (bs "prompts") n None pages -> concat pages = map prompt_json ts.
Proof.
  intros ops l w s i H S R. destruct (C28_prompts ops H) as (ts & T & P). exists ts. split; [exact T|]. intros n N pages F.
  apply (proj2 (P n N)). eapply follow_ext; [|exact F]. intro p. rewrite asked_prompts by exact S. now rewrite all_reg, R.
Qed.
Print Assumptions C28_prompts_served.

(** C37: the updates sent after a history of requests are decided by the subscribe and
    unsubscribe requests in it, and by nothing else. *)
Theorem C37_requests_partial : forall l s u, sv_subs s = subs0 ->
  let ops := sub_requests l in
  ((subscribed ops u \/ (forall v, ~ subscribed ops v)) -> sb_sent (notify_updated u (sv_subs (handled_all l s))) = sb_sent (sv_subs (handled_all l s)) ++ [u]) /\
  (~ subscribed ops u -> (exists v, subscribed ops v) -> sb_sent (notify_updated u (sv_subs (handled_all l s))) = sb_sent (sv_subs (handled_all l s))).
Proof.
  intros l s u E ops. rewrite all_subs, E. fold (sub_run (sub_requests l)). pose proof (C37_sent_partial ops u) as H.
  unfold sub_run in H. rewrite fold_left_app in H. exact H.
Qed.
Print Assumptions C37_requests_partial.

(** C38: the level in force after a history of requests is the last one asked for by a
    logging/setLevel request in it. *)
Theorem C38_requests : forall l s now c rc, sv_level s = LDebug -> last_choice (level_requests l) c -> at_rank c rc ->
  sv_level (handled_all l s) = lg_min (log_run (logger0 now) (level_requests l)) /\
  (plain c -> spec_level (sv_level (handled_all l s)) = c).
Proof.
  intros l s now c rc D L R. rewrite (all_level l s (logger0 now)) by exact D. split; [reflexivity|]. intro P.
  rewrite (min_is now _ c rc L R). revert P.
  refine (rank_cases (fun c rc => plain c -> spec_level (thr rc) = c) _ _ _ _ _ _ _ _ c rc R); intro P; try (vm_compute; reflexivity);
    exfalso; destruct P as [P|[P|[P|[P|[]]]]]; discriminate P.
Qed.
Print Assumptions C38_requests.

(** C38: a message of the level fatal, which the library has beside the protocol's, passes
    every level a client can choose and is sent as critical. *)
Theorem C38_fatal : forall now hist later name message data x, lower name = bs "fatal" ->
  let s := log_run (logger0 now) hist in
  In (lg_next s, x) (lg_out (log_run s (GCall name message data :: later))) ->
  x = Throttled \/
  exists t o, x = Sent t (JObj o) /\ obj_get (bs "level") o = Some (JStr (bs "critical")) /\
    obj_get (bs "data") o = Some (match data with Some d => d | None => JStr message end).
Proof.
  intros now hist later name message data x E s I.
  assert (level_of name = LFatal) as L by (rewrite <- level_lower, E; reflexivity).
  apply passed_final in I; [|apply linv_run, linv0|rewrite L; unfold suppressed; now rewrite andb_false_r].
  destruct I as [I|(t & ->)]; [now left|]. right. exists t. eexists. split; [reflexivity|]. rewrite L. split; reflexivity.
Qed.
Print Assumptions C38_fatal.

(** C91. Each initialize request on a connected transport is followed by the four
    announcements, in this order; no other request makes the server announce anything. *)
Theorem C91_announced : forall l s, sv_sent (handled_all l s) = sv_sent s ++ concat (repeat announcements (init_requests l)).
Proof. exact all_sent. Qed.
Print Assumptions C91_announced.

(** C90. A sampling request runs the sampling handler with the members of the parameters, and
    the caller is given what it returns. *)
Theorem C90_sampling : forall w pre post q s f, rq_method q = bs "sampling/createMessage" -> w_sample w = Some f ->
  (sv_strict s = true -> CreateMessageParams (match rq_params q with Some v => v | None => JObj [] end)) ->
  let out := f (member "messages" (rq_params q)) (member "modelPreferences" (rq_params q))
               (member "systemPrompt" (rq_params q)) (member "includeContext" (rq_params q)) in
  (forall v, out = Ret v -> (sv_strict s = true -> CreateMessageResult v) ->
     exists r, dispatch w pre false post q s = (Reply r, s) /\ succeeds r v) /\
  (forall v, out = Ret v -> sv_strict s = true -> ~ CreateMessageResult v ->
     exists r, dispatch w pre false post q s = (Reply r, s) /\ fails r (-32603) (bs "Invalid sampling result shape")) /\
  (forall v, out = Ret v -> exists r, dispatch w pre true post q s = (Reply r, s) /\ fails r (-32603) (bs "Cancelled")) /\
  (forall what, out = Threw what -> exists r, dispatch w pre false post q s = (Reply r, s) /\ fails r (-32603) what).
Proof.
  intros w pre post q s f M W V out.
  assert (A : forall mid, handle_sampling w mid (rq_params q) s =
    match out with
    | Threw what => AError INTERNAL what
    | Ret v => if mid then AError INTERNAL (bs "Cancelled")
               else if (sv_strict s && negb (valid_create_result v))%bool then AError INTERNAL (bs "Invalid sampling result shape")
               else AResult v
    end).
  { intro mid. unfold handle_sampling. rewrite W.
    assert ((sv_strict s && negb (valid_create_params (match rq_params q with Some v => v | None => JObj [] end)))%bool = false) as ->; [|reflexivity].
    destruct (sv_strict s); [|reflexivity]. cbn [andb]. apply negb_false_iff, C69_sampling. now apply V. }
  repeat setoid_rewrite dispatch_sampling; try exact M. setoid_rewrite A. split; [|split; [|split]].
  - intros v -> K. assert ((sv_strict s && negb (valid_create_result v))%bool = false) as ->.
    { destruct (sv_strict s); [|reflexivity]. cbn [andb]. apply negb_false_iff, C69_sampling. now apply K. }
    destruct (respond_result (rq_id q) v) as (r & B & C). rewrite B. now exists r.
  - intros v -> S K. assert (valid_create_result v = false) as ->.
    { destruct (valid_create_result v) eqn:E; [|reflexivity]. apply C69_sampling in E; contradiction. }
    rewrite S. cbn [andb negb]. destruct (respond_fails (rq_id q) INTERNAL (bs "Invalid sampling result shape")) as (r & B & C). rewrite B. now exists r.
  - intros v ->. destruct (respond_fails (rq_id q) INTERNAL (bs "Cancelled")) as (r & B & C). rewrite B. now exists r.
  - intros what ->. destruct (respond_fails (rq_id q) INTERNAL what) as (r & B & C). rewrite B. now exists r.
Qed.
Print Assumptions C90_sampling.

Theorem C90_none : forall w pre mid post q s, rq_method q = bs "sampling/createMessage" -> w_sample w = None ->
  exists r, dispatch w pre mid post q s = (Reply r, s) /\ fails r (-32001) (bs "No server sampling handler registered").
Proof.
  intros w pre mid post q s M W. rewrite dispatch_sampling by exact M. unfold handle_sampling. rewrite W.
  destruct (respond_fails (rq_id q) METHOD_NOT_ALLOWED (bs "No server sampling handler registered")) as (r & B & C). rewrite B. now exists r.
Qed.
Print Assumptions C90_none.

Definition sample_world : world :=
  {| w_tool := w_tool demo_world; w_read := w_read demo_world; w_prompt := w_prompt demo_world; w_complete := None;
     w_sample := Some (fun m p sp c => Ret (JArr [m; p; sp; c])); w_now := w_now demo_world; w_connected := true |}.
Definition lax_server : server :=
  {| sv_strict := false; sv_name := bs "demo"; sv_caps := sv_caps demo_server; sv_client := ccaps0; sv_reg := reg_run demo_ops;
     sv_tasks := tstore0; sv_subs := subs0; sv_level := LDebug; sv_sent := [] |}.
Definition sample_ask (m : bstr) (p : json) : arrival :=
  {| ar_world := sample_world; ar_pre := false; ar_mid := false; ar_post := false;
     ar_req := {| rq_id := IdInt 1; rq_method := m; rq_params := Some p |} |}.
Example C90_ex : exists r, dispatch sample_world false false false
    {| rq_id := IdInt 1; rq_method := bs "sampling/createMessage"; rq_params := Some (JObj [(bs "messages", JArr []); (bs "systemPrompt", JStr (bs "be kind"))]) |}
    lax_server = (Reply r, lax_server) /\ rs_result r = Some (JArr [JArr []; JNull; JStr (bs "be kind"); JNull]).
Proof. eexists. split; vm_compute; reflexivity. Qed.
Example C91_ex :
  let l := [sample_ask (bs "initialize") (JObj []); sample_ask (bs "resources/subscribe") (JObj [(bs "uri", JStr (bs "a"))]);
            sample_ask (bs "logging/setLevel") (JObj [(bs "level", JStr (bs "warning"))]); sample_ask (bs "tools/list") (JObj [])] in
  init_requests l = 1 /\ sv_sent (handled_all l lax_server) = announcements /\
  subscribed (sub_requests l) (bs "a") /\ sv_level (handled_all l lax_server) = LWarn /\ last_choice (level_requests l) (bs "warning") /\
  sv_strict (handled_all l lax_server) = false /\ sv_reg lax_server = reg_run demo_ops.
Proof.
  cbv zeta. split; [reflexivity|]. split; [vm_compute; reflexivity|]. split.
  - eexists [], _, []. split; [reflexivity|]. split; [eexists; split; reflexivity|]. intros q [].
  - split; [vm_compute; reflexivity|]. split; [|split; vm_compute; reflexivity]. right. eexists [], _, (bs "warning"), []. split; [reflexivity|]. split; [eexists; split; reflexivity|].
    split; [reflexivity|constructor].
Qed.
