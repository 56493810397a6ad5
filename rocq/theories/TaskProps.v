(** Tasks: C22 to C27 and C67. *)
From Coq Require Import Ascii String List Permutation Arith NArith ZArith Bool Lia.
From Verif Require Import StrModel StrProofs DoubleModel JsonModel JsonSpec JsonProofs MapModel MapProofs ObjSpec ObjProofs TaskModel TaskSpec TaskProofs.
Import ListNotations.
Local Open Scope nat_scope.

(** A history used in the examples: three tasks, a completion racing a cancellation. *)
Definition demo : list tev :=
  [TCreate KToolCall (Some 5000%Z) (bs "t0"); TCreate KElicitation None (bs "t1"); TWait (bs "task-1");
   TTerminal (complete_attempt (bs "task-1") COMPLETED None false (JStr (bs "done")) (bs "t2"));
   TTerminal (cancel_attempt (bs "task-1") JNull (bs "t3"));
   TTerminal (cancel_attempt (bs "nobody") JNull (bs "t3"));
   TCreate KCreateMessage None (bs "t4"); TEmit 2; TEmit 0; TWake 0].

Example demo_few : few demo.
Proof. reflexivity. Qed.

(** C22: once terminal, the task and its outcome never change again. *)
Theorem C22_terminal_frozen : forall (vs ws : list tev) (i : bstr) (t : task), few (vs ++ ws) ->
  ts_get i (ts_run tstore0 vs) = Some t -> tk_status t <> bs "working" ->
  ts_get i (ts_run tstore0 (vs ++ ws)) = Some t /\
  outcome i (ts_run tstore0 (vs ++ ws)) = outcome i (ts_run tstore0 vs) /\ outcome i (ts_run tstore0 vs) <> None.
Proof. exact task_frozen. Qed.
Print Assumptions C22_terminal_frozen.

(** C22: whatever status it was given, a task with an outcome never changes. *)
Theorem C22_outcome_frozen : forall (vs ws : list tev) (i : bstr) (x : bool * json), few (vs ++ ws) ->
  outcome i (ts_run tstore0 vs) = Some x ->
  outcome i (ts_run tstore0 (vs ++ ws)) = Some x /\ ts_get i (ts_run tstore0 (vs ++ ws)) = ts_get i (ts_run tstore0 vs).
Proof. exact outcome_frozen. Qed.
Print Assumptions C22_outcome_frozen.

(** C22: before that the task is working and has no outcome; after that both are those of the
    attempt that won. *)
Theorem C22_states : forall (vs : list tev) (i : bstr) (t : task), few vs -> ts_get i (ts_run tstore0 vs) = Some t ->
  (tk_status t = bs "working" /\ outcome i (ts_run tstore0 vs) = None) \/
  (exists a, at_id a = i /\ In (a, t) (wins (ts_run tstore0 vs)) /\ tk_status t = at_status a /\ tk_message t = at_message a /\
     outcome i (ts_run tstore0 vs) = Some (at_error a, at_payload a)).
Proof. exact task_states. Qed.
Print Assumptions C22_states.

Example C22_ex :
  option_map tk_status (ts_get (bs "task-1") (ts_run tstore0 (firstn 2 demo))) = Some (bs "working") /\
  outcome (bs "task-1") (ts_run tstore0 (firstn 3 demo)) = None /\
  option_map tk_status (ts_get (bs "task-1") (ts_run tstore0 (firstn 4 demo))) = Some (bs "completed") /\
  ts_get (bs "task-1") (ts_run tstore0 demo) = ts_get (bs "task-1") (ts_run tstore0 (firstn 4 demo)) /\
  outcome (bs "task-1") (ts_run tstore0 demo) = Some (false, JStr (bs "done")).
Proof. vm_compute. repeat split. Qed.

(** C23: no task is ended twice. *)
Theorem C23_one_winner : forall vs : list tev, few vs ->
  NoDup (map (fun w => at_id (fst w)) (wins (ts_run tstore0 vs))).
Proof. exact one_winner. Qed.
Print Assumptions C23_one_winner.

(** C23: the first attempt on an existing task succeeds, with its status and message. *)
Theorem C23_first_wins : forall (vs : list tev) (a : attempt) (t : task), few vs ->
  ts_get (at_id a) (ts_run tstore0 vs) = Some t ->
  ~ In (at_id a) (map (fun w => at_id (fst w)) (wins (ts_run tstore0 vs))) ->
  fst (ts_terminal a (ts_run tstore0 vs)) =
    Won {| tk_id := at_id a; tk_status := at_status a; tk_message := at_message a; tk_created := tk_created t;
           tk_updated := at_now a; tk_ttl := tk_ttl t; tk_poll := tk_poll t |}.
Proof. exact first_wins. Qed.
Print Assumptions C23_first_wins.

(** C23: an attempt is refused only after another one won, and is told the winner's task. *)
Theorem C23_losers_told : forall (vs : list tev) l1 a t l2, few vs ->
  ts_log (ts_run tstore0 vs) = l1 ++ (a, Refused t) :: l2 ->
  exists a', In (a', Won t) l1 /\ at_id a' = at_id a /\ tk_status t = at_status a' /\ tk_message t = at_message a'.
Proof. exact losers_told. Qed.
Print Assumptions C23_losers_told.

(** C23: an attempt is told there is no such task only if there was none. *)
Theorem C23_unknown_told : forall (vs : list tev) l1 a l2, few vs ->
  ts_log (ts_run tstore0 vs) = l1 ++ (a, NotFound) :: l2 ->
  exists vs1 vs2, vs = vs1 ++ TTerminal a :: vs2 /\ ~ In (at_id a) (ids (ts_run tstore0 vs1)).
Proof. exact unknown_told. Qed.
Print Assumptions C23_unknown_told.

(** C23: whoever waited for a task was given the winner's payload. *)
Theorem C23_waiters : forall (vs : list tev) (i : bstr) (e : bool) (p : json), few vs ->
  In (i, Some (e, p)) (ts_waited (ts_run tstore0 vs)) ->
  exists a t, In (a, t) (wins (ts_run tstore0 vs)) /\ at_id a = i /\ at_error a = e /\ at_payload a = p.
Proof. exact waiters_told. Qed.
Print Assumptions C23_waiters.

(** C23: and once there is a winner, a waiter that runs gets it. *)
Theorem C23_waiters_wake : forall (vs : list tev) n i rest a t, few vs ->
  take_nth n (ts_waiting (ts_run tstore0 vs)) = Some (i, rest) ->
  In (a, t) (wins (ts_run tstore0 vs)) -> at_id a = i ->
  ts_waited (ts_run tstore0 (vs ++ [TWake n])) = ts_waited (ts_run tstore0 vs) ++ [(i, Some (at_error a, at_payload a))].
Proof. exact waiter_wakes. Qed.
Print Assumptions C23_waiters_wake.

Example C23_ex :
  map (fun e => (at_id (fst e), at_status (fst e), match snd e with NotFound => bs "not found" | Refused t => bs "refused " ++ tk_status t | Won t => bs "won" end))
      (ts_log (ts_run tstore0 demo)) =
    [(bs "task-1", COMPLETED, bs "won"); (bs "task-1", CANCELLED, bs "refused completed"); (bs "nobody", CANCELLED, bs "not found")] /\
  ts_waiting (ts_run tstore0 (firstn 9 demo)) = [bs "task-1"] /\
  ts_waited (ts_run tstore0 demo) = [(bs "task-1", Some (false, JStr (bs "done")))].
Proof. vm_compute. repeat split. Qed.

(** C24: ids are never reused, and there are as many as creations. *)
Theorem C24_unique : forall vs : list tev, few vs ->
  NoDup (ids (ts_run tstore0 vs)) /\ length (ids (ts_run tstore0 vs)) = creations vs.
Proof. exact ids_unique. Qed.
Print Assumptions C24_unique.

(** C24: a task that was created is found under its id, with its creation time, ttl, poll
    interval and kind. *)
Theorem C24_retrievable : forall (vs : list tev) (t : task) (k : task_kind), few vs ->
  In (t, k) (ts_created (ts_run tstore0 vs)) ->
  ts_kind (tk_id t) (ts_run tstore0 vs) = Some k /\
  exists t', ts_get (tk_id t) (ts_run tstore0 vs) = Some t' /\ tk_id t' = tk_id t /\ tk_created t' = tk_created t /\
    tk_ttl t' = tk_ttl t /\ tk_poll t' = tk_poll t.
Proof. exact created_found. Qed.
Print Assumptions C24_retrievable.

(** C24: nothing else is found. *)
Theorem C24_only_created : forall (vs : list tev) (i : bstr) (t : task), few vs ->
  ts_get i (ts_run tstore0 vs) = Some t -> tk_id t = i /\ In i (ids (ts_run tstore0 vs)).
Proof. exact found_created. Qed.
Print Assumptions C24_only_created.

Example C24_ex :
  ids (ts_run tstore0 demo) = [bs "task-1"; bs "task-2"; bs "task-3"] /\ creations demo = 3 /\
  ts_kind (bs "task-2") (ts_run tstore0 demo) = Some KElicitation /\
  option_map tk_ttl (ts_get (bs "task-1") (ts_run tstore0 demo)) = Some (Some 5000%Z) /\
  ts_get (bs "task-4") (ts_run tstore0 demo) = None.
Proof. vm_compute. repeat split. Qed.

(** C25: following the cursors with any page size gives every task once, in the order of
    creation, even if tasks are created meanwhile; no page is longer than was asked. *)
Theorem C25_pages_cover : forall (n : Z) (vs : list tev) pages (us : list tev), walk n vs None pages us ->
  (0 < n < 2 ^ 63)%Z -> (N.of_nat (creations us) < 2 ^ 63)%N ->
  concat pages = ids (ts_run tstore0 us) /\ Forall (fun page => (Z.of_nat (length page) <= n)%Z) pages.
Proof. exact walk_all. Qed.
Print Assumptions C25_pages_cover.

(** C25: when no tasks are created meanwhile this ends, and no request is refused. *)
Theorem C25_pages_end : forall (n : Z) (vs : list tev), (0 < n < 2 ^ 63)%Z -> (N.of_nat (creations vs) < 2 ^ 63)%N ->
  exists pages, walk n vs None pages vs.
Proof. exact walk_exists. Qed.
Print Assumptions C25_pages_end.

(** C25: without a limit there is one page; each entry is the task as it stands. *)
Theorem C25_one_page : forall vs : list tev, few vs ->
  exists ts, tasks_list None (ts_run tstore0 vs) = ListPage (tasks_json ts None) /\
  map tk_id ts = ids (ts_run tstore0 vs) /\ forall t, In t ts -> ts_get (tk_id t) (ts_run tstore0 vs) = Some t.
Proof. exact list_all. Qed.
Print Assumptions C25_one_page.

Example C25_ex :
  let p c := match tasks_list (ask_params 2 c) (ts_run tstore0 demo) with ListPage v => Some (map tk_id (fst (parse_tasks v)), snd (parse_tasks v)) | _ => None end in
  p None = Some ([bs "task-1"; bs "task-2"], Some (bs "2")) /\ p (Some (bs "2")) = Some ([bs "task-3"], None) /\
  tasks_list (ask_params 2 (Some (bs "x"))) (ts_run tstore0 demo) = ListInvalid (bs "Invalid cursor") /\
  tasks_list (ask_params 0 None) (ts_run tstore0 demo) = ListInvalid (bs "Invalid limit").
Proof. vm_compute. repeat split. Qed.

(** C26: reading any JSON value that holds the same data as the serialized form gives back
    the task. *)
Theorem C26_task : forall (t : task) (v : json), same (task_json t) v -> parse_task v = t.
Proof. exact parse_task_json. Qed.
Print Assumptions C26_task.

(** C26: also after a trip over the wire, if the integers have 64 bits. *)
Theorem C26_task_wire : forall (t : task) (v : json), fits (tk_ttl t) -> fits (tk_poll t) -> same (task_json t) v ->
  parse_json (ser v) = POk v [] /\ parse_task v = t.
Proof. intros t v H1 H2 H. split; [apply (wire_same (task_json t)); [now apply ok_task_json|exact H]|now apply parse_task_json]. Qed.
Print Assumptions C26_task_wire.

(** C26: create-task results. *)
Theorem C26_created : forall (t : task) (m : option json) (v : json), same (created_json t m) v ->
  fst (parse_created v) = t /\
  match m, snd (parse_created v) with Some x, Some y => same x y | None, None => True | _, _ => False end.
Proof. exact parse_created_json. Qed.
Print Assumptions C26_created.

Theorem C26_created_wire : forall (t : task) (m : option json) (v : json), fits (tk_ttl t) -> fits (tk_poll t) ->
  (forall x, m = Some x -> ok x) -> same (created_json t m) v -> parse_json (ser v) = POk v [].
Proof. intros t m v H1 H2 H3 H. apply (wire_same (created_json t m)); [now apply ok_created_json|exact H]. Qed.
Print Assumptions C26_created_wire.

(** C26: pages of tasks. *)
Theorem C26_list : forall (l : list task) (next : option bstr) (v : json), same (tasks_json l next) v ->
  parse_tasks v = (l, next).
Proof. exact parse_tasks_json. Qed.
Print Assumptions C26_list.

Theorem C26_list_wire : forall (l : list task) (next : option bstr) (v : json),
  Forall (fun t => fits (tk_ttl t) /\ fits (tk_poll t)) l -> same (tasks_json l next) v -> parse_json (ser v) = POk v [].
Proof. intros l next v H1 H. apply (wire_same (tasks_json l next)); [now apply ok_tasks_json|exact H]. Qed.
Print Assumptions C26_list_wire.

(** C26: task metadata and task ids inside request parameters. *)
Theorem C26_metadata : forall (ttl : option Z) (o : obj) (v : json) (d : option Z), NoDup (map fst o) ->
  obj_get (bs "task") o = Some (metadata_json ttl) -> same (JObj o) v ->
  parse_metadata (Some v) d = (true, match ttl with Some z => Some z | None => d end).
Proof. exact parse_metadata_json. Qed.
Print Assumptions C26_metadata.

Theorem C26_task_id : forall (i : bstr) (o : obj) (v : json), NoDup (map fst o) ->
  obj_get (bs "taskId") o = Some (JStr i) -> same (JObj o) v -> parse_task_id (Some v) = (true, i).
Proof. exact parse_task_id_json. Qed.
Print Assumptions C26_task_id.

Example C26_ex :
  let t := {| tk_id := bs "task-7"; tk_status := FAILED; tk_message := Some (bs "a""b"); tk_created := bs "c"; tk_updated := bs "u";
              tk_ttl := None; tk_poll := Some (-3)%Z |} in
  fits (tk_poll t) /\
  ser (task_json t) = bs "{""taskId"":""task-7"",""status"":""failed"",""createdAt"":""c"",""lastUpdatedAt"":""u"",""statusMessage"":""a\""b"",""ttl"":null,""pollInterval"":-3}" /\
  parse_task (task_json t) = t.
Proof. cbn. repeat split; discriminate. Qed.

(** C27: attaching to a result keeps every other member and, when there is no metadata yet or
    it is an object, every other entry of the metadata. *)
Theorem C27_result : forall (o : obj) (i : bstr), exists o', attach_result (JObj o) i = JObj o' /\
  (forall k, k <> bs "_meta" -> obj_get k o' = obj_get k o) /\
  exists m, obj_get (bs "_meta") o' = Some (JObj m) /\
    (exists r, obj_get RELATED m = Some (JObj r) /\ obj_get (bs "taskId") r = Some (JStr i)) /\
    (forall m0, obj_get (bs "_meta") o = Some (JObj m0) -> forall k, k <> RELATED -> obj_get k m = obj_get k m0) /\
    (obj_get (bs "_meta") o = None -> forall k, k <> RELATED -> obj_get k m = None).
Proof.
  intros o i. destruct (attach_result_obj o i) as (o' & A & B & m & C & D & E). exists o'. split; [exact A|]. split; [exact B|].
  exists m. split; [exact C|]. split; [exact D|]. split; intros; rewrite E by assumption; unfold obj_at, META; now rewrite H.
Qed.
Print Assumptions C27_result.

(** C27: likewise for an error; the metadata lives in its data member. *)
Theorem C27_error : forall (o : obj) (i : bstr), exists o', attach_error (JObj o) i = JObj o' /\
  (forall k, k <> bs "data" -> obj_get k o' = obj_get k o) /\
  exists d, obj_get (bs "data") o' = Some (JObj d) /\
    (forall d0, obj_get (bs "data") o = Some (JObj d0) -> forall k, k <> bs "_meta" -> obj_get k d = obj_get k d0) /\
    exists m, obj_get (bs "_meta") d = Some (JObj m) /\
      (exists r, obj_get RELATED m = Some (JObj r) /\ obj_get (bs "taskId") r = Some (JStr i)) /\
      (forall d0 m0, obj_get (bs "data") o = Some (JObj d0) -> obj_get (bs "_meta") d0 = Some (JObj m0) ->
         forall k, k <> RELATED -> obj_get k m = obj_get k m0).
Proof.
  intros o i. destruct (attach_error_obj o i) as (o' & A & B & d & C & D & m & E & F & G). exists o'. split; [exact A|]. split; [exact B|].
  exists d. split; [exact C|]. split; [intros d0 H k Hk; rewrite D by assumption; unfold obj_at, DATA; now rewrite H|].
  exists m. split; [exact E|]. split; [exact F|]. intros d0 m0 H1 H2 k Hk. rewrite G by assumption. unfold obj_at, DATA, META. now rewrite H1, H2.
Qed.
Print Assumptions C27_error.

(** C27: a payload that is not an object is left as it is. *)
Theorem C27_other : forall (p : json) (i : bstr), (forall o, p <> JObj o) -> attach_result p i = p /\ attach_error p i = p.
Proof. intros p i H. destruct p; try easy. now destruct (H l). Qed.
Print Assumptions C27_other.

(** C27 fails: error data, or metadata, that is not an object is thrown away. *)
Theorem C27_data_lost_refuted : exists p q i,
  p <> q /\ attach_error p i = attach_error q i /\
  p = JObj [(bs "code", JInt (-32603)); (bs "message", JStr (bs "disk full")); (bs "data", JStr (bs "/dev/sda1"))] /\
  q = JObj [(bs "code", JInt (-32603)); (bs "message", JStr (bs "disk full")); (bs "data", JArr [JInt 1])].
Proof. eexists _, _, (bs "task-1"). split; [|split; [|split; reflexivity]]; [discriminate|reflexivity]. Qed.
Print Assumptions C27_data_lost_refuted.

Theorem C27_meta_lost_refuted : exists p q i, p <> q /\ attach_result p i = attach_result q i.
Proof. exists (JObj [(bs "_meta", JStr (bs "v1"))]), (JObj [(bs "_meta", JArr [])]), (bs "task-1"). split; [discriminate|reflexivity]. Qed.
Print Assumptions C27_meta_lost_refuted.

Example C27_ex : ser (attach_error (JObj [(bs "code", JInt 1); (bs "data", JObj [(bs "x", JInt 2); (bs "_meta", JObj [(bs "y", JNull)])])]) (bs "task-1")) =
  bs "{""code"":1,""data"":{""x"":2,""_meta"":{""y"":null,""modelcontextprotocol.io/related-task"":{""taskId"":""task-1""}}}}".
Proof. vm_compute. reflexivity. Qed.

(** C67: the status callback is made once for each creation and once for each end of a task,
    with the task as it was then; ts_emit are the calls still to be made. *)
Theorem C67_status_reports : forall vs : list tev,
  Permutation (ts_seen (ts_run tstore0 vs) ++ map snd (ts_emit (ts_run tstore0 vs)))
              (map fst (ts_created (ts_run tstore0 vs)) ++ map snd (wins (ts_run tstore0 vs))).
Proof. exact reports. Qed.
Print Assumptions C67_status_reports.

(** C67 fails: the calls are made after the lock is released, so a peer can be told that a
    cancelled task is working, and never be told otherwise. *)
Theorem C67_order_refuted : exists vs t, few vs /\ ts_emit (ts_run tstore0 vs) = [] /\
  ts_get (bs "task-1") (ts_run tstore0 vs) = Some t /\ tk_status t = CANCELLED /\
  map (fun x => (tk_id x, tk_status x)) (ts_seen (ts_run tstore0 vs)) = [(bs "task-1", CANCELLED); (bs "task-1", WORKING)].
Proof.
  exists [TCreate KToolCall None (bs "t0"); TTerminal (cancel_attempt (bs "task-1") JNull (bs "t1")); TEmit 1; TEmit 0].
  eexists. split; [reflexivity|]. split; [reflexivity|]. split; [reflexivity|]. split; reflexivity.
Qed.
Print Assumptions C67_order_refuted.

Example C67_ex : map (fun x => (tk_id x, tk_status x)) (ts_seen (ts_run tstore0 demo)) = [(bs "task-1", COMPLETED); (bs "task-1", WORKING)] /\
  map (fun x => tk_id (snd x)) (ts_emit (ts_run tstore0 demo)) = [bs "task-2"; bs "task-3"].
Proof. vm_compute. split; reflexivity. Qed.
