(** Requests, replies and capabilities, without reference to how the server handles them. *)
From Coq Require Import Ascii String List Permutation Arith NArith ZArith Bool.
From Verif Require Import StrModel DoubleModel JsonModel JsonSpec ObjSpec MapModel RpcModel TaskModel TaskSpec DescModel DescSpec RegModel RegSpec ValSpec ReadModel SubModel LogModel ServModel.
Import ListNotations.
Local Open Scope nat_scope.

(** The methods of a server. *)
Definition methods : list bstr :=
  [bs "ping"; bs "initialize"; bs "logging/setLevel"; bs "tools/list"; bs "tools/call"; bs "tasks/get"; bs "tasks/list"; bs "tasks/result";
   bs "tasks/cancel"; bs "completion/complete"; bs "resources/list"; bs "resources/templates/list"; bs "resources/read"; bs "resources/subscribe";
   bs "resources/unsubscribe"; bs "sampling/createMessage"; bs "prompts/list"; bs "prompts/get"].

(** A reply to a request: its id, and a result or an error but not both. *)
Definition one_answer (r : response) : Prop :=
  (rs_result r <> None /\ rs_error r = None) \/ (rs_result r = None /\ rs_error r <> None).
Definition answers (q : request) (r : response) : Prop := rs_id r = rq_id q /\ one_answer r.

(** A reply that is an error with this code and message. *)
Definition fails (r : response) (c : Z) (m : bstr) : Prop :=
  rs_result r = None /\ exists o, rs_error r = Some (JObj o) /\ NoDup (map fst o) /\ obj_get (bs "code") o = Some (JInt c) /\ obj_get (bs "message") o = Some (JStr m).
Definition succeeds (r : response) (v : json) : Prop := rs_result r = Some v /\ rs_error r = None.

(** A task that has not ended. *)
Definition unfinished (i : bstr) (s : tstore) : Prop := ts_get i s <> None /\ TaskSpec.outcome i s = None.

(** Nothing a peer or the application could notice changed in the server. *)
Definition quiet (s s' : server) : Prop :=
  sv_strict s' = sv_strict s /\ sv_name s' = sv_name s /\ sv_caps s' = sv_caps s /\ sv_client s' = sv_client s /\ sv_reg s' = sv_reg s /\
  sv_subs s' = sv_subs s /\ sv_level s' = sv_level s /\ sv_sent s' = sv_sent s /\
  ts_recs (sv_tasks s') = ts_recs (sv_tasks s) /\ ts_order (sv_tasks s') = ts_order (sv_tasks s) /\ ts_next (sv_tasks s') = ts_next (sv_tasks s) /\
  ts_emit (sv_tasks s') = ts_emit (sv_tasks s).

(** A request that asks for a task. *)
Definition task_request (q : request) : Prop :=
  exists o t, rq_params q = Some (JObj o) /\ obj_get (bs "task") o = Some (JObj t).

(** What a tool returned, as a result. *)
Definition tells_tool (v : json) (t : tool_out) : Prop :=
  exists o, v = JObj o /\ obj_get (bs "content") o = Some (JArr (to_content t)) /\ obj_get (bs "structuredContent") o = to_struct t /\
    obj_get (bs "_meta") o = to_meta t /\ obj_get (bs "isError") o = Some (JBool (to_error t)).
Definition tells_prompt (v : json) (d : bstr) (ms : list json) : Prop :=
  exists o, v = JObj o /\ obj_get (bs "description") o = Some (JStr d) /\ obj_get (bs "messages") o = Some (JArr ms).

(** A tool that must be called as a task, one that may be, and one that must not. *)
Inductive support := Required | Optional | Forbidden.
Definition supports (t : tool) (s : support) : Prop :=
  let says x := exists o, tl_exec t = Some (JObj o) /\ obj_get (bs "taskSupport") o = Some (JStr x) in
  match s with
  | Required => says (bs "required")
  | Optional => says (bs "optional")
  | Forbidden => ~ says (bs "required") /\ ~ says (bs "optional")
  end.

(** A request as sent by a client, with its parameters in whatever member order. *)
Definition requests (q : request) (method : bstr) (params : json) : Prop :=
  rq_method q = method /\ exists p, rq_params q = Some p /\ same params p.

(** A reply as it arrives. *)
Definition delivered (r r' : response) : Prop :=
  rs_id r' = rs_id r /\ same_opt (rs_result r) (rs_result r') /\ same_opt (rs_error r) (rs_error r').

(** No attempt to end this task. *)
Definition untouched (i : bstr) (vs : list tev) : Prop := forall a, In (TTerminal a) vs -> at_id a <> i.

(** The metadata that names a task. *)
Definition related_to (i : bstr) (v : option json) : Prop :=
  exists m r, v = Some (JObj m) /\ obj_get (bs "modelcontextprotocol.io/related-task") m = Some (JObj r) /\ obj_get (bs "taskId") r = Some (JStr i).

(** The capabilities of a server, as far as presence goes. *)
Definition same_presence {A : Type} (x y : option A) : Prop := x = None <-> y = None.
