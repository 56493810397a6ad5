(** Requests and notifications from a server to a client, without reference to how they are handled. *)
From Coq Require Import Ascii String List Permutation Arith NArith ZArith Bool.
From Verif Require Import StrModel DoubleModel JsonModel JsonSpec ObjSpec MapModel RpcModel TaskModel TaskSpec DescModel DescSpec RegModel RegSpec ValSpec CancelModel ReadModel SubModel LogModel ServModel ServSpec PeerModel.
Import ListNotations.
Local Open Scope nat_scope.

(** The requests a client understands. *)
Definition peer_methods : list bstr :=
  [bs "ping"; bs "roots/list"; bs "tasks/get"; bs "tasks/list"; bs "tasks/result"; bs "tasks/cancel"; bs "elicitation/create"; bs "sampling/createMessage"].

(** The request that a server call sends, as it arrives; and what the call returns for a reply. *)
Definition carried {A : Type} (k : call A) (q : request) : Prop :=
  exists m p read, k = Sends m p read /\ rq_method q = m /\ same_opt p (rq_params q).
Definition returns {A : Type} (k : call A) (r : response) (x : ret A) : Prop :=
  exists m p read, k = Sends m p read /\ read r = x.

(** A notification as it arrives. *)
Definition arrives (n n' : notification) : Prop := nt_method n' = nt_method n /\ same_opt (nt_params n) (nt_params n').

(** The same values, up to member order inside the JSON parts. *)
Definition same_root (r r' : root) : Prop := ro_uri r' = ro_uri r /\ ro_name r' = ro_name r /\ same_opt (ro_meta r) (ro_meta r').
Definition same_elicit (e e' : elicit) : Prop :=
  el_message e' = el_message e /\ same (el_schema e) (el_schema e') /\ el_title e' = el_title e /\ el_mode e' = el_mode e /\
  el_url e' = el_url e /\ el_id e' = el_id e /\ same_opt (el_meta e) (el_meta e').
Definition same_elicited (r r' : elicited) : Prop :=
  ed_action r' = ed_action r /\ same_opt (ed_content r) (ed_content r') /\ ed_id r' = ed_id r.

(** A root that a server can use has a uri. *)
Definition has_uri (r : root) : bool := match ro_uri r with [] => false | _ => true end.

(** The answers the protocol allows to an elicitation. *)
Definition proper (r : elicited) : Prop := In (ed_action r) [bs "accept"; bs "decline"; bs "cancel"].

(** What a sampling handler is given for a request: absent values are null. *)
Definition or_null (v : option json) : json := match v with Some x => x | None => JNull end.
Definition given (p : sampling) (messages prefs system context : json) : Prop :=
  same (JArr (sm_messages p)) messages /\ same (or_null (sm_prefs p)) prefs /\
  system = or_null (option_map JStr (sm_system p)) /\ context = or_null (option_map JStr (sm_context p)).

(** A sampling request that a strict client accepts. *)
Definition params_ok (c : client) (q : request) : Prop := cl_strict c = true -> CreateMessageParams (or_null (rq_params q)).

(** The result of a task: the value, and where it came from. *)
Definition tells_elicited (o : obj) (r : elicited) : Prop :=
  obj_get (bs "action") o = Some (JStr (ed_action r)) /\ obj_get (bs "content") o = ed_content r /\
  obj_get (bs "elicitationId") o = option_map JStr (ed_id r).

(** What a client's capabilities say about tasks: that it has any; that they can be listed and
    cancelled; that sampling and elicitation can be tasks. *)
Definition has_tasks (p : ccaps) : Prop := cc_tasks p <> None.
Definition has_task_list (p : ccaps) : Prop := exists k m e, cc_tasks p = Some (true, k, m, e).
Definition has_task_cancel (p : ccaps) : Prop := exists l m e, cc_tasks p = Some (l, true, m, e).
Definition has_task_sampling (p : ccaps) : Prop := exists l k e, cc_tasks p = Some (l, k, true, e).
Definition has_task_elicit (p : ccaps) : Prop := exists l k m, cc_tasks p = Some (l, k, m, true).

(** What a task is for, and a handler that threw. *)
Definition work_kind (w : work) : task_kind := match w with WElicit _ => KElicitation | WSample _ _ _ _ => KCreateMessage end.
Definition work_threw (a : app) (w : work) (what : bstr) : Prop :=
  match w with
  | WElicit e => exists f, ap_elicit a = Some f /\ f e = Threw what
  | WSample m p y x => exists f, the_sampler a = Some f /\ f m p y x = Threw what
  end.

(** A handler that returned a value, of the right shape if the client is strict. *)
Definition work_gave (strict : bool) (a : app) (w : work) : Prop :=
  match w with
  | WElicit e => exists f r, ap_elicit a = Some f /\ f e = Ret r /\ (strict = true -> proper r)
  | WSample m p y x => exists f v, the_sampler a = Some f /\ f m p y x = Ret v /\ (strict = true -> CreateMessageResult v)
  end.

(** From c to c', task t is new and working, with a worker of its own, and no other task changes. *)
Definition starts_task (ttl : option Z) (w : work) (c : client) (t : task) (c' : client) : Prop :=
  ts_get (tk_id t) (cl_tasks c) = None /\ tk_status t = bs "working" /\ tk_ttl t = ttl /\
  ts_get (tk_id t) (cl_tasks c') = Some t /\ (forall j, j <> tk_id t -> ts_get j (cl_tasks c') = ts_get j (cl_tasks c)) /\
  cl_workers c' = cl_workers c ++ [(tk_id t, w)] /\ cl_ran c' = cl_ran c.

(** A request to cancel task i. *)
Definition cancels_task (i : bstr) (e : pev) : Prop :=
  exists a mid q o, e = PAsk a mid q /\ rq_method q = bs "tasks/cancel" /\ rq_params q = Some (JObj o) /\ obj_get (bs "taskId") o = Some (JStr i).

(** How many requests a history has; each makes at most one task, and the task counter has 64 bits. *)
Definition requests_in (h : list pev) : nat := length (filter (fun e => match e with PAsk _ _ _ => true | _ => false end) h).
Definition few_requests (h : list pev) : Prop := (N.of_nat (requests_in h) < 2 ^ 64)%N.

(** At most 1, with both sides scaled by 2^1074 so that every double is an integer. *)
Definition between_0_and_1 (d : dbl) : Prop :=
  match d with
  | DZero _ => True
  | DFin false m e => (Zpos m * 2 ^ (e + 1074) <= 2 ^ 1074)%Z
  | _ => False
  end.
