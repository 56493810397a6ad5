(** Asking about tasks, without reference to how the calls and the answers are built. *)
From Coq Require Import Ascii String List Permutation Arith NArith ZArith Bool.
From Verif Require Import StrModel DoubleModel JsonModel JsonSpec ObjSpec MapModel RpcModel TaskModel TaskSpec DescModel DescSpec RegModel RegSpec ValModel ValSpec CancelModel ReadModel SubModel LogModel ServModel ServSpec PeerModel PeerSpec TrackModel.
Import ListNotations.
Local Open Scope nat_scope.

(** Where tasks are kept: at a server, asked by its client, or at a client, asked by its server.
    With the world around it, its state, and the cancellation flags of the request. *)
Inductive side :=
| AtServer (w : world) (pre mid post : bool) (s : server)
| AtClient (a : app) (mid : bool) (c : client).
Definition kept (x : side) : tstore := match x with AtServer _ _ _ _ s => sv_tasks s | AtClient _ _ c => cl_tasks c end.
Definition strict_side (x : side) : bool := match x with AtServer _ _ _ _ s => sv_strict s | AtClient _ _ c => cl_strict c end.
(** What it does with a request, and the tasks then. *)
Definition handles (x : side) (q : request) : done * tstore :=
  match x with
  | AtServer w pre mid post s => let (d, s') := dispatch w pre mid post q s in (d, sv_tasks s')
  | AtClient a mid c => let (d, c') := peer_dispatch a mid q c in (d, cl_tasks c')
  end.
(** What it said it supports: clients check this for each call, servers for cancellation only. *)
Definition may_ask (x : side) : Prop := match x with AtServer _ _ _ _ _ => True | AtClient _ _ c => cc_tasks (cl_caps c) <> None end.
Definition may_list (x : side) : Prop :=
  match x with AtServer _ _ _ _ _ => True | AtClient _ _ c => exists k m e, cc_tasks (cl_caps c) = Some (true, k, m, e) end.
Definition may_cancel (x : side) : Prop :=
  match x with
  | AtServer _ _ _ _ s => exists l c, sc_tasks (sv_caps s) = Some (l, true, c)
  | AtClient _ _ c => exists l m e, cc_tasks (cl_caps c) = Some (l, true, m, e)
  end.

(** A call made while side x is as it is gives result y to its caller, whatever the member order
    in the messages, and the tasks are then ts. *)
Definition gives {A : Type} (k : call A) (x : side) (y : ret A) (ts : tstore) : Prop :=
  forall q, carried k q -> exists r, handles x q = (Reply r, ts) /\ forall r', delivered r r' -> returns k r' y.

(** The same, for results that arrive with their members in another order. *)
Definition gives_such {A : Type} (k : call A) (x : side) (good : A -> Prop) (ts : tstore) : Prop :=
  forall q, carried k q -> exists r, handles x q = (Reply r, ts) /\ forall r', delivered r r' -> exists y, returns k r' (Ret y) /\ good y.

(** No task of the store looks different. *)
Definition same_tasks (s s' : tstore) : Prop :=
  forall i, ts_get i s' = ts_get i s /\ TaskSpec.outcome i s' = TaskSpec.outcome i s.

(** The caller fetches pages of at most n tasks until one has no next cursor; between pages the
    store goes on from history vs to us. *)
Inductive fetched (strict : bool) (n : Z) : list tev -> option bstr -> list (list task) -> list tev -> Prop :=
| fetched_last vs c x page : kept x = ts_run tstore0 vs -> may_list x ->
    gives (call_list strict c (Some n)) x (Ret (page, None)) (kept x) -> fetched strict n vs c [page] vs
| fetched_more vs ws us c x page c' pages : kept x = ts_run tstore0 vs -> may_list x ->
    gives (call_list strict c (Some n)) x (Ret (page, Some c')) (kept x) -> fetched strict n (vs ++ ws) (Some c') pages us ->
    fetched strict n vs c (page :: pages) us.

(** The shape of the result of a task of this kind, by the schema. *)
Definition kind_result (k : task_kind) (v : json) : Prop :=
  match k with
  | KToolCall => CallToolResult v
  | KCreateMessage => CreateMessageResult v
  | KElicitation => ElicitResult v
  | KUnknown => False
  end.

(** v is object o, marked as the result of task i. *)
Definition marked (i : bstr) (o : obj) (v : json) : Prop :=
  exists o', v = JObj o' /\ (forall k, k <> bs "_meta" -> same_opt (obj_get k o) (obj_get k o')) /\ related_to i (obj_get (bs "_meta") o').

(** v is an error object with this code and message, whose data name task i. *)
Definition marked_error (i : bstr) (c : Z) (m : bstr) (v : json) : Prop :=
  exists o d, v = JObj o /\ obj_get (bs "code") o = Some (JInt c) /\ obj_get (bs "message") o = Some (JStr m) /\
    obj_get (bs "data") o = Some (JObj d) /\ related_to i (obj_get (bs "_meta") d).

(** The kinds of task a side keeps: tool calls at a server, sampling and elicitation at a client. *)
Definition keeps_kind (x : side) (k : task_kind) : Prop :=
  match x with AtServer _ _ _ _ _ => True | AtClient _ _ _ => k = KCreateMessage \/ k = KElicitation end.

(** The server's own reading of a resource. *)
Definition server_reads (w : world) (s : server) (u : bstr) : ret json := own_read (read_config s) (w_read w) (sv_reg s) u.
