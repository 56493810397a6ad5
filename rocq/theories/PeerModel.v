(** The client as a peer: the requests and notifications a server sends it, the task store behind
    them, and the server calls that send them. *)
From Coq Require Import Ascii String List Arith NArith ZArith Bool.
From Verif Require Import StrModel DoubleModel JsonModel MapModel RpcModel TaskModel DescModel RegModel TmplModel ValModel ReadModel SubModel LogModel CancelModel ServModel.
Import ListNotations.
Local Open Scope nat_scope.

(** Root, include/mcp/Protocol.h:291-301. *)
Record root := { ro_uri : bstr; ro_name : option bstr; ro_meta : option json }.
(** ElicitationRequest and ElicitationResult, Protocol.h:389-403. *)
Record elicit := {
  el_message : bstr; el_schema : json; el_title : option bstr; el_mode : option bstr; el_url : option bstr;
  el_id : option bstr; el_meta : option json
}.
Record elicited := { ed_action : bstr; ed_content : option json; ed_id : option bstr }.
(** CreateMessageParams, Protocol.h:370-380; maxTokens is an int. *)
Record sampling := {
  sm_messages : list json; sm_prefs : option json; sm_system : option bstr; sm_context : option bstr;
  sm_max : option Z; sm_temperature : option dbl; sm_stop : option (list bstr); sm_meta : option json
}.

(** The application's handlers and the clock; a sampling handler gets messages, modelPreferences,
    systemPrompt and includeContext. The stop token of the cancelable handler is in CancelModel. *)
Definition sampler := json -> json -> json -> json -> ret json.
Record app := {
  ap_roots : option (ret (list root));
  ap_elicit : option (elicit -> ret elicited);
  ap_sample : option sampler;
  ap_sample_stop : option sampler;
  ap_now : bstr
}.

(** What the worker thread of a task will do. *)
Inductive work := WElicit (e : elicit) | WSample (messages prefs system context : json).

(** The state the handlers use, src/mcp/Client.cpp:160-212. cl_workers: the worker threads not yet
    done, each with its task; cl_ran: the ones that are done, with what they tried to record. *)
Record client := {
  cl_strict : bool; cl_caps : ccaps; cl_tasks : tstore;
  cl_workers : list (bstr * work); cl_ran : list (bstr * work * attempt)
}.
Definition client0 (strict : bool) (caps : ccaps) : client :=
  {| cl_strict := strict; cl_caps := caps; cl_tasks := tstore0; cl_workers := []; cl_ran := [] |}.
Definition cl_set_tasks (t : tstore) (c : client) : client :=
  {| cl_strict := cl_strict c; cl_caps := cl_caps c; cl_tasks := t; cl_workers := cl_workers c; cl_ran := cl_ran c |}.

(** The result of roots/list, Client.cpp:677-693. *)
Definition root_json (r : root) : json :=
  JObj (opt_set (bs "_meta") (fun v => v) (ro_meta r) (opt_set (bs "name") JStr (ro_name r) (obj_set (bs "uri") (JStr (ro_uri r)) []))).
Definition roots_json (l : list root) : json := JObj (obj_set (bs "roots") (JArr (map root_json l)) []).

(** roots/list, Client.cpp:671-705. *)
Definition handle_roots (a : app) (c : client) : answer :=
  match ap_roots a with
  | None => AError METHOD_NOT_ALLOWED (bs "No roots/list handler registered")
  | Some (Threw what) => AError INTERNAL what
  | Some (Ret l) =>
      let v := roots_json l in
      if (cl_strict c && negb (valid_roots v))%bool then AError INTERNAL (bs "Invalid roots/list result shape") else AResult v
  end.

(** The task flags of ClientCapabilities, as tested at Client.cpp:707, 732, 775, 809, 889, 949. *)
Definition can_task (c : client) : bool := match cc_tasks (cl_caps c) with Some _ => true | None => false end.
Definition can_list (c : client) : bool := match cc_tasks (cl_caps c) with Some (l, _, _, _) => l | None => false end.
Definition can_cancel (c : client) : bool := match cc_tasks (cl_caps c) with Some (_, k, _, _) => k | None => false end.
Definition can_sample_task (c : client) : bool := match cc_tasks (cl_caps c) with Some (_, _, m, _) => m | None => false end.
Definition can_elicit_task (c : client) : bool := match cc_tasks (cl_caps c) with Some (_, _, _, e) => e | None => false end.

Definition strict_shape (strict : bool) (valid : json -> bool) (msg : bstr) (v : json) : answer :=
  if (strict && negb (valid v))%bool then AError INTERNAL msg else AResult v.

(** tasks/get, Client.cpp:706-730. *)
Definition peer_get_task (params : option json) (c : client) : answer :=
  if negb (can_task c) then AError METHOD_NOT_ALLOWED (bs "Tasks not supported")
  else
    match parse_task_id params with
    | (false, _) => AError INVALID_PARAMS (bs "Invalid taskId")
    | (true, i) =>
        match ts_get i (cl_tasks c) with
        | None => AError INVALID_PARAMS (bs "Unknown task")
        | Some t => strict_shape (cl_strict c) valid_task (bs "Invalid task result shape") (task_json t)
        end
    end.

(** tasks/list, Client.cpp:731-773; the text of the length_error is left open as in TaskModel. *)
Definition peer_list_tasks (params : option json) (c : client) : answer :=
  if negb (can_list c) then AError METHOD_NOT_ALLOWED (bs "Task listing not supported")
  else
    match tasks_list params (cl_tasks c) with
    | ListInvalid m => AError INVALID_PARAMS m
    | ListThrows => AError INTERNAL (bs "vector::reserve")
    | ListPage v => strict_shape (cl_strict c) valid_tasks (bs "Invalid tasks/list result shape") v
    end.

(** tasks/result, Client.cpp:774-807: the answer once WaitForTerminalPayload has returned. Only
    sampling and elicitation results have a shape that is valid. *)
Definition peer_finish (i : rpcid) (strict : bool) (kind : option task_kind) (t : bstr) (p : option (bool * json)) : done :=
  match p with
  | None => respond i (AError INVALID_PARAMS (bs "Unknown task"))
  | Some (true, v) => Reply {| rs_id := i; rs_result := None; rs_error := Some (attach_error v t) |}
  | Some (false, v) =>
      let v := attach_result v t in
      let valid := match kind with
                   | None => true
                   | Some KCreateMessage => valid_create_result v
                   | Some KElicitation => valid_elicitation_result v
                   | Some _ => false
                   end in
      if (strict && negb valid)%bool then respond i (AError INTERNAL (bs "Invalid task result shape")) else respond i (AResult v)
  end.
Definition peer_task_result (i : rpcid) (params : option json) (c : client) : done :=
  if negb (can_task c) then respond i (AError METHOD_NOT_ALLOWED (bs "Tasks not supported"))
  else
    match parse_task_id params with
    | (false, _) => respond i (AError INVALID_PARAMS (bs "Invalid taskId"))
    | (true, t) =>
        match aget t (ts_recs (cl_tasks c)) with
        | None => peer_finish i (cl_strict c) None t None
        | Some r => match tr_payload r with
                    | Some p => peer_finish i (cl_strict c) (Some (tr_kind r)) t (Some (tr_error r, p))
                    | None => Waits t
                    end
        end
    end.

(** tasks/cancel, Client.cpp:808-834. *)
Definition peer_cancel_task (a : app) (params : option json) (c : client) : answer * client :=
  if negb (can_cancel c) then (AError METHOD_NOT_ALLOWED (bs "Task cancellation not supported"), c)
  else
    match parse_task_id params with
    | (false, _) => (AError INVALID_PARAMS (bs "Invalid taskId"), c)
    | (true, i) =>
        match ts_terminal (cancel_attempt i (error_object INTERNAL (bs "Cancelled") None) (ap_now a)) (cl_tasks c) with
        | (Won t, ts) => (strict_shape (cl_strict c) valid_task (bs "Invalid task result shape") (task_json t), cl_set_tasks ts c)
        | (_, ts) => (AError INVALID_PARAMS (bs "Task is not cancellable"), cl_set_tasks ts c)
        end
    end.

(** A new task with its worker, Client.cpp:893-924 and 975-1010. *)
Definition start_task (a : app) (k : task_kind) (ttl : option Z) (w : work) (c : client) : answer * client :=
  let t := new_task (ts_next (cl_tasks c)) (ap_now a) ttl in
  (strict_shape (cl_strict c) valid_created (bs "Invalid task creation result shape") (created_json t None),
   {| cl_strict := cl_strict c; cl_caps := cl_caps c; cl_tasks := ts_create k ttl (ap_now a) (cl_tasks c);
      cl_workers := cl_workers c ++ [(tk_id t, w)]; cl_ran := cl_ran c |}).

(** The ElicitationRequest read from the parameters, Client.cpp:849-885. A default-constructed
    requestedSchema is null. *)
Definition read_elicit (v : json) : elicit :=
  match v with
  | JObj o =>
      {| el_message := or_empty (get_str (bs "message") o);
         el_schema := match obj_get (bs "requestedSchema") o with Some s => s | None => JNull end;
         el_title := get_str (bs "title") o; el_mode := get_str (bs "mode") o; el_url := get_str (bs "url") o;
         el_id := get_str (bs "elicitationId") o; el_meta := obj_get (bs "metadata") o |}
  | _ => {| el_message := []; el_schema := JNull; el_title := None; el_mode := None; el_url := None; el_id := None; el_meta := None |}
  end.
(** Its result, Client.cpp:925-933 and 899-906. *)
Definition elicited_json (r : elicited) : json :=
  JObj (opt_set (bs "elicitationId") JStr (ed_id r) (opt_set (bs "content") (fun v => v) (ed_content r) (obj_set (bs "action") (JStr (ed_action r)) []))).

(** elicitation/create, Client.cpp:835-944. *)
Definition handle_elicit (a : app) (params : option json) (c : client) : answer * client :=
  match ap_elicit a with
  | None => (AError METHOD_NOT_ALLOWED (bs "No elicitation handler registered"), c)
  | Some f =>
      let v := match params with Some v => v | None => JObj [] end in
      if (cl_strict c && negb (valid_elicitation_request v))%bool
      then (AError INVALID_PARAMS (bs "Invalid elicitation/create params"), c)
      else
        let '(is_task, ttl) := parse_metadata params None in
        if is_task then
          if negb (can_elicit_task c) then (AError METHOD_NOT_ALLOWED (bs "Task-augmented elicitation not supported"), c)
          else start_task a KElicitation ttl (WElicit (read_elicit v)) c
        else
          (match f (read_elicit v) with
           | Threw what => AError INTERNAL what
           | Ret r => strict_shape (cl_strict c) valid_elicitation_result (bs "Invalid elicitation result shape") (elicited_json r)
           end, c)
  end.

(** The handler that is used: samplingHandler if there is one, Client.cpp:986-989 and 1040-1042. *)
Definition the_sampler (a : app) : option sampler :=
  match ap_sample a with Some f => Some f | None => ap_sample_stop a end.

(** sampling/createMessage, Client.cpp:945-1063. mid: the request's token is cancelled when the
    handler has returned. *)
Definition handle_create (a : app) (mid : bool) (params : option json) (c : client) : answer * client :=
  let invalid := (cl_strict c && negb (valid_create_params (match params with Some v => v | None => JObj [] end)))%bool in
  let arg k := param_or_null k params in
  let '(is_task, ttl) := parse_metadata params None in
  if (is_task && negb (can_sample_task c))%bool then (AError METHOD_NOT_ALLOWED (bs "Task-augmented sampling not supported"), c)
  else
    match the_sampler a with
    | None => (AError METHOD_NOT_ALLOWED (bs "No sampling handler registered"), c)
    | Some f =>
        if invalid then (AError INVALID_PARAMS (bs "Invalid sampling/createMessage params"), c)
        else if is_task then
          start_task a KCreateMessage ttl
            (WSample (arg (bs "messages")) (arg (bs "modelPreferences")) (arg (bs "systemPrompt")) (arg (bs "includeContext"))) c
        else
          (match f (arg (bs "messages")) (arg (bs "modelPreferences")) (arg (bs "systemPrompt")) (arg (bs "includeContext")) with
           | Threw what => AError INTERNAL what
           | Ret v =>
               if mid then AError INTERNAL (bs "Cancelled")
               else strict_shape (cl_strict c) valid_create_result (bs "Invalid sampling result shape") v
           end, c)
    end.

(** onRequest, Client.cpp:664-1073. *)
Definition peer_dispatch (a : app) (mid : bool) (q : request) (c : client) : done * client :=
  let m := rq_method q in
  let i := rq_id q in
  let p := rq_params q in
  let on (x : answer * client) := (respond i (fst x), snd x) in
  if beq m (bs "ping") then (respond i (AResult (JObj [])), c)
  else if beq m (bs "roots/list") then (respond i (handle_roots a c), c)
  else if beq m (bs "tasks/get") then (respond i (peer_get_task p c), c)
  else if beq m (bs "tasks/list") then (respond i (peer_list_tasks p c), c)
  else if beq m (bs "tasks/result") then (peer_task_result i p c, c)
  else if beq m (bs "tasks/cancel") then on (peer_cancel_task a p c)
  else if beq m (bs "elicitation/create") then on (handle_elicit a p c)
  else if beq m (bs "sampling/createMessage") then on (handle_create a mid p c)
  else (respond i (AError METHOD_NOT_FOUND (bs "Method not found")), c).

(** What the worker of a task does: the handler, then CompleteTask, Client.cpp:896-919 and 984-1009.
    Simplification: one step; between the two the worker touches nothing another thread sees. An
    empty std::function throws bad_function_call. *)
Definition worker_failed (i now what : bstr) : attempt :=
  complete_attempt i FAILED (Some what) true (error_object INTERNAL what None) now.
Definition worker_value (strict : bool) (valid : json -> bool) (msg i now : bstr) (v : json) : attempt :=
  if (strict && negb (valid v))%bool then worker_failed i now msg else complete_attempt i COMPLETED None false v now.
Definition peer_worker (a : app) (strict : bool) (i : bstr) (w : work) : attempt :=
  match w with
  | WElicit e =>
      match match ap_elicit a with Some f => f e | None => Threw (bs "bad_function_call") end with
      | Threw what => worker_failed i (ap_now a) what
      | Ret r => worker_value strict valid_elicitation_result (bs "Invalid elicitation result shape") i (ap_now a) (elicited_json r)
      end
  | WSample m p s x =>
      match match the_sampler a with Some f => f m p s x | None => Threw (bs "bad_function_call") end with
      | Threw what => worker_failed i (ap_now a) what
      | Ret v => worker_value strict valid_create_result (bs "Invalid sampling result shape") i (ap_now a) v
      end
  end.

(** The events of a client: a request is handled; worker number n finishes; and the steps of the
    task store that follow (a status notification, a waiting tasks/result). *)
Inductive pev := PAsk (a : app) (mid : bool) (q : request) | PWork (a : app) (n : nat) | PEmit (n : nat) | PWait (i : bstr) | PWake (n : nat).
Definition peer_step (c : client) (e : pev) : client :=
  match e with
  | PAsk a mid q => snd (peer_dispatch a mid q c)
  | PWork a n =>
      match take_nth n (cl_workers c) with
      | None => c
      | Some ((i, w), rest) =>
          let t := peer_worker a (cl_strict c) i w in
          {| cl_strict := cl_strict c; cl_caps := cl_caps c; cl_tasks := snd (ts_terminal t (cl_tasks c));
             cl_workers := rest; cl_ran := cl_ran c ++ [(i, w, t)] |}
      end
  | PEmit n => cl_set_tasks (ts_step (cl_tasks c) (TEmit n)) c
  | PWait i => cl_set_tasks (ts_step (cl_tasks c) (TWait i)) c
  | PWake n => cl_set_tasks (ts_step (cl_tasks c) (TWake n)) c
  end.
Definition peer_run (c : client) (h : list pev) : client := fold_left peer_step h c.

(** The server's side: a call either sends a request and reads its reply, or returns at once.
    Simplification: there is a transport, and its future brings a response. *)
Inductive call (A : Type) := Sends (method : bstr) (params : option json) (read : response -> ret A) | Returns (x : ret A).
Arguments Sends {A} method params read. Arguments Returns {A} x.

(** coPing, src/mcp/Server.cpp:2708-2729. *)
Definition is_obj (v : json) : bool := match v with JObj _ => true | _ => false end.
Definition request_ping (strict : bool) : call unit :=
  Sends (bs "ping") None (fun r =>
    match rs_error r, rs_result r with
    | None, Some v => if (strict && negb (is_obj v))%bool then Threw (bs "Validation failed: ping result shape") else Ret tt
    | _, _ => Threw (bs "ping failed")
    end).

(** coRequestRootsList, Server.cpp:2331-2396. A default-constructed RootsListResult is empty. *)
Definition read_root (v : json) : list root :=
  match v with
  | JObj o =>
      match or_empty (get_str (bs "uri") o) with
      | [] => []
      | u => [{| ro_uri := u; ro_name := get_str (bs "name") o; ro_meta := obj_get (bs "_meta") o |}]
      end
  | _ => []
  end.
Definition roots_reply (strict : bool) (r : response) : ret (list root) :=
  match rs_error r, rs_result r with
  | None, Some v =>
      if (strict && negb (valid_roots v))%bool then Threw (bs "Validation failed: roots/list result shape")
      else Ret (match v with JObj o => match obj_get (bs "roots") o with Some (JArr l) => flat_map read_root l | _ => [] end | _ => [] end)
  | _, _ => Ret []
  end.
Definition request_roots (strict : bool) (peer : ccaps) : call (list root) :=
  match cc_roots peer with Some _ => Sends (bs "roots/list") None (roots_reply strict) | None => Returns (Ret []) end.

(** coRequestCreateMessage, Server.cpp:2398-2457 (coRequestCreateMessageWithId, 2520-2580, is the same
    but for the id), and coRequestCreateMessageTask, 2459-2518. *)
Definition message_obj (p : sampling) : obj :=
  let o := obj_set (bs "messages") (JArr (sm_messages p)) [] in
  let o := opt_set (bs "modelPreferences") (fun v => v) (sm_prefs p) o in
  let o := opt_set (bs "systemPrompt") JStr (sm_system p) o in
  let o := opt_set (bs "includeContext") JStr (sm_context p) o in
  let o := opt_set (bs "maxTokens") JInt (sm_max p) o in
  let o := opt_set (bs "temperature") JDbl (sm_temperature p) o in
  let o := opt_set (bs "stopSequences") (fun l => JArr (map JStr l)) (sm_stop p) o in
  opt_set (bs "metadata") (fun v => v) (sm_meta p) o.
Definition message_params (p : sampling) (ttl : option (option Z)) : json :=
  JObj (opt_set (bs "task") metadata_json ttl (message_obj p)).
Definition request_message (p : sampling) : call json :=
  Sends (bs "sampling/createMessage") (Some (message_params p None)) (fun r => Ret (value_or_error r)).
Definition request_message_task (strict : bool) (peer : ccaps) (p : sampling) (ttl : option Z) : call (task * option json) :=
  if match cc_tasks peer with Some (_, _, m, _) => m | None => false end
  then Sends (bs "sampling/createMessage") (Some (message_params p (Some ttl)))
         (expect strict valid_created parse_created (bs "sampling/createMessage task request failed") (bs "Validation failed: sampling/createMessage task result shape"))
  else Returns (Threw (bs "Client did not advertise task-augmented sampling support")).

(** coRequestElicitation, Server.cpp:2582-2654, and coRequestElicitationTask, 2656-2706. The strict
    check of the parameters comes before they are sent. *)
Definition elicit_obj (e : elicit) : obj :=
  let o := obj_set (bs "requestedSchema") (el_schema e) (obj_set (bs "message") (JStr (el_message e)) []) in
  let o := opt_set (bs "title") JStr (el_title e) o in
  let o := opt_set (bs "mode") JStr (el_mode e) o in
  let o := opt_set (bs "url") JStr (el_url e) o in
  let o := opt_set (bs "elicitationId") JStr (el_id e) o in
  opt_set (bs "metadata") (fun v => v) (el_meta e) o.
Definition elicit_params (e : elicit) (ttl : option (option Z)) : json :=
  JObj (opt_set (bs "task") metadata_json ttl (elicit_obj e)).
Definition elicited0 : elicited := {| ed_action := []; ed_content := None; ed_id := None |}.
Definition read_elicited (v : json) : elicited :=
  match v with
  | JObj o => {| ed_action := or_empty (get_str (bs "action") o); ed_content := obj_get (bs "content") o; ed_id := get_str (bs "elicitationId") o |}
  | _ => elicited0
  end.
Definition elicit_reply (strict : bool) (r : response) : ret elicited :=
  match rs_error r, rs_result r with
  | None, Some v =>
      if (strict && negb (valid_elicitation_result v))%bool then Threw (bs "Validation failed: elicitation/create result shape")
      else Ret (read_elicited v)
  | _, _ => Ret elicited0
  end.
Definition request_elicit (strict : bool) (peer : ccaps) (e : elicit) : call elicited :=
  match cc_elicit peer with
  | None => Returns (Ret elicited0)
  | Some _ =>
      let v := elicit_params e None in
      if (strict && negb (valid_elicitation_request v))%bool then Returns (Threw (bs "Validation failed: elicitation/create params shape"))
      else Sends (bs "elicitation/create") (Some v) (elicit_reply strict)
  end.
Definition request_elicit_task (strict : bool) (peer : ccaps) (e : elicit) (ttl : option Z) : call (task * option json) :=
  if match cc_tasks peer with Some (_, _, _, x) => x | None => false end
  then
    let v := elicit_params e (Some ttl) in
    if (strict && negb (valid_elicitation_request v))%bool then Returns (Threw (bs "Validation failed: elicitation/create params shape"))
    else Sends (bs "elicitation/create") (Some v)
           (expect strict valid_created parse_created (bs "elicitation/create task request failed") (bs "Validation failed: elicitation/create task result shape"))
  else Returns (Threw (bs "Client did not advertise task-augmented elicitation support")).

(** extractProgressToken, Server.cpp:59-83: CurrentProgressToken inside a handler. *)
Definition progress_token (params : option json) : option bstr :=
  match params with
  | Some (JObj o) =>
      match obj_get (bs "_meta") o with
      | Some (JObj m) =>
          match obj_get (bs "progressToken") m with
          | Some (JStr []) => None
          | Some (JStr s) => Some s
          | Some (JInt z) => Some (print_Z z)
          | _ => None
          end
      | _ => None
      end
  | _ => None
  end.

(** coSendProgress, Server.cpp:2223-2237. *)
Definition progress_note (token : bstr) (p : dbl) (message : bstr) : notification :=
  {| nt_method := bs "notifications/progress";
     nt_params := Some (JObj (obj_set (bs "message") (JStr message) (obj_set (bs "progress") (JDbl p) (obj_set (bs "progressToken") (JStr token) [])))) |}.

(** sendTaskStatusNotification, Client.cpp:552-564 and Server.cpp. *)
Definition status_note (t : task) : notification := {| nt_method := bs "notifications/tasks/status"; nt_params := Some (task_json t) |}.

(** 0.0 <= d and d <= 1.0 on doubles. *)
Definition unit_range (d : dbl) : bool :=
  match d with
  | DZero _ => true
  | DFin false m e => match e with Z0 => Pos.eqb m 1 | Zpos _ => false | Zneg k => Z.leb (Zpos m) (2 ^ Zpos k) end
  | _ => false
  end.

(** The application's notification handlers: progress, task status, and by method. *)
Record ears := { ea_progress : bool; ea_status : bool; ea_other : list bstr }.
Inductive heard := HProgress (token : bstr) (p : dbl) (message : bstr) | HStatus (t : task) | HOther (method : bstr) (params : json).
(** What a notification does: a handler call, a cancellation of the request with this id text, and
    the method passed to invalidateCachesForListChanged (CacheModel). *)
Record effect := { ef_call : option heard; ef_cancel : option bstr; ef_lists : option bstr }.
Definition silent : effect := {| ef_call := None; ef_cancel := None; ef_lists := None |}.

(** handleProgressNotification, Client.cpp:510-536. *)
Definition read_progress (o : obj) : bstr * dbl * bstr :=
  (or_empty (get_str (bs "progressToken") o),
   match obj_get (bs "progress") o with Some (JDbl d) => d | _ => DZero false end,
   or_empty (get_str (bs "message") o)).
Definition hear_progress (strict : bool) (o : obj) : option heard :=
  let '(t, p, m) := read_progress o in
  if (strict && negb (negb (match t with [] => true | _ => false end) && unit_range p))%bool then None else Some (HProgress t p m).

(** onNotification, Client.cpp:595-628. *)
Definition peer_notice (strict : bool) (ea : ears) (n : notification) : effect :=
  let m := nt_method n in
  let other := {| ef_call := if existsb (beq m) (ea_other ea)
                             then Some (HOther m (match nt_params n with Some v => v | None => JNull end)) else None;
                  ef_cancel := None; ef_lists := Some m |} in
  if (beq m (bs "notifications/progress") && ea_progress ea && match nt_params n with Some _ => true | None => false end)%bool then
    match nt_params n with
    | Some (JObj o) => {| ef_call := hear_progress strict o; ef_cancel := None; ef_lists := None |}
    | _ => silent
    end
  else if beq m (bs "notifications/cancelled") then
    {| ef_call := None; ef_cancel := match cancel_text (nt_params n) with [] => None | i => Some i end; ef_lists := None |}
  else if (beq m (bs "notifications/tasks/status") && ea_status ea)%bool then
    match nt_params n with
    | Some v => if (strict && negb (valid_task v))%bool then silent
                else {| ef_call := Some (HStatus (parse_task v)); ef_cancel := None; ef_lists := None |}
    | None => other
    end
  else other.
