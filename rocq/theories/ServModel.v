(** The server: initialize, tools/call, prompts/get, completion/complete, sampling, tasks, and the
    dispatch of all requests; and the client calls that use them. *)
From Coq Require Import Ascii String List Arith NArith ZArith Bool.
From Verif Require Import StrModel DoubleModel JsonModel MapModel RpcModel TaskModel DescModel RegModel TmplModel ValModel ReadModel SubModel LogModel.
Import ListNotations.
Local Open Scope nat_scope.

(** ServerCapabilities, include/mcp/Protocol.h:63-126; the capabilities without fields are booleans.
    sc_tasks: list, cancel, requests.toolCall. *)
Record scaps := {
  sc_exp : obj; sc_prompts : option bool; sc_resources : option (bool * bool); sc_tools : option bool;
  sc_tasks : option (bool * bool * bool); sc_sampling : bool; sc_completions : bool; sc_logging : bool
}.
(** ClientCapabilities, Protocol.h:128-136. cc_tasks: list, cancel, requests.createMessage,
    requests.elicitationCreate. *)
Record ccaps := {
  cc_roots : option bool; cc_sampling : bool; cc_elicit : option (list bstr);
  cc_tasks : option (bool * bool * bool * bool); cc_exp : obj; cc_ext : obj
}.
Definition scaps0 : scaps :=
  {| sc_exp := []; sc_prompts := None; sc_resources := None; sc_tools := None; sc_tasks := None;
     sc_sampling := false; sc_completions := false; sc_logging := false |}.
Definition ccaps0 : ccaps :=
  {| cc_roots := None; cc_sampling := false; cc_elicit := None; cc_tasks := None; cc_exp := []; cc_ext := [] |}.

(** What user code does when it is called: return a value, or throw a std::exception. *)
Inductive ret (A : Type) := Ret (a : A) | Threw (what : bstr).
Arguments Ret {A} a. Arguments Threw {A} what.

(** ToolResult, Protocol.h:173-182. *)
Record tool_out := { to_content : list json; to_struct : option json; to_meta : option json; to_error : bool }.
(** CompletionResult, Protocol.h:347-351. *)
Record completion := { cp_values : list bstr; cp_total : option Z; cp_more : bool }.

(** User code, the clock and the transport. *)
Record world := {
  w_tool : nat -> json -> ret tool_out;
  w_read : readers;
  w_prompt : nat -> json -> ret (bstr * list json);
  w_complete : option (json -> bstr -> bstr -> option json -> ret completion);
  w_sample : option (json -> json -> json -> json -> ret json);
  w_now : bstr;
  w_connected : bool
}.

(** The state the handlers use, src/mcp/Server.cpp:176-226. sv_sent: the notifications sent by
    handlers; the task store's status notifications are in sv_tasks. *)
Record server := {
  sv_strict : bool; sv_name : bstr; sv_caps : scaps; sv_client : ccaps; sv_reg : registry;
  sv_tasks : tstore; sv_subs : subs; sv_level : level; sv_sent : list bstr
}.

Definition set_client (c : ccaps) (s : server) : server :=
  {| sv_strict := sv_strict s; sv_name := sv_name s; sv_caps := sv_caps s; sv_client := c; sv_reg := sv_reg s;
     sv_tasks := sv_tasks s; sv_subs := sv_subs s; sv_level := sv_level s; sv_sent := sv_sent s |}.
Definition set_tasks (t : tstore) (s : server) : server :=
  {| sv_strict := sv_strict s; sv_name := sv_name s; sv_caps := sv_caps s; sv_client := sv_client s; sv_reg := sv_reg s;
     sv_tasks := t; sv_subs := sv_subs s; sv_level := sv_level s; sv_sent := sv_sent s |}.
Definition set_subs (b : subs) (s : server) : server :=
  {| sv_strict := sv_strict s; sv_name := sv_name s; sv_caps := sv_caps s; sv_client := sv_client s; sv_reg := sv_reg s;
     sv_tasks := sv_tasks s; sv_subs := b; sv_level := sv_level s; sv_sent := sv_sent s |}.
Definition set_min (l : level) (s : server) : server :=
  {| sv_strict := sv_strict s; sv_name := sv_name s; sv_caps := sv_caps s; sv_client := sv_client s; sv_reg := sv_reg s;
     sv_tasks := sv_tasks s; sv_subs := sv_subs s; sv_level := l; sv_sent := sv_sent s |}.
Definition add_sent (l : list bstr) (s : server) : server :=
  {| sv_strict := sv_strict s; sv_name := sv_name s; sv_caps := sv_caps s; sv_client := sv_client s; sv_reg := sv_reg s;
     sv_tasks := sv_tasks s; sv_subs := sv_subs s; sv_level := sv_level s; sv_sent := sv_sent s ++ l |}.

Definition flag_set (k : bstr) (b : bool) (o : obj) : obj := if b then obj_set k (JObj []) o else o.
Definition has (k : bstr) (o : obj) : bool := match obj_get k o with Some _ => true | None => false end.

(** serializeServerCapabilities, Server.cpp:1188-1256. *)
Definition scaps_json (c : scaps) : json :=
  let o : obj := match sc_exp c with [] => @nil (bstr * json) | e => obj_set (bs "experimental") (JObj e) [] end in
  let o := opt_set (bs "prompts") (fun l => JObj [(bs "listChanged", JBool l)]) (sc_prompts c) o in
  let o := opt_set (bs "resources") (fun x => JObj (obj_set (bs "listChanged") (JBool (snd x)) (obj_set (bs "subscribe") (JBool (fst x)) []))) (sc_resources c) o in
  let o := opt_set (bs "tools") (fun l => JObj [(bs "listChanged", JBool l)]) (sc_tools c) o in
  let o := opt_set (bs "tasks") (fun x : bool * bool * bool =>
             let '(l, k, t) := x in
             let r : obj := if t then obj_set (bs "tools") (JObj (obj_set (bs "call") (JObj []) [])) [] else [] in
             let b := flag_set (bs "cancel") k (flag_set (bs "list") l []) in
             JObj (match r with [] => b | _ => obj_set (bs "requests") (JObj r) b end)) (sc_tasks c) o in
  let o := flag_set (bs "sampling") (sc_sampling c) o in
  let o := flag_set (bs "completions") (sc_completions c) o in
  JObj (flag_set (bs "logging") (sc_logging c) o).

(** parseClientCapabilities, Server.cpp:1258-1343: the new capabilities, None if they stay. *)
Definition str_items (l : list json) : list bstr := flat_map (fun v => match v with JStr s => [s] | _ => [] end) l.
Definition as_obj (v : option json) : option obj := match v with Some (JObj o) => Some o | _ => None end.
Definition read_ccaps (params : option json) : option ccaps :=
  match as_obj params with
  | None => None
  | Some p =>
      match as_obj (obj_get (bs "capabilities") p) with
      | None => None
      | Some o =>
          Some {| cc_sampling := has (bs "sampling") o;
                  cc_roots := match obj_get (bs "roots") o with
                              | None => None
                              | Some v => Some (match v with
                                                | JObj r => match obj_get (bs "listChanged") r with Some (JBool b) => b | _ => false end
                                                | _ => false
                                                end)
                              end;
                  cc_elicit := match obj_get (bs "elicitation") o with
                               | None => None
                               | Some v => Some (match v with
                                                 | JObj e => match obj_get (bs "modes") e with Some (JArr l) => str_items l | _ => [] end
                                                 | _ => []
                                                 end)
                               end;
                  cc_tasks := match as_obj (obj_get (bs "tasks") o) with
                              | None => None
                              | Some t =>
                                  let r := as_obj (obj_get (bs "requests") t) in
                                  let in_ a b := match r with
                                                 | None => false
                                                 | Some x => match as_obj (obj_get a x) with Some y => has b y | None => false end
                                                 end in
                                  Some (has (bs "list") t, has (bs "cancel") t, in_ (bs "sampling") (bs "createMessage"), in_ (bs "elicitation") (bs "create"))
                              end;
                  cc_exp := [];
                  cc_ext := match as_obj (obj_get (bs "extensions") o) with Some e => e | None => [] end |}
      end
  end.

(** serializeClientCapabilities, src/mcp/Client.cpp:323-382. *)
Definition ccaps_json (c : ccaps) : json :=
  let o : obj := match cc_exp c with [] => @nil (bstr * json) | e => obj_set (bs "experimental") (JObj e) [] end in
  let o := flag_set (bs "sampling") (cc_sampling c) o in
  let o := opt_set (bs "elicitation") (fun l => JObj (match l with [] => [] | _ => obj_set (bs "modes") (JArr (map JStr l)) [] end)) (cc_elicit c) o in
  let o := opt_set (bs "tasks") (fun x : bool * bool * bool * bool =>
             let '(l, k, m, e) := x in
             let r : obj := if m then obj_set (bs "sampling") (JObj (obj_set (bs "createMessage") (JObj []) [])) [] else [] in
             let r := if e then obj_set (bs "elicitation") (JObj (obj_set (bs "create") (JObj []) [])) r else r in
             let b := flag_set (bs "cancel") k (flag_set (bs "list") l []) in
             JObj (match r with [] => b | _ => obj_set (bs "requests") (JObj r) b end)) (cc_tasks c) o in
  JObj (opt_set (bs "roots") (fun l => JObj (obj_set (bs "listChanged") (JBool l) [])) (cc_roots c) o).

(** coInitialize, Client.cpp:1113-1126: the parameters sent. *)
Definition PROTOCOL : bstr := bs "2025-11-25".
Definition init_params (name version : bstr) (c : ccaps) : json :=
  JObj (obj_set (bs "clientInfo") (JObj (obj_set (bs "version") (JStr version) (obj_set (bs "name") (JStr name) [])))
       (obj_set (bs "capabilities") (ccaps_json c) (obj_set (bs "protocolVersion") (JStr PROTOCOL) []))).

(** parseServerCapabilities, Client.cpp:384-458: None if nothing was read. *)
Definition read_scaps (result : json) : option scaps :=
  match as_obj (Some result) with
  | None => None
  | Some p =>
      match as_obj (obj_get (bs "capabilities") p) with
      | None => None
      | Some o =>
          Some {| sc_exp := match as_obj (obj_get (bs "experimental") o) with Some e => e | None => [] end;
                  sc_prompts := if has (bs "prompts") o then Some true else None;
                  sc_resources := if has (bs "resources") o then Some (true, true) else None;
                  sc_tools := if has (bs "tools") o then Some true else None;
                  sc_sampling := has (bs "sampling") o;
                  sc_completions := has (bs "completions") o;
                  sc_tasks := match as_obj (obj_get (bs "tasks") o) with
                              | None => None
                              | Some t =>
                                  Some (has (bs "list") t, has (bs "cancel") t,
                                        match as_obj (obj_get (bs "requests") t) with
                                        | None => false
                                        | Some r => match as_obj (obj_get (bs "tools") r) with Some y => has (bs "call") y | None => false end
                                        end)
                              end;
                  sc_logging := has (bs "logging") o |}
      end
  end.

(** coInitialize, Client.cpp:1128-1146: the capabilities returned, given those known so far. *)
Definition init_reply (known : scaps) (r : response) : scaps :=
  match rs_error r, rs_result r with
  | None, Some v => match read_scaps v with Some c => c | None => known end
  | _, _ => scaps0
  end.

(** handleInitialize, Server.cpp:1345-1367. *)
Definition init_result (s : server) : json :=
  JObj (obj_set (bs "serverInfo") (JObj (obj_set (bs "version") (JStr (bs "1.0.0")) (obj_set (bs "name") (JStr (sv_name s)) [])))
       (obj_set (bs "capabilities") (scaps_json (sv_caps s)) (obj_set (bs "protocolVersion") (JStr PROTOCOL) []))).
Definition handle_initialize (params : option json) (s : server) : json * server :=
  let s := match read_ccaps params with Some c => set_client c s | None => s end in
  (init_result s, s).

(** sendInitializedAndListChangedAsync, Server.cpp:1740-1769. *)
Definition INIT_NOTES : list bstr :=
  [bs "notifications/initialized"; bs "notifications/tools/list_changed"; bs "notifications/resources/list_changed"; bs "notifications/prompts/list_changed"].

Definition METHOD_NOT_FOUND : Z := (-32601)%Z.
Definition METHOD_NOT_ALLOWED : Z := (-32001)%Z.
Definition TOOL_NOT_FOUND : Z := (-32003)%Z.
Definition PROMPT_NOT_FOUND : Z := (-32004)%Z.

Definition tool_json_out (t : tool_out) : json := tool_result_json (to_content t) (to_struct t) (to_meta t) (to_error t).

(** The result object of a named call: tools/call and prompts/get, Server.cpp:811-827, 641-655. *)
Definition call_name (params : option json) : bstr := match params with Some (JObj o) => or_empty (get_str (bs "name") o) | _ => [] end.
Definition call_args (params : option json) : json :=
  match params with Some (JObj o) => match obj_get (bs "arguments") o with Some v => v | None => JNull end | _ => JNull end.

(** What the worker thread of a task-augmented call does when the handler is done,
    Server.cpp:881-908. *)
Definition tool_worker (strict : bool) (i now : bstr) (out : ret tool_out) : attempt :=
  match out with
  | Threw what => complete_attempt i FAILED (Some what) true (error_object INTERNAL what None) now
  | Ret t =>
      let v := tool_json_out t in
      if (strict && negb (valid_call_tool v))%bool
      then complete_attempt i FAILED (Some (bs "Invalid tool result shape")) true (error_object INTERNAL (bs "Invalid tool result shape") None) now
      else complete_attempt i (if to_error t then FAILED else COMPLETED) None false v now
  end.

(** The handler and the task support looked up for a tool, Server.cpp:830-848. *)
Definition tool_handler (name : bstr) (g : registry) : callable := match aget name (rg_th g) with Some h => h | None => None end.
Definition tool_support (name : bstr) (g : registry) : bstr :=
  match aget name (rg_tm g) with Some t => task_support (tl_exec t) | None => bs "forbidden" end.

(** handleToolsCall, Server.cpp:809-944. mid: the request's token is cancelled when the handler has
    returned. The worker of a task is not run here. *)
Definition handle_tool (w : world) (mid : bool) (params : option json) (s : server) : answer * server :=
  let name := call_name params in
  let '(is_task, ttl) := parse_metadata params None in
  match name with
  | [] => (AError INVALID_PARAMS (bs "Invalid params"), s)
  | _ :: _ =>
      match tool_handler name (sv_reg s) with
      | None => (AError TOOL_NOT_FOUND (bs "Tool not found"), s)
      | Some h =>
          let support := tool_support name (sv_reg s) in
          if (negb is_task && beq support (bs "required"))%bool then (AError METHOD_NOT_FOUND (bs "Tool requires task-augmented invocation"), s)
          else if (is_task && beq support (bs "forbidden"))%bool then (AError METHOD_NOT_FOUND (bs "Tool does not support task-augmented invocation"), s)
          else if is_task then
            let t := new_task (ts_next (sv_tasks s)) (w_now w) ttl in
            let s' := set_tasks (ts_create KToolCall ttl (w_now w) (sv_tasks s)) s in
            let v := created_json t None in
            if (sv_strict s && negb (valid_created v))%bool then (AError INTERNAL (bs "Invalid task creation result shape"), s')
            else (AResult v, s')
          else
            match w_tool w h (call_args params) with
            | Threw what => (AError INTERNAL what, s)
            | Ret t =>
                if mid then (AError INTERNAL (bs "Cancelled"), s)
                else
                  let v := tool_json_out t in
                  if (sv_strict s && negb (valid_call_tool v))%bool then (AError INTERNAL (bs "Invalid tool result shape"), s)
                  else (AResult v, s)
            end
      end
  end.

(** handlePromptsGet, Server.cpp:1369-1394. Calling an empty std::function throws
    bad_function_call; the shape check is validateGetPromptResult, Validators.h:719-727. *)
Definition handle_prompt (w : world) (params : option json) (s : server) : answer :=
  match params with
  | None => AError INVALID_PARAMS (bs "Invalid params")
  | Some _ =>
      match aget (call_name params) (rg_ph (sv_reg s)) with
      | None => AError PROMPT_NOT_FOUND (bs "Prompt not found")
      | Some h =>
          match match h with Some n => w_prompt w n (call_args params) | None => Threw (bs "bad_function_call") end with
          | Threw what => AError INTERNAL what
          | Ret (d, m) =>
              if (sv_strict s && negb (forallb message_shape m))%bool then AError INTERNAL (bs "Invalid handler result shape")
              else AResult (prompt_result_json d m)
          end
      end
  end.

(** The result of handleCompleteRequest, Server.cpp:1433-1446. *)
Definition completion_json (c : completion) : json :=
  let o := obj_set (bs "values") (JArr (map JStr (cp_values c))) [] in
  let o := opt_set (bs "total") JInt (cp_total c) o in
  JObj (obj_set (bs "completion") (JObj (obj_set (bs "hasMore") (JBool (cp_more c)) o)) []).

(** handleCompleteRequest, Server.cpp:1396-1457. *)
Definition handle_complete (w : world) (params : option json) (s : server) : answer :=
  match w_complete w with
  | None => AError METHOD_NOT_ALLOWED (bs "No completion handler registered")
  | Some f =>
      let bad := AError INVALID_PARAMS (bs "Invalid params") in
      match params with
      | Some (JObj o) =>
          match obj_get (bs "ref") o, obj_get (bs "argument") o with
          | Some r, Some (JObj a) =>
              match obj_get (bs "name") a, obj_get (bs "value") a with
              | Some (JStr n), Some (JStr v) =>
                  match f r n v (obj_get (bs "context") o) with
                  | Threw what => AError INTERNAL what
                  | Ret c =>
                      let res := completion_json c in
                      if (sv_strict s && negb (valid_completion res))%bool then AError INTERNAL (bs "Invalid completion result shape")
                      else AResult res
                  end
              | _, _ => bad
              end
          | _, _ => bad
          end
      | _ => bad
      end
  end.

(** handleCreateMessageRequest, Server.cpp:1877-1919. *)
Definition param_or_null (k : bstr) (params : option json) : json :=
  match params with Some (JObj o) => match obj_get k o with Some v => v | None => JNull end | _ => JNull end.
Definition handle_sampling (w : world) (mid : bool) (params : option json) (s : server) : answer :=
  match w_sample w with
  | None => AError METHOD_NOT_ALLOWED (bs "No server sampling handler registered")
  | Some f =>
      if (sv_strict s && negb (valid_create_params (match params with Some v => v | None => JObj [] end)))%bool
      then AError INVALID_PARAMS (bs "Invalid sampling/createMessage params")
      else
        match f (param_or_null (bs "messages") params) (param_or_null (bs "modelPreferences") params)
                (param_or_null (bs "systemPrompt") params) (param_or_null (bs "includeContext") params) with
        | Threw what => AError INTERNAL what
        | Ret v =>
            if mid then AError INTERNAL (bs "Cancelled")
            else if (sv_strict s && negb (valid_create_result v))%bool then AError INTERNAL (bs "Invalid sampling result shape")
            else AResult v
        end
  end.

(** What dispatchRequest does: it answers, or it waits inside WaitForTerminalPayload for the end of
    the named task. *)
Inductive done := Reply (r : response) | Waits (task : bstr).
Definition respond (i : rpcid) (a : answer) : done :=
  match a with
  | AError c m => Reply (error_response i c m None)
  | AResult v => Reply {| rs_id := i; rs_result := Some v; rs_error := None |}
  end.
Definition CANCELLED_ANSWER : answer := AError INTERNAL (bs "Cancelled").

(** tasks/get, Server.cpp:1570-1587, and tasks/cancel, 1661-1682. *)
Definition strict_task (s : server) (t : task) : answer :=
  if (sv_strict s && negb (valid_task (task_json t)))%bool then AError INTERNAL (bs "Invalid task result shape") else AResult (task_json t).
Definition handle_get_task (params : option json) (s : server) : answer :=
  match parse_task_id params with
  | (false, _) => AError INVALID_PARAMS (bs "Invalid taskId")
  | (true, i) => match ts_get i (sv_tasks s) with None => AError INVALID_PARAMS (bs "Unknown task") | Some t => strict_task s t end
  end.
Definition handle_cancel_task (w : world) (params : option json) (s : server) : answer * server :=
  if negb (match sc_tasks (sv_caps s) with Some (_, c, _) => c | None => false end) then (AError METHOD_NOT_ALLOWED (bs "Task cancellation not supported"), s)
  else
    match parse_task_id params with
    | (false, _) => (AError INVALID_PARAMS (bs "Invalid taskId"), s)
    | (true, i) =>
        match ts_terminal (cancel_attempt i (error_object INTERNAL (bs "Cancelled") None) (w_now w)) (sv_tasks s) with
        | (Won t, ts) => (strict_task s t, set_tasks ts s)
        | (_, ts) => (AError INVALID_PARAMS (bs "Task is not cancellable"), set_tasks ts s)
        end
    end.

(** tasks/list, Server.cpp:1588-1628; a vector whose size would be negative throws length_error,
    whose text is left open as in TaskModel. *)
Definition handle_list_tasks (params : option json) (s : server) : answer :=
  match tasks_list params (sv_tasks s) with
  | ListInvalid m => AError INVALID_PARAMS m
  | ListThrows => AError INTERNAL (bs "vector::reserve")
  | ListPage v => if (sv_strict s && negb (valid_tasks v))%bool then AError INTERNAL (bs "Invalid tasks/list result shape") else AResult v
  end.

(** tasks/result, Server.cpp:1629-1660: the answer once WaitForTerminalPayload has returned. *)
Definition finish_result (i : rpcid) (strict : bool) (kind : option task_kind) (t : bstr) (p : option (bool * json)) : done :=
  match p with
  | None => respond i (AError INVALID_PARAMS (bs "Unknown task"))
  | Some (true, v) => Reply {| rs_id := i; rs_result := None; rs_error := Some (attach_error v t) |}
  | Some (false, v) =>
      let v := attach_result v t in
      let valid := match kind with
                   | None => true
                   | Some KToolCall => valid_call_tool v
                   | Some KCreateMessage => valid_create_result v
                   | Some KElicitation => valid_elicitation_result v
                   | Some KUnknown => false
                   end in
      if (strict && negb valid)%bool then respond i (AError INTERNAL (bs "Invalid task result shape")) else respond i (AResult v)
  end.
Definition handle_task_result (i : rpcid) (params : option json) (s : server) : done :=
  match parse_task_id params with
  | (false, _) => respond i (AError INVALID_PARAMS (bs "Invalid taskId"))
  | (true, t) =>
      match aget t (ts_recs (sv_tasks s)) with
      | None => finish_result i (sv_strict s) None t None
      | Some r => match tr_payload r with
                  | Some p => finish_result i (sv_strict s) (Some (tr_kind r)) t (Some (tr_error r, p))
                  | None => Waits t
                  end
      end
  end.

Definition of_list (msg : bstr) (v : option json) : answer :=
  match v with Some x => AResult x | None => AError INTERNAL msg end.
Definition UIEXT : bstr := bs "io.modelcontextprotocol/ui".
Definition ui_client (s : server) : bool := has UIEXT (cc_ext (sv_client s)).
Definition read_config (s : server) : read_cfg := {| rc_strict := sv_strict s; rc_ui := ui_client s; rc_exp := sc_exp (sv_caps s) |}.

(** dispatchRequest, Server.cpp:1549-1738. pre, mid, post: the request's token is cancelled when
    dispatch looks at it first, when the handler has returned, and at the end. *)
Definition dispatch (w : world) (pre mid post : bool) (q : request) (s : server) : done * server :=
  let m := rq_method q in
  let i := rq_id q in
  let p := rq_params q in
  let guarded (a : answer) := respond i (if post then CANCELLED_ANSWER else a) in
  if beq m (bs "ping") then (respond i (AResult (JObj [])), s)
  else if beq m (bs "initialize") then
    let '(v, s) := handle_initialize p s in
    (respond i (AResult v), if w_connected w then add_sent INIT_NOTES s else s)
  else if beq m (bs "logging/setLevel") then
    match set_level p with
    | inl (c, msg) => (respond i (AError c msg), s)
    | inr l => (respond i (AResult (JObj [])), set_min l s)
    end
  else if beq m (bs "tools/list") then (respond i (of_list (bs "Invalid tools/list result shape") (tools_answer (sv_strict s) (sv_reg s) p)), s)
  else if beq m (bs "tasks/get") then (respond i (handle_get_task p s), s)
  else if beq m (bs "tasks/list") then (respond i (handle_list_tasks p s), s)
  else if beq m (bs "tasks/result") then (handle_task_result i p s, s)
  else if beq m (bs "tasks/cancel") then let '(a, s) := handle_cancel_task w p s in (respond i a, s)
  else if beq m (bs "tools/call") then let '(a, s) := handle_tool w mid p s in (guarded a, s)
  else if beq m (bs "completion/complete") then (respond i (handle_complete w p s), s)
  else if beq m (bs "resources/list") then (respond i (of_list (bs "Invalid resources/list result shape") (resources_answer (sv_strict s) (ui_client s) (sv_reg s) p)), s)
  else if beq m (bs "resources/templates/list") then (respond i (of_list (bs "Invalid resources/templates/list result shape") (templates_answer (sv_strict s) (sv_reg s) p)), s)
  else if beq m (bs "resources/subscribe") then (respond i (AResult (JObj [])), set_subs (subscribe p (sv_subs s)) s)
  else if beq m (bs "resources/unsubscribe") then (respond i (AResult (JObj [])), set_subs (unsubscribe p (sv_subs s)) s)
  else if beq m (bs "sampling/createMessage") then (respond i (handle_sampling w mid p s), s)
  else if beq m (bs "resources/read") then (guarded (handle_read (read_config s) (sv_reg s) (w_read w) mid p), s)
  else if beq m (bs "prompts/list") then (respond i (of_list (bs "Invalid prompts/list result shape") (prompts_answer (sv_strict s) (sv_reg s) p)), s)
  else if beq m (bs "prompts/get") then
    if pre then (respond i CANCELLED_ANSWER, s) else (guarded (handle_prompt w p s), s)
  else (respond i (AError METHOD_NOT_FOUND (bs "Method not found")), s).

(** The client's calls. coCallTool, Client.cpp:1374-1398, and coGetPrompt, 2055-2080: the parameters
    and what is returned. *)
Definition call_params (name : bstr) (args : json) : json := JObj (obj_set (bs "arguments") args (obj_set (bs "name") (JStr name) [])).
Definition value_or_error (r : response) : json :=
  match rs_result r, rs_error r with Some v, _ => v | None, Some e => e | None, None => JNull end.

(** coCallToolTask, Client.cpp:1231-1257. *)
Definition task_params (name : bstr) (args : json) (ttl : option Z) : json :=
  JObj (obj_set (bs "task") (metadata_json ttl) (obj_set (bs "arguments") args (obj_set (bs "name") (JStr name) []))).

(** errorMessageFromPayload of the client, Client.cpp:199-213 (the server has the same). *)
Definition error_message (v : json) : bstr :=
  match v with JObj o => match get_str (bs "message") o with Some m => m | None => bs "request failed" end | _ => bs "request failed" end.
Definition expect {A : Type} (strict : bool) (valid : json -> bool) (read : json -> A) (failed invalid : bstr) (r : response) : ret A :=
  match rs_error r, rs_result r with
  | None, Some v => if (strict && negb (valid v))%bool then Threw invalid else Ret (read v)
  | Some e, _ => Threw (error_message e)
  | None, None => Threw failed
  end.

(** coComplete, Client.cpp:1149-1209: parameters and result. *)
Definition complete_params (ref : json) (name value : bstr) (context : option json) : json :=
  JObj (opt_set (bs "context") (fun v => v) context
       (obj_set (bs "argument") (JObj (obj_set (bs "value") (JStr value) (obj_set (bs "name") (JStr name) []))) (obj_set (bs "ref") ref []))).
Definition completion0 : completion := {| cp_values := []; cp_total := None; cp_more := false |}.
Definition read_completion (v : json) : completion :=
  match as_obj (Some v) with
  | None => completion0
  | Some o =>
      match as_obj (obj_get (bs "completion") o) with
      | None => completion0
      | Some c =>
          {| cp_values := match obj_get (bs "values") c with Some (JArr l) => str_items l | _ => [] end;
             cp_total := get_int (bs "total") c;
             cp_more := match obj_get (bs "hasMore") c with Some (JBool b) => b | _ => false end |}
      end
  end.
Definition complete_reply (strict : bool) (r : response) : ret completion :=
  match rs_result r with
  | None => Ret completion0
  | Some v => if (strict && negb (valid_completion v))%bool then Threw (bs "Validation failed: completion/complete result shape") else Ret (read_completion v)
  end.
