(** Following a task kept by the peer: the calls by which a client, or a server, asks about it, and
    the calls a server makes on its own registry. *)
From Coq Require Import Ascii String List Arith NArith ZArith Bool.
From Verif Require Import StrModel DoubleModel JsonModel MapModel RpcModel TaskModel DescModel RegModel TmplModel ValModel ReadModel SubModel LogModel CancelModel ServModel PeerModel.
Import ListNotations.
Local Open Scope nat_scope.

(** The code of the client, src/mcp/Client.cpp, and that of the server, src/mcp/Server.cpp, is the
    same text; both places are cited. strict: the validation mode of the caller. *)

(** outboundTaskKinds, rememberOutboundTask and outboundTaskKindFor: Client.cpp:566-581,
    Server.cpp:1474-1489. *)
Definition kinds := list (bstr * task_kind).
Definition remember (i : bstr) (k : task_kind) (m : kinds) : kinds := match i with [] => m | _ => aset i k m end.

(** The parameters naming a task, Client.cpp:1264-1266, Server.cpp:2009-2011. *)
Definition id_params (i : bstr) : json := JObj (obj_set (bs "taskId") (JStr i) []).

(** coGetTask, Client.cpp:1259-1280, Server.cpp:2004-2025. *)
Definition call_get (strict : bool) (i : bstr) : call task :=
  Sends (bs "tasks/get") (Some (id_params i))
    (expect strict valid_task parse_task (bs "tasks/get failed") (bs "Validation failed: tasks/get result shape")).

(** The parameters of coListTasksPaged, Client.cpp:1295-1304, Server.cpp:2040-2049. *)
Definition list_params (cursor : option bstr) (limit : option Z) : option json :=
  let o := opt_set (bs "cursor") JStr cursor [] in
  let o := match limit with Some n => if Z.ltb 0 n then obj_set (bs "limit") (JInt n) o else o | None => o end in
  match o with [] => None | _ => Some (JObj o) end.

(** coListTasksPaged, Client.cpp:1289-1318, Server.cpp:2034-2063; a page and the cursor of the next. *)
Definition call_list (strict : bool) (cursor : option bstr) (limit : option Z) : call (list task * option bstr) :=
  Sends (bs "tasks/list") (list_params cursor limit)
    (expect strict valid_tasks parse_tasks (bs "tasks/list failed") (bs "Validation failed: tasks/list result shape")).

(** coListTasks, Client.cpp:1282-1287, Server.cpp:2027-2032. *)
Definition map_ret {A B : Type} (f : A -> B) (x : ret A) : ret B := match x with Ret a => Ret (f a) | Threw m => Threw m end.
Definition map_call {A B : Type} (f : A -> B) (k : call A) : call B :=
  match k with Sends m p read => Sends m p (fun r => map_ret f (read r)) | Returns x => Returns (map_ret f x) end.
Definition call_tasks (strict : bool) : call (list task) := map_call fst (call_list strict None None).

(** The shape a result of a task of this kind has, Client.cpp:1340-1343, Server.cpp:2085-2088. *)
Definition kind_shape (k : task_kind) (v : json) : bool :=
  match k with
  | KToolCall => valid_call_tool v
  | KCreateMessage => valid_create_result v
  | KElicitation => valid_elicitation_result v
  | KUnknown => false
  end.

(** coGetTaskResult, Client.cpp:1320-1349, Server.cpp:2065-2094. m: what the caller remembers. *)
Definition call_result (strict : bool) (m : kinds) (i : bstr) : call json :=
  Sends (bs "tasks/result") (Some (id_params i)) (fun r =>
    match rs_error r, rs_result r with
    | Some e, _ => Ret e
    | None, None => Ret JNull
    | None, Some v =>
        match aget i m with
        | Some k => if (strict && negb (kind_shape k v))%bool then Threw (bs "Validation failed: tasks/result payload shape") else Ret v
        | None => Ret v
        end
    end).

(** coCancelTask, Client.cpp:1351-1372, Server.cpp:2096-2117. *)
Definition call_cancel (strict : bool) (i : bstr) : call task :=
  Sends (bs "tasks/cancel") (Some (id_params i))
    (expect strict valid_task parse_task (bs "tasks/cancel failed") (bs "Validation failed: tasks/cancel result shape")).

(** coCallToolTask, Client.cpp:1231-1257, Server.cpp:1976-2002; the caller then remembers the task
    under the kind ToolCall. *)
Definition call_tool_task (strict : bool) (name : bstr) (args : json) (ttl : option Z) : call (task * option json) :=
  Sends (bs "tools/call") (Some (task_params name args ttl))
    (expect strict valid_created parse_created (bs "tools/call task request failed") (bs "Validation failed: tools/call task result shape")).

(** Server::CallTool, Server.cpp:1950-1974: the server's own call of a tool handler. An empty
    std::function counts as no handler. *)
Definition own_tool (w : world) (r : registry) (name : bstr) (args : json) : ret json :=
  match aget name (rg_th r) with
  | Some (Some n) =>
      match w_tool w n args with
      | Threw what => Threw what
      | Ret t => Ret (JObj (obj_set (bs "isError") (JBool (to_error t)) (obj_set (bs "content") (JArr (to_content t)) [])))
      end
  | _ => Ret JNull
  end.

(** Server::GetPrompt, Server.cpp:2140-2156. Calling an empty std::function throws. *)
Definition own_prompt (w : world) (r : registry) (name : bstr) (args : json) : ret json :=
  match aget name (rg_ph r) with
  | None => Ret JNull
  | Some None => Threw (bs "bad_function_call")
  | Some (Some n) =>
      match w_prompt w n args with
      | Threw what => Threw what
      | Ret (d, m) => Ret (JObj (obj_set (bs "messages") (JArr m) (obj_set (bs "description") (JStr d) [])))
      end
  end.

(** Server::ReadResource, Server.cpp:2119-2138. *)
Definition own_read (c : read_cfg) (rd : readers) (r : registry) (uri : bstr) : ret json :=
  let run (p : produced) :=
    match p with
    | PThrow what => Threw what
    | POkay contents => match build_read c contents None None with inl what => Threw what | inr v => Ret v end
    end in
  match resolve r uri with
  | RAmbiguous => Threw (bs "Ambiguous resource template match")
  | RNone | RDirect None => Ret JNull
  | RDirect (Some h) => run (rd_direct rd h uri)
  | RTemplate h vs => run (rd_template rd h uri vs)
  end.
