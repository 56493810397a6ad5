(** A server over its life: transports that come and go, the application's notification calls, the
    notifications that arrive; and what a client keeps from one connection to the next. *)
From Coq Require Import Ascii String List Arith NArith ZArith Bool.
From Verif Require Import StrModel DoubleModel JsonModel MapModel RpcModel TaskModel DescModel RegModel ValModel CancelModel ReadModel SubModel LogModel ServModel PeerModel CacheModel.
Import ListNotations.
Local Open Scope nat_scope.

(** Server::Impl as far as it outlives a connection, src/mcp/Server.cpp:148-226. hh_up: initialized.
    hh_wire: the transport, if one was ever given, and whether it is connected; the pointer is never
    reset. hh_out: the notifications handed to a connected transport. hh_seen: the tasks given to the
    application's task status handler. hh_dead: a null transport was dereferenced.
    Simplifications: the keepalive thread is KeepModel's, the log rate limit LogModel's (here there
    is no limit), and task workers are CallTaskModel's. *)
Record host := {
  hh_sv : server; hh_up : bool; hh_wire : option bool; hh_out : list notification; hh_seen : list task; hh_dead : bool
}.
Definition host0 (s : server) : host :=
  {| hh_sv := s; hh_up := false; hh_wire := None; hh_out := []; hh_seen := []; hh_dead := false |}.

Definition hh_set_sv (s : server) (h : host) : host :=
  {| hh_sv := s; hh_up := hh_up h; hh_wire := hh_wire h; hh_out := hh_out h; hh_seen := hh_seen h; hh_dead := hh_dead h |}.
Definition hh_set_up (b : bool) (h : host) : host :=
  {| hh_sv := hh_sv h; hh_up := b; hh_wire := hh_wire h; hh_out := hh_out h; hh_seen := hh_seen h; hh_dead := hh_dead h |}.
Definition hh_set_wire (w : option bool) (h : host) : host :=
  {| hh_sv := hh_sv h; hh_up := hh_up h; hh_wire := w; hh_out := hh_out h; hh_seen := hh_seen h; hh_dead := hh_dead h |}.
Definition hh_emit (l : list notification) (h : host) : host :=
  {| hh_sv := hh_sv h; hh_up := hh_up h; hh_wire := hh_wire h; hh_out := hh_out h ++ l; hh_seen := hh_seen h; hh_dead := hh_dead h |}.
Definition hh_hear (t : task) (h : host) : host :=
  {| hh_sv := hh_sv h; hh_up := hh_up h; hh_wire := hh_wire h; hh_out := hh_out h; hh_seen := hh_seen h ++ [t]; hh_dead := hh_dead h |}.
Definition hh_die (h : host) : host :=
  {| hh_sv := hh_sv h; hh_up := hh_up h; hh_wire := hh_wire h; hh_out := hh_out h; hh_seen := hh_seen h; hh_dead := true |}.

(** transport && transport->IsConnected(), as in Server.cpp:1459, 1565, 2797 and the others. *)
Definition on_line (h : host) : bool := match hh_wire h with Some b => b | None => false end.

(** IsRunning, Server.cpp:2762-2769. *)
Definition is_running (h : host) : bool := (hh_up h && match hh_wire h with Some b => b | None => true end)%bool.

(** coStart, Server.cpp:1500-1546: ok is what IsConnected says afterwards. Nothing else is reset. *)
Definition do_start (ok : bool) (h : host) : host := hh_set_wire (Some ok) h.

(** coStop, Server.cpp:1921-1940. *)
Definition do_stop (h : host) : host :=
  match hh_wire h with Some _ => hh_set_wire (Some false) (hh_set_up false h) | None => h end.

(** coSendNotification, Server.cpp:2157-2166: the transport is not tested. A transport that is not
    connected loses the notification. *)
Definition send_note (n : notification) (h : host) : host :=
  match hh_wire h with
  | None => hh_die h
  | Some true => hh_emit [n] h
  | Some false => h
  end.

(** coNotifyToolsListChanged and siblings, Server.cpp:2168-2197. *)
Definition empty_note (m : bstr) : notification := {| nt_method := m; nt_params := Some (JObj []) |}.
Definition RES_CHANGED : bstr := bs "notifications/resources/list_changed".
Definition TOOL_CHANGED : bstr := bs "notifications/tools/list_changed".
Definition PROMPT_CHANGED : bstr := bs "notifications/prompts/list_changed".

(** The calls an application makes to tell the client something: NotifyResourcesListChanged,
    NotifyToolsListChanged, NotifyPromptsListChanged, NotifyResourceUpdated, SendProgress, LogToClient,
    SendNotification, Server.cpp:2913-2966. *)
Inductive tell :=
| TellResources | TellTools | TellPrompts | TellUpdated (u : bstr) | TellProgress (token : bstr) (p : dbl) (message : bstr)
| TellLog (name message : bstr) (data : option json) | TellAny (method : bstr) (params : json).

(** The notification of a call, None if it is held back: coNotifyResourceUpdated, Server.cpp:2199-2221;
    coSendProgress, 2223-2237; coLogToClient, 2239-2292. *)
Definition note_of (s : server) (t : tell) : option notification :=
  match t with
  | TellResources => Some (empty_note RES_CHANGED)
  | TellTools => Some (empty_note TOOL_CHANGED)
  | TellPrompts => Some (empty_note PROMPT_CHANGED)
  | TellUpdated u =>
      if should_send u (sv_subs s) then Some {| nt_method := bs "notifications/resources/updated"; nt_params := Some (JObj [(bs "uri", JStr u)]) |} else None
  | TellProgress k p m => Some (progress_note k p m)
  | TellLog n m d =>
      if suppressed (level_of n) (sv_level s) then None
      else Some {| nt_method := bs "notifications/message"; nt_params := Some (log_payload (level_of n) m d) |}
  | TellAny m p => Some {| nt_method := m; nt_params := Some p |}
  end.
Definition do_tell (t : tell) (h : host) : host := match note_of (hh_sv h) t with Some n => send_note n h | None => h end.

(** sendTaskStatusNotification, Server.cpp:1458-1470. *)
Definition do_status (t : task) (h : host) : host := if on_line h then hh_emit [status_note t] h else h.

(** handleNotification, Server.cpp:1137-1187, from the handler that coStart installs, 1504-1514. Only
    these methods do something; cancellations are CancelModel's. handler: there is a task status
    handler; it does not throw. *)
Definition hear_note (handler : bool) (n : notification) (h : host) : host :=
  if beq (nt_method n) (bs "notifications/initialized") then hh_set_up true h
  else if beq (nt_method n) (bs "notifications/tasks/status") then
    match handler, nt_params n with
    | true, Some v => if (sv_strict (hh_sv h) && negb (valid_task v))%bool then h else hh_hear (parse_task v) h
    | _, _ => h
    end
  else h.

(** coHandleInitialize, Server.cpp:1942-1949. *)
Definition do_init (c : ccaps) (h : host) : host := hh_set_up true (hh_set_sv (set_client c (hh_sv h)) h).

(** The world of a request with the transport's state in it, Server.cpp:1565. *)
Definition with_line (b : bool) (w : world) : world :=
  {| w_tool := w_tool w; w_read := w_read w; w_prompt := w_prompt w; w_complete := w_complete w; w_sample := w_sample w; w_now := w_now w; w_connected := b |}.

(** dispatchRequest, Server.cpp:1549-1738, called by the transport or by HandleJSONRPC, 2771-2777. The
    notifications it sends are sendInitializedAndListChangedAsync's, 1740-1769. *)
Definition do_ask (w : world) (pre mid post : bool) (q : request) (h : host) : done * host :=
  let '(d, s) := dispatch (with_line (on_line h) w) pre mid post q (hh_sv h) in
  (d, hh_emit (map empty_note (skipn (length (sv_sent (hh_sv h))) (sv_sent s))) (hh_set_sv s h)).

(** The methods announced by Register and Unregister, Server.cpp:2786-2912 and 3224-3282. *)
Definition op_note (o : reg_op) : bstr :=
  match o with
  | RegToolName _ _ | RegTool _ _ | UnregTool _ => TOOL_CHANGED
  | RegResourceUri _ _ | RegResource _ _ | UnregResource _ | RegTemplate _ _ | UnregTemplate _ => RES_CHANGED
  | RegPromptName _ _ | RegPrompt _ _ | UnregPrompt _ => PROMPT_CHANGED
  end.
Definition set_reg (g : registry) (s : server) : server :=
  {| sv_strict := sv_strict s; sv_name := sv_name s; sv_caps := sv_caps s; sv_client := sv_client s; sv_reg := g;
     sv_tasks := sv_tasks s; sv_subs := sv_subs s; sv_level := sv_level s; sv_sent := sv_sent s |}.
Definition do_reg (o : reg_op) (h : host) : host :=
  let h' := hh_set_sv (set_reg (reg_step (sv_reg (hh_sv h)) o) (hh_sv h)) h in
  if on_line h then send_note (empty_note (op_note o)) h' else h'.

(** What happens to a server. VDrop: the transport loses its connection. VStatus: the task store calls
    back. After undefined behaviour nothing is said. *)
Inductive hev :=
| VStart (ok : bool) | VStop | VDrop | VAsk (w : world) (pre mid post : bool) (q : request) | VNote (handler : bool) (n : notification)
| VInit (c : ccaps) | VTell (t : tell) | VStatus (t : task) | VReg (o : reg_op).
Definition host_step (h : host) (e : hev) : host :=
  if hh_dead h then h
  else
    match e with
    | VStart ok => do_start ok h
    | VStop => do_stop h
    | VDrop => match hh_wire h with Some _ => hh_set_wire (Some false) h | None => h end
    | VAsk w pre mid post q => snd (do_ask w pre mid post q h)
    | VNote b n => hear_note b n h
    | VInit c => do_init c h
    | VTell t => do_tell t h
    | VStatus t => do_status t h
    | VReg o => do_reg o h
    end.
Definition host_run (h : host) (l : list hev) : host := fold_left host_step l h.

(** Every notification that Client sends: coNotifyRootsListChanged, src/mcp/Client.cpp:1434-1451, and
    sendTaskStatusNotification, 552-564. Initialize sends none, 1112-1148. *)
Inductive cnote := CRoots | CStatus (t : task).
Definition client_note (c : cnote) : notification :=
  match c with CRoots => empty_note (bs "notifications/roots/list_changed") | CStatus t => status_note t end.

(** What Client keeps between connections: coConnect, Client.cpp:1074-1097, replaces the transport, and
    coDisconnect, 1098-1112, closes it; neither touches the list caches or the capabilities. KInit: the
    reply to Initialize, 1112-1148; ki_told: what it returned to the caller. kc_sent: for each list
    request the number of the connection it went to, in order of the calls. *)
Record kclient := { kc_lists : lcache; kc_caps : scaps; kc_told : option scaps; kc_conn : nat; kc_sent : list (nat * nat) }.
Definition kclient0 (strict : bool) (now : Z) : kclient :=
  {| kc_lists := lcache0 strict now; kc_caps := scaps0; kc_told := None; kc_conn := 0; kc_sent := [] |}.
Inductive kev := KConnect | KDisconnect | KInit (r : option response) | KList (a : lact).
Definition kstep (k : kclient) (e : kev) : kclient :=
  match e with
  | KConnect => {| kc_lists := kc_lists k; kc_caps := kc_caps k; kc_told := kc_told k; kc_conn := S (kc_conn k); kc_sent := kc_sent k |}
  | KDisconnect => k
  | KInit r =>
      match r with
      | Some {| rs_error := None; rs_result := Some v |} =>
          let c := match read_scaps v with Some c => c | None => kc_caps k end in
          {| kc_lists := kc_lists k; kc_caps := c; kc_told := Some c; kc_conn := kc_conn k; kc_sent := kc_sent k |}
      | _ => {| kc_lists := kc_lists k; kc_caps := kc_caps k; kc_told := Some scaps0; kc_conn := kc_conn k; kc_sent := kc_sent k |}
      end
  | KList a =>
      {| kc_lists := lstep (kc_lists k) a; kc_caps := kc_caps k; kc_told := kc_told k; kc_conn := kc_conn k;
         kc_sent := match a with
                    | LBegin x => match cache_hit x (kc_lists k) with None => kc_sent k ++ [(lc_next (kc_lists k), kc_conn k)] | Some _ => kc_sent k end
                    | _ => kc_sent k
                    end |}
  end.
Definition krun (k : kclient) (l : list kev) : kclient := fold_left kstep l k.

(** RequestContext on each thread, Server.cpp:36-99. A thread is a number; its entry is the chain of
    contexts whose RequestContextScope is alive, innermost first (gCurrentRequestContext and the
    previous_ fields). *)
Definition ctx := (option bstr * option bstr)%type.
Definition request_text (i : rpcid) : option bstr :=
  match i with IdStr [] => None | IdStr s => Some s | IdInt z => Some (print_Z z) | IdNull => None end.
Definition ctx_of (q : request) : ctx := (request_text (rq_id q), progress_token (rq_params q)).
(** XBegin t q: thread t enters dispatchRequest for q, 1554-1555; XEnd t: it leaves it, by a return or
    an exception. *)
Inductive xev := XBegin (t : nat) (q : request) | XEnd (t : nat).
Definition xstate := nat -> list ctx.
Definition xput (t : nat) (c : list ctx) (x : xstate) : xstate := fun u => if Nat.eqb u t then c else x u.
Definition xstep (x : xstate) (e : xev) : xstate :=
  match e with
  | XBegin t q => xput t (ctx_of q :: x t) x
  | XEnd t => xput t (match x t with _ :: r => r | [] => [] end) x
  end.
Definition xrun (l : list xev) : xstate := fold_left xstep l (fun _ => []).
(** CurrentRequestId and CurrentProgressToken, Server.cpp:101-113, called on thread t. *)
Definition current_id (x : xstate) (t : nat) : option bstr := match x t with c :: _ => fst c | [] => None end.
Definition current_token (x : xstate) (t : nat) : option bstr := match x t with c :: _ => snd c | [] => None end.
