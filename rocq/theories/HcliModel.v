(** The HTTP client transport, src/mcp/HTTPTransport.cpp, as a machine over its calls, the steps
    of its i/o thread, the events of its event stream and the parts of Close. *)
From Coq Require Import Ascii String List Arith NArith ZArith Bool.
From Verif Require Import StrModel DoubleModel JsonModel RpcModel RouterModel MapModel MemModel PendModel.
Import ListNotations.
Local Open Scope nat_scope.

(** The options that say where to post, HTTPTransport.hpp Options. *)
Record hccfg := { cf_endpoint : bstr; cf_rpc : bstr; cf_notify : bstr; cf_delete : bool }.

(** useStreamableHttp, requestPath, notifyPath, HTTPTransport.cpp:157-167. *)
Definition streamable (c : hccfg) : bool := match cf_endpoint c with [] => false | _ => true end.
Definition request_path (c : hccfg) : bstr := if streamable c then cf_endpoint c else cf_rpc c.
Definition notify_path (c : hccfg) : bstr := if streamable c then cf_endpoint c else cf_notify c.

(** HttpExchangeResult, HTTPTransport.cpp:52-58, of a POST that ended: the headers and the body.
    The status and the content type are recorded there and never looked at. A POST that failed
    (374-377) gives no headers and an empty body. *)
Record exchange := { ex_headers : list (bstr * bstr); ex_body : bstr }.
Definition no_exchange : exchange := {| ex_headers := []; ex_body := [] |}.

Definition SESSION_HEADER : bstr := bs "Mcp-Session-Id".

(** The session id in makeExchangeResult, HTTPTransport.cpp:195-211: the last header of exactly
    that name. *)
Definition ex_session (hs : list (bstr * bstr)) : bstr :=
  fold_left (fun acc h => if beq (fst h) SESSION_HEADER then snd h else acc) hs [].

(** What a POST is for: a request (with its id string), a notification, or the reply to a request
    of the server. *)
Inductive purpose := PuRequest (k : bstr) | PuNotify | PuReply.

(** Not in the code: what happened on the network. SPost: a POST left, with its path, session and
    version headers and body; SReply: its response headers arrived; SStream: the headers of an
    event stream arrived; SDelete: a DELETE left; SCleared: Close forgot the session. *)
Inductive hclog :=
| SPost (path : bstr) (session version : option bstr) (body : bstr)
| SReply (hs : list (bstr * bstr))
| SStream (hs : list (bstr * bstr))
| SDelete (session : bstr)
| SCleared.

(** HTTPTransport::Impl, HTTPTransport.cpp:49-92. Not in the code:
    - hc_sse is sseEnabled; Close ends the event-stream thread in the step TDisconnect
    - hc_thread: the i/o thread exists; hc_stopped: the io_context has been stopped
    - hc_entering: SendRequest calls past the connected test, not yet registered
    - hc_queue: POSTs spawned, not started; hc_flight: POSTs started, not ended
    - hc_reg: registrations; hc_ended: POSTs of requests that ended
    - hc_heard: texts handed to the router; hc_calls: what the router called
    - hc_spawned: every POST ever spawned; hc_log: what happened on the network
    - hc_crashed: std::terminate was called *)
Record hcli := {
  hc_connected : bool;
  hc_thread : bool;
  hc_stopped : bool;
  hc_crashed : bool;
  hc_sse : bool;
  hc_tab : ptab;
  hc_counter : N;
  hc_session : bstr;
  hc_version : bstr;
  hc_entering : list request;
  hc_queue : list (purpose * bstr);
  hc_flight : list (purpose * bstr);
  hc_reg : list (nat * request);
  hc_ended : list (bstr * exchange);
  hc_heard : list bstr;
  hc_calls : list call;
  hc_spawned : list (purpose * bstr);
  hc_log : list hclog
}.

(** As constructed. *)
Definition hcli0 (version : bstr) : hcli :=
  {| hc_connected := false; hc_thread := false; hc_stopped := false; hc_crashed := false; hc_sse := true;
     hc_tab := ptab0; hc_counter := 0; hc_session := []; hc_version := version;
     hc_entering := []; hc_queue := []; hc_flight := []; hc_reg := []; hc_ended := [];
     hc_heard := []; hc_calls := []; hc_spawned := []; hc_log := [] |}.

Definition hc_set_life (c t s cr e : bool) (h : hcli) : hcli :=
  {| hc_connected := c; hc_thread := t; hc_stopped := s; hc_crashed := cr; hc_sse := e;
     hc_tab := hc_tab h; hc_counter := hc_counter h; hc_session := hc_session h; hc_version := hc_version h;
     hc_entering := hc_entering h; hc_queue := hc_queue h; hc_flight := hc_flight h; hc_reg := hc_reg h;
     hc_ended := hc_ended h; hc_heard := hc_heard h; hc_calls := hc_calls h; hc_spawned := hc_spawned h; hc_log := hc_log h |}.
Definition hc_set_tab (t : ptab) (h : hcli) : hcli :=
  {| hc_connected := hc_connected h; hc_thread := hc_thread h; hc_stopped := hc_stopped h; hc_crashed := hc_crashed h; hc_sse := hc_sse h;
     hc_tab := t; hc_counter := hc_counter h; hc_session := hc_session h; hc_version := hc_version h;
     hc_entering := hc_entering h; hc_queue := hc_queue h; hc_flight := hc_flight h; hc_reg := hc_reg h;
     hc_ended := hc_ended h; hc_heard := hc_heard h; hc_calls := hc_calls h; hc_spawned := hc_spawned h; hc_log := hc_log h |}.
Definition hc_set_calls (n : N) (en : list request) (g : list (nat * request)) (h : hcli) : hcli :=
  {| hc_connected := hc_connected h; hc_thread := hc_thread h; hc_stopped := hc_stopped h; hc_crashed := hc_crashed h; hc_sse := hc_sse h;
     hc_tab := hc_tab h; hc_counter := n; hc_session := hc_session h; hc_version := hc_version h;
     hc_entering := en; hc_queue := hc_queue h; hc_flight := hc_flight h; hc_reg := g;
     hc_ended := hc_ended h; hc_heard := hc_heard h; hc_calls := hc_calls h; hc_spawned := hc_spawned h; hc_log := hc_log h |}.
Definition hc_set_posts (q f : list (purpose * bstr)) (h : hcli) : hcli :=
  {| hc_connected := hc_connected h; hc_thread := hc_thread h; hc_stopped := hc_stopped h; hc_crashed := hc_crashed h; hc_sse := hc_sse h;
     hc_tab := hc_tab h; hc_counter := hc_counter h; hc_session := hc_session h; hc_version := hc_version h;
     hc_entering := hc_entering h; hc_queue := q; hc_flight := f; hc_reg := hc_reg h;
     hc_ended := hc_ended h; hc_heard := hc_heard h; hc_calls := hc_calls h; hc_spawned := hc_spawned h; hc_log := hc_log h |}.
Definition hc_set_session (s v : bstr) (l : list hclog) (h : hcli) : hcli :=
  {| hc_connected := hc_connected h; hc_thread := hc_thread h; hc_stopped := hc_stopped h; hc_crashed := hc_crashed h; hc_sse := hc_sse h;
     hc_tab := hc_tab h; hc_counter := hc_counter h; hc_session := s; hc_version := v;
     hc_entering := hc_entering h; hc_queue := hc_queue h; hc_flight := hc_flight h; hc_reg := hc_reg h;
     hc_ended := hc_ended h; hc_heard := hc_heard h; hc_calls := hc_calls h; hc_spawned := hc_spawned h; hc_log := hc_log h ++ l |}.
Definition hc_set_heard (e : list (bstr * exchange)) (m : list bstr) (c : list call) (h : hcli) : hcli :=
  {| hc_connected := hc_connected h; hc_thread := hc_thread h; hc_stopped := hc_stopped h; hc_crashed := hc_crashed h; hc_sse := hc_sse h;
     hc_tab := hc_tab h; hc_counter := hc_counter h; hc_session := hc_session h; hc_version := hc_version h;
     hc_entering := hc_entering h; hc_queue := hc_queue h; hc_flight := hc_flight h; hc_reg := hc_reg h;
     hc_ended := e; hc_heard := m; hc_calls := c; hc_spawned := hc_spawned h; hc_log := hc_log h |}.

(** net::co_spawn(ioc, coPostJson(...)). *)
Definition hc_spawn (p : purpose * bstr) (h : hcli) : hcli :=
  {| hc_connected := hc_connected h; hc_thread := hc_thread h; hc_stopped := hc_stopped h; hc_crashed := hc_crashed h; hc_sse := hc_sse h;
     hc_tab := hc_tab h; hc_counter := hc_counter h; hc_session := hc_session h; hc_version := hc_version h;
     hc_entering := hc_entering h; hc_queue := hc_queue h ++ [p]; hc_flight := hc_flight h; hc_reg := hc_reg h;
     hc_ended := hc_ended h; hc_heard := hc_heard h; hc_calls := hc_calls h; hc_spawned := hc_spawned h ++ [p];
     hc_log := hc_log h |}.

(** err->error = CreateErrorObject(InternalError, message). *)
Definition http_error (i : rpcid) (msg : bstr) : response := error_response i (-32603) msg None.

(** deliverInternalError, HTTPTransport.cpp:239-257. *)
Definition deliver_error (k msg : bstr) (h : hcli) : hcli :=
  hc_set_tab (pt_complete k (http_error (IdStr k) msg) (hc_tab h)) h.

(** deliverResponse, HTTPTransport.cpp:259-290. *)
Definition deliver_response (resp : response) (fallback : bstr) (h : hcli) : bool * hcli :=
  let k := id_key (rs_id resp) in
  match (match k with [] => None | _ => aget k (pt_pend (hc_tab h)) end) with
  | Some _ => (true, hc_set_tab (pt_complete k resp (hc_tab h)) h)
  | None =>
      match fallback with
      | [] => (false, h)
      | _ => (true, deliver_error fallback (bs "Mismatched response id") h)
      end
  end.

(** generateRequestId, HTTPTransport.cpp:292-294: an unsigned int. *)
Definition hc_next (n : N) : N := N.modulo (n + 1) (2 ^ 32).

(** The handlers handed to the router, HTTPTransport.cpp:466-474: a request handler is always
    there. *)
Definition wrap_handlers (hd : handlers) : handlers :=
  {| h_request := Some (match h_request hd with
                        | Some f => f
                        | None => fun r => HReturn (error_response (rq_id r) (-32001) (bs "No request handler registered") None)
                        end);
     h_notification := h_notification hd;
     h_error := h_error hd |}.

(** The calls of the router's resolve function, with the variable delivered,
    HTTPTransport.cpp:476-479. *)
Definition resolve_calls (fallback : bstr) (cs : list call) (dh : bool * hcli) : bool * hcli :=
  fold_left (fun dh c => match c with
                         | CResolve r => deliver_response r fallback (snd dh)
                         | _ => dh
                         end) cs dh.

(** handleIncomingJson, HTTPTransport.cpp:458-501. io says whether the caller is a completion
    handler of the i/o thread: an exception of the notification handler then leaves
    ioc.run(), and the second pr.set_value() of the thread function (Start, 755-764) throws out of
    the thread. Otherwise the caller is the event-stream thread, whose loop catches it. *)
Definition incoming (io : bool) (hd : handlers) (fallback text : bstr) (h : hcli) : hcli :=
  let '(cs, out) := route (wrap_handlers hd) text in
  let h1 := hc_set_heard (hc_ended h) (hc_heard h ++ [text]) (hc_calls h ++ cs) h in
  let '(delivered, h2) := resolve_calls fallback cs (false, h1) in
  match out with
  | RThrow => if io then hc_set_life (hc_connected h2) (hc_thread h2) (hc_stopped h2) true (hc_sse h2) h2 else h2
  | RReturn (Some reply) => hc_spawn (PuReply, reply) h2
  | RReturn None =>
      if delivered then h2
      else match fallback with [] => h2 | _ => deliver_error fallback (bs "Invalid/empty HTTP response") h2 end
  end.

(** maybeCaptureSessionId, HTTPTransport.cpp:227-233. *)
Definition capture (hs : list (bstr * bstr)) (h : hcli) : hcli :=
  hc_set_session (match ex_session hs with [] => hc_session h | s => s end) (hc_version h) [SReply hs] h.

(** The header loop of runSseLoop, HTTPTransport.cpp:603-621 and 693-711: the last header of that name, also an
    empty one. *)
Definition stream_session (hs : list (bstr * bstr)) (old : bstr) : bstr :=
  fold_left (fun acc h => if beq (fst h) SESSION_HEADER then snd h else acc) hs old.

(** SendRequest up to the id, HTTPTransport.cpp:842-875. *)
Definition hc_begin (r : request) (h : hcli) : hcli :=
  if hc_connected h then
    match rq_id r with
    | IdNull | IdStr [] =>
        let n := hc_next (hc_counter h) in
        hc_set_calls n (hc_entering h ++ [{| rq_id := IdStr (bs "http-req-" ++ print_N n); rq_method := rq_method r; rq_params := rq_params r |}])
          (hc_reg h) h
    | _ => hc_set_calls (hc_counter h) (hc_entering h ++ [r]) (hc_reg h) h
    end
  else hc_set_tab (pt_immediate (id_key (rq_id r)) (http_error (rq_id r) (bs "Transport not connected")) (hc_tab h)) h.

(** The registration and the spawning of the POST, HTTPTransport.cpp:876-898. Simplification: the
    two are one step; a spawned POST does not start before hcstep starts it. *)
Definition hc_register (r : request) (rest : list request) (h : hcli) : hcli :=
  let k := id_key (rq_id r) in
  hc_spawn (PuRequest k, ser_request r)
    (hc_set_calls (hc_counter h) rest (hc_reg h ++ [(pt_next (hc_tab h), r)])
       (hc_set_tab (pt_register k (hc_tab h)) h)).

(** coPostJson up to the headers, HTTPTransport.cpp:310-328. The authorization headers are
    modelled elsewhere. *)
Definition some_text (b : bool) (s : bstr) : option bstr :=
  match s with [] => None | _ => if b then Some s else None end.
Definition post_path (c : hccfg) (p : purpose) : bstr :=
  match p with PuRequest _ => request_path c | _ => notify_path c end.
Definition hc_send (c : hccfg) (p : purpose * bstr) (rest : list (purpose * bstr)) (h : hcli) : hcli :=
  hc_set_session (hc_session h) (hc_version h)
    [SPost (post_path c (fst p)) (some_text (streamable c) (hc_session h)) (some_text (streamable c) (hc_version h)) (snd p)]
    (hc_set_posts rest (hc_flight h ++ [p]) h).

(** The formats coPostJson says it accepts, HTTPTransport.cpp:315. *)
Definition accept_header (c : hccfg) : bstr :=
  if streamable c then bs "application/json, text/event-stream" else bs "application/json".

(** The completion handlers of a POST, HTTPTransport.cpp:898-920, 933-944 and 483-494. *)
Definition hc_end (hd : handlers) (p : purpose) (ex : exchange) (h : hcli) : hcli :=
  let h1 := capture (ex_headers ex) h in
  match p with
  | PuRequest k =>
      let h2 := hc_set_heard (hc_ended h1 ++ [(k, ex)]) (hc_heard h1) (hc_calls h1) h1 in
      match ex_body ex with
      | [] => deliver_error k (bs "Invalid/empty HTTP response") h2
      | b => incoming true hd k b h2
      end
  | _ => h1
  end.

(** Steps.
    - TStart: Start, 750-767
    - TBegin, TRegister: the parts of SendRequest; n picks the call
    - TNotify: SendNotification, 925-947
    - TPost: the i/o thread starts the n-th spawned POST; TDone: the n-th started POST ends
    - TStream, TEvent: the event-stream thread receives headers, an event
    - TDelete, TDisconnect, TForget, TStop, TClosed: the parts of Close, 769-831, in this order
    The handlers are those installed at that moment. hc_version is never assigned after
    construction. *)
Inductive hcact :=
| TStart
| TBegin (r : request)
| TRegister (n : nat)
| TNotify (nt : notification)
| TPost (n : nat)
| TDone (n : nat) (ex : exchange) (hd : handlers)
| TStream (hs : list (bstr * bstr))
| TEvent (text : bstr) (hd : handlers)
| TDelete
| TDisconnect
| TForget
| TStop
| TClosed.

(** One step; a step that is not enabled changes nothing. After std::terminate nothing happens.
    Simplification: the event-stream thread runs whenever the transport is connected and Close has
    not yet disabled it. *)
Definition hcstep (c : hccfg) (h : hcli) (a : hcact) : hcli :=
  if hc_crashed h then h else
  match a with
  | TStart => if hc_thread h then hc_set_life (hc_connected h) (hc_thread h) (hc_stopped h) true (hc_sse h) h
              else hc_set_life true true (hc_stopped h) false (hc_sse h) h
  | TBegin r => hc_begin r h
  | TRegister n =>
      match take_nth n (hc_entering h) with
      | Some (r, rest) => hc_register r rest h
      | None => h
      end
  | TNotify nt => if hc_connected h then hc_spawn (PuNotify, ser_notification nt) h else h
  | TPost n =>
      if (hc_thread h && negb (hc_stopped h))%bool then
        match take_nth n (hc_queue h) with
        | Some (p, rest) => hc_send c p rest h
        | None => h
        end
      else h
  | TDone n ex hd =>
      if (hc_thread h && negb (hc_stopped h))%bool then
        match take_nth n (hc_flight h) with
        | Some (p, rest) => hc_end hd (fst p) ex (hc_set_posts (hc_queue h) rest h)
        | None => h
        end
      else h
  | TStream hs => if (hc_connected h && hc_sse h)%bool then hc_set_session (stream_session hs (hc_session h)) (hc_version h) [SStream hs] h else h
  | TEvent text hd => if (hc_connected h && hc_sse h)%bool then incoming false hd [] text h else h
  | TDelete =>
      match hc_session h with
      | [] => h
      | s => if (hc_connected h && streamable c && cf_delete c)%bool then hc_set_session s (hc_version h) [SDelete s] h else h
      end
  | TDisconnect => hc_set_life false (hc_thread h) (hc_stopped h) false false h
  | TForget => hc_set_session [] (hc_version h) [SCleared] h
  | TStop => hc_set_life (hc_connected h) false true false (hc_sse h) h
  | TClosed => hc_set_tab (pt_fail_all (fun k => http_error (IdStr k) (bs "Transport closed")) (hc_tab h)) h
  end.

Definition hcrun (c : hccfg) (h : hcli) (vs : list hcact) : hcli := fold_left (hcstep c) vs h.
