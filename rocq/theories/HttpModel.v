(** The HTTP server: routing, authentication, sessions and event streams. *)
From Coq Require Import Ascii String List Arith NArith ZArith Bool.
From Verif Require Import StrModel DoubleModel JsonModel RpcModel RouterModel MapModel MemModel AuthModel WwwModel GuardModel.
Import ListNotations.
Local Open Scope nat_scope.

(** A parsed HTTP request; an absent field reads as the empty string. Simplification: field
    names are matched without regard to case and the first field of a name counts, as
    boost::beast does. *)
Inductive verb := GET | POST | DELETE | OTHER.
Record hreq := {
  hq_verb : verb;
  hq_target : bstr;
  hq_fields : list (bstr * bstr);
  hq_body : bstr
}.

Definition field (n : bstr) (q : hreq) : bstr :=
  match find (fun f => beq (lower (fst f)) n) (hq_fields q) with
  | Some f => snd f
  | None => []
  end.

Definition f_host := field (bs "host").
Definition f_origin := field (bs "origin").
Definition f_auth := field (bs "authorization").
Definition f_session := field (bs "mcp-session-id").
Definition f_version := field (bs "mcp-protocol-version").

(** The parts of a response that the library chooses: status, WWW-Authenticate field,
    Mcp-Session-Id field, body. *)
Record hres := {
  hr_status : N;
  hr_challenge : option bstr;
  hr_session : option bstr;
  hr_body : bstr
}.
Definition plain (status : N) (body : bstr) : hres :=
  {| hr_status := status; hr_challenge := None; hr_session := None; hr_body := body |}.

(** HTTPServer::Options, HTTPServer.hpp:36-45, and the bearer settings, HTTPServer.cpp:78-81.
    SetBearerAuth sets the verifier and the enabled flag together, 1168-1173. The verifier
    is an argument of the handling functions below; hc_auth says whether there is one. *)
Record hconf := {
  hc_address : bstr;
  hc_endpoint : bstr;
  hc_stream : bstr;
  hc_rpc : bstr;
  hc_notify : bstr;
  hc_bearer : bearer_opts;
  hc_auth : bool
}.

(** SessionState, HTTPServer.cpp:61-70. Pending requests are tickets. *)
Record session := {
  ss_id : bstr;
  ss_version : bstr;
  ss_queue : list (bstr * bstr);
  ss_pending : list (bstr * nat);
  ss_closed : bool;
  ss_next : N
}.

(** An event stream thread, HTTPServer.cpp:438-475 and 535-571: the session it serves, the
    message taken from the queue and not yet written, what was written, and whether it is
    still running. *)
Record stream := {
  sm_session : nat;
  sm_held : option (bstr * bstr);
  sm_wire : list (bstr * bstr);
  sm_alive : bool
}.

(** The server's state: session objects ever created (they outlive their table entry while a
    stream or a handler holds them), the sessions table, activeSessionId, the next ticket,
    completed tickets (None: the promise was destroyed unset), and the streams. *)
Record hstate := {
  hs_heap : list session;
  hs_table : list (bstr * nat);
  hs_active : bstr;
  hs_ticket : nat;
  hs_done : list (nat * option response);
  hs_streams : list stream
}.

Definition hstate0 : hstate :=
  {| hs_heap := []; hs_table := []; hs_active := []; hs_ticket := 0; hs_done := []; hs_streams := [] |}.

Definition set_nth {A : Type} (n : nat) (x : A) (l : list A) : list A := firstn n l ++ x :: skipn (S n) l.

Definition put_session (n : nat) (s : session) (h : hstate) : hstate :=
  {| hs_heap := set_nth n s (hs_heap h); hs_table := hs_table h; hs_active := hs_active h;
     hs_ticket := hs_ticket h; hs_done := hs_done h; hs_streams := hs_streams h |}.
Definition put_stream (n : nat) (s : stream) (h : hstate) : hstate :=
  {| hs_heap := hs_heap h; hs_table := hs_table h; hs_active := hs_active h;
     hs_ticket := hs_ticket h; hs_done := hs_done h; hs_streams := set_nth n s (hs_streams h) |}.

(** generateSessionId, HTTPServer.cpp:150-155. The draw lies between 1000 and 9999. *)
Definition session_name (draw : N) : bstr := bs "mcp-http-" ++ print_N draw.

(** findSession, HTTPServer.cpp:161-165. *)
Definition find_session (i : bstr) (h : hstate) : option nat := aget i (hs_table h).

(** createSession, HTTPServer.cpp:167-175. *)
Definition create_session (version : bstr) (draw : N) (h : hstate) : hstate :=
  let s := {| ss_id := session_name draw;
              ss_version := match version with [] => PROTO | _ => version end;
              ss_queue := []; ss_pending := []; ss_closed := false; ss_next := 1 |} in
  {| hs_heap := hs_heap h ++ [s]; hs_table := aset (session_name draw) (length (hs_heap h)) (hs_table h);
     hs_active := session_name draw; hs_ticket := hs_ticket h; hs_done := hs_done h;
     hs_streams := hs_streams h |}.

(** activeSession, HTTPServer.cpp:177-181. *)
Definition active_session (h : hstate) : option nat := aget (hs_active h) (hs_table h).

(** The first half of removeSession, under sessionsMutex, HTTPServer.cpp:187-197. *)
Definition unlink_session (i : bstr) (h : hstate) : hstate :=
  match aget i (hs_table h) with
  | None => h
  | Some _ =>
    {| hs_heap := hs_heap h; hs_table := adel i (hs_table h);
       hs_active := if beq (hs_active h) i then [] else hs_active h;
       hs_ticket := hs_ticket h; hs_done := hs_done h; hs_streams := hs_streams h |}
  end.

(** The second half, HTTPServer.cpp:198-214; the promises are completed right after the
    session's lock is released. *)
Definition close_session (what : bstr) (n : nat) (h : hstate) : hstate :=
  match nth_error (hs_heap h) n with
  | None => h
  | Some s =>
    let h' := put_session n {| ss_id := ss_id s; ss_version := ss_version s; ss_queue := ss_queue s;
                               ss_pending := []; ss_closed := true; ss_next := ss_next s |} h in
    {| hs_heap := hs_heap h'; hs_table := hs_table h'; hs_active := hs_active h'; hs_ticket := hs_ticket h';
       hs_done := hs_done h' ++
                  map (fun kt => (snd kt, Some (error_response (IdStr (fst kt)) (-32603) what None))) (ss_pending s);
       hs_streams := hs_streams h' |}
  end.

(** removeSession, HTTPServer.cpp:183-215. *)
Definition remove_session (i : bstr) (h : hstate) : hstate :=
  match find_session i h with
  | None => h
  | Some n => close_session (bs "HTTP session closed") n (unlink_session i h)
  end.

(** queueOutbound, HTTPServer.cpp:217-224; nextEventId is a uint64_t. *)
Definition queue_outbound (n : nat) (payload : bstr) (h : hstate) : hstate :=
  match nth_error (hs_heap h) n with
  | None => h
  | Some s =>
    put_session n {| ss_id := ss_id s; ss_version := ss_version s;
                     ss_queue := ss_queue s ++ [(print_N (ss_next s), payload)];
                     ss_pending := ss_pending s; ss_closed := ss_closed s;
                     ss_next := (ss_next s + 1) mod two64 |} h
  end.

(** pendingRequests[idStr] = std::move(promise), HTTPServer.cpp:1130-1133. *)
Definition pend_request (n : nat) (k : bstr) (h : hstate) : hstate :=
  match nth_error (hs_heap h) n with
  | None => h
  | Some s =>
    let h' := put_session n {| ss_id := ss_id s; ss_version := ss_version s; ss_queue := ss_queue s;
                               ss_pending := aset k (hs_ticket h) (ss_pending s);
                               ss_closed := ss_closed s; ss_next := ss_next s |} h in
    {| hs_heap := hs_heap h'; hs_table := hs_table h'; hs_active := hs_active h';
       hs_ticket := S (hs_ticket h);
       hs_done := hs_done h' ++ match aget k (ss_pending s) with Some t => [(t, None)] | None => [] end;
       hs_streams := hs_streams h' |}
  end.

(** resolvePendingResponse, HTTPServer.cpp:363-395, with its result. *)
Definition resolve_pending (n : nat) (r : response) (h : hstate) : bool * hstate :=
  match nth_error (hs_heap h) n, id_key (rs_id r) with
  | Some s, (_ :: _) as k =>
      match aget k (ss_pending s) with
      | None => (false, h)
      | Some t =>
        let h' := put_session n {| ss_id := ss_id s; ss_version := ss_version s; ss_queue := ss_queue s;
                                   ss_pending := adel k (ss_pending s);
                                   ss_closed := ss_closed s; ss_next := ss_next s |} h in
        (true,
         {| hs_heap := hs_heap h'; hs_table := hs_table h'; hs_active := hs_active h';
            hs_ticket := hs_ticket h'; hs_done := hs_done h' ++ [(t, Some r)]; hs_streams := hs_streams h' |})
      end
  | _, _ => (false, h)
  end.

(** A GET that passed the checks starts a thread, HTTPServer.cpp:437-438 and 534-535. *)
Definition open_stream (n : nat) (h : hstate) : hstate :=
  {| hs_heap := hs_heap h; hs_table := hs_table h; hs_active := hs_active h; hs_ticket := hs_ticket h;
     hs_done := hs_done h;
     hs_streams := hs_streams h ++ [{| sm_session := n; sm_held := None; sm_wire := []; sm_alive := true |}] |}.

(** One turn of the thread's loop up to the write, HTTPServer.cpp:447-462. *)
Definition stream_take (k : nat) (h : hstate) : hstate :=
  match nth_error (hs_streams h) k with
  | None => h
  | Some m =>
    match sm_alive m, sm_held m, nth_error (hs_heap h) (sm_session m) with
    | true, None, Some s =>
        if ss_closed s then
          put_stream k {| sm_session := sm_session m; sm_held := None; sm_wire := sm_wire m; sm_alive := false |} h
        else
          match ss_queue s with
          | [] => h
          | x :: q =>
              put_stream k {| sm_session := sm_session m; sm_held := Some x; sm_wire := sm_wire m; sm_alive := true |}
                (put_session (sm_session m)
                   {| ss_id := ss_id s; ss_version := ss_version s; ss_queue := q; ss_pending := ss_pending s;
                      ss_closed := ss_closed s; ss_next := ss_next s |} h)
          end
    | _, _, _ => h
    end
  end.

(** The write of the event, HTTPServer.cpp:463-465: it succeeds, or fails and ends the
    thread, 467-475. Simplification: a write is all or nothing. *)
Definition stream_write (k : nat) (ok : bool) (h : hstate) : hstate :=
  match nth_error (hs_streams h) k with
  | None => h
  | Some m =>
    match sm_alive m, sm_held m with
    | true, Some x =>
        put_stream k
          (if ok then {| sm_session := sm_session m; sm_held := None; sm_wire := sm_wire m ++ [x]; sm_alive := true |}
           else {| sm_session := sm_session m; sm_held := None; sm_wire := sm_wire m; sm_alive := false |}) h
    | _, _ => h
    end
  end.

(** Stop's treatment of the sessions, HTTPServer.cpp:1050-1071; it holds sessionsMutex and
    each session's lock in turn. *)
Definition stop_sessions (h : hstate) : hstate :=
  let h' := fold_left (fun a kn => close_session (bs "Transport closed") (snd kn) a) (hs_table h) h in
  {| hs_heap := hs_heap h'; hs_table := []; hs_active := []; hs_ticket := hs_ticket h'; hs_done := hs_done h';
     hs_streams := hs_streams h' |}.

(** What threads do to the state, one critical section at a time. *)
Inductive hop :=
| OCreate (version : bstr) (draw : N)
| OUnlink (i : bstr)
| OClose (n : nat)
| OQueue (n : nat) (payload : bstr)
| OPend (n : nat) (k : bstr)
| OResolve (n : nat) (r : response)
| OOpen (n : nat)
| OTake (k : nat)
| OWrite (k : nat) (ok : bool)
| OStop.

Definition hstep (h : hstate) (o : hop) : hstate :=
  match o with
  | OCreate v d => create_session v d h
  | OUnlink i => unlink_session i h
  | OClose n => close_session (bs "HTTP session closed") n h
  | OQueue n p => queue_outbound n p h
  | OPend n k => pend_request n k h
  | OResolve n r => snd (resolve_pending n r h)
  | OOpen n => open_stream n h
  | OTake k => stream_take k h
  | OWrite k ok => stream_write k ok h
  | OStop => stop_sessions h
  end.

Definition hrun (os : list hop) (h : hstate) : hstate := fold_left hstep os h.

(** enforceAuthAndScope, HTTPServer.cpp:640-697: None to go on (with the token info to show),
    or the response. *)
Definition enforce (c : hconf) (verify : verifier) (now : Z) (q : hreq) : hres + option token_info :=
  if negb (hc_auth c) then inr None
  else
    let r := check_bearer (f_auth q) verify (hc_bearer c) now in
    if br_ok r then inr (br_info r)
    else inl {| hr_status := if N.eqb (br_status r) 403 then 403 else 401;
                hr_challenge := challenge (hc_bearer c) r;
                hr_session := None;
                hr_body := bs "{""error"":""" ++ br_message r ++ bs """}" |}.

(** What handling a request leads to: a response or a dropped connection (an exception left
    makeResponse), the calls of user code with the token info current during each, and the
    state. *)
Inductive answer := Answer (r : hres) | Dropped | Streaming (n : nat).
Definition handled_by := (answer * list (option token_info * call) * hstate)%type.

Definition tagged (i : option token_info) (l : list call) : list (option token_info * call) :=
  map (fun x => (i, x)) l.

(** User code only: what the router hands to its own resolver is not a call of user code,
    but the resolver may call the error handler. *)
Definition user_calls (l : list call) : list call :=
  filter (fun x => match x with CResolve _ => false | _ => true end) l.

Definition PARSE_ERROR : bstr := ser_response (error_response IdNull (-32700) (bs "Parse error") None).

(** handleRpc, HTTPServer.cpp:703-744. The router's fallback at 736-743 covers a routed text
    without an answer. *)
Definition handle_rpc (c : hconf) (verify : verifier) (now : Z) (hd : handlers) (q : hreq) (h : hstate) : handled_by :=
  match enforce c verify now q with
  | inl r => (Answer r, [], h)
  | inr info =>
    let '(ok, rpc) := deser_request request0 (hq_body q) in
    if negb ok then (Answer (plain 200 PARSE_ERROR), [], h)
    else
      let '(calls, out) := route hd (hq_body q) in
      let calls' := user_calls calls ++
        flat_map (fun x => match x with
                           | CResolve _ => if h_error hd then [CError (bs "HTTPServer: unexpected response received on /rpc")] else []
                           | _ => []
                           end) calls in
      match out with
      | RThrow => (Dropped, tagged info calls', h)
      | RReturn (Some body) => (Answer (plain 200 body), tagged info calls', h)
      | RReturn None =>
          (Answer (plain 200 (ser_response (error_response (rq_id rpc) (-32603) (bs "Router did not produce response") None))),
           tagged info calls', h)
      end
  end.

(** handleNotify, HTTPServer.cpp:750-776. *)
Definition handle_notify (c : hconf) (verify : verifier) (now : Z) (hd : handlers) (q : hreq) (h : hstate) : handled_by :=
  match enforce c verify now q with
  | inl r => (Answer r, [], h)
  | inr info =>
    let '(ok, _) := deser_notification notification0 (hq_body q) in
    if negb ok then
      (Answer (plain 200 (ser_response (error_response IdNull (-32600) (bs "Invalid notification") None))), [], h)
    else
      let '(calls, out) := route hd (hq_body q) in
      match out with
      | RThrow => (Dropped, tagged info (user_calls calls), h)
      | RReturn _ => (Answer (plain 200 (bs "{}")), tagged info (user_calls calls), h)
      end
  end.

(** The version an initialize request asks for, HTTPServer.cpp:826-835. *)
Definition asked_version (r : request) : bstr :=
  match rq_params r with
  | Some (JObj o) => match aget (bs "protocolVersion") o with
                     | Some (JStr v) => v
                     | _ => PROTO
                     end
  | _ => PROTO
  end.

(** The rest of handleEndpoint once there is a session, HTTPServer.cpp:849-877. *)
Definition endpoint_route (hd : handlers) (info : option token_info) (body : bstr) (n : nat) (h : hstate) : handled_by :=
  let '(calls, out) := route hd body in
  let '(extra, h') :=
    fold_left (fun a x =>
      match x with
      | CResolve r =>
          let '(ok, h') := resolve_pending n r (snd a) in
          (fst a ++ (if (negb ok && h_error hd)%bool
                     then [CError (bs "HTTPServer: unexpected response received on streamable endpoint")] else []), h')
      | _ => a
      end) calls ([], h) in
  let sid := match nth_error (hs_heap h') n with Some s => ss_id s | None => [] end in
  let calls' := tagged info (user_calls calls ++ extra) in
  match out with
  | RThrow => (Dropped, calls', h')
  | RReturn (Some b) => (Answer {| hr_status := 200; hr_challenge := None; hr_session := Some sid; hr_body := b |}, calls', h')
  | RReturn None =>
      (* isResponse is always true, so the answer is 202 without a body, 868-872 *)
      (Answer {| hr_status := 202; hr_challenge := None; hr_session := Some sid; hr_body := [] |}, calls', h')
  end.

(** handleEndpoint, HTTPServer.cpp:778-878. The deserializer for responses accepts every
    text, so the branch at 811-817 is dead. draw: the random number of createSession. *)
Definition handle_endpoint (c : hconf) (verify : verifier) (now : Z) (draw : N) (hd : handlers) (q : hreq) (h : hstate)
  : handled_by :=
  match enforce c verify now q with
  | inl r => (Answer r, [], h)
  | inr info =>
    match hq_verb q with
    | DELETE =>
        match f_session q with
        | [] => (Answer (plain 400 (bs "{""error"":""Missing session id""}")), [], h)
        | i => (Answer (plain 204 []), [], remove_session i h)
        end
    | POST =>
        let '(isreq, r) := deser_request request0 (hq_body q) in
        if (isreq && beq (rq_method r) (bs "initialize") && match f_session q with [] => true | _ => false end)%bool then
          endpoint_route hd info (hq_body q) (length (hs_heap h)) (create_session (asked_version r) draw h)
        else
          match find_session (f_session q) h with
          | None => (Answer (plain 400 (bs "{""error"":""Missing or invalid session""}")), [], h)
          | Some n =>
              let v := match nth_error (hs_heap h) n with Some s => ss_version s | None => PROTO end in
              if check_version (f_version q) v then endpoint_route hd info (hq_body q) n h
              else (Answer (plain 400 (bs "{""error"":""Unsupported protocol version""}")), [], h)
          end
    | _ => (Answer (plain 405 (bs "{""error"":""POST or DELETE required""}")), [], h)
    end
  end.

(** A list of strings between quotes, HTTPServer.cpp:615-621 and 624-630. *)
Definition quoted_list (l : list bstr) : bstr :=
  join [chr 44] (map (fun v => QUOTE :: v ++ [QUOTE]) l).

(** buildResourceMetadataJson, HTTPServer.cpp:612-633: the strings are not escaped. *)
Definition metadata_json (o : bearer_opts) : bstr :=
  bs "{""authorization_servers"":[" ++ quoted_list (bo_servers o) ++ bs "],""scopes_supported"":[" ++
  quoted_list (bo_supported o) ++ bs "]}".

Definition WELL_KNOWN : bstr := bs "/.well-known/oauth-protected-resource".

(** The second metadata path, HTTPServer.cpp:893-900. *)
Definition well_known_base (c : hconf) : bstr :=
  let base := match hc_endpoint c with [] => hc_rpc c | e => e end in
  WELL_KNOWN ++ match rfind_char SLASH base with
                | Some (S k) => firstn (S k) base
                | _ => []
                end.

Section Serve.
Variable loopback : bstr -> bool.

(** makeResponse, HTTPServer.cpp:880-936. *)
Definition make_response (c : hconf) (verify : verifier) (now : Z) (draw : N) (hd : handlers) (q : hreq) (h : hstate)
  : handled_by :=
  match check_local loopback (hc_address c) (f_host q) (f_origin q) with
  | Some body => (Answer (plain 403 body), [], h)
  | None =>
    if (beq (hq_target q) WELL_KNOWN || beq (hq_target q) (well_known_base c))%bool then
      match hq_verb q with
      | GET => (Answer (plain 200 (metadata_json (hc_bearer c))), [], h)
      | _ => (Answer (plain 405 (bs "{""error"":""GET required""}")), [], h)
      end
    else if (match hc_endpoint c with [] => false | _ => true end && beq (hq_target q) (hc_endpoint c))%bool then
      handle_endpoint c verify now draw hd q h
    else
      match hq_verb q with
      | POST =>
          if beq (hq_target q) (hc_rpc c) then handle_rpc c verify now hd q h
          else if beq (hq_target q) (hc_notify c) then handle_notify c verify now hd q h
          else (Answer (plain 404 (bs "{""error"":""Not found""}")), [], h)
      | _ => (Answer (plain 400 (bs "{""error"":""POST required""}")), [], h)
      end
  end.

(** streamPath, HTTPServer.cpp:143-148. *)
Definition stream_path (c : hconf) : bstr := match hc_stream c with [] => hc_endpoint c | s => s end.

(** One connection: session_plain, HTTPServer.cpp:407-484, and session_tls, 505-576, which
    do the same. There is one request per connection. *)
Definition serve (c : hconf) (verify : verifier) (now : Z) (draw : N) (hd : handlers) (q : hreq) (h : hstate)
  : handled_by :=
  if (match hc_endpoint c with [] => false | _ => true end &&
      match hq_verb q with GET => true | _ => false end && beq (hq_target q) (stream_path c))%bool then
    match check_local loopback (hc_address c) (f_host q) (f_origin q) with
    | Some body => (Answer (plain 403 body), [], h)
    | None =>
      match find_session (f_session q) h with
      | None => (Answer (plain 400 (bs "{""error"":""Missing or invalid session""}")), [], h)
      | Some n =>
          let v := match nth_error (hs_heap h) n with Some s => ss_version s | None => PROTO end in
          if check_version (f_version q) v then (Streaming n, [], open_stream n h)
          else (Answer (plain 400 (bs "{""error"":""Unsupported protocol version""}")), [], h)
      end
    end
  else make_response c verify now draw hd q h.
End Serve.

(** SendRequest, HTTPServer.cpp:1102-1136, as the sections it goes through: the ticket is
    answered at once when there is no active session. counter: the value of requestCounter
    after the increment. *)
Definition send_key (i : rpcid) (counter : N) : rpcid :=
  match id_key i with
  | [] => IdStr (bs "http-server-req-" ++ print_N counter)
  | _ => i
  end.

Definition send_request (r : request) (counter : N) (h : hstate) : hstate :=
  match active_session h with
  | None =>
    {| hs_heap := hs_heap h; hs_table := hs_table h; hs_active := hs_active h; hs_ticket := S (hs_ticket h);
       hs_done := hs_done h ++ [(hs_ticket h, Some (error_response (rq_id r) (-32603) (bs "No active HTTP session") None))];
       hs_streams := hs_streams h |}
  | Some n =>
    let i := send_key (rq_id r) counter in
    queue_outbound n (ser_request {| rq_id := i; rq_method := rq_method r; rq_params := rq_params r |})
      (pend_request n (id_key i) h)
  end.

(** SendNotification, HTTPServer.cpp:1138-1149. *)
Definition send_notification (m : notification) (h : hstate) : hstate :=
  match active_session h with
  | None => h
  | Some n => queue_outbound n (ser_notification m) h
  end.
