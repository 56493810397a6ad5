(** The shared-memory transport, src/mcp/SharedMemoryTransport.cpp: one endpoint as a machine
    over its calls, thread steps and incoming messages, and two endpoints joined by the two
    message queues. *)
From Coq Require Import Ascii String List Arith NArith ZArith Bool.
From Verif Require Import StrModel DoubleModel JsonModel RpcModel RouterModel MapModel MemModel PendModel.
Import ListNotations.
Local Open Scope nat_scope.

(** SharedMemoryTransport::Impl, SharedMemoryTransport.cpp:37-60. From hm_live on the fields are
    not in the code:
    - hm_live: the processing thread runs; hm_started: Start has opened the queues
    - hm_entering: SendRequest calls past the connected test, not yet registered
    - hm_out: registered, not yet sent; hm_failing: sending failed, promise not yet set
    - hm_running: detached handler threads
    - hm_reg, hm_got, hm_served, hm_notified, hm_errors: logs of registrations, processed
      messages, handled requests, notifications handed over and error reports
    The request and notification handlers: hm_handler says whether a request handler is set;
    a notification handler is set and returns. *)
Record shm := {
  hm_connected : bool;
  hm_tab : ptab;
  hm_handler : bool;
  hm_max : N;
  hm_live : bool;
  hm_started : bool;
  hm_entering : list request;
  hm_out : list request;
  hm_failing : list (request * bstr);
  hm_running : list request;
  hm_reg : list (nat * request);
  hm_got : list bstr;
  hm_served : list (request * handled);
  hm_notified : list notification;
  hm_errors : list bstr
}.

(** As constructed, with the configured maximum message size. *)
Definition shm0 (handler : bool) (max : N) : shm :=
  {| hm_connected := false; hm_tab := ptab0; hm_handler := handler; hm_max := max; hm_live := false;
     hm_started := false; hm_entering := []; hm_out := []; hm_failing := []; hm_running := [];
     hm_reg := []; hm_got := []; hm_served := []; hm_notified := []; hm_errors := [] |}.

Definition hset_conn (c l st : bool) (e : shm) : shm :=
  {| hm_connected := c; hm_tab := hm_tab e; hm_handler := hm_handler e; hm_max := hm_max e; hm_live := l;
     hm_started := st; hm_entering := hm_entering e; hm_out := hm_out e; hm_failing := hm_failing e;
     hm_running := hm_running e; hm_reg := hm_reg e; hm_got := hm_got e; hm_served := hm_served e;
     hm_notified := hm_notified e; hm_errors := hm_errors e |}.
Definition hset_tab (t : ptab) (e : shm) : shm :=
  {| hm_connected := hm_connected e; hm_tab := t; hm_handler := hm_handler e; hm_max := hm_max e; hm_live := hm_live e;
     hm_started := hm_started e; hm_entering := hm_entering e; hm_out := hm_out e; hm_failing := hm_failing e;
     hm_running := hm_running e; hm_reg := hm_reg e; hm_got := hm_got e; hm_served := hm_served e;
     hm_notified := hm_notified e; hm_errors := hm_errors e |}.
Definition hset_calls (en ou : list request) (fa : list (request * bstr)) (e : shm) : shm :=
  {| hm_connected := hm_connected e; hm_tab := hm_tab e; hm_handler := hm_handler e; hm_max := hm_max e; hm_live := hm_live e;
     hm_started := hm_started e; hm_entering := en; hm_out := ou; hm_failing := fa;
     hm_running := hm_running e; hm_reg := hm_reg e; hm_got := hm_got e; hm_served := hm_served e;
     hm_notified := hm_notified e; hm_errors := hm_errors e |}.
Definition hset_reg (g : list (nat * request)) (e : shm) : shm :=
  {| hm_connected := hm_connected e; hm_tab := hm_tab e; hm_handler := hm_handler e; hm_max := hm_max e; hm_live := hm_live e;
     hm_started := hm_started e; hm_entering := hm_entering e; hm_out := hm_out e; hm_failing := hm_failing e;
     hm_running := hm_running e; hm_reg := g; hm_got := hm_got e; hm_served := hm_served e;
     hm_notified := hm_notified e; hm_errors := hm_errors e |}.
Definition hset_work (r : list request) (g : list bstr) (sv : list (request * handled)) (n : list notification) (e : shm) : shm :=
  {| hm_connected := hm_connected e; hm_tab := hm_tab e; hm_handler := hm_handler e; hm_max := hm_max e; hm_live := hm_live e;
     hm_started := hm_started e; hm_entering := hm_entering e; hm_out := hm_out e; hm_failing := hm_failing e;
     hm_running := r; hm_reg := hm_reg e; hm_got := g; hm_served := sv; hm_notified := n; hm_errors := hm_errors e |}.
Definition hadd_error (m : bstr) (e : shm) : shm :=
  {| hm_connected := hm_connected e; hm_tab := hm_tab e; hm_handler := hm_handler e; hm_max := hm_max e; hm_live := hm_live e;
     hm_started := hm_started e; hm_entering := hm_entering e; hm_out := hm_out e; hm_failing := hm_failing e;
     hm_running := hm_running e; hm_reg := hm_reg e; hm_got := hm_got e; hm_served := hm_served e;
     hm_notified := hm_notified e; hm_errors := hm_errors e ++ [m] |}.

Definition hlog_got (m : bstr) (e : shm) : shm :=
  hset_work (hm_running e) (hm_got e ++ [m]) (hm_served e) (hm_notified e) e.

(** resp->error = CreateErrorObject(InternalError, msg). *)
Definition shm_error (i : rpcid) (msg : bstr) : response := error_response i (-32603) msg None.

(** The generated id, SharedMemoryTransport.cpp:377-399. The counter is static, shared by all
    transports of the process: old is the value the successful compare_exchange found. *)
Definition shm_next (old : N) : N := if N.eqb old (two64 - 1) then 1%N else (old + 1)%N.

(** SharedMemoryTransport.cpp:364-399: the id of an outgoing request. *)
Definition shm_id (old : N) (i : rpcid) : rpcid :=
  match i with
  | IdStr [] | IdNull => IdStr (bs "shm-req-" ++ print_N (shm_next old))
  | _ => i
  end.

(** SendRequest up to the id, SharedMemoryTransport.cpp:354-399. *)
Definition shm_begin (r : request) (old : N) (e : shm) : shm :=
  if hm_connected e then
    hset_calls (hm_entering e ++ [{| rq_id := shm_id old (rq_id r); rq_method := rq_method r; rq_params := rq_params r |}])
               (hm_out e) (hm_failing e) e
  else hset_tab (pt_immediate (id_key (rq_id r)) (shm_error (rq_id r) (bs "Peer not connected")) (hm_tab e)) e.

(** pendingRequests[requestId] = std::move(prom), SharedMemoryTransport.cpp:401-406. *)
Definition shm_register (r : request) (rest : list request) (e : shm) : shm :=
  hset_reg (hm_reg e ++ [(pt_next (hm_tab e), r)])
    (hset_calls rest (hm_out e ++ [r]) (hm_failing e)
       (hset_tab (pt_register (id_key (rq_id r)) (hm_tab e)) e)).

(** sendPayload, SharedMemoryTransport.cpp:153-185: ok says whether the queue takes the message
    at once or within 200 ms. Result: whether it was taken. Before Start the queue is not
    available. *)
Definition shm_send (payload : bstr) (ok : bool) (e : shm) : bool * shm :=
  if negb (hm_started e) then (false, hadd_error (bs "SharedMemoryTransport: send queue not available") e)
  else if N.ltb (hm_max e) (N.of_nat (length payload)) then (false, hadd_error (bs "SharedMemoryTransport: payload too large") e)
  else if ok then (true, e)
  else (false, hadd_error (bs "SharedMemoryTransport: send failed (queue full or closed)") e).

(** The rest of SendRequest, SharedMemoryTransport.cpp:408-432, up to the failure branches. *)
Definition shm_transmit (r : request) (rest : list request) (ok : bool) (e : shm) : shm * option bstr :=
  let payload := ser_request r in
  let e1 := hset_calls (hm_entering e) rest (hm_failing e) e in
  if N.ltb (hm_max e) (N.of_nat (length payload)) then
    (hset_calls (hm_entering e) rest (hm_failing e ++ [(r, bs "Payload too large")]) e, None)
  else
    let (sent, e2) := shm_send payload ok e1 in
    if sent then (e2, Some payload)
    else (hset_calls (hm_entering e2) (hm_out e2) (hm_failing e2 ++ [(r, bs "Send failed")]) e2, None).

(** handleResponse, SharedMemoryTransport.cpp:187-205. *)
Definition shm_resolve (resp : response) (e : shm) : shm :=
  hset_tab (pt_complete (id_key (rs_id resp)) resp (hm_tab e)) e.

(** The last part of processMessage, SharedMemoryTransport.cpp:121-146. *)
Definition shm_notification (m : bstr) (e : shm) : shm :=
  match deser_notification notification0 m with
  | (true, n) =>
      if beq (nt_method n) (bs "transport/disconnected") then
        hadd_error (bs "Peer disconnected")
          (hset_tab (pt_fail_all (fun k => shm_error (IdStr k) (bs "Peer not connected")) (hm_tab e))
             (hset_conn false (hm_live e) (hm_started e) e))
      else hset_work (hm_running e) (hm_got e) (hm_served e) (hm_notified e ++ [n]) e
  | (false, _) => e
  end.

(** The middle part of processMessage, SharedMemoryTransport.cpp:92-120. *)
Definition shm_request (m : bstr) (e : shm) : shm :=
  match (if contains (bs """method""") m then classify m else KUnknown) with
  | KRequest =>
      match deser_request request0 m with
      | (true, r) => if hm_handler e then hset_work (hm_running e ++ [r]) (hm_got e) (hm_served e) (hm_notified e) e
                     else shm_notification m e
      | (false, _) => shm_notification m e
      end
  | _ => shm_notification m e
  end.

(** processMessage, SharedMemoryTransport.cpp:83-146. *)
Definition shm_process (m : bstr) (e : shm) : shm :=
  if (contains (bs """result""") m || contains (bs """error""") m)%bool then
    match deser_response response0 m with
    | (true, resp) => shm_resolve resp e
    | (false, _) => shm_request m e
    end
  else shm_request m e.

(** Steps of one endpoint.
    - AStart: Start 224-246; a second Start is not modelled
    - ABegin, ARegister, ASend, AFail: the parts of SendRequest 351-433; n picks the call
    - ANotify: SendNotification 436-445
    - AReceive m: the processing thread takes m from its queue and processes it 247-272
    - AReceiveError: receiving throws 264-268
    - AExit: the loop ends because connected is false, and the epilogue runs 273-285
    - AHandler: a detached handler thread ends with h and sends the reply 101-118
    - AClose: Close up to connected = false 295-307, with the notification a creator sends
    - AClosed: Close after the thread has been joined 308-343 *)
Inductive hact :=
| AStart
| ABegin (r : request) (old : N)
| ARegister (n : nat)
| ASend (n : nat) (ok : bool)
| AFail (n : nat)
| ANotify (nt : notification) (ok : bool)
| AReceive (m : bstr)
| AReceiveError
| AExit
| AHandler (n : nat) (h : handled) (ok : bool)
| AClose (ok : bool)
| AClosed.

(** The notification of a closing creator, SharedMemoryTransport.cpp:297-299. *)
Definition bye : notification :=
  {| nt_method := bs "transport/disconnected"; nt_params := Some (JObj []) |}.

Definition put (payload : bstr) (ok : bool) (e : shm) : shm * option bstr :=
  let (sent, e1) := shm_send payload ok e in (e1, if sent then Some payload else None).

(** One step; the option is a message put on the outgoing queue. Steps that are not enabled
    change nothing. *)
Definition hstep (creator : bool) (e : shm) (a : hact) : shm * option bstr :=
  match a with
  | AStart => if hm_started e then (e, None) else (hset_conn true true true e, None)
  | ABegin r old => (shm_begin r old e, None)
  | ARegister n =>
      match take_nth n (hm_entering e) with
      | None => (e, None)
      | Some (r, rest) => (shm_register r rest e, None)
      end
  | ASend n ok =>
      match take_nth n (hm_out e) with
      | None => (e, None)
      | Some (r, rest) => shm_transmit r rest ok e
      end
  | AFail n =>
      match take_nth n (hm_failing e) with
      | None => (e, None)
      | Some ((r, msg), rest) =>
          (hset_calls (hm_entering e) (hm_out e) rest
             (hset_tab (pt_complete (id_key (rq_id r)) (shm_error (rq_id r) msg) (hm_tab e)) e), None)
      end
  | ANotify nt ok => put (ser_notification nt) ok e
  | AReceive m => if hm_live e then (shm_process m (hlog_got m e), None) else (e, None)
  | AReceiveError => if hm_live e then (hset_conn false (hm_live e) (hm_started e) e, None) else (e, None)
  | AExit =>
      if (hm_live e && negb (hm_connected e))%bool then
        (hset_tab (pt_fail_all (fun k => shm_error (IdStr k) (bs "Transport closed")) (hm_tab e))
           (hset_conn false false (hm_started e) e), None)
      else (e, None)
  | AHandler n h ok =>
      match take_nth n (hm_running e) with
      | None => (e, None)
      | Some (r, rest) =>
          put (ser_response (reply (rq_id r) h)) ok
            (hset_work rest (hm_got e) (hm_served e ++ [(r, h)]) (hm_notified e) e)
      end
  | AClose ok =>
      let (e1, o) := if (creator && hm_started e)%bool then put (ser_notification bye) ok e else (e, None) in
      (hset_conn false (hm_live e1) (hm_started e1) e1, o)
  | AClosed =>
      if hm_live e then (e, None)
      else (hset_tab (pt_fail_all (fun k => shm_error (IdStr k) (bs "Transport closed")) (hm_tab e)) e, None)
  end.

Definition hrun (creator : bool) (e : shm) (vs : list hact) : shm :=
  fold_left (fun e a => fst (hstep creator e a)) vs e.

(** Two endpoints, the creator SideA and the opener SideB, and the queues _c2s and _s2c:
    hp_q x holds the messages for side x. Simplifications: the queues exist from the start,
    and a full queue is one of the reasons the flag ok of a send can be false. *)
Record hpair := { hp_ep : side -> shm; hp_q : side -> list bstr; hp_sent : side -> list bstr }.

Definition hpair0 (ha hb : bool) (ma mb : N) : hpair :=
  {| hp_ep := fun x => match x with SideA => shm0 ha ma | SideB => shm0 hb mb end;
     hp_q := fun _ => []; hp_sent := fun _ => [] |}.

Definition hput {A} (f : side -> A) (x : side) (v : A) : side -> A := fun y => if side_eqb x y then v else f y.

Definition is_creator (x : side) : bool := match x with SideA => true | SideB => false end.

(** A step of one side. A message can be received only if it is at the head of the queue. *)
Definition hpstep (s : hpair) (v : side * hact) : hpair :=
  let (x, a) := v in
  let go (q : side -> list bstr) :=
    let (e, o) := hstep (is_creator x) (hp_ep s x) a in
    match o with
    | None => {| hp_ep := hput (hp_ep s) x e; hp_q := q; hp_sent := hp_sent s |}
    | Some m => {| hp_ep := hput (hp_ep s) x e; hp_q := hput q (other x) (q (other x) ++ [m]);
                   hp_sent := hput (hp_sent s) x (hp_sent s x ++ [m]) |}
    end in
  match a with
  | AReceive m =>
      match hp_q s x with
      | m' :: q' => if (hm_live (hp_ep s x) && beq m m')%bool then go (hput (hp_q s) x q') else s
      | [] => s
      end
  | _ => go (hp_q s)
  end.

Definition hprun (s : hpair) (vs : list (side * hact)) : hpair := fold_left hpstep vs s.
