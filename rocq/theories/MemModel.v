(** A connected pair of in-memory transports. *)
From Coq Require Import Ascii String List Arith NArith ZArith Bool.
From Verif Require Import StrModel DoubleModel JsonModel RpcModel RouterModel MapModel.
Import ListNotations.
Local Open Scope nat_scope.

Inductive side := SideA | SideB.
Definition other (x : side) : side := match x with SideA => SideB | SideB => SideA end.
Definition side_eqb (x y : side) : bool :=
  match x, y with SideA, SideA | SideB, SideB => true | _, _ => false end.

(** What ends a request's future. A promise is identified by a ticket, the number of
    the SendRequest call that made it. [OBroken]: the promise was destroyed because a
    later request with the same id string replaced it in the table, so the future
    throws broken_promise. *)
Inductive outcome := OResp (r : response) | OClosed (r : response) | OSendFail (r : response) | OBroken.

(** InMemoryTransport::Impl, InMemoryTransport.cpp:26-42. The fields from ep_next on are
    not in the code: tickets, calls in progress on caller threads, handler threads, and logs.
    - ep_current: the message the processing thread has popped and not yet processed
    - ep_out: SendRequest calls between table insertion and sendToPeer (lines 244-249)
    - ep_failing: SendRequest calls whose sendToPeer returned false (lines 249-250)
    - ep_running: detached handler threads (line 101)
    - ep_issued, ep_done: requests issued with their tickets, futures completed
    - ep_sent, ep_processed: messages accepted by the peer's queue, messages processed
    - ep_served: requests handled here with the handler's outcome
    - ep_notified: notifications passed to the handler *)
Record endpoint := {
  ep_connected : bool;
  ep_handler : bool;
  ep_queue : list bstr;
  ep_counter : N;
  ep_pend : list (bstr * nat);
  ep_next : nat;
  ep_current : option bstr;
  ep_out : list (nat * request);
  ep_failing : list (nat * request);
  ep_running : list request;
  ep_issued : list (nat * request);
  ep_done : list (nat * outcome);
  ep_sent : list bstr;
  ep_processed : list bstr;
  ep_served : list (request * handled);
  ep_notified : list notification
}.

Definition endpoint0 (handler : bool) : endpoint :=
  {| ep_connected := false; ep_handler := handler; ep_queue := []; ep_counter := 0%N; ep_pend := [];
     ep_next := 0; ep_current := None; ep_out := []; ep_failing := []; ep_running := [];
     ep_issued := []; ep_done := []; ep_sent := []; ep_processed := []; ep_served := []; ep_notified := [] |}.

Definition set_connected (b : bool) (e : endpoint) : endpoint :=
  {| ep_connected := b; ep_handler := ep_handler e; ep_queue := ep_queue e; ep_counter := ep_counter e;
     ep_pend := ep_pend e; ep_next := ep_next e; ep_current := ep_current e; ep_out := ep_out e;
     ep_failing := ep_failing e; ep_running := ep_running e; ep_issued := ep_issued e; ep_done := ep_done e;
     ep_sent := ep_sent e; ep_processed := ep_processed e; ep_served := ep_served e; ep_notified := ep_notified e |}.
Definition set_queue (q : list bstr) (e : endpoint) : endpoint :=
  {| ep_connected := ep_connected e; ep_handler := ep_handler e; ep_queue := q; ep_counter := ep_counter e;
     ep_pend := ep_pend e; ep_next := ep_next e; ep_current := ep_current e; ep_out := ep_out e;
     ep_failing := ep_failing e; ep_running := ep_running e; ep_issued := ep_issued e; ep_done := ep_done e;
     ep_sent := ep_sent e; ep_processed := ep_processed e; ep_served := ep_served e; ep_notified := ep_notified e |}.
Definition set_pend (p : list (bstr * nat)) (d : list (nat * outcome)) (e : endpoint) : endpoint :=
  {| ep_connected := ep_connected e; ep_handler := ep_handler e; ep_queue := ep_queue e; ep_counter := ep_counter e;
     ep_pend := p; ep_next := ep_next e; ep_current := ep_current e; ep_out := ep_out e;
     ep_failing := ep_failing e; ep_running := ep_running e; ep_issued := ep_issued e; ep_done := d;
     ep_sent := ep_sent e; ep_processed := ep_processed e; ep_served := ep_served e; ep_notified := ep_notified e |}.
Definition set_current (c : option bstr) (e : endpoint) : endpoint :=
  {| ep_connected := ep_connected e; ep_handler := ep_handler e; ep_queue := ep_queue e; ep_counter := ep_counter e;
     ep_pend := ep_pend e; ep_next := ep_next e; ep_current := c; ep_out := ep_out e;
     ep_failing := ep_failing e; ep_running := ep_running e; ep_issued := ep_issued e; ep_done := ep_done e;
     ep_sent := ep_sent e; ep_processed := ep_processed e; ep_served := ep_served e; ep_notified := ep_notified e |}.
Definition set_out (o f : list (nat * request)) (e : endpoint) : endpoint :=
  {| ep_connected := ep_connected e; ep_handler := ep_handler e; ep_queue := ep_queue e; ep_counter := ep_counter e;
     ep_pend := ep_pend e; ep_next := ep_next e; ep_current := ep_current e; ep_out := o;
     ep_failing := f; ep_running := ep_running e; ep_issued := ep_issued e; ep_done := ep_done e;
     ep_sent := ep_sent e; ep_processed := ep_processed e; ep_served := ep_served e; ep_notified := ep_notified e |}.
Definition set_running (r : list request) (sv : list (request * handled)) (e : endpoint) : endpoint :=
  {| ep_connected := ep_connected e; ep_handler := ep_handler e; ep_queue := ep_queue e; ep_counter := ep_counter e;
     ep_pend := ep_pend e; ep_next := ep_next e; ep_current := ep_current e; ep_out := ep_out e;
     ep_failing := ep_failing e; ep_running := r; ep_issued := ep_issued e; ep_done := ep_done e;
     ep_sent := ep_sent e; ep_processed := ep_processed e; ep_served := sv; ep_notified := ep_notified e |}.
Definition set_notified (n : list notification) (e : endpoint) : endpoint :=
  {| ep_connected := ep_connected e; ep_handler := ep_handler e; ep_queue := ep_queue e; ep_counter := ep_counter e;
     ep_pend := ep_pend e; ep_next := ep_next e; ep_current := ep_current e; ep_out := ep_out e;
     ep_failing := ep_failing e; ep_running := ep_running e; ep_issued := ep_issued e; ep_done := ep_done e;
     ep_sent := ep_sent e; ep_processed := ep_processed e; ep_served := ep_served e; ep_notified := n |}.
Definition log_sent (m : bstr) (e : endpoint) : endpoint :=
  {| ep_connected := ep_connected e; ep_handler := ep_handler e; ep_queue := ep_queue e; ep_counter := ep_counter e;
     ep_pend := ep_pend e; ep_next := ep_next e; ep_current := ep_current e; ep_out := ep_out e;
     ep_failing := ep_failing e; ep_running := ep_running e; ep_issued := ep_issued e; ep_done := ep_done e;
     ep_sent := ep_sent e ++ [m]; ep_processed := ep_processed e; ep_served := ep_served e; ep_notified := ep_notified e |}.
Definition log_processed (m : bstr) (e : endpoint) : endpoint :=
  {| ep_connected := ep_connected e; ep_handler := ep_handler e; ep_queue := ep_queue e; ep_counter := ep_counter e;
     ep_pend := ep_pend e; ep_next := ep_next e; ep_current := ep_current e; ep_out := ep_out e;
     ep_failing := ep_failing e; ep_running := ep_running e; ep_issued := ep_issued e; ep_done := ep_done e;
     ep_sent := ep_sent e; ep_processed := ep_processed e ++ [m]; ep_served := ep_served e; ep_notified := ep_notified e |}.

Definition sys := side -> endpoint.
Definition upd (s : sys) (x : side) (e : endpoint) : sys := fun y => if side_eqb x y then e else s y.

(** CreatePair, InMemoryTransport.cpp:180-188; the flags say whether a request handler is
    installed on each side. *)
Definition sys0 (ha hb : bool) : sys := fun x => endpoint0 (match x with SideA => ha | SideB => hb end).

(** The id string of handleResponse, InMemoryTransport.cpp:137-142 (null gives the empty
    string). *)
Definition id_key (i : rpcid) : bstr :=
  match i with IdStr s => s | IdInt z => print_Z z | IdNull => [] end.

(** sendToPeer, InMemoryTransport.cpp:164-172, with enqueueMessage 158-162. *)
Definition send_to_peer (s : sys) (x : side) (m : bstr) : bool * sys :=
  let p := s (other x) in
  if ep_connected p then
    let s1 := upd s (other x) (set_queue (ep_queue p ++ [m]) p) in
    (true, upd s1 x (log_sent m (s1 x)))
  else (false, s).

(** The id of an outgoing request, InMemoryTransport.cpp:224-240, and the counter after:
    generateRequestId 174 pre-increments an unsigned. *)
Definition final_id (counter : N) (i : rpcid) : rpcid * N :=
  let fresh := N.modulo (counter + 1) (2 ^ 32) in
  match i with
  | IdStr [] | IdNull => (IdStr (bs "mem-req-" ++ print_N fresh), fresh)
  | _ => (i, counter)
  end.

Definition closed_response (k : bstr) : response :=
  error_response (IdStr k) (-32603) (bs "Transport closed") None.

(** SendRequest up to the insertion into pendingRequests, InMemoryTransport.cpp:220-246.
    Inserting over an existing id destroys that promise. *)
Definition begin_request (e : endpoint) (r : request) : endpoint :=
  let (i, c) := final_id (ep_counter e) (rq_id r) in
  let r' := {| rq_id := i; rq_method := rq_method r; rq_params := rq_params r |} in
  let t := ep_next e in
  {| ep_connected := ep_connected e; ep_handler := ep_handler e; ep_queue := ep_queue e; ep_counter := c;
     ep_pend := aset (id_key i) t (ep_pend e);
     ep_next := S t; ep_current := ep_current e; ep_out := ep_out e ++ [(t, r')];
     ep_failing := ep_failing e; ep_running := ep_running e;
     ep_issued := ep_issued e ++ [(t, r')];
     ep_done := ep_done e ++ match aget (id_key i) (ep_pend e) with
                             | Some t' => [(t', OBroken)]
                             | None => []
                             end;
     ep_sent := ep_sent e; ep_processed := ep_processed e; ep_served := ep_served e; ep_notified := ep_notified e |}.

(** handleResponse, InMemoryTransport.cpp:136-150. *)
Definition resolve (e : endpoint) (resp : response) : endpoint :=
  let k := id_key (rs_id resp) in
  match aget k (ep_pend e) with
  | Some t => set_pend (adel k (ep_pend e)) (ep_done e ++ [(t, OResp resp)]) e
  | None => e
  end.

(** The end of processMessage, InMemoryTransport.cpp:125-133; the notification handler
    itself is a parameter of nothing: only that it is called matters. *)
Definition process_notification (e : endpoint) (m : bstr) : endpoint :=
  match deser_notification notification0 m with
  | (true, n) => set_notified (ep_notified e ++ [n]) e
  | (false, _) => e
  end.

(** processMessage, InMemoryTransport.cpp:80-134. *)
Definition process (e : endpoint) (m : bstr) : endpoint :=
  match classify m with
  | KResponse => resolve e (snd (deser_response response0 m))
  | KRequest =>
      match deser_request request0 m with
      | (true, r) => if ep_handler e then set_running (ep_running e ++ [r]) (ep_served e) e
                     else process_notification e m
      | (false, _) => process_notification e m
      end
  | _ => process_notification e m
  end.

(** Steps, each one region of mutual exclusion or one call. *)
Inductive ev :=
| EStart (x : side)
| EDisconnect (x : side)
| EFailAll (x : side)
| EBegin (x : side) (r : request)
| ETransmit (x : side) (k : nat)
| EFailSend (x : side) (k : nat)
| ENotify (x : side) (n : notification)
| EPop (x : side)
| EDispatch (x : side)
| EHandler (x : side) (k : nat) (h : handled).

(** Steps that are not enabled change nothing.
    - EStart 190-196; EDisconnect and EFailAll are the two halves of Close 198-215
    - EBegin, ETransmit, EFailSend are the three parts of SendRequest 220-259
    - ENotify 261-272 (a failed send only calls the error handler)
    - EPop and EDispatch are one turn of the processing loop 69-75
    - EHandler is the end of a detached handler thread 101-119 *)
Definition step (s : sys) (v : ev) : sys :=
  match v with
  | EStart x => upd s x (set_connected true (s x))
  | EDisconnect x => upd s x (set_connected false (s x))
  | EFailAll x =>
      let e := s x in
      upd s x (set_pend [] (ep_done e ++ map (fun kt => (snd kt, OClosed (closed_response (fst kt)))) (ep_pend e)) e)
  | EBegin x r => upd s x (begin_request (s x) r)
  | ETransmit x k =>
      match take_nth k (ep_out (s x)) with
      | None => s
      | Some ((t, r), rest) =>
          let (sent, s1) := send_to_peer s x (ser_request r) in
          let e := s1 x in
          upd s1 x (set_out rest (if sent then ep_failing e else ep_failing e ++ [(t, r)]) e)
      end
  | EFailSend x k =>
      let e := s x in
      match take_nth k (ep_failing e) with
      | None => s
      | Some ((t, r), rest) =>
          let key := id_key (rq_id r) in
          let e1 := set_out (ep_out e) rest e in
          upd s x (match aget key (ep_pend e) with
                   | Some t' =>
                       set_pend (adel key (ep_pend e))
                         (ep_done e ++ [(t', OSendFail (error_response (rq_id r) (-32603) (bs "Peer not connected") None))]) e1
                   | None => e1
                   end)
      end
  | ENotify x n => snd (send_to_peer s x (ser_notification n))
  | EPop x =>
      let e := s x in
      if ep_connected e then
        match ep_current e, ep_queue e with
        | None, m :: q => upd s x (set_current (Some m) (set_queue q e))
        | _, _ => s
        end
      else s
  | EDispatch x =>
      let e := s x in
      match ep_current e with
      | Some m => upd s x (log_processed m (process (set_current None e) m))
      | None => s
      end
  | EHandler x k h =>
      let e := s x in
      match take_nth k (ep_running e) with
      | None => s
      | Some (r, rest) =>
          snd (send_to_peer (upd s x (set_running rest (ep_served e ++ [(r, h)]) e)) x
                 (ser_response (reply (rq_id r) h)))
      end
  end.

Definition run (s : sys) (vs : list ev) : sys := fold_left step vs s.
