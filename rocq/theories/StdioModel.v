(** The stdio transport: pending requests, deadlines, timeout thread, close, and the
    outgoing queue (WqModel). The incoming side down to message texts is FramerModel. *)
From Coq Require Import Ascii String List Arith NArith ZArith Bool.
From Verif Require Import StrModel FramerModel DoubleModel JsonModel RpcModel RouterModel MapModel MemModel PendModel WqModel.
Import ListNotations.
Local Open Scope nat_scope.

(** The timeout thread, StdioTransport.cpp:927-978: about to look for the next deadline;
    waiting for any deadline to appear (932-936, 945-949); waiting until a time (952-956); ended. *)
Inductive sleeper := Planning | Waiting | Until (z : Z) | Gone.

(** st_now is the steady clock in nanoseconds. st_entering holds requests that passed the
    connected test of SendRequest and are not yet registered; st_out those registered and
    not yet enqueued. st_reg records the deadline of every registered ticket, st_msgs every
    message routed. st_ub: signed overflow happened in a deadline computation. *)
Record stdio := {
  st_now : Z;
  st_timeout : Z;
  st_counter : N;
  st_tab : ptab;
  st_dead : list (bstr * Z);
  st_entering : list request;
  st_out : list request;
  st_sleep : sleeper;
  st_wq : wq;
  st_reg : list (nat * (request * Z));
  st_msgs : list bstr;
  st_ub : bool
}.

Definition int64_max : Z := 9223372036854775807.

(** static_cast of a uint64_t to the signed representation of std::chrono::milliseconds. *)
Definition to_int64 (n : N) : Z :=
  let z := Z.of_N (N.modulo n two64) in if Z.ltb z two63 then z else (z - 2 * two63)%Z.

(** SetRequestTimeoutMs, StdioTransport.cpp:1218-1226. *)
Definition timeout_of (ms : N) : Z := if N.eqb ms 0 then int64_max else to_int64 ms.

(** steady_clock::now() + requestTimeout, StdioTransport.cpp:1181: the milliseconds are
    converted to nanoseconds in 64 bits and added. None: signed overflow, undefined. *)
Definition deadline_of (now ms : Z) : option Z :=
  let ns := (ms * 1000000)%Z in
  let d := (now + ns)%Z in
  if (Z.leb (- two63) ns && Z.ltb ns two63 && Z.leb (- two63) d && Z.ltb d two63)%bool
  then Some d else None.

(** After Start, 1042-1050, with the configured timeout (30000 by default, 92) and queue cap. *)
Definition stdio_start (now : Z) (ms : N) (max : N) : stdio :=
  {| st_now := now; st_timeout := timeout_of ms; st_counter := 0; st_tab := ptab0; st_dead := [];
     st_entering := []; st_out := []; st_sleep := Planning; st_wq := wq_start max;
     st_reg := []; st_msgs := []; st_ub := false |}.

Definition st_connected (s : stdio) : bool := w_connected (st_wq s).

Definition stdio_error (k : bstr) (msg : bstr) : response :=
  error_response (IdStr k) (-32603) msg None.

(** The id of an outgoing request, StdioTransport.cpp:1166-1177, generateRequestId 1023. *)
Definition stdio_id (counter : N) (i : rpcid) : rpcid * N :=
  let fresh := N.modulo (counter + 1) (2 ^ 32) in
  match i with
  | IdStr [] | IdNull => (IdStr (bs "req-" ++ print_N fresh), fresh)
  | _ => (i, counter)
  end.

Definition with_tab (t : ptab) (d : list (bstr * Z)) (s : stdio) : stdio :=
  {| st_now := st_now s; st_timeout := st_timeout s; st_counter := st_counter s; st_tab := t; st_dead := d;
     st_entering := st_entering s; st_out := st_out s; st_sleep := st_sleep s; st_wq := st_wq s;
     st_reg := st_reg s; st_msgs := st_msgs s; st_ub := st_ub s |}.

Definition with_wq (w : wq) (s : stdio) : stdio :=
  {| st_now := st_now s; st_timeout := st_timeout s; st_counter := st_counter s; st_tab := st_tab s; st_dead := st_dead s;
     st_entering := st_entering s; st_out := st_out s; st_sleep := st_sleep s; st_wq := w;
     st_reg := st_reg s; st_msgs := st_msgs s; st_ub := st_ub s |}.

Definition with_sleep (z : sleeper) (s : stdio) : stdio :=
  {| st_now := st_now s; st_timeout := st_timeout s; st_counter := st_counter s; st_tab := st_tab s; st_dead := st_dead s;
     st_entering := st_entering s; st_out := st_out s; st_sleep := z; st_wq := st_wq s;
     st_reg := st_reg s; st_msgs := st_msgs s; st_ub := st_ub s |}.

(** handleResponse, StdioTransport.cpp:1000-1015. *)
Definition stdio_resolve (r : response) (s : stdio) : stdio :=
  let k := id_key (rs_id r) in
  with_tab (pt_complete k r (st_tab s)) (adel k (st_dead s)) s.

(** The ids whose deadline has passed, StdioTransport.cpp:958-964. *)
Definition expired (now : Z) (d : list (bstr * Z)) : list bstr :=
  map fst (filter (fun kd => Z.leb (snd kd) now) d).

(** The sweep, StdioTransport.cpp:957-976. *)
Definition sweep (s : stdio) : stdio :=
  let ks := expired (st_now s) (st_dead s) in
  with_tab (pt_complete_list (fun k => stdio_error k (bs "Request timeout")) ks (st_tab s))
           (fold_left (fun d k => adel k d) ks (st_dead s)) s.

(** The earliest deadline, StdioTransport.cpp:939-944. *)
Definition next_deadline (d : list (bstr * Z)) : Z :=
  fold_left (fun m kd => if Z.ltb (snd kd) m then snd kd else m) d int64_max.

(** SendRequest up to the connected test and the id, StdioTransport.cpp:1151-1177. *)
Definition stdio_begin (r : request) (s : stdio) : stdio :=
  if st_connected s then
    let (i, c) := stdio_id (st_counter s) (rq_id r) in
    {| st_now := st_now s; st_timeout := st_timeout s; st_counter := c; st_tab := st_tab s; st_dead := st_dead s;
       st_entering := st_entering s ++ [{| rq_id := i; rq_method := rq_method r; rq_params := rq_params r |}];
       st_out := st_out s; st_sleep := st_sleep s; st_wq := st_wq s;
       st_reg := st_reg s; st_msgs := st_msgs s; st_ub := st_ub s |}
  else
    let fresh := N.modulo (st_counter s + 1) (2 ^ 32) in
    let k := bs "req-" ++ print_N fresh in
    {| st_now := st_now s; st_timeout := st_timeout s; st_counter := fresh;
       st_tab := pt_immediate k (stdio_error k (bs "Transport not connected")) (st_tab s); st_dead := st_dead s;
       st_entering := st_entering s; st_out := st_out s; st_sleep := st_sleep s; st_wq := st_wq s;
       st_reg := st_reg s; st_msgs := st_msgs s; st_ub := st_ub s |}.

(** The registration, StdioTransport.cpp:1178-1182. *)
Definition stdio_register (r : request) (rest : list request) (s : stdio) : stdio :=
  let k := id_key (rq_id r) in
  match deadline_of (st_now s) (st_timeout s) with
  | None =>
      {| st_now := st_now s; st_timeout := st_timeout s; st_counter := st_counter s; st_tab := st_tab s;
         st_dead := st_dead s; st_entering := rest; st_out := st_out s; st_sleep := st_sleep s; st_wq := st_wq s;
         st_reg := st_reg s; st_msgs := st_msgs s; st_ub := true |}
  | Some d =>
      {| st_now := st_now s; st_timeout := st_timeout s; st_counter := st_counter s;
         st_tab := pt_register k (st_tab s); st_dead := aset k d (st_dead s); st_entering := rest;
         st_out := st_out s ++ [r]; st_sleep := st_sleep s; st_wq := st_wq s;
         st_reg := st_reg s ++ [(pt_next (st_tab s), (r, d))]; st_msgs := st_msgs s; st_ub := st_ub s |}
  end.

(** Steps, each one region of mutual exclusion or one call:
    - STime d: the clock advances
    - SBegin, SRegister, SEnqueue: the three parts of SendRequest 1151-1191
    - SFrame: enqueueFrame called for a notification 1194-1204 or a reply
    - SMessage h m: the reader hands a message to processMessage 980-998, which routes it;
      a reply text is enqueued. Simplification: the user's handlers have no effect on the
      transport other than the calls that appear as separate steps.
    - SPlan: the timeout thread looks for the next deadline 929-956; SSweep: it wakes and
      consumes what has expired 957-976; SQuit: it sees that connected is false and ends
      (929, 934, 949, 953). SSweep does not require connected: that test comes earlier.
    - SDisconnect: connected becomes false for any reason (Close 1055, end of input, read
      error, idle timeout); SFailAll: the last part of Close 1130-1139
    - SSetTimeout: SetRequestTimeoutMs 1218-1226
    - SWriter: a step of the writer thread *)
Inductive sev :=
| STime (d : N)
| SBegin (r : request)
| SRegister (n : nat)
| SEnqueue (n : nat)
| SFrame (payload : bstr)
| SMessage (h : handlers) (m : bstr)
| SPlan
| SSweep
| SQuit
| SDisconnect
| SFailAll
| SSetTimeout (ms : N)
| SWriter (v : wev).

Definition with_out (o : list request) (s : stdio) : stdio :=
  {| st_now := st_now s; st_timeout := st_timeout s; st_counter := st_counter s; st_tab := st_tab s; st_dead := st_dead s;
     st_entering := st_entering s; st_out := o; st_sleep := st_sleep s; st_wq := st_wq s;
     st_reg := st_reg s; st_msgs := st_msgs s; st_ub := st_ub s |}.

Definition with_msg (m : bstr) (s : stdio) : stdio :=
  {| st_now := st_now s; st_timeout := st_timeout s; st_counter := st_counter s; st_tab := st_tab s; st_dead := st_dead s;
     st_entering := st_entering s; st_out := st_out s; st_sleep := st_sleep s; st_wq := st_wq s;
     st_reg := st_reg s; st_msgs := st_msgs s ++ [m]; st_ub := st_ub s |}.

Definition with_time (now timeout : Z) (s : stdio) : stdio :=
  {| st_now := now; st_timeout := timeout; st_counter := st_counter s; st_tab := st_tab s; st_dead := st_dead s;
     st_entering := st_entering s; st_out := st_out s; st_sleep := st_sleep s; st_wq := st_wq s;
     st_reg := st_reg s; st_msgs := st_msgs s; st_ub := st_ub s |}.

Definition enqueue_in (payload : bstr) (s : stdio) : stdio := with_wq (snd (enqueue payload (st_wq s))) s.

(** The effects of routing a message, StdioTransport.cpp:989-997. *)
Definition stdio_message (h : handlers) (m : bstr) (s : stdio) : stdio :=
  let (calls, result) := route h m in
  let s1 := fold_left (fun st c => match c with CResolve r => stdio_resolve r st | _ => st end) calls (with_msg m s) in
  match result with
  | RReturn (Some text) => enqueue_in text s1
  | _ => s1
  end.

Definition stdio_step (s : stdio) (v : sev) : stdio :=
  match v with
  | STime d => with_time (st_now s + Z.of_N d) (st_timeout s) s
  | SBegin r => stdio_begin r s
  | SRegister n =>
      match take_nth n (st_entering s) with
      | None => s
      | Some (r, rest) => stdio_register r rest s
      end
  | SEnqueue n =>
      match take_nth n (st_out s) with
      | None => s
      | Some (r, rest) => enqueue_in (ser_request r) (with_out rest s)
      end
  | SFrame payload => enqueue_in payload s
  | SMessage h m => stdio_message h m s
  | SPlan =>
      match st_sleep s with
      | Planning =>
          if st_connected s then
            with_sleep (match st_dead s with
                        | [] => Waiting
                        | d => if Z.eqb (next_deadline d) int64_max then Waiting else Until (next_deadline d)
                        end) s
          else with_sleep Gone s
      | _ => s
      end
  | SSweep =>
      match st_sleep s with
      | Waiting => match st_dead s with [] => s | _ => with_sleep Planning (sweep s) end
      | Until z => if Z.leb z (st_now s) then with_sleep Planning (sweep s) else s
      | _ => s
      end
  | SQuit => if st_connected s then s else with_sleep Gone s
  | SDisconnect => with_wq (wq_disconnect (st_wq s)) s
  | SFailAll => with_tab (pt_fail_all (fun k => stdio_error k (bs "Transport closed")) (st_tab s)) [] s
  | SSetTimeout ms => with_time (st_now s) (timeout_of ms) s
  | SWriter w => with_wq (wq_step (st_wq s) w) s
  end.

Definition stdio_run (s : stdio) (vs : list sev) : stdio := fold_left stdio_step vs s.
