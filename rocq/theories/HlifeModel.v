(** The threads of the HTTP client transport: Start, Close, destruction. *)
From Coq Require Import List Arith Bool.
Import ListNotations.
Local Open Scope nat_scope.

(** Who calls Close or the destructor: a thread of the application, or a handler of the application that the i/o thread or the
    event-stream thread runs. *)
Inductive caller := ByApp | ByIo | BySse.

(** How the future of a request is completed: by its response; by another error; by Close, HTTPTransport.cpp:817-822; by the
    destruction of its promise. *)
Inductive outcome := OAnswer | OError | OClosed | OBroken.

(** The coroutines given to the io_context: the POST of request k, 897; init: an initialize request, 875. The POST of notification
    k, 932. The POST of the reply to a request of the server, 483. The DELETE of Close, 774. The authorization of the GET, 586. *)
Inductive job := JPost (k : nat) (init : bool) | JNote (k : nat) | JReply | JDelete | JAuth.

(** What the exchange of a POST brings: the answer; nothing that can be used; or something that makes a handler of the application
    run, request: the request handler, whose result is posted, 481-495. *)
Inductive rep := RAnswer | RNothing | RCall (request : bool).

(** What waits in the io_context to be run: the start of a coroutine, or what follows its exchange. *)
Inductive item := QStart (j : job) | QEnd (j : job) (r : rep).

(** The i/o thread, 754-764. IIdle: in run(). IShut: in the synchronous TLS shutdown after an exchange, 362 and 436. ISpawn: in
    maybeStartSseLoop, 502-514, after its tests. IUser: in a handler of the application. IEnded: run() has returned. *)
Inductive ioth := INone | IIdle | IShut (j : job) (r : rep) | ISpawn (k : nat) (r : rep) | IUser (k : nat) (request : bool) | IEnded.

(** The event-stream thread, 516-742. STop: at the test of the loop. SDial: resolving and connecting, 565-571 and 655-667. SAuth: in
    authFuture.get(), 587 and 677. SOpen: writing the GET and reading. SUser: in a handler of the application, with the number of
    events read with this one that follow. SNap: asleep. SOver: ended, not joined. *)
Inductive sseth := SNone | STop | SDial | SAuth | SOpen | SUser (more : nat) | SNap | SOver.

(** Where Close, 769-831, or, d, the destructor of Impl, 147-154, is. KDelete: in deleteFuture.get(), 775. KSse: before the store of
    stopSseLoop, 219. KJoin: at its join. KStop: before 788-795, or 151. KWait: at the join of the i/o thread, 803 and 152. KLast: before 811-823; for the
    destructor, before the members are destroyed. *)
Inductive pc := KDelete | KSse (d : bool) | KJoin (d : bool) | KStop (d : bool) | KWait (d : bool) | KLast (d : bool).

(** Crashed: std::terminate. *)
Inductive life := Alive | Freed | Crashed.

(** The members, HTTPTransport.cpp:60-88. hl_deleted, hl_authed: the future of the DELETE, of the authorization, is ready. hl_flight: coroutines that
    wait for the network. hl_futs, hl_notes: the futures of all requests and notifications so far, None while they are not ready; for a notification,
    true if it was posted, false if the promise was destroyed.
    Ghosts: hl_rets: the calls of Close that have returned, with whether Close got to its end, 823; hl_calls: how often a handler of the application was called. *)
Record hl := {
  hl_conn : bool; hl_enabled : bool; hl_running : bool; hl_stop : bool; hl_io : ioth; hl_sse : sseth; hl_ready : list item; hl_flight : list job;
  hl_deleted : bool; hl_authed : bool; hl_futs : list (option outcome); hl_notes : list (option bool); hl_call : option (caller * pc);
  hl_rets : list (caller * bool); hl_calls : nat; hl_life : life }.

(** As constructed, 93-145. *)
Definition hl0 : hl :=
  {| hl_conn := false; hl_enabled := true; hl_running := false; hl_stop := false; hl_io := INone; hl_sse := SNone; hl_ready := []; hl_flight := [];
     hl_deleted := false; hl_authed := false; hl_futs := []; hl_notes := []; hl_call := None; hl_rets := []; hl_calls := 0; hl_life := Alive |}.

(** opts: https; an endpoint path and enableGetStream; an endpoint path and enableDeleteOnClose. *)
Record hlconf := { hk_tls : bool; hk_stream : bool; hk_delete : bool }.

Definition set_flags (conn enabled running stop : bool) (s : hl) : hl :=
  {| hl_conn := conn; hl_enabled := enabled; hl_running := running; hl_stop := stop; hl_io := hl_io s; hl_sse := hl_sse s; hl_ready := hl_ready s;
     hl_flight := hl_flight s; hl_deleted := hl_deleted s; hl_authed := hl_authed s; hl_futs := hl_futs s; hl_notes := hl_notes s; hl_call := hl_call s;
     hl_rets := hl_rets s; hl_calls := hl_calls s; hl_life := hl_life s |}.
Definition set_io (i : ioth) (s : hl) : hl :=
  {| hl_conn := hl_conn s; hl_enabled := hl_enabled s; hl_running := hl_running s; hl_stop := hl_stop s; hl_io := i; hl_sse := hl_sse s; hl_ready := hl_ready s;
     hl_flight := hl_flight s; hl_deleted := hl_deleted s; hl_authed := hl_authed s; hl_futs := hl_futs s; hl_notes := hl_notes s; hl_call := hl_call s;
     hl_rets := hl_rets s; hl_calls := hl_calls s; hl_life := hl_life s |}.
Definition set_sse (t : sseth) (s : hl) : hl :=
  {| hl_conn := hl_conn s; hl_enabled := hl_enabled s; hl_running := hl_running s; hl_stop := hl_stop s; hl_io := hl_io s; hl_sse := t; hl_ready := hl_ready s;
     hl_flight := hl_flight s; hl_deleted := hl_deleted s; hl_authed := hl_authed s; hl_futs := hl_futs s; hl_notes := hl_notes s; hl_call := hl_call s;
     hl_rets := hl_rets s; hl_calls := hl_calls s; hl_life := hl_life s |}.
Definition set_work (q : list item) (f : list job) (s : hl) : hl :=
  {| hl_conn := hl_conn s; hl_enabled := hl_enabled s; hl_running := hl_running s; hl_stop := hl_stop s; hl_io := hl_io s; hl_sse := hl_sse s; hl_ready := q;
     hl_flight := f; hl_deleted := hl_deleted s; hl_authed := hl_authed s; hl_futs := hl_futs s; hl_notes := hl_notes s; hl_call := hl_call s;
     hl_rets := hl_rets s; hl_calls := hl_calls s; hl_life := hl_life s |}.
Definition set_ready (d a : bool) (s : hl) : hl :=
  {| hl_conn := hl_conn s; hl_enabled := hl_enabled s; hl_running := hl_running s; hl_stop := hl_stop s; hl_io := hl_io s; hl_sse := hl_sse s; hl_ready := hl_ready s;
     hl_flight := hl_flight s; hl_deleted := d; hl_authed := a; hl_futs := hl_futs s; hl_notes := hl_notes s; hl_call := hl_call s;
     hl_rets := hl_rets s; hl_calls := hl_calls s; hl_life := hl_life s |}.
Definition set_futs (f : list (option outcome)) (n : list (option bool)) (s : hl) : hl :=
  {| hl_conn := hl_conn s; hl_enabled := hl_enabled s; hl_running := hl_running s; hl_stop := hl_stop s; hl_io := hl_io s; hl_sse := hl_sse s; hl_ready := hl_ready s;
     hl_flight := hl_flight s; hl_deleted := hl_deleted s; hl_authed := hl_authed s; hl_futs := f; hl_notes := n; hl_call := hl_call s;
     hl_rets := hl_rets s; hl_calls := hl_calls s; hl_life := hl_life s |}.
Definition set_call (c : option (caller * pc)) (r : list (caller * bool)) (s : hl) : hl :=
  {| hl_conn := hl_conn s; hl_enabled := hl_enabled s; hl_running := hl_running s; hl_stop := hl_stop s; hl_io := hl_io s; hl_sse := hl_sse s; hl_ready := hl_ready s;
     hl_flight := hl_flight s; hl_deleted := hl_deleted s; hl_authed := hl_authed s; hl_futs := hl_futs s; hl_notes := hl_notes s; hl_call := c;
     hl_rets := r; hl_calls := hl_calls s; hl_life := hl_life s |}.
Definition set_calls (n : nat) (s : hl) : hl :=
  {| hl_conn := hl_conn s; hl_enabled := hl_enabled s; hl_running := hl_running s; hl_stop := hl_stop s; hl_io := hl_io s; hl_sse := hl_sse s; hl_ready := hl_ready s;
     hl_flight := hl_flight s; hl_deleted := hl_deleted s; hl_authed := hl_authed s; hl_futs := hl_futs s; hl_notes := hl_notes s; hl_call := hl_call s;
     hl_rets := hl_rets s; hl_calls := n; hl_life := hl_life s |}.
Definition set_life (l : life) (s : hl) : hl :=
  {| hl_conn := hl_conn s; hl_enabled := hl_enabled s; hl_running := hl_running s; hl_stop := hl_stop s; hl_io := hl_io s; hl_sse := hl_sse s; hl_ready := hl_ready s;
     hl_flight := hl_flight s; hl_deleted := hl_deleted s; hl_authed := hl_authed s; hl_futs := hl_futs s; hl_notes := hl_notes s; hl_call := hl_call s;
     hl_rets := hl_rets s; hl_calls := hl_calls s; hl_life := l |}.

(** net::co_spawn. *)
Definition spawn (j : job) (s : hl) : hl := set_work (hl_ready s ++ [QStart j]) (hl_flight s) s.

(** The k-th future is completed if it was not. *)
Fixpoint complete {A : Type} (k : nat) (o : A) (l : list (option A)) : list (option A) :=
  match l, k with
  | [], _ => []
  | x :: r, O => match x with None => Some o | Some _ => x end :: r
  | x :: r, S k => x :: complete k o r
  end.
Definition complete_all {A : Type} (o : A) (l : list (option A)) : list (option A) :=
  map (fun x => match x with None => Some o | Some _ => x end) l.
Definition answer (k : nat) (o : outcome) (s : hl) : hl := set_futs (complete k o (hl_futs s)) (hl_notes s) s.

(** The rest of the completion handler of a request, 912-917. *)
Definition finish (k : nat) (r : rep) (s : hl) : hl :=
  match r with
  | RAnswer => answer k OAnswer (set_io IIdle s)
  | RNothing => answer k OError (set_io IIdle s)
  | RCall q => set_calls (S (hl_calls s)) (set_io (IUser k q) s)
  end.

(** What follows the exchange of a coroutine: 898-917, 933-943, 484-494, and the futures of 774 and 586. Simplification: an initialize
    request is given a session. *)
Definition settle (c : hlconf) (j : job) (r : rep) (s : hl) : hl :=
  match j with
  | JPost k init => if (init && hk_stream c && hl_enabled s && negb (hl_running s))%bool then set_io (ISpawn k r) s else finish k r s
  | JNote k => set_futs (hl_futs s) (complete k true (hl_notes s)) (set_io IIdle s)
  | JReply => set_io IIdle s
  | JDelete => set_ready true (hl_authed s) (set_io IIdle s)
  | JAuth => set_ready (hl_deleted s) true (set_io IIdle s)
  end.

(** The i/o thread takes the next thing to run. Simplification: the waits of a coroutine for the network are one. *)
Definition take (c : hlconf) (s : hl) : hl :=
  match hl_ready s with
  | [] => s
  | QStart j :: q => set_work q (hl_flight s ++ [j]) s
  | QEnd j r :: q => let s := set_work q (hl_flight s) s in
                     if hk_tls c then match j with JAuth => settle c j r s | _ => set_io (IShut j r) s end else settle c j r s
  end.

Definition job_eqb (a b : job) : bool :=
  match a, b with
  | JPost k i, JPost l j => (Nat.eqb k l && Bool.eqb i j)%bool
  | JNote k, JNote l => Nat.eqb k l
  | JReply, JReply | JDelete, JDelete | JAuth, JAuth => true
  | _, _ => false
  end.
Fixpoint drop_job (j : job) (l : list job) : option (list job) :=
  match l with
  | [] => None
  | x :: r => if job_eqb j x then Some r else match drop_job j r with Some r => Some (x :: r) | None => None end
  end.

(** The end of an inner loop or of a failure: sleepForRetry, 553-558, sleeps unless Close has begun to stop the thread. *)
Definition nap (s : hl) : hl := set_sse (if (hl_enabled s && hl_conn s)%bool then SNap else STop) s.

(** After the events of a read, 626-628 and 716-718. *)
Definition read_on (s : hl) : hl := if (hl_conn s && hl_enabled s)%bool then set_sse SOpen s else nap s.

(** One step of Close or the destructor. A thread that joins itself gets an exception: in Close it is caught, 824-828; from a
    destructor it calls std::terminate. So does the destruction of sseThread while it is a thread. *)
Definition own_thread (d : bool) (w : caller) (s : hl) : hl :=
  if d then set_life Crashed s else set_call None (hl_rets s ++ [(w, false)]) s.
Definition goes (w : caller) (p : pc) (s : hl) : hl := set_call (Some (w, p)) (hl_rets s) s.
Definition call_step (w : caller) (p : pc) (s : hl) : hl :=
  match p with
  | KDelete => if hl_deleted s then goes w (KSse false) (set_ready false (hl_authed s) s) else s
  | KSse d => goes w (KJoin d) (set_flags (hl_conn s) false (hl_running s) (hl_stop s) s)
  | KJoin d => match hl_sse s with
               | SNone | SOver => goes w (KStop d) (set_sse SNone (set_flags (hl_conn s) (hl_enabled s) false (hl_stop s) s))
               | _ => match w with BySse => own_thread d w s | _ => s end
               end
  | KStop false => goes w (KWait false) (set_flags false (hl_enabled s) (hl_running s) true s)
  | KStop true => match hl_io s with
                  | INone => goes w (KLast true) s
                  | _ => goes w (KWait true) (set_flags (hl_conn s) (hl_enabled s) (hl_running s) true s)
                  end
  | KWait d => match hl_io s with
               | INone | IEnded => goes w (KLast d) (set_io INone s)
               | _ => match w with ByIo => own_thread d w s | _ => s end
               end
  | KLast false => set_call None (hl_rets s ++ [(w, true)]) (set_futs (complete_all OClosed (hl_futs s)) (hl_notes s) s)
  | KLast true => match hl_sse s with
                  | SNone => set_life Freed (set_call None (hl_rets s) (set_futs (complete_all OBroken (hl_futs s)) (complete_all false (hl_notes s)) s))
                  | _ => set_life Crashed s
                  end
  end.

(** Whether w can call now, or return from its handler: it is not in a call already. *)
Definition in_call (w : caller) (s : hl) : bool :=
  match hl_call s with Some (ByIo, _) => match w with ByIo => true | _ => false end | Some (BySse, _) => match w with BySse => true | _ => false end | _ => false end.

(** Steps.
    - VStart: Start, 750-767
    - VSend, VNote: SendRequest, SendNotification
    - VClose, VDestroy: Close or the destructor is called; VCall: it goes on
    - VNet: the network has done its part for a coroutine
    - VTake, VShut, VSpawn, VReturn, VStop: the i/o thread
    - VTest, VDialled, VGranted, VRead, VGone, VHeard, VWake, VOff: the event-stream thread
    Simplifications: one call of Close or the destructor at a time; a handler that throws is in HcliModel; the thread ends only when it is told to (a
    stream whose head has an empty session is in LoopModel); responses on the event stream, and the POST of the reply to a request heard there, are in HcliModel; the error handler is left out; SendRequest is one step (HcliModel has the parts). *)
Inductive hlact :=
| VStart | VSend (init : bool) | VNote
| VClose (w : caller) | VDestroy (w : caller) | VCall
| VNet (j : job) (r : rep) | VTake | VShut | VSpawn | VReturn | VStop
| VTest | VDialled (ok : bool) | VGranted | VRead (more : nat) | VGone | VHeard | VWake | VOff.

Definition may_call (w : caller) (s : hl) : bool :=
  match hl_call s with
  | Some _ => false
  | None => match w, hl_io s, hl_sse s with ByApp, _, _ => true | ByIo, IUser _ _, _ => true | BySse, _, SUser _ => true | _, _, _ => false end
  end.

Definition hlstep (c : hlconf) (s : hl) (v : hlact) : hl :=
  match hl_life s with
  | Freed | Crashed => s
  | Alive =>
      match v with
      | VStart => match hl_call s with
                  | Some (ByApp, _) => s
                  | _ => match hl_io s with
                         | INone => set_io IIdle (set_flags true (hl_enabled s) (hl_running s) (hl_stop s) s)
                         | _ => set_life Crashed s
                         end
                  end
      | VSend init => if hl_conn s then spawn (JPost (length (hl_futs s)) init) (set_futs (hl_futs s ++ [None]) (hl_notes s) s)
                      else set_futs (hl_futs s ++ [Some OError]) (hl_notes s) s
      | VNote => if hl_conn s then spawn (JNote (length (hl_notes s))) (set_futs (hl_futs s) (hl_notes s ++ [None]) s)
                 else set_futs (hl_futs s) (hl_notes s ++ [Some true]) s
      | VClose w => if may_call w s then
                      if (hl_conn s && hk_delete c)%bool then spawn JDelete (goes w KDelete s) else goes w (KSse false) s
                    else s
      | VDestroy w => if may_call w s then goes w (KSse true) s else s
      | VCall => match hl_call s with Some (w, p) => call_step w p s | None => s end
      | VNet j r => match drop_job j (hl_flight s) with Some f => set_work (hl_ready s ++ [QEnd j r]) f s | None => s end
      | VTake => match hl_io s with IIdle => if hl_stop s then s else take c s | _ => s end
      | VShut => match hl_io s with IShut j r => settle c j r s | _ => s end
      | VSpawn => match hl_io s with
                  | ISpawn k r => match hl_sse s with
                                  | SNone => finish k r (set_sse STop (set_flags (hl_conn s) (hl_enabled s) true (hl_stop s) s))
                                  | _ => set_life Crashed s
                                  end
                  | _ => s
                  end
      | VReturn => match hl_io s with
                   | IUser k q => if in_call ByIo s then s
                                  else if q then spawn JReply (set_io IIdle s) else answer k OError (set_io IIdle s)
                   | _ => s
                   end
      | VStop => match hl_io s with IIdle => if hl_stop s then set_io IEnded s else s | _ => s end
      | VTest => match hl_sse s with STop => if (hl_conn s && hl_enabled s)%bool then set_sse SDial s else set_sse SOver (set_flags (hl_conn s) (hl_enabled s) false (hl_stop s) s) | _ => s end
      | VDialled ok => match hl_sse s with SDial => if ok then spawn JAuth (set_sse SAuth s) else nap s | _ => s end
      | VGranted => match hl_sse s with SAuth => if hl_authed s then set_sse SOpen (set_ready (hl_deleted s) false s) else s | _ => s end
      | VRead more => match hl_sse s with
                      | SOpen => if (hl_conn s && hl_enabled s)%bool then set_calls (S (hl_calls s)) (set_sse (SUser more) s) else nap s
                      | _ => s
                      end
      | VGone => match hl_sse s with SOpen => nap s | _ => s end
      | VHeard => match hl_sse s with
                  | SUser more => if in_call BySse s then s
                                  else match more with O => read_on s | S m => set_calls (S (hl_calls s)) (set_sse (SUser m) s) end
                  | _ => s
                  end
      | VWake => match hl_sse s with SNap => set_sse STop s | _ => s end
      | VOff => match hl_sse s with SOpen => set_sse SOver (set_flags (hl_conn s) false false (hl_stop s) s) | _ => s end
      end
  end.

Definition hlrun (c : hlconf) (s : hl) (h : list hlact) : hl := fold_left (hlstep c) h s.
