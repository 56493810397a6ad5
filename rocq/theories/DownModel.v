(** Stopping and destroying a Server or a Client: the parts of the object in the order they are declared, the
    threads that are inside it, and the order in which Stop, Disconnect and the destructor wait for them and take
    the parts away. *)
From Coq Require Import List Arith Bool.
Import ListNotations.
Local Open Scope nat_scope.

(** The data members of Server::Impl, src/mcp/Server.cpp:152-225 and 1097-1109, and of Client::Impl,
    src/mcp/Client.cpp:183-214. Simplifications: PKeepalive stands for the nine members of lines 194-202, PLogRate
    for the four of 208-211, PCaches for the five of Client.cpp:199-204. *)
Inductive part :=
| PTransport | PCapabilities | PPeerCapabilities | PInfo | PInitialized | PErrorCallback | PTaskStatusHandler
| PSubscribed | PSubscribedUris | PSamplingHandler | PCompletionHandler | PKeepalive | PClientLogMin | PLogRate
| PValidationMode | PCancelMutex | PCancelMap | PStopSources | PReceivedTasks | PTaskWorkers | POutboundMutex
| POutboundKinds | PToolHandlers | PToolMetadata | PResourceHandlers | PPromptHandlers | PResourceMetadata
| PPromptMetadata | PResourceUris | PResourceTemplates | PRegistryMutex
| PConnected | PNotificationHandlers | PProgressHandler | PRootsHandler | PSamplingCancelable | PElicitationHandler
| PCaches.
Scheme Equality for part.

(** Server.cpp:152-156, 186-191, 194-202, 205, 208-211, 214, 216-217, 220, 222-225, 1097-1109, in this order. *)
Definition SERVER_PARTS : list part :=
  [PTransport; PCapabilities; PPeerCapabilities; PInfo; PInitialized; PErrorCallback; PTaskStatusHandler; PSubscribed;
   PSubscribedUris; PSamplingHandler; PCompletionHandler; PKeepalive; PClientLogMin; PLogRate; PValidationMode; PCancelMutex;
   PCancelMap; PStopSources; PReceivedTasks; PTaskWorkers; POutboundMutex; POutboundKinds; PToolHandlers; PToolMetadata;
   PResourceHandlers; PPromptHandlers; PResourceMetadata; PPromptMetadata; PResourceUris; PResourceTemplates; PRegistryMutex].

(** Client.cpp:183-214, in this order. *)
Definition CLIENT_PARTS : list part :=
  [PTransport; PCapabilities; PPeerCapabilities; PInfo; PConnected; PNotificationHandlers; PProgressHandler;
   PTaskStatusHandler; PErrorCallback; PRootsHandler; PSamplingHandler; PSamplingCancelable; PElicitationHandler;
   PValidationMode; PCaches; PCancelMutex; PCancelMap; PStopSources; PReceivedTasks; PTaskWorkers; POutboundMutex;
   POutboundKinds].

(** The background tasks and what each touches, in order; threw: the handler threw. The tool handler is a copy.
    Completing a task runs the status callback, TaskSupport.h:503-506, which sends on the transport,
    Server.cpp:1460-1473, Client.cpp:552-565. *)
Inductive wkind := ToolWork | ElicitWork | SampleWork.
Definition wtouches (w : wkind) (threw : bool) : list part :=
  match w with
  | ToolWork => (** Server.cpp:882-908 *)
      (if threw then [] else [PValidationMode]) ++ [PReceivedTasks; PTransport]
  | ElicitWork => (** Client.cpp:890-918 *)
      PElicitationHandler :: (if threw then [] else [PValidationMode]) ++ [PReceivedTasks; PTransport]
  | SampleWork => (** Client.cpp:982-1006 *)
      [PSamplingHandler; PSamplingCancelable] ++ (if threw then [] else [PValidationMode]) ++ [PReceivedTasks; PTransport]
  end.

(** What the code of a handler does next: touch a part; start a background task, std::async; put its future into the
    group, BackgroundTaskGroup::Add, TaskSupport.h:296-300. *)
Inductive act := Touch (p : part) | Launch (w : wkind) (threw : bool) | Put.

(** What the transport may call, and what each call touches. The first and the last three of a request are
    registerCancelToken and unregisterCancelToken, Server.cpp:1022-1042, through dispatchRequest, 1549-1553. *)
Inductive hkind :=
| HPing          (** Server.cpp:1557-1561 *)
| HToolsList     (** 668-718 *)
| HToolTask      (** tools/call with a task: 800-858, 878-919 *)
| HCancelled     (** notifications/cancelled: 1142-1153, 1044-1067 *)
| HInitialized   (** 1138-1141 *)
| HError         (** the error handler: 1520-1532 *)
| HElicitTask    (** Client.cpp:840-930 *)
| HSampleTask    (** Client.cpp:940-1017 *)
| HNote.         (** Client.cpp:595-628 *)
Definition begins : list act := [Touch PCancelMutex; Touch PCancelMap].
Definition ends : list act := [Touch PCancelMutex; Touch PCancelMap; Touch PStopSources].
Definition htouches (k : hkind) (threw : bool) : list act :=
  match k with
  | HPing => begins ++ ends
  | HToolsList => begins ++ [Touch PRegistryMutex; Touch PToolMetadata; Touch PValidationMode] ++ ends
  | HToolTask => begins ++ [Touch PRegistryMutex; Touch PToolHandlers; Touch PToolMetadata; Touch PReceivedTasks; Touch PTransport;
                            Launch ToolWork threw; Touch PTaskWorkers; Put; Touch PValidationMode] ++ ends
  | HCancelled => [Touch PCancelMutex; Touch PCancelMap; Touch PStopSources]
  | HInitialized => [Touch PInitialized]
  | HError => [Touch PKeepalive; Touch PErrorCallback]
  | HElicitTask => [Touch PElicitationHandler; Touch PCapabilities; Touch PReceivedTasks; Touch PTransport;
                    Launch ElicitWork threw; Touch PTaskWorkers; Put; Touch PValidationMode]
  | HSampleTask => [Touch PSamplingHandler; Touch PCapabilities; Touch PReceivedTasks; Touch PTransport;
                    Launch SampleWork threw; Touch PTaskWorkers; Put; Touch PValidationMode]
  | HNote => [Touch PProgressHandler; Touch PTaskStatusHandler; Touch PCaches; Touch PNotificationHandlers]
  end.

(** One round of the keepalive thread, Server.cpp:3082-3134. *)
Definition ktouches : list part := [PKeepalive; PTransport; PKeepalive; PTransport; PErrorCallback; PKeepalive].

(** What differs between the objects and the transports. ob_close: the transport's Close returns only when no handler
    runs; ob_drop: so does its destructor. *)
Record object := { ob_parts : list part; ob_keeps : bool; ob_close : bool; ob_drop : bool }.
Definition a_server (close drop : bool) : object := {| ob_parts := SERVER_PARTS; ob_keeps := true; ob_close := close; ob_drop := drop |}.
Definition a_client (close drop : bool) : object := {| ob_parts := CLIENT_PARTS; ob_keeps := false; ob_close := close; ob_drop := drop |}.

(** Where the thread that uses the object is. *)
Inductive opc :=
| Free                       (** in the application *)
| StopKeep                   (** coStop: joining the keepalive thread, Server.cpp:1924-1931 *)
| StopClose                  (** transport->Close(), 1934; coDisconnect, Client.cpp:1100 *)
| StopAwait                  (** waiting for its future, 1935; Client.cpp:1102 *)
| StopSwap                   (** WaitAll takes the futures, TaskSupport.h:302-307 *)
| StopWait (ws : list nat)   (** and waits for each, 308-316 *)
| FallKeep                   (** ~Server: joining the keepalive thread, Server.cpp:2742-2749 *)
| FallNext                   (** ~Impl: the last part there is goes *)
| FallWait (p : part)        (** in the destructor of that part *)
| FallEnd.                   (** the object is gone *)

Inductive who := ByHandler | ByWorker | ByKeeper.

(** dn_left: the parts that exist are the first dn_left ones. dn_open: the transport hands over what arrives. dn_calls:
    the handlers that run. dn_work: the background tasks that run. dn_next: their next number. dn_group: the futures in
    taskWorkers. dn_keep: the keepalive thread. dn_kstop: keepaliveStop. dn_self: the background task in whose thread
    the object is being stopped. dn_fate: a part was used that no longer existed; nothing is said after that. *)
Record down := {
  dn_left : nat; dn_pc : opc; dn_open : bool; dn_calls : list (list act * option nat); dn_work : list (nat * list part);
  dn_next : nat; dn_group : list nat; dn_keep : option (list part); dn_kstop : bool; dn_self : option nat;
  dn_stops : nat; dn_fate : option (who * part)
}.
Definition down0 (o : object) : down :=
  {| dn_left := length (ob_parts o); dn_pc := Free; dn_open := false; dn_calls := []; dn_work := []; dn_next := 0; dn_group := [];
     dn_keep := None; dn_kstop := false; dn_self := None; dn_stops := 0; dn_fate := None |}.

Definition set_pc (c : opc) (s : down) : down :=
  {| dn_left := dn_left s; dn_pc := c; dn_open := dn_open s; dn_calls := dn_calls s; dn_work := dn_work s; dn_next := dn_next s;
     dn_group := dn_group s; dn_keep := dn_keep s; dn_kstop := dn_kstop s; dn_self := dn_self s; dn_stops := dn_stops s; dn_fate := dn_fate s |}.
Definition set_open (b : bool) (s : down) : down :=
  {| dn_left := dn_left s; dn_pc := dn_pc s; dn_open := b; dn_calls := dn_calls s; dn_work := dn_work s; dn_next := dn_next s;
     dn_group := dn_group s; dn_keep := dn_keep s; dn_kstop := dn_kstop s; dn_self := dn_self s; dn_stops := dn_stops s; dn_fate := dn_fate s |}.
Definition set_calls (l : list (list act * option nat)) (s : down) : down :=
  {| dn_left := dn_left s; dn_pc := dn_pc s; dn_open := dn_open s; dn_calls := l; dn_work := dn_work s; dn_next := dn_next s;
     dn_group := dn_group s; dn_keep := dn_keep s; dn_kstop := dn_kstop s; dn_self := dn_self s; dn_stops := dn_stops s; dn_fate := dn_fate s |}.
Definition set_work (l : list (nat * list part)) (s : down) : down :=
  {| dn_left := dn_left s; dn_pc := dn_pc s; dn_open := dn_open s; dn_calls := dn_calls s; dn_work := l; dn_next := dn_next s;
     dn_group := dn_group s; dn_keep := dn_keep s; dn_kstop := dn_kstop s; dn_self := dn_self s; dn_stops := dn_stops s; dn_fate := dn_fate s |}.
Definition set_next (n : nat) (s : down) : down :=
  {| dn_left := dn_left s; dn_pc := dn_pc s; dn_open := dn_open s; dn_calls := dn_calls s; dn_work := dn_work s; dn_next := n;
     dn_group := dn_group s; dn_keep := dn_keep s; dn_kstop := dn_kstop s; dn_self := dn_self s; dn_stops := dn_stops s; dn_fate := dn_fate s |}.
Definition set_group (l : list nat) (s : down) : down :=
  {| dn_left := dn_left s; dn_pc := dn_pc s; dn_open := dn_open s; dn_calls := dn_calls s; dn_work := dn_work s; dn_next := dn_next s;
     dn_group := l; dn_keep := dn_keep s; dn_kstop := dn_kstop s; dn_self := dn_self s; dn_stops := dn_stops s; dn_fate := dn_fate s |}.
Definition set_keep (k : option (list part)) (b : bool) (s : down) : down :=
  {| dn_left := dn_left s; dn_pc := dn_pc s; dn_open := dn_open s; dn_calls := dn_calls s; dn_work := dn_work s; dn_next := dn_next s;
     dn_group := dn_group s; dn_keep := k; dn_kstop := b; dn_self := dn_self s; dn_stops := dn_stops s; dn_fate := dn_fate s |}.
Definition set_left (n : nat) (s : down) : down :=
  {| dn_left := n; dn_pc := dn_pc s; dn_open := dn_open s; dn_calls := dn_calls s; dn_work := dn_work s; dn_next := dn_next s;
     dn_group := dn_group s; dn_keep := dn_keep s; dn_kstop := dn_kstop s; dn_self := dn_self s; dn_stops := dn_stops s; dn_fate := dn_fate s |}.
Definition set_self (x : option nat) (n : nat) (s : down) : down :=
  {| dn_left := dn_left s; dn_pc := dn_pc s; dn_open := dn_open s; dn_calls := dn_calls s; dn_work := dn_work s; dn_next := dn_next s;
     dn_group := dn_group s; dn_keep := dn_keep s; dn_kstop := dn_kstop s; dn_self := x; dn_stops := n; dn_fate := dn_fate s |}.
Definition set_fate (w : who) (p : part) (s : down) : down :=
  {| dn_left := dn_left s; dn_pc := dn_pc s; dn_open := dn_open s; dn_calls := dn_calls s; dn_work := dn_work s; dn_next := dn_next s;
     dn_group := dn_group s; dn_keep := dn_keep s; dn_kstop := dn_kstop s; dn_self := dn_self s; dn_stops := dn_stops s; dn_fate := Some (w, p) |}.

(** Whether a part exists: its place among the parts is before dn_left. Parts of another kind of object do not. *)
Definition there (o : object) (s : down) (p : part) : bool := existsb (part_beq p) (firstn (dn_left s) (ob_parts o)).

Definition running (s : down) (n : nat) : bool := existsb (fun w => Nat.eqb (fst w) n) (dn_work s).

(** Replaces or removes an element. *)
Fixpoint put_nth {A : Type} (l : list A) (i : nat) (x : option A) : list A :=
  match l, i with
  | [], _ => []
  | _ :: r, 0 => match x with Some y => y :: r | None => r end
  | y :: r, S j => y :: put_nth r j x
  end.

(** A part is used. *)
Definition use (o : object) (w : who) (p : part) (s : down) : down := if there o s p then s else set_fate w p s.

Inductive dev :=
| EStart                          (** Start or Connect: the transport is there and open *)
| EKeepOn                         (** SetKeepaliveIntervalMs, Server.cpp:3078-3081 *)
| ECall (k : hkind) (threw : bool)   (** the transport calls a handler *)
| EHand (i : nat)                 (** handler i goes on *)
| EWork (i : nat)                 (** background task i goes on *)
| EKeep                           (** the keepalive thread goes on *)
| EStop (self : option nat)       (** Stop or Disconnect is called and waited for; by whom *)
| EFall                           (** the object is destroyed *)
| EOwn.                           (** the thread that stops or destroys the object goes on *)

(** Handler i goes on. What it holds is the number of the task it launched. *)
Definition hand (o : object) (i : nat) (s : down) : down :=
  match nth_error (dn_calls s) i with
  | None => s
  | Some ([], _) => set_calls (put_nth (dn_calls s) i None) s
  | Some (Touch p :: r, h) => use o ByHandler p (set_calls (put_nth (dn_calls s) i (Some (r, h))) s)
  | Some (Launch w t :: r, _) =>
      set_next (S (dn_next s)) (set_work (dn_work s ++ [(dn_next s, wtouches w t)])
        (set_calls (put_nth (dn_calls s) i (Some (r, Some (dn_next s)))) s))
  | Some (Put :: r, h) =>
      (** DrainReadyLocked, TaskSupport.h:320-337: the futures that are ready are let go. *)
      set_group (filter (running s) (dn_group s) ++ match h with Some n => [n] | None => [] end)
        (set_calls (put_nth (dn_calls s) i (Some (r, None))) s)
  end.

(** Background task n goes on, unless it is the one that waits for Stop. *)
Definition find_work (n : nat) (s : down) : option (list part) :=
  match find (fun w => Nat.eqb (fst w) n) (dn_work s) with Some (_, l) => Some l | None => None end.
Definition set_worker (n : nat) (l : option (list part)) (s : down) : down :=
  set_work (flat_map (fun w => if Nat.eqb (fst w) n then match l with Some x => [(n, x)] | None => [] end else [w]) (dn_work s)) s.
Definition is_self (s : down) (n : nat) : bool := match dn_self s with Some m => Nat.eqb m n | None => false end.
Definition work (o : object) (n : nat) (s : down) : down :=
  if is_self s n then s else
  match find_work n s with
  | None => s
  | Some [] => set_worker n None s
  | Some (p :: r) => use o ByWorker p (set_worker n (Some r) s)
  end.

(** The keepalive thread: at the end of a round it looks at keepaliveStop. *)
Definition keep (o : object) (s : down) : down :=
  match dn_keep s with
  | None => s
  | Some [] => if dn_kstop s then set_keep None true s else set_keep (Some ktouches) false s
  | Some (p :: r) => use o ByKeeper p (set_keep (Some r) (dn_kstop s) s)
  end.

Definition none_of (s : down) (ws : list nat) : bool := forallb (fun n => negb (running s n)) ws.
Definition no_calls (s : down) : bool := match dn_calls s with [] => true | _ => false end.

(** The thread that stops or destroys the object. *)
Definition own (o : object) (s : down) : down :=
  match dn_pc s with
  | Free | FallEnd => s
  | StopKeep => match dn_keep s with None => set_pc StopClose s | Some _ => s end
  | StopClose => set_pc StopAwait (set_open false s)
  | StopAwait => if (negb (ob_close o) || no_calls s)%bool then set_pc StopSwap s else s
  | StopSwap => set_pc (StopWait (dn_group s)) (set_group [] s)
  | StopWait ws => if none_of s ws then set_self None (S (dn_stops s)) (set_pc Free s) else s
  | FallKeep => match dn_keep s with None => set_pc FallNext s | Some _ => s end
  | FallNext =>
      match dn_left s with
      | 0 => set_pc FallEnd s
      | S n => match nth_error (ob_parts o) n with
               | Some p => let t := set_left n (set_pc (FallWait p) s) in
                           if part_beq p PTransport then set_open false t else t
               | None => s
               end
      end
  | FallWait p =>
      (** The destructor of the futures waits, as they are of std::async; that of the transport, if it is one that does. *)
      if part_beq p PTaskWorkers then (if none_of s (dn_group s) then set_pc FallNext (set_group [] s) else s)
      else if part_beq p PTransport then (if (negb (ob_drop o) || no_calls s)%bool then set_pc FallNext s else s)
      else set_pc FallNext s
  end.

(** Which handlers a kind of object has. *)
Definition has (o : object) (k : hkind) : bool :=
  match k with
  | HElicitTask | HSampleTask | HNote => negb (ob_keeps o)
  | _ => ob_keeps o
  end.

Definition dstep (o : object) (s : down) (e : dev) : down :=
  match dn_fate s with
  | Some _ => s
  | None =>
      match e with
      | EStart => match dn_pc s with Free => set_open true s | _ => s end
      | EKeepOn => match dn_pc s, dn_keep s with Free, None => if ob_keeps o then set_keep (Some ktouches) false s else s | _, _ => s end
      | ECall k t => if (dn_open s && has o k)%bool then set_calls (dn_calls s ++ [(htouches k t, None)]) s else s
      | EHand i => hand o i s
      | EWork n => work o n s
      | EKeep => keep o s
      | EStop self =>
          match dn_pc s with
          | Free => let t := set_self self (dn_stops s) (set_pc StopKeep s) in
                    match self with
                    | None => set_keep (dn_keep t) true t
                    | Some n => if running s n then set_keep (dn_keep t) true t else s
                    end
          | _ => s
          end
      | EFall => match dn_pc s with Free => set_keep (dn_keep s) true (set_pc FallKeep s) | _ => s end
      | EOwn => own o s
      end
  end.

Fixpoint drun (o : object) (s : down) (h : list dev) : down :=
  match h with [] => s | e :: r => drun o (dstep o s e) r end.
