(* The locks of a client on the stdio transport: which lock each method takes, what it touches
   while it holds it, and where it runs the user's code.

   A method is modelled by its paths.  A path is the list of what the method does to locks, to the
   members several threads share, and to the user's callbacks, in the order of the code.  What is
   computed in between is left out, and so are members of type std::atomic.  Waiting for a
   condition, for an answer of the peer or for another thread to end is not waiting for a lock and
   is left out (a wait on a condition gives the lock back: it is two passes).  A message that is
   logged with no lock held is a pass of its own, WriteLog. *)
From Coq Require Import List Arith Bool Lia.
Import ListNotations.
Local Open Scope nat_scope.

(* The mutexes.
   cacheMutex, cancelMutex, outboundTasksMutex (src/mcp/Client.cpp:200, 208, 213);
   BackgroundTaskGroup::mutex_ and TaskStore::mutex_ (src/mcp/TaskSupport.h:297, 351); writeMutex,
   requestMutex, exitMutex (src/mcp/StdioTransport.cpp:204, 931, 1097); sLogMutex
   (include/logging/Logger.h:234). *)
Inductive lock : Type :=
| LCache | LCancel | LWorkers | LTasks | LOutbound | LWrite | LRequest | LExit | LLog.

(* The shared members that are not atomic, src/mcp/Client.cpp:181-215.
   VCache (the four caches of listings), VTtl (listingsCacheTtlMs), VCancels (cancelMap,
   stopSources), VOutbound (outboundTaskKinds); VTasks (the records of TaskStore), VFutures
   (futures_); VQueue (writeQueue, queuedBytes), VPending (pendingRequests, requestDeadlines),
   VThreads (the thread handles of the transport), VLogFile (the log's stream); VTransport, VCaps
   (capabilities), VServerCaps (serverCapabilities), VMode (validationMode); and the user's
   functions: VNotes (notificationHandlers), VProgress, VStatus, VError, VRoots, VSampling (the two
   sampling handlers, taken as one), VElicit. *)
Inductive var : Type :=
| VCache | VTtl | VCancels | VOutbound | VTasks | VFutures | VQueue | VPending | VThreads
| VLogFile | VTransport | VCaps | VServerCaps | VMode
| VNotes | VProgress | VStatus | VError | VRoots | VSampling | VElicit.

(* The user's code the client runs: the handlers of notifications, progress, a task's status,
   errors, roots, sampling and elicitation; CStop is a std::stop_callback on the token of a
   sampling handler, CTaskStop one on the token of a task's handler. *)
Inductive callback : Type :=
| CNote | CProgress | CStatus | CError | CRoots | CSample | CElicit | CStop | CTaskStop.

(* One thing a thread does.  Back c: the callback c that it ran returns. *)
Inductive act : Type :=
| Take (l : lock)
| Give (l : lock)
| Rd (x : var)
| Wr (x : var)
| Call (c : callback)
| Back (c : callback).

(* Paths are put together from parts that may each go several ways. *)
Definition paths : Type := list (list act).
Definition only (a : list act) : paths := [a].
Definition nothing : paths := [[]].
Definition andthen (p q : paths) : paths := flat_map (fun a => map (app a) q) p.
Definition either (p q : paths) : paths := p ++ q.
Definition maybe (p : paths) : paths := either nothing p.
Infix ";;" := andthen (at level 61, right associativity).
(* std::lock_guard in a scope of its own. *)
Definition within (l : lock) (a : list act) : paths := only (Take l :: a ++ [Give l]).

(* include/logging/Logger.h:233-260, Logger::log *)
Definition logged : list act := [Take LLog; Wr VLogFile; Give LLog].

(* src/mcp/StdioTransport.cpp:202-247, enqueueFrame: the frame is queued, or the queue is full
   and the error handler is run with writeMutex held.  The handler is the one Client.cpp:1081-1085
   installs: it runs errorHandler, if there is one. *)
Definition enqueue : paths :=
  either (within LWrite [Rd VQueue; Wr VQueue])
    (only ([Take LWrite; Rd VQueue] ++ logged) ;;
     either (only [Rd VError]) (only [Rd VError; Call CError]) ;; only [Give LWrite]).

(* src/mcp/StdioTransport.cpp:1196-1207, SendNotification, as reached through this->transport:
   nothing when it is not connected. *)
Definition send : paths := only [Rd VTransport] ;; maybe enqueue.
(* src/mcp/StdioTransport.cpp:1151-1194, SendRequest. *)
Definition ask : paths :=
  only [Rd VTransport] ;; maybe (within LRequest [Wr VPending] ;; enqueue).
(* src/mcp/Client.cpp:566-572, 574-581 *)
Definition remember : paths := within LOutbound [Wr VOutbound].
Definition recall : paths := within LOutbound [Rd VOutbound].
Definition strict : paths := only [Rd VMode].

(* src/mcp/TaskSupport.h:357-377, CreateTask, and 504-513, EmitStatus, whose callback is
   sendTaskStatusNotification (Client.cpp:552-564). *)
Definition create_task : paths := within LTasks [Wr VTasks] ;; within LTasks [Rd VTasks] ;; send.
(* src/mcp/TaskSupport.h:458-502, SetTerminal without a request to stop *)
Definition complete_task : paths :=
  either (within LTasks [Rd VTasks]) (within LTasks [Wr VTasks] ;; send).
(* src/mcp/TaskSupport.h:458-502, SetTerminal with requestStop *)
Definition cancel_task : paths :=
  either (within LTasks [Rd VTasks])
    (within LTasks [Wr VTasks] ;; maybe (only [Call CTaskStop]) ;; send).
(* src/mcp/TaskSupport.h:296-300, Add *)
Definition add_worker : paths := within LWorkers [Wr VFutures].
(* src/mcp/Client.cpp:620-623: the handler of any other notification, run in place *)
Definition noted : paths := only [Rd VNotes] ;; maybe (only [Call CNote]).

(* src/mcp/Client.cpp:1452-1519 coListTools; coListResources, coListResourceTemplates and
   coListPrompts (1589-1655, 1725-1791, 1864-1933) do the same with their own cache.  A hit is
   logged with cacheMutex held. *)
Definition listing : paths :=
  only [Rd VTtl] ;;
  either (only ([Take LCache; Rd VCache; Rd VTtl] ++ logged ++ [Give LCache]))
    (maybe (within LCache [Rd VCache; Rd VTtl]) ;; ask ;;
     maybe (maybe strict ;; only [Rd VTtl] ;; maybe (within LCache [Wr VCache]))).

(* src/mcp/StdioTransport.cpp:1090-1144: the threads are joined or detached *)
Definition close : paths :=
  only [Wr VThreads] ;; maybe (within LExit []) ;; maybe (within LExit []) ;;
  within LRequest [Wr VPending].

(* What a thread may be asked to do: the requests and notifications of the server, the methods of
   Client, and the passes of the threads the client and the transport run themselves. *)
Inductive meth : Type :=
(* requests *)
| QPing | QRoots | QTaskGet | QTaskList | QTaskResult | QTaskCancel | QElicit | QElicitTask
| QSample | QSampleTask | QUnknown
(* notifications *)
| NProgress | NCancelled | NTaskStatus | NListChanged | NOther
(* methods of Client *)
| Connect | Disconnect | IsConnected | Initialize
| ListTools | ListResources | ListTemplates | ListPrompts
| ListToolsPaged | ListResourcesPaged | ListTemplatesPaged | ListPromptsPaged
| CallTool | ReadResource | GetPrompt | Subscribe | Unsubscribe | Complete | Ping
| CallToolTask | GetTask | ListTasks | GetTaskResult | CancelTask | NotifyRootsChanged
| SetNotificationHandler | RemoveNotificationHandler | SetProgressHandler | SetTaskStatusHandler
| SetRootsHandler | SetSamplingHandler | SetElicitationHandler | SetErrorHandler
| SetCacheTtl | SetValidationMode | GetValidationMode
(* the client's and the transport's own threads *)
| SampleWorker | ElicitWorker | ReaderAnswer | ReaderResponse | ReaderError | WriterPass
| TimeoutPass | WriteLog.

Definition code (m : meth) : paths :=
  match m with
  (* src/mcp/Client.cpp:666-670 *)
  | QPing => nothing
  (* src/mcp/Client.cpp:671-705 *)
  | QRoots => only [Rd VRoots] ;; maybe (only [Rd VRoots; Call CRoots] ;; maybe strict)
  (* src/mcp/Client.cpp:706-730 *)
  | QTaskGet => only [Rd VCaps] ;; maybe (within LTasks [Rd VTasks] ;; maybe strict)
  (* src/mcp/Client.cpp:731-772 *)
  | QTaskList => only [Rd VCaps] ;; maybe (within LTasks [Rd VTasks] ;; strict)
  (* src/mcp/Client.cpp:773-806; TaskSupport.h:397-404, 442-455: each time the wait wakes up is one
     more pass *)
  | QTaskResult =>
      only [Rd VCaps] ;;
      maybe (within LTasks [Rd VTasks] ;; within LTasks [Rd VTasks] ;;
             maybe (within LTasks [Rd VTasks] ;; maybe strict))
  (* src/mcp/Client.cpp:807-832 *)
  | QTaskCancel => only [Rd VCaps] ;; maybe (cancel_task ;; maybe strict)
  (* src/mcp/Client.cpp:833-881, 930-950 *)
  | QElicit =>
      only [Rd VElicit] ;;
      maybe (strict ;; maybe (only [Rd VElicit; Call CElicit] ;; maybe strict))
  (* src/mcp/Client.cpp:833-928; the handler runs in ElicitWorker *)
  | QElicitTask =>
      only [Rd VElicit] ;;
      maybe (strict ;; maybe (only [Rd VCaps] ;; maybe (create_task ;; add_worker ;; strict)))
  (* src/mcp/Client.cpp:1018-1063, 243-257, 259-263, 286-296: with an empty id the token is not
     registered, but the source to stop is *)
  | QSample =>
      let body :=
        within LCancel [Wr VCancels] ;; only [Rd VSampling] ;;
        maybe (strict ;; maybe (only [Rd VSampling; Call CSample] ;; maybe strict)) in
      either body (within LCancel [Wr VCancels] ;; body ;; within LCancel [Wr VCancels])
  (* src/mcp/Client.cpp:951-1016; the handler runs in SampleWorker *)
  | QSampleTask =>
      only [Rd VCaps] ;;
      maybe (only [Rd VSampling] ;;
             maybe (strict ;; maybe (create_task ;; within LTasks [Rd VTasks] ;; add_worker ;; strict)))
  (* src/mcp/Client.cpp:1065-1068 *)
  | QUnknown => nothing
  (* src/mcp/Client.cpp:598-602, 510-536; without a handler it is taken as any other *)
  | NProgress =>
      only [Rd VProgress] ;;
      either noted (strict ;; maybe (only [Rd VProgress; Call CProgress]))
  (* src/mcp/Client.cpp:603-610, 264-285: stop is requested with the lock held *)
  | NCancelled =>
      maybe (either (within LCancel [Wr VCancels]) (within LCancel [Wr VCancels; Call CStop]))
  (* src/mcp/Client.cpp:611-617; without a handler it is taken as any other *)
  | NTaskStatus =>
      only [Rd VStatus] ;; either noted (strict ;; maybe (only [Rd VStatus; Call CStatus]))
  (* src/mcp/Client.cpp:538-550, 618-624 *)
  | NListChanged => within LCache [Wr VCache] ;; noted
  | NOther => noted
  (* src/mcp/Client.cpp:1075-1097 *)
  | Connect => only [Wr VTransport; Wr VThreads]
  (* src/mcp/Client.cpp:1098-1112; TaskSupport.h:302-317 *)
  | Disconnect => only [Rd VTransport] ;; maybe close ;; within LWorkers [Wr VFutures]
  (* src/mcp/Client.cpp:2105-2109 *)
  | IsConnected => only [Rd VTransport]
  (* src/mcp/Client.cpp:1113-1147, 388-456 *)
  | Initialize => only [Wr VCaps] ;; ask ;; maybe (only [Wr VServerCaps; Rd VServerCaps])
  | ListTools | ListResources | ListTemplates | ListPrompts => listing
  (* src/mcp/Client.cpp:1521-1587 and the three others like it *)
  | ListToolsPaged | ListResourcesPaged | ListTemplatesPaged | ListPromptsPaged =>
      ask ;; maybe strict
  (* src/mcp/Client.cpp:1374-1398, 2003-2078, 1400-1432 *)
  | CallTool | ReadResource | GetPrompt | Subscribe | Unsubscribe => ask
  (* src/mcp/Client.cpp:1149-1208, 1210-1229 *)
  | Complete | Ping => ask ;; maybe strict
  (* src/mcp/Client.cpp:1231-1257 *)
  | CallToolTask => ask ;; maybe (strict ;; maybe remember)
  (* src/mcp/Client.cpp:1259-1318, 1351-1372 *)
  | GetTask | ListTasks | CancelTask => ask ;; maybe strict
  (* src/mcp/Client.cpp:1320-1349 *)
  | GetTaskResult => ask ;; maybe (recall ;; strict)
  (* src/mcp/Client.cpp:1434-1450 *)
  | NotifyRootsChanged => only [Rd VTransport] ;; maybe send
  (* src/mcp/Client.cpp:2247-2295 *)
  | SetNotificationHandler | RemoveNotificationHandler => only [Wr VNotes]
  | SetProgressHandler => only [Wr VProgress]
  | SetTaskStatusHandler => only [Wr VStatus]
  | SetRootsHandler => only [Wr VRoots]
  | SetSamplingHandler => only [Wr VSampling]
  | SetElicitationHandler => only [Wr VElicit]
  | SetErrorHandler => only [Wr VError]
  (* src/mcp/Client.cpp:2297-2310 *)
  | SetCacheTtl => only [Wr VTtl] ;; maybe (within LCache [Wr VCache])
  (* src/mcp/Client.cpp:2313-2321 *)
  | SetValidationMode => only [Wr VMode]
  | GetValidationMode => strict
  (* src/mcp/Client.cpp:982-1005 *)
  | SampleWorker => only [Rd VSampling; Call CSample] ;; maybe strict ;; complete_task
  (* src/mcp/Client.cpp:890-915 *)
  | ElicitWorker => only [Rd VElicit; Call CElicit] ;; maybe strict ;; complete_task
  (* src/mcp/StdioTransport.cpp:976-995: the answer to a request is queued *)
  | ReaderAnswer => enqueue
  (* src/mcp/StdioTransport.cpp:997-1015 *)
  | ReaderResponse => within LRequest [Wr VPending]
  (* src/mcp/StdioTransport.cpp:270-664, 725-915: the reader and the writer report an error with no
     lock held; the handler is Client.cpp:1081-1085 *)
  | ReaderError => only [Rd VError] ;; maybe (only [Rd VError; Call CError])
  (* src/mcp/StdioTransport.cpp:700-723 *)
  | WriterPass => within LWrite [Rd VQueue; Wr VQueue]
  (* src/mcp/StdioTransport.cpp:927-974 *)
  | TimeoutPass => within LRequest [Rd VPending; Wr VPending]
  (* include/logging/Logger.h:233: a message logged at any other place *)
  | WriteLog => only logged
  end.

(* A thread: what it still has to do.  The owner of each lock. *)
Record lsys : Type := LSys { threads : list (list act); owner : lock -> option nat }.

Definition lock_eq_dec : forall a b : lock, {a = b} + {a <> b}.
Proof. decide equality. Defined.

Definition set_owner (o : lock -> option nat) (l : lock) (v : option nat) : lock -> option nat :=
  fun k => if lock_eq_dec k l then v else o k.

Fixpoint put_nth (n : nat) (v : list act) (t : list (list act)) : list (list act) :=
  match t, n with
  | [], _ => []
  | _ :: r, O => v :: r
  | a :: r, S k => a :: put_nth k v r
  end.

(* What the user's code may do: the lists of methods a callback may run, one after the other. *)
Definition world : Type := callback -> list meth -> Prop.

(* Running these methods one after the other does these things. *)
Inductive expands : list meth -> list act -> Prop :=
| ExNil : expands [] []
| ExCons : forall m ms p a, In p (code m) -> expands ms a -> expands (m :: ms) (p ++ a).

(* One step of thread i.  A lock is taken only when it is free (std::mutex::lock waits
   otherwise, also for a lock of the thread itself).  A callback does what it does and returns. *)
Inductive lstep (W : world) (s : lsys) (i : nat) : lsys -> Prop :=
| StTake : forall l r, nth_error (threads s) i = Some (Take l :: r) -> owner s l = None ->
    lstep W s i (LSys (put_nth i r (threads s)) (set_owner (owner s) l (Some i)))
| StGive : forall l r, nth_error (threads s) i = Some (Give l :: r) -> owner s l = Some i ->
    lstep W s i (LSys (put_nth i r (threads s)) (set_owner (owner s) l None))
| StRd : forall x r, nth_error (threads s) i = Some (Rd x :: r) ->
    lstep W s i (LSys (put_nth i r (threads s)) (owner s))
| StWr : forall x r, nth_error (threads s) i = Some (Wr x :: r) ->
    lstep W s i (LSys (put_nth i r (threads s)) (owner s))
| StCall : forall c r ms b, nth_error (threads s) i = Some (Call c :: r) ->
    W c ms -> expands ms b ->
    lstep W s i (LSys (put_nth i (b ++ Back c :: r) (threads s)) (owner s))
| StBack : forall c r, nth_error (threads s) i = Some (Back c :: r) ->
    lstep W s i (LSys (put_nth i r (threads s)) (owner s)).
