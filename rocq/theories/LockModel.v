(* The locks of a server on the stdio transport: which lock each method takes, what it touches
   while it holds it, and where it runs the user's code.

   A method is modelled by its paths.  A path is the list of what the method does to locks, to the
   members several threads share, and to the user's callbacks, in the order of the code.  What is
   computed in between is left out.  Members of type std::atomic are left out: they cannot race.
   Waiting for a condition, for an answer of the peer or for another thread to end is not waiting
   for a lock and is left out (a wait on a condition gives the lock back: it is two passes). *)
From Coq Require Import List Arith Bool Lia.
From Verif Require Import StrModel.
Import ListNotations.
Local Open Scope nat_scope.

(* The mutexes.
   registryMutex, cancelMutex, logRateMutex, outboundTasksMutex, keepaliveMutex
   (src/mcp/Server.cpp:327, 1024, 2253, 1478, 3086); BackgroundTaskGroup::mutex_ and
   TaskStore::mutex_ (src/mcp/TaskSupport.h:297, 351); writeMutex, requestMutex, exitMutex
   (src/mcp/StdioTransport.cpp:204, 931, 1097); sLogMutex (include/logging/Logger.h:234). *)
Inductive lock : Type :=
| LRegistry | LCancel | LWorkers | LTasks | LOutbound | LRate | LKeep | LWrite | LRequest | LExit
| LLog.

(* The shared members that are not atomic.
   tools (toolHandlers, toolMetadata), resources (resourceHandlers, resourceMetadata,
   resourceUris), templates, prompts, subscriptions (subscribedUris): Server.cpp:1095-1106;
   VCancels (cancelMap, stopSources): 1018-1092; VWindow (logWindowStart, logWindowCount);
   VOutbound (outboundTaskKinds); VTasks (the records of TaskStore), VFutures (futures_);
   VQueue (writeQueue, queuedBytes), VPending (pendingRequests, requestDeadlines), VThreads (the
   thread handles of the transport), VLogFile (the log's stream);
   VTransport, VCaps (capabilities), VClientCaps (clientCapabilities), VError (errorCallback),
   VStatus (taskStatusHandler), VSampling, VCompletion, VMode (validationMode). *)
Inductive var : Type :=
| VTools | VResources | VTemplates | VPrompts | VSubs | VCancels | VWindow | VOutbound | VTasks
| VFutures | VQueue | VPending | VThreads | VLogFile
| VTransport | VCaps | VClientCaps | VError | VStatus | VSampling | VCompletion | VMode.

(* The user's code the server runs: the handlers of tools, resources (and templates), prompts,
   completion, sampling, of a task's status and of errors; CStop is a std::stop_callback on the
   token of a request's handler, CTaskStop one on the token of a task's handler. *)
Inductive callback : Type :=
| CTool | CResource | CPrompt | CComplete | CSample | CStatus | CError | CStop | CTaskStop.

(* One thing a thread does. *)
Inductive act : Type :=
| Take (l : lock)
| Give (l : lock)
| Rd (x : var)
| Wr (x : var)
| Call (c : callback)
| Back (c : callback)  (* the callback returns *).

(* Paths are put together from parts that may each go several ways. *)
Definition paths : Type := list (list act).
Definition only (a : list act) : paths := [a].
Definition nothing : paths := [[]].
Definition andthen (p q : paths) : paths := flat_map (fun a => map (app a) q) p.
Definition either (p q : paths) : paths := p ++ q.
Definition maybe (p : paths) : paths := either nothing p.
Infix ";;" := andthen (at level 61, right associativity).
(* std::lock_guard in a scope of its own. *)
Definition within (l : lock) (a : list act) : paths := only (Take l :: a ++ [Give l]).

(* include/logging/Logger.h:233-260, Logger::log *)
Definition logs : paths := within LLog [Wr VLogFile].

(* src/mcp/StdioTransport.cpp:202-247, enqueueFrame: the frame is queued, or the queue is full
   and the error handler is run with writeMutex held.  The handler is the one Server.cpp:1517-1528
   installs: it logs and runs errorCallback. *)
Definition enqueue : paths :=
  either (within LWrite [Rd VQueue; Wr VQueue])
    (only [Take LWrite; Rd VQueue] ;; logs ;; logs ;;
     either (only [Rd VError]) (only [Rd VError; Call CError]) ;; only [Give LWrite]).

(* src/mcp/StdioTransport.cpp:1196-1207, SendNotification, as reached through
   this->transport: nothing when it is not connected. *)
Definition send : paths := only [Rd VTransport] ;; maybe enqueue.
(* src/mcp/StdioTransport.cpp:1151-1194, SendRequest. *)
Definition ask : paths :=
  only [Rd VTransport] ;; maybe (within LRequest [Wr VPending] ;; enqueue).
(* src/mcp/Server.cpp:1473-1480, 1482-1489 *)
Definition remember : paths := within LOutbound [Wr VOutbound].
Definition recall : paths := within LOutbound [Rd VOutbound].
Definition strict : paths := only [Rd VMode].

(* src/mcp/Server.cpp:1550-1556, dispatchRequest: the token of the request is registered
   (1020-1032) and, at the end, unregistered (1034-1042); with an empty id neither happens. *)
Definition served (body : paths) : paths :=
  either body (within LCancel [Wr VCancels] ;; body ;; within LCancel [Wr VCancels]).
(* src/mcp/Server.cpp:1068-1082, 1084-1095, StopSourceGuard.  The source is new, so a request to
   stop it runs no callback. *)
Definition stoppable (body : paths) : paths :=
  within LCancel [Wr VCancels] ;; body ;; within LCancel [Wr VCancels].

(* src/mcp/TaskSupport.h:357-377, CreateTask, and 504-513, EmitStatus, whose callback is
   sendTaskStatusNotification (Server.cpp:1459-1471). *)
Definition create_task : paths := within LTasks [Wr VTasks] ;; within LTasks [Rd VTasks] ;; send.
(* src/mcp/TaskSupport.h:458-502, SetTerminal without a request to stop *)
Definition complete_task : paths :=
  either (within LTasks [Rd VTasks]) (within LTasks [Wr VTasks] ;; send).
(* src/mcp/TaskSupport.h:458-502, SetTerminal with requestStop *)
Definition cancel_task : paths :=
  either (within LTasks [Rd VTasks])
    (within LTasks [Wr VTasks] ;; maybe (only [Call CTaskStop]) ;; send).
(* src/mcp/TaskSupport.h:295-340, Add; the workers' futures that are ready are taken out. *)
Definition add_worker : paths := within LWorkers [Wr VFutures].

(* What a thread may be asked to do: the requests and notifications of the peer, the methods of
   Server, and the passes of the threads the server and the transport run themselves. *)
Inductive meth : Type :=
(* requests *)
| QPing | QInitialize | QSetLevel | QToolsList | QTaskGet | QTaskList | QTaskResult | QTaskCancel
| QToolsCall | QToolsCallTask | QComplete | QResourcesList | QTemplatesList | QSubscribe
| QUnsubscribe | QCreateMessage | QResourcesRead | QPromptsList | QPromptsGet | QUnknown
(* notifications *)
| NCancelled | NTaskStatus | NOther
(* methods of Server *)
| RegisterTool | UnregisterTool | RegisterResource | UnregisterResource | RegisterPrompt
| UnregisterPrompt | RegisterTemplate | UnregisterTemplate
| ListTools | ListResources | ListPrompts | ListTemplates
| CallTool | ReadResource | GetPrompt
| NotifyToolsChanged | NotifyResourcesChanged | NotifyPromptsChanged | NotifyResourceUpdated
| SendNotification | SendProgress | LogToClient
| CallToolTask | GetTask | ListTasks | GetTaskResult | CancelTask
| RequestRootsList | RequestCreateMessage | RequestCreateMessageTask | RequestElicitation
| RequestElicitationTask | Ping
| IsRunning | HandleInitialize | GetValidationMode | SetValidationMode
| SetSamplingHandler | SetCompletionHandler | SetErrorHandler | SetTaskStatusHandler
| SetKeepaliveInterval | SetKeepaliveThreshold | SetRateLimit
(* the server's and the transport's own threads *)
| TaskWorker | KeepalivePass | ReaderAnswer | ReaderResponse | ReaderError | WriterPass
| TimeoutPass | CloseTransport | WriteLog.

Definition code (m : meth) : paths :=
  match m with
  (* src/mcp/Server.cpp:1558-1562 *)
  | QPing => served nothing
  (* src/mcp/Server.cpp:1563-1569, 1340-1366 and 1740-1768: four notifications when connected *)
  | QInitialize =>
      served (maybe (only [Wr VClientCaps]) ;; only [Rd VCaps; Rd VTransport] ;;
              maybe (send ;; send ;; send ;; send))
  (* src/mcp/Server.cpp:2294-2327: the level is atomic *)
  | QSetLevel => served nothing
  (* src/mcp/Server.cpp:668-705 *)
  | QToolsList => served (within LRegistry [Rd VTools] ;; strict)
  (* src/mcp/Server.cpp:1573-1594; TaskSupport.h:388-395 *)
  | QTaskGet => served (maybe (within LTasks [Rd VTasks] ;; strict))
  (* src/mcp/Server.cpp:1595-1631; TaskSupport.h:406-427 *)
  | QTaskList => served (maybe (within LTasks [Rd VTasks] ;; strict))
  (* src/mcp/Server.cpp:1632-1663; TaskSupport.h:397-404, 442-455: each time the wait wakes up
     is one more pass *)
  | QTaskResult =>
      served (maybe (within LTasks [Rd VTasks] ;; within LTasks [Rd VTasks] ;;
                     maybe (within LTasks [Rd VTasks] ;; strict)))
  (* src/mcp/Server.cpp:1664-1688 *)
  | QTaskCancel => served (only [Rd VCaps] ;; maybe (cancel_task ;; strict))
  (* src/mcp/Server.cpp:812-858, 917-945 *)
  | QToolsCall =>
      served (maybe (within LRegistry [Rd VTools] ;;
                     maybe (stoppable (only [Call CTool] ;; strict))))
  (* src/mcp/Server.cpp:812-858, 877-916; the handler runs in TaskWorker *)
  | QToolsCallTask =>
      served (maybe (within LRegistry [Rd VTools] ;;
                     maybe (create_task ;; within LTasks [Rd VTasks] ;; add_worker ;; strict)))
  (* src/mcp/Server.cpp:1396-1456 *)
  | QComplete => served (only [Rd VCompletion] ;; maybe (only [Call CComplete] ;; strict))
  (* src/mcp/Server.cpp:588-613, 707-738 *)
  | QResourcesList => served (within LRegistry [Rd VResources; Rd VClientCaps] ;; strict)
  (* src/mcp/Server.cpp:740-775 *)
  | QTemplatesList => served (within LRegistry [Rd VTemplates] ;; strict)
  (* src/mcp/Server.cpp:1837-1853 *)
  | QSubscribe => served (maybe (within LRegistry [Wr VSubs]))
  (* src/mcp/Server.cpp:1855-1879: the set is read again after the lock is given back *)
  | QUnsubscribe => served (within LRegistry [Wr VSubs] ;; only [Rd VSubs])
  (* src/mcp/Server.cpp:1881-1918 *)
  | QCreateMessage =>
      served (only [Rd VSampling] ;; maybe (strict ;; maybe (only [Call CSample] ;; strict)))
  (* src/mcp/Server.cpp:325-353, 947-1018 *)
  | QResourcesRead =>
      served (maybe (within LRegistry [Rd VResources; Rd VTemplates] ;;
                     maybe (stoppable (only [Call CResource]))))
  (* src/mcp/Server.cpp:615-624, 777-810 *)
  | QPromptsList => served (within LRegistry [Rd VPrompts] ;; strict)
  (* src/mcp/Server.cpp:1369-1394: the handler runs with the lock held *)
  | QPromptsGet =>
      served (maybe (either (within LRegistry [Rd VPrompts])
                            (within LRegistry [Rd VPrompts; Call CPrompt; Rd VMode])))
  (* src/mcp/Server.cpp:1727-1731 *)
  | QUnknown => served nothing
  (* src/mcp/Server.cpp:1143-1155, 1044-1066: stop is requested with the lock held *)
  | NCancelled =>
      maybe (either (within LCancel [Wr VCancels]) (within LCancel [Wr VCancels; Call CStop]))
  (* src/mcp/Server.cpp:1174-1183 *)
  | NTaskStatus => only [Rd VStatus] ;; maybe (strict ;; maybe (only [Call CStatus]))
  (* src/mcp/Server.cpp:1137-1142, 1156-1173, 1184-1187 *)
  | NOther => nothing
  (* src/mcp/Server.cpp:2785-2835 *)
  | RegisterTool | UnregisterTool => within LRegistry [Wr VTools; Rd VTransport] ;; maybe send
  (* src/mcp/Server.cpp:2837-2879 *)
  | RegisterResource | UnregisterResource =>
      within LRegistry [Wr VResources; Rd VTransport] ;; maybe send
  (* src/mcp/Server.cpp:2881-2913 *)
  | RegisterPrompt | UnregisterPrompt =>
      within LRegistry [Wr VPrompts; Rd VTransport] ;; maybe send
  (* src/mcp/Server.cpp:3223-3282 *)
  | RegisterTemplate | UnregisterTemplate =>
      within LRegistry [Wr VTemplates; Rd VTransport] ;; maybe send
  (* src/mcp/Server.cpp:2960-2970 *)
  | ListTools => within LRegistry [Rd VTools]
  (* src/mcp/Server.cpp:3011-3014, 588-613 *)
  | ListResources => within LRegistry [Rd VResources; Rd VClientCaps]
  (* src/mcp/Server.cpp:3021-3024, 615-624 *)
  | ListPrompts => within LRegistry [Rd VPrompts]
  (* src/mcp/Server.cpp:3284-3295 *)
  | ListTemplates => within LRegistry [Rd VTemplates]
  (* src/mcp/Server.cpp:1950-1974 *)
  | CallTool => within LRegistry [Rd VTools] ;; maybe (only [Call CTool])
  (* src/mcp/Server.cpp:2118-2138 *)
  | ReadResource =>
      within LRegistry [Rd VResources; Rd VTemplates] ;; maybe (only [Call CResource])
  (* src/mcp/Server.cpp:2140-2157: the handler runs with the lock held *)
  | GetPrompt =>
      either (within LRegistry [Rd VPrompts]) (within LRegistry [Rd VPrompts; Call CPrompt])
  (* src/mcp/Server.cpp:2159-2200, 2219-2233 *)
  | NotifyToolsChanged | NotifyResourcesChanged | NotifyPromptsChanged | SendNotification
  | SendProgress => send
  (* src/mcp/Server.cpp:2202-2217 *)
  | NotifyResourceUpdated => maybe (within LRegistry [Rd VSubs]) ;; maybe send
  (* src/mcp/Server.cpp:2235-2292 *)
  | LogToClient => maybe (maybe (within LRate [Wr VWindow]) ;; maybe send)
  (* src/mcp/Server.cpp:1976-2001 *)
  | CallToolTask => ask ;; maybe (strict ;; maybe remember)
  (* src/mcp/Server.cpp:2003-2063, 2095-2116 *)
  | GetTask | ListTasks | CancelTask => ask ;; maybe strict
  (* src/mcp/Server.cpp:2065-2093 *)
  | GetTaskResult => ask ;; maybe (recall ;; strict)
  (* src/mcp/Server.cpp:2329-2391 *)
  | RequestRootsList => only [Rd VTransport; Rd VClientCaps] ;; maybe (ask ;; maybe strict)
  (* src/mcp/Server.cpp:2393-2457, 2520-2578 *)
  | RequestCreateMessage => only [Rd VTransport] ;; maybe ask
  (* src/mcp/Server.cpp:2459-2518 *)
  | RequestCreateMessageTask =>
      only [Rd VTransport; Rd VClientCaps] ;; maybe (ask ;; maybe (strict ;; maybe remember))
  (* src/mcp/Server.cpp:2580-2650 *)
  | RequestElicitation =>
      only [Rd VTransport; Rd VClientCaps] ;; maybe (strict ;; maybe (ask ;; maybe strict))
  (* src/mcp/Server.cpp:2652-2708 *)
  | RequestElicitationTask =>
      only [Rd VTransport; Rd VClientCaps] ;;
      maybe (strict ;; maybe (ask ;; maybe (strict ;; maybe remember)))
  (* src/mcp/Server.cpp:2710-2732 *)
  | Ping => ask ;; maybe strict
  (* src/mcp/Server.cpp:2765-2772 *)
  | IsRunning => only [Rd VTransport]
  (* src/mcp/Server.cpp:1942-1948 *)
  | HandleInitialize => only [Wr VClientCaps]
  (* src/mcp/Server.cpp:2945-2953 *)
  | GetValidationMode => strict
  | SetValidationMode => only [Wr VMode]
  (* src/mcp/Server.cpp:3031-3036 *)
  | SetSamplingHandler => only [Wr VSampling; Wr VCaps]
  (* src/mcp/Server.cpp:3038-3046 *)
  | SetCompletionHandler => only [Wr VCompletion; Wr VCaps]
  (* src/mcp/Server.cpp:3297-3300, 3302-3305 *)
  | SetErrorHandler => only [Wr VError]
  | SetTaskStatusHandler => only [Wr VStatus]
  (* src/mcp/Server.cpp:3048-3140: the member is edited; the loop is KeepalivePass *)
  | SetKeepaliveInterval => only [Wr VCaps]
  (* src/mcp/Server.cpp:3142-3158 *)
  | SetKeepaliveThreshold => maybe (only [Wr VCaps])
  (* src/mcp/Server.cpp:3160-3186 *)
  | SetRateLimit => only [Wr VCaps] ;; within LRate [Wr VWindow]
  (* src/mcp/Server.cpp:882-908 *)
  | TaskWorker => only [Call CTool] ;; maybe strict ;; complete_task
  (* src/mcp/Server.cpp:3081-3137, one turn of the loop that does not close the transport *)
  | KeepalivePass => within LKeep [] ;; maybe (only [Rd VTransport] ;; maybe send)
  (* src/mcp/StdioTransport.cpp:976-995: the answer to a request is queued *)
  | ReaderAnswer => enqueue
  (* src/mcp/StdioTransport.cpp:997-1015 *)
  | ReaderResponse => within LRequest [Wr VPending]
  (* src/mcp/StdioTransport.cpp:270-664, 725-915: the reader and the writer report an error with no lock
     held; the handler is Server.cpp:1517-1528 *)
  | ReaderError => logs ;; only [Rd VError] ;; maybe (only [Call CError])
  (* src/mcp/StdioTransport.cpp:700-723 *)
  | WriterPass => within LWrite [Rd VQueue; Wr VQueue]
  (* src/mcp/StdioTransport.cpp:927-974 *)
  | TimeoutPass => within LRequest [Rd VPending; Wr VPending]
  (* src/mcp/StdioTransport.cpp:1090-1144: the threads are joined or detached *)
  | CloseTransport =>
      only [Wr VThreads] ;; maybe (within LExit []) ;; maybe (within LExit []) ;;
      within LRequest [Wr VPending]
  (* include/logging/Logger.h:233: a message logged at any other place *)
  | WriteLog => logs
  end.

(* A thread: what it still has to do.  The owner of each lock. *)
Record lsys : Type := LSys { threads : list (list act); owner : lock -> option nat }.

Definition lock_eq_dec : forall a b : lock, {a = b} + {a <> b}.
Proof. decide equality. Defined.

Definition set_owner (o : lock -> option nat) (l : lock) (v : option nat) : lock -> option nat :=
  fun k => if lock_eq_dec k l then v else o k.

Fixpoint put_nth (n : nat) (v : list act) (t : list (list act)) : list (list act) :=
  match t, n with
  | [], _ => []
  | _ :: r, O => v :: r
  | a :: r, S k => a :: put_nth k v r
  end.

(* What the user's code may do: the lists of methods a callback may run, one after the other. *)
Definition world : Type := callback -> list meth -> Prop.

(* Running these methods one after the other does these things. *)
Inductive expands : list meth -> list act -> Prop :=
| ExNil : expands [] []
| ExCons : forall m ms p a, In p (code m) -> expands ms a -> expands (m :: ms) (p ++ a).

(* One step of thread i.  A lock is taken only when it is free (std::mutex::lock waits
   otherwise, also for a lock of the thread itself).  A callback returns after what it does. *)
Inductive lstep (W : world) (s : lsys) (i : nat) : lsys -> Prop :=
| StTake : forall l r, nth_error (threads s) i = Some (Take l :: r) -> owner s l = None ->
    lstep W s i (LSys (put_nth i r (threads s)) (set_owner (owner s) l (Some i)))
| StGive : forall l r, nth_error (threads s) i = Some (Give l :: r) -> owner s l = Some i ->
    lstep W s i (LSys (put_nth i r (threads s)) (set_owner (owner s) l None))
| StRd : forall x r, nth_error (threads s) i = Some (Rd x :: r) ->
    lstep W s i (LSys (put_nth i r (threads s)) (owner s))
| StWr : forall x r, nth_error (threads s) i = Some (Wr x :: r) ->
    lstep W s i (LSys (put_nth i r (threads s)) (owner s))
| StCall : forall c r ms b, nth_error (threads s) i = Some (Call c :: r) ->
    W c ms -> expands ms b ->
    lstep W s i (LSys (put_nth i (b ++ Back c :: r) (threads s)) (owner s))
| StBack : forall c r, nth_error (threads s) i = Some (Back c :: r) ->
    lstep W s i (LSys (put_nth i r (threads s)) (owner s)).
