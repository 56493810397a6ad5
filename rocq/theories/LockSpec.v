(* What the properties about locks say. *)
From Coq Require Import List Arith Bool.
From Verif Require Import StrModel LockModel.
Import ListNotations.
Local Open Scope nat_scope.

(* Any number of threads, each about to run its methods; no lock is held. *)
Definition starts (progs : list (list meth)) (s : lsys) : Prop :=
  Forall2 expands progs (threads s) /\ forall l, owner s l = None.

(* Any schedule. *)
Inductive leads (W : world) : lsys -> lsys -> Prop :=
| LdHere : forall s, leads W s s
| LdStep : forall s i t u, lstep W s i t -> leads W t u -> leads W s u.

(* Any schedule in which thread d makes no step: it hangs where it is. *)
Inductive leads_without (W : world) (d : nat) : lsys -> lsys -> Prop :=
| LwHere : forall s, leads_without W d s s
| LwStep : forall s i t u,
    i <> d -> lstep W s i t -> leads_without W d t u -> leads_without W d s u.

(* A schedule of n steps. *)
Inductive leads_in (W : world) : nat -> lsys -> lsys -> Prop :=
| LiHere : forall s, leads_in W 0 s s
| LiStep : forall n s i t u, lstep W s i t -> leads_in W n t u -> leads_in W (S n) s u.

Definition unfinished (s : lsys) (i : nat) : Prop :=
  exists a r, nth_error (threads s) i = Some (a :: r).

(* Thread i waits for a lock thread j holds. *)
Definition waits (s : lsys) (i j : nat) : Prop :=
  exists l r, nth_error (threads s) i = Some (Take l :: r) /\ owner s l = Some j.

(* What thread i waits for, directly or through other threads, comes down to thread k. *)
Inductive behind (s : lsys) : nat -> nat -> Prop :=
| BeSelf : forall i, behind s i i
| BeWait : forall i j k, waits s i j -> behind s j k -> behind s i k.

(* Thread i has something to do and does not wait for a lock. *)
Definition going (s : lsys) (i : nat) : Prop :=
  exists a r, nth_error (threads s) i = Some (a :: r) /\ forall l, a = Take l -> owner s l = None.

(* Thread i is in the user's code. *)
Definition in_callback (s : lsys) (i : nat) (c : callback) : Prop :=
  exists r, nth_error (threads s) i = Some (Call c :: r).

(* The callbacks the library runs while it holds a lock. *)
Definition under_lock (c : callback) : bool :=
  match c with CPrompt | CStop | CError => true | _ => false end.

(* What a callback may call.  The handlers of tools, resources, completions, sampling and task
   status may call anything.  A prompt handler, a stop callback and the error handler may call
   what is listed. *)
Definition may_call (c : callback) (m : meth) : bool :=
  match c with
  | CPrompt =>
      match m with
      | NotifyToolsChanged | NotifyResourcesChanged | NotifyPromptsChanged | SendNotification
      | SendProgress | LogToClient
      | CallToolTask | GetTask | ListTasks | GetTaskResult | CancelTask
      | RequestRootsList | RequestCreateMessage | RequestCreateMessageTask | RequestElicitation
      | RequestElicitationTask | Ping | IsRunning | HandleInitialize
      | GetValidationMode | SetValidationMode | SetSamplingHandler | SetCompletionHandler
      | SetErrorHandler | SetTaskStatusHandler | SetKeepaliveInterval | SetKeepaliveThreshold
      | SetRateLimit | CloseTransport | WriteLog => true
      | _ => false
      end
  | CStop =>
      match m with
      | RegisterTool | UnregisterTool | RegisterResource | UnregisterResource | RegisterPrompt
      | UnregisterPrompt | RegisterTemplate | UnregisterTemplate
      | ListTools | ListResources | ListPrompts | ListTemplates | GetPrompt
      | NotifyToolsChanged | NotifyResourcesChanged | NotifyPromptsChanged
      | NotifyResourceUpdated | SendNotification | SendProgress | LogToClient
      | CallToolTask | GetTask | ListTasks | GetTaskResult | CancelTask
      | RequestRootsList | RequestCreateMessage | RequestCreateMessageTask | RequestElicitation
      | RequestElicitationTask | Ping | IsRunning | HandleInitialize
      | GetValidationMode | SetValidationMode | SetSamplingHandler | SetCompletionHandler
      | SetErrorHandler | SetTaskStatusHandler | SetKeepaliveInterval | SetKeepaliveThreshold
      | SetRateLimit | CloseTransport | WriteLog => true
      | _ => false
      end
  | CError =>
      match m with
      | IsRunning | HandleInitialize
      | GetValidationMode | SetValidationMode | SetSamplingHandler | SetCompletionHandler
      | SetErrorHandler | SetTaskStatusHandler | SetKeepaliveInterval | SetKeepaliveThreshold
      | CloseTransport | WriteLog => true
      | _ => false
      end
  | _ => true
  end.

Definition polite (W : world) : Prop :=
  forall c ms, W c ms -> Forall (fun m => may_call c m = true) ms.

(* Every callback can return. *)
Definition returns (W : world) : Prop :=
  forall c, exists ms a, W c ms /\ expands ms a.

(* Every callback returns and calls nothing. *)
Definition calls_nothing (W : world) : Prop := forall c ms, W c ms -> ms = [].

(* Two threads are about to touch the same member and one of them writes it. *)
Definition race (s : lsys) (x : var) : Prop :=
  exists i j a b r q, i <> j /\
    nth_error (threads s) i = Some (a :: r) /\ nth_error (threads s) j = Some (b :: q) /\
    (a = Rd x \/ a = Wr x) /\ (b = Rd x \/ b = Wr x) /\ (a = Wr x \/ b = Wr x).

(* The members a lock guards wherever they are used. *)
Definition always_guarded (x : var) : bool :=
  match x with
  | VTools | VResources | VTemplates | VPrompts | VCancels | VWindow | VOutbound | VTasks
  | VFutures | VQueue | VPending | VLogFile => true
  | _ => false
  end.

(* What runs while a configured and initialised server serves: everything but setting handlers,
   modes, the keepalive and the rate limit, initialize, resources/unsubscribe and closing. *)
Definition serving (m : meth) : bool :=
  match m with
  | QInitialize | QUnsubscribe | HandleInitialize | SetValidationMode | SetSamplingHandler
  | SetCompletionHandler | SetErrorHandler | SetTaskStatusHandler | SetKeepaliveInterval
  | SetKeepaliveThreshold | SetRateLimit | CloseTransport => false
  | _ => true
  end.

Definition only_serves (W : world) : Prop :=
  forall c ms, W c ms -> Forall (fun m => serving m = true) ms.

(* Thread i is in the middle of something and no schedule ever moves it. *)
Definition stuck (W : world) (s : lsys) (i : nat) : Prop :=
  unfinished s i /\
  forall t, leads W s t -> nth_error (threads t) i = nth_error (threads s) i.

(* User code in which every callback of kind c runs exactly these methods and no other callback
   calls anything. *)
Definition calling (c : callback) (ms : list meth) : world :=
  fun d l => (d = c /\ l = ms) \/ (d <> c /\ l = []).

(* The member that holds the function of a callback and that the callback is run from where it is
   stored.  The handlers of tools, resources and templates are run from copies. *)
Definition slot (c : callback) : option var :=
  match c with
  | CPrompt => Some VPrompts | CComplete => Some VCompletion | CSample => Some VSampling
  | CStatus => Some VStatus | CError => Some VError
  | CTool | CResource | CStop | CTaskStop => None
  end.

(* Thread i runs the callback c. *)
Definition running (s : lsys) (i : nat) (c : callback) : Prop :=
  exists a, nth_error (threads s) i = Some a /\ In (Back c) a.

(* A thread is about to replace the function of c, that is, to destroy it, while it runs.  (Among
   the prompts it may be another entry.) *)
Definition torn (s : lsys) (c : callback) : Prop :=
  exists i j x r, running s i c /\ slot c = Some x /\ nth_error (threads s) j = Some (Wr x :: r).

(* The methods that set this member. *)
Definition sets (m : meth) (x : var) : bool :=
  match x, m with
  | VCompletion, SetCompletionHandler | VSampling, SetSamplingHandler
  | VStatus, SetTaskStatusHandler | VError, SetErrorHandler => true
  | VPrompts, RegisterPrompt | VPrompts, UnregisterPrompt => true
  | _, _ => false
  end.

(* Neither the threads nor the callbacks call a method that sets x. *)
Definition left_alone (x : var) (W : world) (progs : list (list meth)) : Prop :=
  (forall c ms m, W c ms -> In m ms -> sets m x = false) /\
  (forall ms m, In ms progs -> In m ms -> sets m x = false).
