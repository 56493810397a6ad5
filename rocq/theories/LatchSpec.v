(* What the properties about the client's locks say. *)
From Coq Require Import List Arith Bool.
From Verif Require Import LatchModel.
Import ListNotations.
Local Open Scope nat_scope.

(* Any number of threads, each about to run its methods; no lock is held. *)
Definition starts (progs : list (list meth)) (s : lsys) : Prop :=
  Forall2 expands progs (threads s) /\ forall l, owner s l = None.

(* Any schedule. *)
Inductive leads (W : world) : lsys -> lsys -> Prop :=
| LdHere : forall s, leads W s s
| LdStep : forall s i t u, lstep W s i t -> leads W t u -> leads W s u.

(* Any schedule in which thread d makes no step: it hangs where it is. *)
Inductive leads_without (W : world) (d : nat) : lsys -> lsys -> Prop :=
| LwHere : forall s, leads_without W d s s
| LwStep : forall s i t u,
    i <> d -> lstep W s i t -> leads_without W d t u -> leads_without W d s u.

(* A schedule of n steps. *)
Inductive leads_in (W : world) : nat -> lsys -> lsys -> Prop :=
| LiHere : forall s, leads_in W 0 s s
| LiStep : forall n s i t u, lstep W s i t -> leads_in W n t u -> leads_in W (S n) s u.

Definition unfinished (s : lsys) (i : nat) : Prop :=
  exists a r, nth_error (threads s) i = Some (a :: r).

(* Thread i waits for a lock thread j holds. *)
Definition waits (s : lsys) (i j : nat) : Prop :=
  exists l r, nth_error (threads s) i = Some (Take l :: r) /\ owner s l = Some j.

(* What thread i waits for, directly or through other threads, comes down to thread k. *)
Inductive behind (s : lsys) : nat -> nat -> Prop :=
| BeSelf : forall i, behind s i i
| BeWait : forall i j k, waits s i j -> behind s j k -> behind s i k.

(* Thread i has something to do and does not wait for a lock. *)
Definition going (s : lsys) (i : nat) : Prop :=
  exists a r, nth_error (threads s) i = Some (a :: r) /\ forall l, a = Take l -> owner s l = None.

(* Thread i enters the user's code. *)
Definition in_callback (s : lsys) (i : nat) (c : callback) : Prop :=
  exists r, nth_error (threads s) i = Some (Call c :: r).

(* The callbacks the library may run while it holds a lock. *)
Definition under_lock (c : callback) : bool :=
  match c with CStop | CError => true | _ => false end.

(* The methods of Client. *)
Definition of_client (m : meth) : bool :=
  match m with
  | Connect | Disconnect | IsConnected | Initialize
  | ListTools | ListResources | ListTemplates | ListPrompts
  | ListToolsPaged | ListResourcesPaged | ListTemplatesPaged | ListPromptsPaged
  | CallTool | ReadResource | GetPrompt | Subscribe | Unsubscribe | Complete | Ping
  | CallToolTask | GetTask | ListTasks | GetTaskResult | CancelTask | NotifyRootsChanged
  | SetNotificationHandler | RemoveNotificationHandler | SetProgressHandler | SetTaskStatusHandler
  | SetRootsHandler | SetSamplingHandler | SetElicitationHandler | SetErrorHandler
  | SetCacheTtl | SetValidationMode | GetValidationMode => true
  | _ => false
  end.

(* Those among them that send nothing. *)
Definition quiet (m : meth) : bool :=
  match m with
  | Connect | Disconnect | IsConnected
  | SetNotificationHandler | RemoveNotificationHandler | SetProgressHandler | SetTaskStatusHandler
  | SetRootsHandler | SetSamplingHandler | SetElicitationHandler | SetErrorHandler
  | SetCacheTtl | SetValidationMode | GetValidationMode => true
  | _ => false
  end.

(* What a callback may call: any method of the client, but the error handler only those that send
   nothing. *)
Definition may_call (c : callback) (m : meth) : bool :=
  match c with CError => quiet m | _ => of_client m end.

Definition polite (W : world) : Prop :=
  forall c ms, W c ms -> Forall (fun m => may_call c m = true) ms.

(* Every callback can return. *)
Definition returns (W : world) : Prop :=
  forall c, exists ms a, W c ms /\ expands ms a.

(* Every callback returns and calls nothing. *)
Definition calls_nothing (W : world) : Prop := forall c ms, W c ms -> ms = [].

(* Two threads are about to touch the same member and one of them writes it. *)
Definition race (s : lsys) (x : var) : Prop :=
  exists i j a b r q, i <> j /\
    nth_error (threads s) i = Some (a :: r) /\ nth_error (threads s) j = Some (b :: q) /\
    (a = Rd x \/ a = Wr x) /\ (b = Rd x \/ b = Wr x) /\ (a = Wr x \/ b = Wr x).

(* The members a lock guards wherever they are used. *)
Definition always_guarded (x : var) : bool :=
  match x with
  | VCache | VCancels | VOutbound | VTasks | VFutures | VQueue | VPending | VLogFile => true
  | _ => false
  end.

(* The methods that set this member. *)
Definition sets (m : meth) (x : var) : bool :=
  match x, m with
  | VNotes, SetNotificationHandler | VNotes, RemoveNotificationHandler
  | VProgress, SetProgressHandler | VStatus, SetTaskStatusHandler | VError, SetErrorHandler
  | VRoots, SetRootsHandler | VSampling, SetSamplingHandler | VElicit, SetElicitationHandler
  | VTtl, SetCacheTtl | VMode, SetValidationMode | VCaps, Initialize | VServerCaps, Initialize
  | VTransport, Connect | VThreads, Connect | VThreads, Disconnect => true
  | _, _ => false
  end.

(* Neither the threads nor the callbacks call a method that sets x. *)
Definition left_alone (x : var) (W : world) (progs : list (list meth)) : Prop :=
  (forall c ms m, W c ms -> In m ms -> sets m x = false) /\
  (forall ms m, In ms progs -> In m ms -> sets m x = false).

(* The member that holds the function of a callback.  The functions are run where they are stored,
   not from a copy. *)
Definition slot (c : callback) : option var :=
  match c with
  | CNote => Some VNotes | CProgress => Some VProgress | CStatus => Some VStatus
  | CError => Some VError | CRoots => Some VRoots | CSample => Some VSampling
  | CElicit => Some VElicit | CStop | CTaskStop => None
  end.

(* Thread i runs the callback c. *)
Definition running (s : lsys) (i : nat) (c : callback) : Prop :=
  exists a, nth_error (threads s) i = Some a /\ In (Back c) a.

(* A thread is about to replace the function of c, that is, to destroy it, while it runs.  (In
   notificationHandlers it may be another entry; in C200_itself_refuted it is the same.) *)
Definition torn (s : lsys) (c : callback) : Prop :=
  exists i j x r, running s i c /\ slot c = Some x /\ nth_error (threads s) j = Some (Wr x :: r).

(* Thread i is in the middle of something and no schedule ever moves it. *)
Definition stuck (W : world) (s : lsys) (i : nat) : Prop :=
  unfinished s i /\
  forall t, leads W s t -> nth_error (threads t) i = nth_error (threads s) i.

(* User code in which every callback of kind c runs exactly these methods and no other callback
   calls anything. *)
Definition calling (c : callback) (ms : list meth) : world :=
  fun d l => (d = c /\ l = ms) \/ (d <> c /\ l = []).
