(** Handlers that run while the two sides talk: who reads, who handles, who waits. *)
From Coq Require Import Ascii String List Arith Bool.
From Verif Require Import StrModel.
Import ListNotations.
Local Open Scope nat_scope.

(** What a handler or an application thread does with its transport: it returns, sends a notification
    (SendNotification), or sends a request (SendRequest) and waits for the future, as RequestRootsList does, Server.cpp:2331-2346, and the calls
    of the client likewise. None: the transport's own answer, a timeout, StdioTransport.cpp:963-975. *)
Inductive prog :=
| Ret (a : bstr)
| Tell (m : bstr) (p : prog)
| Ask (q : bstr) (k : option bstr -> prog).

(** The handlers of the two sides, for requests and for notifications. The number stands for all that the
    answer may depend on besides the request. *)
Record world := { w_req : bool -> bstr -> nat -> prog; w_note : bool -> bstr -> nat -> prog }.

(** Messages. by_ is not sent: it tells on whose behalf a notification was sent.
    Simplification: payloads are texts; both sides draw request ids from one counter, generateRequestId StdioTransport.cpp:1023
    and InMemoryTransport.cpp:174. *)
Inductive msg :=
| MReq (i : nat) (q : bstr)
| MRes (i : nat) (a : bstr)
| MNote (by_ : option nat) (m : bstr).

Inductive place :=
| Run (p : prog)
| Wait (i : nat) (q : bstr) (k : option bstr -> prog)
| Over (a : bstr).

(** A thread at work. th_for: the request it answers. th_reader: it is the thread that reads the messages of its
    side. th_main: what it was started with (not used by any step). *)
Record thread := { th_side : bool; th_for : option nat; th_reader : bool; th_main : prog; th_at : place }.

(** tk_sent c: all messages put on the queue to side c, in order; tk_got c: how many of them the reader of c has taken. *)
Record talk := { tk_threads : list thread; tk_sent : bool -> list msg; tk_got : bool -> nat; tk_asked : list (bool * bstr) }.
Definition talk0 : talk := {| tk_threads := []; tk_sent := fun _ => []; tk_got := fun _ => 0; tk_asked := [] |}.

Definition go (p : place) (t : thread) : thread :=
  {| th_side := th_side t; th_for := th_for t; th_reader := th_reader t; th_main := th_main t; th_at := p |}.
Fixpoint upd (n : nat) (f : thread -> thread) (l : list thread) : list thread :=
  match l, n with [], _ => [] | t :: l, 0 => f t :: l | t :: l, S n => t :: upd n f l end.
Definition set_threads (l : list thread) (s : talk) : talk :=
  {| tk_threads := l; tk_sent := tk_sent s; tk_got := tk_got s; tk_asked := tk_asked s |}.
Definition put (c : bool) (m : msg) (s : talk) : talk :=
  {| tk_threads := tk_threads s; tk_sent := fun d => if Bool.eqb d c then tk_sent s d ++ [m] else tk_sent s d; tk_got := tk_got s; tk_asked := tk_asked s |}.
Definition took (c : bool) (s : talk) : talk :=
  {| tk_threads := tk_threads s; tk_sent := tk_sent s; tk_got := fun d => if Bool.eqb d c then S (tk_got s d) else tk_got s d; tk_asked := tk_asked s |}.
Definition asks (c : bool) (q : bstr) (s : talk) : talk :=
  {| tk_threads := tk_threads s; tk_sent := tk_sent s; tk_got := tk_got s; tk_asked := tk_asked s ++ [(c, q)] |}.

(** The reader of a side is inside a handler. *)
Definition reads (c : bool) (t : thread) : bool :=
  (Bool.eqb (th_side t) c && th_reader t && match th_at t with Over _ => false | _ => true end)%bool.
Definition busy (c : bool) (s : talk) : bool := existsb (reads c) (tk_threads s).

Definition started (c : bool) (f : option nat) (r : bool) (p : prog) : thread :=
  {| th_side := c; th_for := f; th_reader := r; th_main := p; th_at := Run p |}.

Definition waits_for (c : bool) (i : nat) (t : thread) : bool :=
  (Bool.eqb (th_side t) c && match th_at t with Wait j _ _ => Nat.eqb i j | _ => false end)%bool.
(** handleResponse: the promise of the id, if it is still pending, StdioTransport.cpp:1003-1016, InMemoryTransport.cpp:134-148,
    SharedMemoryTransport.cpp:187-205. *)
Definition answer (c : bool) (i : nat) (a : bstr) (l : list thread) : list thread :=
  map (fun t => if waits_for c i t then match th_at t with Wait _ _ k => go (Run (k (Some a))) t | _ => t end else t) l.

(** The reader takes one message. inline c: requests to c are handled by its reader, as in drainFrames and processMessage,
    StdioTransport.cpp:255-288, 980-1001 with JsonRpcMessageRouter.cpp:95-150; otherwise each gets a thread, InMemoryTransport.cpp:81-126,
    SharedMemoryTransport.cpp:84-145. Notifications are handled by the reader on every transport, InMemoryTransport.cpp:123-155,
    SharedMemoryTransport.cpp:119-144. Simplification: all messages are well-formed, and handlers are set. *)
Definition recv (w : world) (inline : bool -> bool) (c : bool) (o : nat) (s : talk) : talk :=
  if busy c s then s else
  match nth_error (tk_sent s c) (tk_got s c) with
  | None => s
  | Some (MReq i q) => took c (set_threads (tk_threads s ++ [started c (Some i) (inline c) (w_req w c q o)]) s)
  | Some (MNote _ m) => took c (set_threads (tk_threads s ++ [started c None true (w_note w c m o)]) s)
  | Some (MRes i a) => took c (set_threads (answer c i a (tk_threads s)) s)
  end.

(** One thread goes on. When the handler of a request returns, its answer is sent, StdioTransport.cpp:998-1000,
    InMemoryTransport.cpp:103-119, SharedMemoryTransport.cpp:100-116. *)
Definition tstep (n : nat) (s : talk) : talk :=
  match nth_error (tk_threads s) n with
  | None => s
  | Some t =>
      match th_at t with
      | Run (Ret a) =>
          let s' := set_threads (upd n (go (Over a)) (tk_threads s)) s in
          match th_for t with Some i => put (negb (th_side t)) (MRes i a) s' | None => s' end
      | Run (Tell m p) => put (negb (th_side t)) (MNote (th_for t) m) (set_threads (upd n (go (Run p)) (tk_threads s)) s)
      | Run (Ask q k) =>
          put (negb (th_side t)) (MReq (List.length (tk_asked s)) q)
            (asks (th_side t) q (set_threads (upd n (go (Wait (List.length (tk_asked s)) q k)) (tk_threads s)) s))
      | _ => s
      end
  end.

(** The request that a thread waits for times out, StdioTransport.cpp:927-978. *)
Definition ttimeout (n : nat) (s : talk) : talk :=
  match nth_error (tk_threads s) n with
  | Some t => match th_at t with Wait _ _ k => set_threads (upd n (go (Run (k None))) (tk_threads s)) s | _ => s end
  | None => s
  end.

(** TApp: the application calls from a thread of its own. *)
Inductive tev := TApp (c : bool) (p : prog) | TRecv (c : bool) (o : nat) | TStep (n : nat) | TTimeout (n : nat).
Definition talk_step (w : world) (inline : bool -> bool) (s : talk) (v : tev) : talk :=
  match v with
  | TApp c p => set_threads (tk_threads s ++ [started c None false p]) s
  | TRecv c o => recv w inline c o s
  | TStep n => tstep n s
  | TTimeout n => ttimeout n s
  end.
Definition talk_run (w : world) (inline : bool -> bool) (s : talk) (h : list tev) : talk := fold_left (talk_step w inline) h s.
