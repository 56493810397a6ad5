(** The HTTP server comes up and goes down: Start, Stop, destruction, its thread, its event streams and its handlers. *)
From Coq Require Import List Arith Bool.
Import ListNotations.
Local Open Scope nat_scope.

(** acceptLoop, HTTPServer.cpp:950-1020: not spawned, spawned but not yet run, listening, ended. *)
Inductive accept := ANone | APending | AOpen | AGone.

(** The thread of an event stream, HTTPServer.cpp:439-478 and 543-582: in wait_for, in the write of the header or of an event, ended. *)
Inductive sse := SWait | SWrite | SEnd.

(** Where the caller is: in no call; in Stop (1048-1087), joining the io thread (1075-1077) or the streams (1078-1084); in the
    destructor of Impl (109-120), likewise. *)
Inductive upc := UOut | SIo | SStreams | DIo | DStreams.

(** Terminated: std::terminate. Freed: the server is gone. Corrupt: a handler runs on members that are gone. *)
Inductive ufate := UTerminated | UFreed | UCorrupt.

(** hu_run: running, 49. hu_halted: the io_context was stopped; nothing restarts it. hu_io: the std::thread object, None if not
    joinable, otherwise whether the thread has ended. hu_ready: the future of the last Start, if any, and whether it is ready.
    hu_told: errors given to setError, 122. hu_closed: the sessions so far, and whether each was closed. hu_streams: sseThreads, each
    with its session. hu_handlers: makeResponse runs in this many threads of std::async, 937-940. *)
Record hup := {
  hu_run : bool; hu_halted : bool; hu_io : option bool; hu_accept : accept; hu_ready : option bool; hu_told : nat;
  hu_closed : list bool; hu_streams : list (nat * sse); hu_handlers : nat; hu_pc : upc; hu_fate : option ufate }.

(** A new server, HTTPServer.cpp:1022-1023. *)
Definition hup0 : hup :=
  {| hu_run := false; hu_halted := false; hu_io := None; hu_accept := ANone; hu_ready := None; hu_told := 0;
     hu_closed := []; hu_streams := []; hu_handlers := 0; hu_pc := UOut; hu_fate := None |}.

Definition set_ufate (f : ufate) (s : hup) : hup :=
  {| hu_run := hu_run s; hu_halted := hu_halted s; hu_io := hu_io s; hu_accept := hu_accept s; hu_ready := hu_ready s; hu_told := hu_told s;
     hu_closed := hu_closed s; hu_streams := hu_streams s; hu_handlers := hu_handlers s; hu_pc := hu_pc s; hu_fate := Some f |}.
Definition set_upc (c : upc) (s : hup) : hup :=
  {| hu_run := hu_run s; hu_halted := hu_halted s; hu_io := hu_io s; hu_accept := hu_accept s; hu_ready := hu_ready s; hu_told := hu_told s;
     hu_closed := hu_closed s; hu_streams := hu_streams s; hu_handlers := hu_handlers s; hu_pc := c; hu_fate := hu_fate s |}.
Definition set_io (b : option bool) (s : hup) : hup :=
  {| hu_run := hu_run s; hu_halted := hu_halted s; hu_io := b; hu_accept := hu_accept s; hu_ready := hu_ready s; hu_told := hu_told s;
     hu_closed := hu_closed s; hu_streams := hu_streams s; hu_handlers := hu_handlers s; hu_pc := hu_pc s; hu_fate := hu_fate s |}.
Definition set_accept (a : accept) (r : option bool) (e : nat) (s : hup) : hup :=
  {| hu_run := hu_run s; hu_halted := hu_halted s; hu_io := hu_io s; hu_accept := a; hu_ready := r; hu_told := e;
     hu_closed := hu_closed s; hu_streams := hu_streams s; hu_handlers := hu_handlers s; hu_pc := hu_pc s; hu_fate := hu_fate s |}.
Definition set_closed (l : list bool) (s : hup) : hup :=
  {| hu_run := hu_run s; hu_halted := hu_halted s; hu_io := hu_io s; hu_accept := hu_accept s; hu_ready := hu_ready s; hu_told := hu_told s;
     hu_closed := l; hu_streams := hu_streams s; hu_handlers := hu_handlers s; hu_pc := hu_pc s; hu_fate := hu_fate s |}.
Definition set_streams (l : list (nat * sse)) (s : hup) : hup :=
  {| hu_run := hu_run s; hu_halted := hu_halted s; hu_io := hu_io s; hu_accept := hu_accept s; hu_ready := hu_ready s; hu_told := hu_told s;
     hu_closed := hu_closed s; hu_streams := l; hu_handlers := hu_handlers s; hu_pc := hu_pc s; hu_fate := hu_fate s |}.
Definition set_handlers (n : nat) (s : hup) : hup :=
  {| hu_run := hu_run s; hu_halted := hu_halted s; hu_io := hu_io s; hu_accept := hu_accept s; hu_ready := hu_ready s; hu_told := hu_told s;
     hu_closed := hu_closed s; hu_streams := hu_streams s; hu_handlers := n; hu_pc := hu_pc s; hu_fate := hu_fate s |}.

Fixpoint put_at {A : Type} (n : nat) (x : A) (l : list A) : list A :=
  match l, n with [], _ => [] | _ :: l, 0 => x :: l | y :: l, S n => y :: put_at n x l end.

(** Start, HTTPServer.cpp:1027-1046: move assignment to a joinable std::thread is std::terminate. *)
Definition hup_start (s : hup) : hup :=
  match hu_io s with
  | Some _ => set_ufate UTerminated s
  | None =>
      {| hu_run := true; hu_halted := hu_halted s; hu_io := Some false; hu_accept := APending; hu_ready := Some false; hu_told := hu_told s;
         hu_closed := hu_closed s; hu_streams := hu_streams s; hu_handlers := hu_handlers s; hu_pc := hu_pc s; hu_fate := hu_fate s |}
  end.

(** Stop up to the joins, HTTPServer.cpp:1051-1074. Simplification: in one step. *)
Definition hup_stop (s : hup) : hup :=
  {| hu_run := false; hu_halted := true; hu_io := hu_io s; hu_accept := match hu_accept s with AOpen => AGone | a => a end; hu_ready := hu_ready s; hu_told := hu_told s;
     hu_closed := map (fun _ => true) (hu_closed s); hu_streams := hu_streams s; hu_handlers := hu_handlers s; hu_pc := SIo; hu_fate := hu_fate s |}.

(** The destructor of Impl up to the join, HTTPServer.cpp:109-112: running and the sessions stay as they are. *)
Definition hup_destroy (s : hup) : hup :=
  {| hu_run := hu_run s; hu_halted := match hu_io s with Some _ => true | None => hu_halted s end; hu_io := hu_io s; hu_accept := hu_accept s; hu_ready := hu_ready s; hu_told := hu_told s;
     hu_closed := hu_closed s; hu_streams := hu_streams s; hu_handlers := hu_handlers s; hu_pc := DIo; hu_fate := hu_fate s |}.

(** The io thread runs handlers of asio. *)
Definition turning (s : hup) : bool := (match hu_io s with Some false => true | _ => false end && negb (hu_halted s))%bool.
Definition all_ended (l : list (nat * sse)) : bool := forallb (fun x => match snd x with SEnd => true | _ => false end) l.
(** session->closed, HTTPServer.cpp:455; a session that never was counts as closed. *)
Definition is_closed (s : hup) (i : nat) : bool := nth i (hu_closed s) true.

(** The call goes on. The members are destroyed in reverse order, 48-80: handlers and sessions before the io_context, whose
    destruction would wait for the futures of std::async. *)
Definition hup_go (s : hup) : hup :=
  match hu_pc s with
  | UOut => s
  | SIo => match hu_io s with Some false => s | _ => set_upc SStreams (set_io None s) end
  | SStreams => if all_ended (hu_streams s) then set_upc UOut (set_streams [] s) else s
  | DIo => match hu_io s with Some false => s | _ => set_upc DStreams (set_io None s) end
  | DStreams => if all_ended (hu_streams s) then set_ufate (match hu_handlers s with 0 => UFreed | S _ => UCorrupt end) s else s
  end.

(** UListen ok: acceptLoop gets as far as listening, or fails (950-988, 998-1018); the future becomes ready either way. UAcceptErr: async_accept
    throws, 991, and the loop ends. UIoEnd: io_context::run returns: it was stopped, or has nothing left to do.
    UPost: a request was read and its handler runs, 480, 937-940. USession: a handler creates a session, 168-175.
    UDelete: a handler removes one, 183-206. UHandled: a handler is done. UGet: a GET opens the stream of a session that is there, 413-439.
    UMsg: the stream of number j takes a message and writes it, 451-466. UWritten: the write returns, or throws. UTick: in wait_for
    the predicate holds, 452-457.
    Simplification: one application thread starts, stops and destroys, and not from a callback; a connection is accepted and its request read in one
    step; the 500 ms of wait_for are over at any time. *)
Inductive uev :=
| UStart | UStop | UDestroy | UGo | UListen (ok : bool) | UAcceptErr | UIoEnd
| UPost | USession | UDelete (i : nat) | UHandled | UGet (i : nat) | UMsg (j : nat) | UWritten (j : nat) (ok : bool) | UTick (j : nat).

Definition hup_step (s : hup) (v : uev) : hup :=
  match hu_fate s with
  | Some _ => s
  | None =>
      match v with
      | UStart => match hu_pc s with UOut => hup_start s | _ => s end
      | UStop => match hu_pc s with UOut => hup_stop s | _ => s end
      | UDestroy => match hu_pc s with UOut => hup_destroy s | _ => s end
      | UGo => hup_go s
      | UListen ok =>
          match hu_accept s with
          | APending => if turning s then set_accept (if ok then AOpen else AGone) (Some true) (if ok then hu_told s else S (hu_told s)) s else s
          | _ => s
          end
      | UAcceptErr => match hu_accept s with AOpen => if turning s then set_accept AGone (hu_ready s) (S (hu_told s)) s else s | _ => s end
      | UIoEnd =>
          match hu_io s with
          | Some false => if (hu_halted s || match hu_accept s, hu_handlers s with AGone, 0 => true | _, _ => false end)%bool then set_io (Some true) s else s
          | _ => s
          end
      | UPost => match hu_accept s with AOpen => if turning s then set_handlers (S (hu_handlers s)) s else s | _ => s end
      | USession => match hu_handlers s with 0 => s | S _ => set_closed (hu_closed s ++ [false]) s end
      | UDelete i => match hu_handlers s with 0 => s | S _ => set_closed (put_at i true (hu_closed s)) s end
      | UHandled => set_handlers (pred (hu_handlers s)) s
      | UGet i =>
          match hu_accept s with
          | AOpen => if (turning s && negb (is_closed s i))%bool then set_streams (hu_streams s ++ [(i, SWrite)]) s else s
          | _ => s
          end
      | UMsg j =>
          match nth_error (hu_streams s) j with
          | Some (i, SWait) => if (hu_run s && negb (is_closed s i))%bool then set_streams (put_at j (i, SWrite) (hu_streams s)) s else s
          | _ => s
          end
      | UWritten j ok => match nth_error (hu_streams s) j with Some (i, SWrite) => set_streams (put_at j (i, if ok then SWait else SEnd) (hu_streams s)) s | _ => s end
      | UTick j =>
          match nth_error (hu_streams s) j with
          | Some (i, SWait) => if (hu_run s && negb (is_closed s i))%bool then s else set_streams (put_at j (i, SEnd) (hu_streams s)) s
          | _ => s
          end
      end
  end.
Definition hup_run (s : hup) (h : list uev) : hup := fold_left hup_step h s.
