(** The threads of the stdio transport: Start, Close, destruction. *)
From Coq Require Import List Arith Bool.
Import ListNotations.
Local Open Scope nat_scope.

(** The timeout thread, StdioTransport.cpp:927-978. TTop: before the test of connected and the lock. TChecked: it
    holds requestMutex and the predicate of the wait was false; it has not started to wait. TBlocked: it waits
    and holds nothing. TAwake: notified, it looks at the predicate again. TFire: the deadline of a
    wait_until has passed. The flag tells wait_until (true, there is a deadline) from wait.
    Simplification: condition variables do not wake up without cause. *)
Inductive timer := TTop | TChecked (timed : bool) | TBlocked (timed : bool) | TAwake (timed : bool) | TFire | TEnded.

(** Where the caller is in Close (1039-1146) or in the destructor of Impl (161-199). *)
Inductive cpc := COut | CNotify | CReader | CWriter | CTimer | CFail | DReader | DTimer | DWriter.

(** Terminated: std::terminate. Freed: the transport is gone. Corrupt: a thread has used it after that. *)
Inductive fate := Terminated | Freed | Corrupt.

(** lf_reader, lf_writer: the std::thread objects: None if not joinable, otherwise whether the thread has ended.
    lf_old_readers, lf_old_writers: detached threads that still run. lf_rx, lf_wx: readerExited 58, writerExited 59.
    lf_due: requestDeadlines is not empty. lf_started, lf_closed: calls of Start and returns of Close so far. *)
Record life := {
  lf_conn : bool; lf_reader : option bool; lf_old_readers : nat; lf_writer : option bool; lf_old_writers : nat;
  lf_rx : bool; lf_wx : bool; lf_timer : option timer; lf_due : bool; lf_pc : cpc; lf_started : nat; lf_closed : nat; lf_fate : option fate }.

(** A new transport, StdioTransport.cpp:1026. *)
Definition life0 : life :=
  {| lf_conn := false; lf_reader := None; lf_old_readers := 0; lf_writer := None; lf_old_writers := 0; lf_rx := false; lf_wx := false;
     lf_timer := None; lf_due := false; lf_pc := COut; lf_started := 0; lf_closed := 0; lf_fate := None |}.

Definition set_fate (f : fate) (s : life) : life :=
  {| lf_conn := lf_conn s; lf_reader := lf_reader s; lf_old_readers := lf_old_readers s; lf_writer := lf_writer s; lf_old_writers := lf_old_writers s;
     lf_rx := lf_rx s; lf_wx := lf_wx s; lf_timer := lf_timer s; lf_due := lf_due s; lf_pc := lf_pc s; lf_started := lf_started s; lf_closed := lf_closed s;
     lf_fate := Some f |}.
Definition set_pc (c : cpc) (s : life) : life :=
  {| lf_conn := lf_conn s; lf_reader := lf_reader s; lf_old_readers := lf_old_readers s; lf_writer := lf_writer s; lf_old_writers := lf_old_writers s;
     lf_rx := lf_rx s; lf_wx := lf_wx s; lf_timer := lf_timer s; lf_due := lf_due s; lf_pc := c; lf_started := lf_started s; lf_closed := lf_closed s;
     lf_fate := lf_fate s |}.
Definition set_conn (b : bool) (s : life) : life :=
  {| lf_conn := b; lf_reader := lf_reader s; lf_old_readers := lf_old_readers s; lf_writer := lf_writer s; lf_old_writers := lf_old_writers s;
     lf_rx := lf_rx s; lf_wx := lf_wx s; lf_timer := lf_timer s; lf_due := lf_due s; lf_pc := lf_pc s; lf_started := lf_started s; lf_closed := lf_closed s;
     lf_fate := lf_fate s |}.
Definition set_timer (t : option timer) (s : life) : life :=
  {| lf_conn := lf_conn s; lf_reader := lf_reader s; lf_old_readers := lf_old_readers s; lf_writer := lf_writer s; lf_old_writers := lf_old_writers s;
     lf_rx := lf_rx s; lf_wx := lf_wx s; lf_timer := t; lf_due := lf_due s; lf_pc := lf_pc s; lf_started := lf_started s; lf_closed := lf_closed s;
     lf_fate := lf_fate s |}.
Definition set_due (b : bool) (s : life) : life :=
  {| lf_conn := lf_conn s; lf_reader := lf_reader s; lf_old_readers := lf_old_readers s; lf_writer := lf_writer s; lf_old_writers := lf_old_writers s;
     lf_rx := lf_rx s; lf_wx := lf_wx s; lf_timer := lf_timer s; lf_due := b; lf_pc := lf_pc s; lf_started := lf_started s; lf_closed := lf_closed s;
     lf_fate := lf_fate s |}.
Definition set_reader (r : option bool) (old : nat) (rx : bool) (s : life) : life :=
  {| lf_conn := lf_conn s; lf_reader := r; lf_old_readers := old; lf_writer := lf_writer s; lf_old_writers := lf_old_writers s;
     lf_rx := rx; lf_wx := lf_wx s; lf_timer := lf_timer s; lf_due := lf_due s; lf_pc := lf_pc s; lf_started := lf_started s; lf_closed := lf_closed s;
     lf_fate := lf_fate s |}.
Definition set_writer (w : option bool) (old : nat) (wx : bool) (s : life) : life :=
  {| lf_conn := lf_conn s; lf_reader := lf_reader s; lf_old_readers := lf_old_readers s; lf_writer := w; lf_old_writers := old;
     lf_rx := lf_rx s; lf_wx := wx; lf_timer := lf_timer s; lf_due := lf_due s; lf_pc := lf_pc s; lf_started := lf_started s; lf_closed := lf_closed s;
     lf_fate := lf_fate s |}.

(** cvTimeout.notify_all: only a thread that already waits hears it. *)
Definition notify (s : life) : life :=
  match lf_timer s with Some (TBlocked b) => set_timer (Some (TAwake b)) s | _ => s end.

(** Start, StdioTransport.cpp:1029-1037: move assignment to a joinable std::thread is std::terminate. writerExited
    is reset by the new thread, 877; readerExited never is. *)
Definition life_start (s : life) : life :=
  match lf_reader s, lf_writer s, lf_timer s with
  | None, None, None =>
      {| lf_conn := true; lf_reader := Some false; lf_old_readers := lf_old_readers s; lf_writer := Some false; lf_old_writers := lf_old_writers s;
         lf_rx := lf_rx s; lf_wx := false; lf_timer := Some TTop; lf_due := lf_due s; lf_pc := lf_pc s; lf_started := S (lf_started s); lf_closed := lf_closed s;
         lf_fate := lf_fate s |}
  | _, _, _ => set_fate Terminated s
  end.

(** The next step of Close or of the destructor. late: the 500 ms of a bounded wait are over.
    Close 1042 clears connected (in LClose below); CNotify 1044 and the wake event; CReader 1090-1107; CWriter 1108-1127;
    CTimer 1128-1130; CFail 1132-1145. Destructor: DReader 162-170, DTimer 171-174, DWriter the destructor of the
    member writerThread, which was never joined or detached. A join returns when the thread has ended.
    Simplification: the writer's new thread has reset writerExited (877) before Close looks at it; Close is not called from
    the reader or writer thread. *)
Definition close_step (late : bool) (s : life) : life :=
  match lf_pc s with
  | COut => s
  | CNotify => set_pc CReader (notify s)
  | CReader =>
      match lf_reader s with
      | None => set_pc CWriter s
      | Some ended =>
          if lf_rx s then if ended then set_pc CWriter (set_reader None (lf_old_readers s) (lf_rx s) s) else s
          else if late then set_pc CWriter (set_reader None (S (lf_old_readers s)) (lf_rx s) s) else s
      end
  | CWriter =>
      match lf_writer s with
      | None => set_pc CTimer s
      | Some ended =>
          if lf_wx s then if ended then set_pc CTimer (set_writer None (lf_old_writers s) (lf_wx s) s) else s
          else if late then set_pc CTimer (set_writer None (S (lf_old_writers s)) (lf_wx s) s) else s
      end
  | CTimer =>
      match lf_timer s with
      | None => set_pc CFail s
      | Some TEnded => set_pc CFail (set_timer None s)
      | Some _ => s
      end
  | CFail =>
      {| lf_conn := lf_conn s; lf_reader := lf_reader s; lf_old_readers := lf_old_readers s; lf_writer := lf_writer s; lf_old_writers := lf_old_writers s;
         lf_rx := lf_rx s; lf_wx := lf_wx s; lf_timer := lf_timer s; lf_due := false; lf_pc := COut; lf_started := lf_started s; lf_closed := S (lf_closed s);
         lf_fate := lf_fate s |}
  | DReader =>
      match lf_reader s with
      | None => set_pc DTimer s
      | Some ended =>
          if lf_rx s then if ended then set_pc DTimer (set_reader None (lf_old_readers s) (lf_rx s) (set_conn false s)) else set_conn false s
          else set_pc DTimer (set_reader None (S (lf_old_readers s)) (lf_rx s) (set_conn false s))
      end
  | DTimer =>
      match lf_timer s with
      | None => set_pc DWriter s
      | Some TEnded => set_pc DWriter (set_timer None s)
      | Some _ => set_conn false s
      end
  | DWriter => match lf_writer s with None => set_fate Freed s | Some _ => set_fate Terminated s end
  end.

(** One step of the timeout thread. *)
Definition timer_step (s : life) : life :=
  match lf_timer s with
  | Some TTop => if lf_conn s then set_timer (Some (TChecked (lf_due s))) s else set_timer (Some TEnded) s
  | Some (TChecked b) => set_timer (Some (TBlocked b)) s
  | Some (TAwake b) =>
      if lf_conn s then set_timer (Some (if b then TChecked true else if lf_due s then TTop else TChecked false)) s
      else set_timer (Some TEnded) s
  | Some TFire => if lf_conn s then set_timer (Some TTop) s else set_timer (Some TEnded) s
  | _ => s
  end.

(** LClose, LDestroy: the application calls. LStep: the call goes on. LReaderEnd, LWriterEnd: the thread ends, because
    connected is false, or the input ended or the output failed (693-695, 849-859, 912-923). LOldReader, LOldWriter: a detached one
    ends. LTimer; LTimeout: a deadline passes. LSend: SendRequest registers a deadline and notifies, 1180-1185 (requestMutex is taken, so not while the timeout thread holds it). LSwept: no deadline
    is left. Simplification: one application thread starts, closes and destroys. *)
Inductive lev := LStart | LClose | LDestroy | LStep (late : bool) | LReaderEnd | LWriterEnd | LOldReader | LOldWriter | LTimer | LTimeout | LSend | LSwept.

Definition reader_end (s : life) : life := set_conn false (set_reader (Some true) (lf_old_readers s) true s).
Definition writer_end (s : life) : life := set_conn false (set_writer (Some true) (lf_old_writers s) true s).

Definition life_step (s : life) (v : lev) : life :=
  match lf_fate s, v with
  | Some Freed, LOldReader => match lf_old_readers s with 0 => s | S _ => set_fate Corrupt s end
  | Some Freed, LOldWriter => match lf_old_writers s with 0 => s | S _ => set_fate Corrupt s end
  | Some _, _ => s
  | None, LStart => match lf_pc s with COut => life_start s | _ => s end
  | None, LClose => match lf_pc s with COut => set_pc CNotify (set_conn false s) | _ => s end
  | None, LDestroy => match lf_pc s with COut => set_pc DReader s | _ => s end
  | None, LStep late => close_step late s
  | None, LReaderEnd => match lf_reader s with Some false => reader_end s | _ => s end
  | None, LWriterEnd => match lf_writer s with Some false => writer_end s | _ => s end
  | None, LOldReader => match lf_old_readers s with 0 => s | S n => set_conn false (set_reader (lf_reader s) n true s) end
  | None, LOldWriter => match lf_old_writers s with 0 => s | S n => set_conn false (set_writer (lf_writer s) n true s) end
  | None, LTimer => timer_step s
  | None, LTimeout => match lf_timer s with Some (TBlocked true) => set_timer (Some TFire) s | _ => s end
  | None, LSend => match lf_timer s with Some (TChecked _) => s | _ => if lf_conn s then notify (set_due true s) else s end
  | None, LSwept => set_due false s
  end.
Definition life_run (s : life) (h : list lev) : life := fold_left life_step h s.
