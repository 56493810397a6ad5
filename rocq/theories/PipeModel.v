(** The thread of the stdio transport that reads standard input, on Linux. *)
From Coq Require Import Ascii String List Arith NArith ZArith Bool.
From Verif Require Import StrModel FramerModel.
Import ListNotations.
Local Open Scope nat_scope.

(** What standard input is. This part is the kernel, not the code: a pipe whose writers are gone is
    reported with EPOLLHUP (POLLHUP), also while bytes remain in it; the end of a terminal's input is
    readable, and read() then returns 0; a regular file is refused by epoll_ctl with EPERM, and is
    always readable for poll(). *)
Inductive source := Pipe | Terminal | File.

(** The reader thread with its buffer (StdioTransport.cpp:669), lastReadTs 95, connected 57, errno as
    the thread last left it (true: a value other than 0, EAGAIN, EWOULDBLOCK and EINTR), the bytes that
    wait in the kernel, and what was handed to processMessage and to the error handler. Times are
    in milliseconds. *)
Record pipe := {
  pp_kind : source; pp_max : N; pp_idle : Z;
  pp_in : bstr; pp_open : bool;
  pp_alive : bool; pp_conn : bool; pp_buf : bstr; pp_last : Z; pp_errno : bool;
  pp_got : list bstr; pp_told : list bstr }.

(** Start and the first lines of the thread, StdioTransport.cpp:1029-1037, 667-691. Simplification: a
    framer limit or timeout is not changed while the thread runs, and F_SETFL succeeds. *)
Definition pp_start (k : source) (max : N) (idle now : Z) : pipe :=
  {| pp_kind := k; pp_max := max; pp_idle := idle; pp_in := []; pp_open := true; pp_alive := true; pp_conn := true;
     pp_buf := []; pp_last := now; pp_errno := false; pp_got := []; pp_told := [] |}.

(** How the wait of one turn ends: epoll_wait or poll fails with EINTR; it fails otherwise; it returns
    (drop: another thread has cleared connected by then). *)
Inductive waited := Interrupted | Broken | Waited (drop : bool).
(** How a read() of a readable input that holds bytes ends: with bytes, with EAGAIN or EINTR, with
    another error. *)
Inductive io := IoFine | IoSoft | IoHard.

(** One turn of the loop: whether epoll_create1 succeeds, the wait, the read and how many bytes it may
    return, the errno the handlers leave behind, the clock in drainFrames and at the idle check. *)
Record turn := { tn_epoll : bool; tn_wait : waited; tn_io : io; tn_size : nat; tn_left : bool; tn_read : Z; tn_now : Z }.

Definition tell (m : bstr) (p : pipe) : pipe :=
  {| pp_kind := pp_kind p; pp_max := pp_max p; pp_idle := pp_idle p; pp_in := pp_in p; pp_open := pp_open p;
     pp_alive := pp_alive p; pp_conn := pp_conn p; pp_buf := pp_buf p; pp_last := pp_last p; pp_errno := pp_errno p;
     pp_got := pp_got p; pp_told := pp_told p ++ [m] |}.

(** The thread leaves the loop, StdioTransport.cpp:693-695. *)
Definition leave (p : pipe) : pipe :=
  {| pp_kind := pp_kind p; pp_max := pp_max p; pp_idle := pp_idle p; pp_in := pp_in p; pp_open := pp_open p;
     pp_alive := false; pp_conn := false; pp_buf := pp_buf p; pp_last := pp_last p; pp_errno := pp_errno p;
     pp_got := pp_got p; pp_told := pp_told p |}.

Definition set_errno (e : bool) (p : pipe) : pipe :=
  {| pp_kind := pp_kind p; pp_max := pp_max p; pp_idle := pp_idle p; pp_in := pp_in p; pp_open := pp_open p;
     pp_alive := pp_alive p; pp_conn := pp_conn p; pp_buf := pp_buf p; pp_last := pp_last p; pp_errno := e;
     pp_got := pp_got p; pp_told := pp_told p |}.

(** The idle check at the end of a turn, StdioTransport.cpp:561-570. *)
Definition idle_check (t : turn) (p : pipe) : pipe :=
  if (Z.ltb 0 (pp_idle p) && Z.leb (pp_idle p) (tn_now t - pp_last p))%bool
  then leave (tell (bs "StdioTransport: idle read timeout") p) else p.

Definition messages (es : list rx_event) : list bstr := flat_map (fun e => match e with Delivered m => [m] | _ => [] end) es.
Definition reports (es : list rx_event) : list bstr :=
  flat_map (fun e => match e with TooLarge => [bs "StdioTransport: body too large"] | _ => [] end) es.

(** read() returned n > 0 bytes: append and drainFrames, StdioTransport.cpp:540-542, 558-560, 255-288. The
    handlers run inside drainFrames and may leave any errno. on_read never runs out of fuel
    (C04_reader_terminates). *)
Definition take_bytes (t : turn) (p : pipe) : pipe :=
  let n := Nat.min (Nat.max 1 (tn_size t)) 4096 in
  match on_read (pp_max p) {| rx_connected := pp_conn p; rx_buffer := pp_buf p |} (firstn n (pp_in p)) with
  | None => p
  | Some (es, r) =>
      {| pp_kind := pp_kind p; pp_max := pp_max p; pp_idle := pp_idle p; pp_in := skipn n (pp_in p); pp_open := pp_open p;
         pp_alive := pp_alive p; pp_conn := rx_connected r; pp_buf := rx_buffer r; pp_last := tn_read t;
         pp_errno := match messages es with [] => pp_errno p | _ => tn_left t end;
         pp_got := pp_got p ++ messages es; pp_told := pp_told p ++ reports es |}
  end.

(** n < 0 after the wait, StdioTransport.cpp:549-557: either read() failed or, as n starts as -1, nothing
    was read in this turn and errno is what some earlier call left. *)
Definition no_bytes (t : turn) (p : pipe) : pipe :=
  if pp_errno p then leave (tell (bs "StdioTransport: read error") p) else idle_check t p.

(** Whether the wait reports standard input, and with a hang-up flag. *)
Definition hung_up (p : pipe) : bool := match pp_kind p with Pipe => negb (pp_open p) | _ => false end.
Definition readable (epoll : bool) (p : pipe) : bool :=
  match pp_kind p with
  | File => negb epoll
  | _ => (negb (pp_open p) || match pp_in p with [] => false | _ => true end)%bool
  end.

(** readLoopLinux, StdioTransport.cpp:420-572, one turn. With epoll 426-482: a hang-up is told to the
    error handler and nothing is read, but the loop goes on, as woke without disconnection does
    not end it (479-481). Without epoll 483-538: the hang-up ends the loop; the errno of
    epoll_create1 is still there. Simplification: when connected was cleared during the wait, the
    turn does nothing with the input it may also have found; the wake event has no other effect; LOG_
    calls leave errno alone. *)
Definition pp_turn (t : turn) (p : pipe) : pipe :=
  if negb (pp_alive p) then p
  else if negb (pp_conn p) then leave p
  else
    match tn_wait t with
    | Interrupted => set_errno false p
    | Broken => leave (tell (if tn_epoll t then bs "StdioTransport: epoll_wait failed" else bs "StdioTransport: poll fallback failed") p)
    | Waited true => leave p
    | Waited false =>
        let p := if (negb (tn_epoll t) || match pp_kind p with File => true | _ => false end)%bool then set_errno true p else p in
        if hung_up p then
          if tn_epoll t then no_bytes t (tell (bs "StdioTransport: stdin closed") p)
          else leave (tell (bs "StdioTransport: stdin closed") p)
        else if readable (tn_epoll t) p then
          match pp_in p, tn_io t with
          | [], _ => leave (tell (bs "StdioTransport: EOF on stdin") p)
          | _, IoFine => idle_check t (take_bytes t p)
          | _, IoSoft => no_bytes t (set_errno false p)
          | _, IoHard => no_bytes t (set_errno true p)
          end
        else no_bytes t p
    end.

(** PWrite, PEnd: the other side writes, or is gone. PCut: another thread clears connected (Close, a failed
    write, a full queue). *)
Inductive pev := PWrite (b : bstr) | PEnd | PTurn (t : turn) | PCut.

Definition pp_step (p : pipe) (v : pev) : pipe :=
  match v with
  | PWrite b =>
      {| pp_kind := pp_kind p; pp_max := pp_max p; pp_idle := pp_idle p; pp_in := if pp_open p then pp_in p ++ b else pp_in p; pp_open := pp_open p;
         pp_alive := pp_alive p; pp_conn := pp_conn p; pp_buf := pp_buf p; pp_last := pp_last p; pp_errno := pp_errno p;
         pp_got := pp_got p; pp_told := pp_told p |}
  | PEnd =>
      {| pp_kind := pp_kind p; pp_max := pp_max p; pp_idle := pp_idle p; pp_in := pp_in p; pp_open := false;
         pp_alive := pp_alive p; pp_conn := pp_conn p; pp_buf := pp_buf p; pp_last := pp_last p; pp_errno := pp_errno p;
         pp_got := pp_got p; pp_told := pp_told p |}
  | PTurn t => pp_turn t p
  | PCut =>
      {| pp_kind := pp_kind p; pp_max := pp_max p; pp_idle := pp_idle p; pp_in := pp_in p; pp_open := pp_open p;
         pp_alive := pp_alive p; pp_conn := false; pp_buf := pp_buf p; pp_last := pp_last p; pp_errno := pp_errno p;
         pp_got := pp_got p; pp_told := pp_told p |}
  end.
Definition pp_run (p : pipe) (h : list pev) : pipe := fold_left pp_step h p.
