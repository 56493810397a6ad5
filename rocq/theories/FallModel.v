(** The connections of an HTTP server: what each goes through, what fails and what is reported. *)
From Coq Require Import Ascii String List Arith Bool.
From Verif Require Import StrModel.
Import ListNotations.
Local Open Scope nat_scope.

(** The error codes that isBenignDisconnect names, HTTPServer.cpp:397-404, and all others. *)
Inductive code := CEof | CReset | CPipe | CAborted | CEndOfStream | CTruncated | COther (n : nat).
Definition benign (c : code) : bool := match c with COther _ => false | _ => true end.

(** How an operation ends: normally, with a boost::system::system_error, with another
    std::exception, with an exception of another type. what: e.what(). *)
Inductive res := Fine | Sys (c : code) (what : bstr) | Std (what : bstr) | Alien.

(** What a request asks for, 413-436 and 516-538: an event stream, an event stream that is
    refused, anything else. *)
Inductive asked := AOther | ARefused | AStream.

(** Where a connection is. In its coroutine, 406-507 and 508-611: the TLS handshake (511), reading
    the request (412, 515), computing the response (480, 584), writing it (481, 585), writing a refusal
    (422, 429, 433; 525, 532, 536), starting the thread of a stream (439, 542), in the synchronous TLS shutdown
    (586). In the thread of its stream, 439-478 and 542-581: writing the header (447, 550), waiting
    (449-463), writing an event (466, 569), in the TLS shutdown of the thread (580). Over. *)
Inductive pc := PShake | PRead | PMake | PReply | PRefuse | PHand | PShut | PHeader | PWait | PEvent | PHang | PEnd.

(** c_told: what the error handler was told of this connection. *)
Record conn := { c_pc : pc; c_told : list bstr }.

(** The settings: the scheme, and the error handler: none, one that returns, one that throws (59, 122-124). *)
Record settings := { s_tls : bool; s_eh : option bool }.

(** f_io: the connection in whose synchronous shutdown the only i/o thread is. f_run: running.
    f_halted: the io_context was stopped, 1074. f_dead: std::terminate. *)
Record fall := { f_conns : list conn; f_io : option nat; f_run : bool; f_halted : bool; f_dead : bool }.
Definition fall0 : fall := {| f_conns := []; f_io := None; f_run := true; f_halted := false; f_dead := false |}.

Definition at_pc (p : pc) (c : conn) : conn := {| c_pc := p; c_told := c_told c |}.
Definition tell (st : settings) (text : bstr) (c : conn) : conn :=
  match s_eh st with None => c | Some _ => {| c_pc := c_pc c; c_told := c_told c ++ [text] |} end.
Definition eh_throws (st : settings) : bool := match s_eh st with Some true => true | _ => false end.

(** What setError is given, 494 and 503, 597 and 606; 470 and 473, 574 and 577. *)
Definition session_text (st : settings) (what : bstr) : bstr :=
  (if s_tls st then bs "HTTPServer TLS session error: " else bs "HTTPServer plain session error: ") ++ what.
Definition stream_text (st : settings) (what : bstr) : bstr :=
  (if s_tls st then bs "HTTPServer SSE TLS session error: " else bs "HTTPServer SSE plain session error: ") ++ what.

(** The catch clauses of the coroutines, 486-505 and 589-608. What the handler throws, and an
    exception of another type, ends the coroutine and is dropped: net::detached, 994 and 996. *)
Definition session_fails (st : settings) (run : bool) (r : res) (c : conn) : conn :=
  match r with
  | Fine | Alien => at_pc PEnd c
  | Sys k what => at_pc PEnd (if (negb run || benign k)%bool then c else tell st (session_text st what) c)
  | Std what => at_pc PEnd (if negb run then c else tell st (session_text st what) c)
  end.

(** The end of a stream's thread, 475-477 and 579-580: the plain one does not wait, the TLS one does. *)
Definition stream_closes (st : settings) (c : conn) : conn := at_pc (if s_tls st then PHang else PEnd) c.

(** The catch clauses of the threads, 468-474 and 572-578. What leaves the thread ends the program. *)
Definition stream_fails (st : settings) (run : bool) (r : res) (c : conn) : conn * bool :=
  match r with
  | Fine => (stream_closes st c, false)
  | Alien => (c, true)
  | Sys k what =>
      if (run && negb (benign k))%bool
      then if eh_throws st then (tell st (stream_text st what) c, true) else (stream_closes st (tell st (stream_text st what) c), false)
      else (stream_closes st c, false)
  | Std what => if eh_throws st then (tell st (stream_text st what) c, true) else (stream_closes st (tell st (stream_text st what) c), false)
  end.

(** FOpen: a connection is accepted, 990-997. FDone i r a: what connection i is at ends with r; a: what was asked for,
    if it was at reading. FMsg i: its stream has an event to write, 451-463. FQuit i: the stream finds its session closed
    or the server stopped, 449 and 455. FShut i: the peer answers the TLS shutdown of i, or that connection breaks. FDown, FHalt: Stop
    up to 1051 and up to 1074.
    Simplifications: exceptions outside the operations named (the allocation of buffers, findSession) are among those of the operation
    before; the reading of the request, its handling and its answer are those of HttpModel and WebModel; the thread that computes the
    response (937-940) does not need the i/o thread, its end is noticed there. *)
Inductive fev := FOpen | FDone (i : nat) (r : res) (a : asked) | FMsg (i : nat) | FQuit (i : nat) | FShut (i : nat) | FDown | FHalt.

Fixpoint put (i : nat) (c : conn) (l : list conn) : list conn :=
  match l, i with [], _ => [] | _ :: l, 0 => c :: l | d :: l, S i => d :: put i c l end.
Definition set_conn (i : nat) (c : conn) (s : fall) : fall :=
  {| f_conns := put i c (f_conns s); f_io := f_io s; f_run := f_run s; f_halted := f_halted s; f_dead := f_dead s |}.
Definition set_io (o : option nat) (s : fall) : fall :=
  {| f_conns := f_conns s; f_io := o; f_run := f_run s; f_halted := f_halted s; f_dead := f_dead s |}.
Definition set_dead (b : bool) (s : fall) : fall :=
  {| f_conns := f_conns s; f_io := f_io s; f_run := f_run s; f_halted := f_halted s; f_dead := b |}.

(** The i/o thread turns to the next completed operation. *)
Definition turns (s : fall) : bool := (match f_io s with None => true | Some _ => false end && negb (f_halted s))%bool.

(** A coroutine goes on after an operation that ended normally: 406-485, 508-588. *)
Definition session_next (st : settings) (a : asked) (p : pc) : pc :=
  match p with
  | PShake => PRead
  | PRead => match a with AOther => PMake | ARefused => PRefuse | AStream => PHand end
  | PMake => PReply
  | PReply | PRefuse => if s_tls st then PShut else PEnd
  | PHand => PHeader
  | p => p
  end.

Definition fall_step (st : settings) (s : fall) (v : fev) : fall :=
  if f_dead s then s else
  match v with
  | FOpen =>
      if (turns s && f_run s)%bool
      then {| f_conns := f_conns s ++ [{| c_pc := if s_tls st then PShake else PRead; c_told := [] |}];
              f_io := f_io s; f_run := f_run s; f_halted := f_halted s; f_dead := f_dead s |}
      else s
  | FDone i r a =>
      match nth_error (f_conns s) i with
      | None => s
      | Some c =>
          match c_pc c with
          | PShake | PRead | PMake | PReply | PRefuse | PHand =>
              if turns s then
                match r with
                | Fine => let p := session_next st a (c_pc c) in
                          let s := set_conn i (at_pc p c) s in
                          match p with PShut => set_io (Some i) s | _ => s end
                | _ => set_conn i (session_fails st (f_run s) r c) s
                end
              else s
          | PHeader | PEvent =>
              match r with
              | Fine => set_conn i (at_pc PWait c) s
              | _ => let '(c, dead) := stream_fails st (f_run s) r c in set_dead dead (set_conn i c s)
              end
          | PShut | PWait | PHang | PEnd => s
          end
      end
  | FMsg i =>
      match nth_error (f_conns s) i with
      | Some c => match c_pc c with PWait => if f_run s then set_conn i (at_pc PEvent c) s else s | _ => s end
      | None => s
      end
  | FQuit i =>
      match nth_error (f_conns s) i with
      | Some c => match c_pc c with PWait => set_conn i (stream_closes st c) s | _ => s end
      | None => s
      end
  | FShut i =>
      match nth_error (f_conns s) i with
      | Some c => match c_pc c with
                  | PShut => set_io None (set_conn i (at_pc PEnd c) s)
                  | PHang => set_conn i (at_pc PEnd c) s
                  | _ => s
                  end
      | None => s
      end
  | FDown => {| f_conns := f_conns s; f_io := f_io s; f_run := false; f_halted := f_halted s; f_dead := f_dead s |}
  | FHalt => if f_run s then s else {| f_conns := f_conns s; f_io := f_io s; f_run := f_run s; f_halted := true; f_dead := f_dead s |}
  end.
Definition fall_run (st : settings) (evs : list fev) : fall := fold_left (fall_step st) evs fall0.
