(** The stdio transport's outgoing queue and writer thread (POSIX build). *)
From Coq Require Import Ascii String List Arith NArith ZArith Bool.
From Verif Require Import StrModel FramerModel.
Import ListNotations.
Local Open Scope nat_scope.

(** Where the writer thread is, StdioTransport.cpp:889-921: at the head of while(connected);
    inside dequeueNextFrame; inside the inner loop with a frame of which [total] bytes are
    written; finished. *)
Inductive writer :=
| WTop
| WWait
| WFrame (frame : bstr) (total : nat)
| WExit.

(** Impl's members, StdioTransport.cpp:58, 95-97. The last three fields are observations:
    the bytes handed to the operating system, the frames enqueueFrame accepted and the
    calls of the error handler. *)
Record wq := {
  w_connected : bool;
  w_max : N;
  w_queue : list bstr;
  w_bytes : N;
  w_writer : writer;
  w_wrote : bstr;
  w_accepted : list bstr;
  w_errors : list bstr
}.

(** After Start (1042-1050) with the given cap: SetWriteQueueMaxBytes 1234-1240 turns 0 into 1. *)
Definition wq_start (max : N) : wq :=
  {| w_connected := true; w_max := if N.eqb max 0 then 1%N else max; w_queue := []; w_bytes := 0;
     w_writer := WTop; w_wrote := []; w_accepted := []; w_errors := [] |}.

Definition size (s : bstr) : N := N.of_nat (length s).

Definition wq_disconnect (s : wq) : wq :=
  {| w_connected := false; w_max := w_max s; w_queue := w_queue s; w_bytes := w_bytes s;
     w_writer := w_writer s; w_wrote := w_wrote s; w_accepted := w_accepted s; w_errors := w_errors s |}.

(** enqueueFrame, StdioTransport.cpp:202-249. Simplification: queuedBytes + frame.size() does
    not wrap (both are sizes of objects in memory). *)
Definition enqueue (payload : bstr) (s : wq) : bool * wq :=
  let frame := encode payload in
  if N.ltb (w_max s) (w_bytes s + size frame) then
    (false,
     {| w_connected := false; w_max := w_max s; w_queue := w_queue s; w_bytes := w_bytes s;
        w_writer := w_writer s; w_wrote := w_wrote s; w_accepted := w_accepted s;
        w_errors := w_errors s ++ [bs "StdioTransport: write queue overflow"] |})
  else
    (true,
     {| w_connected := w_connected s; w_max := w_max s; w_queue := w_queue s ++ [frame];
        w_bytes := w_bytes s + size frame; w_writer := w_writer s; w_wrote := w_wrote s;
        w_accepted := w_accepted s ++ [frame]; w_errors := w_errors s |}).

(** accountWritten, StdioTransport.cpp:715-722. *)
Definition account (bytes n : N) : N := if N.leb n bytes then bytes - n else 0.

(** Steps of the writer thread. What write, poll and the clock return is in the event:
    - WLoop: the test of while(connected), 902
    - WPop: dequeueNextFrame, 700-713 with the test for an empty frame 907
    - WPut n: write accepted n bytes, 827-830 (an attempt that accepts nothing, EAGAIN,
      EINTR or 0 changes nothing, 831-864). The transport may have been disconnected between
      the loop test and the write, so connected is not required
    - WFail msg: a timeout or a fatal error of write or poll, 837-842, 848-853, 865-870, 912-918
    - WEnd: the inner loop ends and accountWritten runs, 909, 920 *)
Inductive wev := WLoop | WPop | WPut (n : nat) | WFail (msg : bstr) | WEnd.

Definition set_writer (x : writer) (s : wq) : wq :=
  {| w_connected := w_connected s; w_max := w_max s; w_queue := w_queue s; w_bytes := w_bytes s;
     w_writer := x; w_wrote := w_wrote s; w_accepted := w_accepted s; w_errors := w_errors s |}.

Definition wq_step (s : wq) (v : wev) : wq :=
  match v, w_writer s with
  | WLoop, WTop => set_writer (if w_connected s then WWait else WExit) s
  | WPop, WWait =>
      match w_queue s with
      | [] => if w_connected s then s else set_writer WExit s
      | f :: q =>
          {| w_connected := w_connected s; w_max := w_max s; w_queue := q; w_bytes := w_bytes s;
             w_writer := match f with [] => WTop | _ => WFrame f 0 end;
             w_wrote := w_wrote s; w_accepted := w_accepted s; w_errors := w_errors s |}
      end
  | WPut n, WFrame f t =>
      if (Nat.ltb 0 n && Nat.leb (t + n) (length f))%bool then
        {| w_connected := w_connected s; w_max := w_max s; w_queue := w_queue s; w_bytes := w_bytes s;
           w_writer := WFrame f (t + n); w_wrote := w_wrote s ++ firstn n (skipn t f);
           w_accepted := w_accepted s; w_errors := w_errors s |}
      else s
  | WFail msg, WFrame f t =>
      if Nat.ltb t (length f) then
        {| w_connected := false; w_max := w_max s; w_queue := w_queue s; w_bytes := w_bytes s;
           w_writer := WFrame f t; w_wrote := w_wrote s; w_accepted := w_accepted s;
           w_errors := w_errors s ++ [msg] |}
      else s
  | WEnd, WFrame f t =>
      if (negb (w_connected s) || Nat.leb (length f) t)%bool then
        {| w_connected := w_connected s; w_max := w_max s; w_queue := w_queue s;
           w_bytes := account (w_bytes s) (size f);
           w_writer := WTop; w_wrote := w_wrote s; w_accepted := w_accepted s; w_errors := w_errors s |}
      else s
  | _, _ => s
  end.
