(** Two processes connected by two pipes, each with a stdio transport. *)
From Coq Require Import Ascii String List Arith NArith ZArith Bool.
From Verif Require Import StrModel FramerModel DoubleModel JsonModel RpcModel RouterModel MapModel MemModel PendModel WqModel StdioModel.
Import ListNotations.
Local Open Scope nat_scope.

(** MaxContentLength, StdioTransport.cpp:92. *)
Definition max_content : N := 1048576.

(** How a transport is started: the clock, the request timeout and the cap of its write queue. *)
Record setup := { su_now : Z; su_timeout : N; su_cap : N }.

(** One process: the steps its transport has taken, how many bytes it has read from the other, its
    reader (FramerModel), and the messages of the last read that are not processed yet:
    drainFrames, StdioTransport.cpp:255-288, handles them one after another while other threads go on. *)
Record side := { sd_steps : list sev; sd_read : nat; sd_reader : reader; sd_inbox : list rx_event }.
Definition side0 : side := {| sd_steps := []; sd_read := 0; sd_reader := reader0; sd_inbox := [] |}.
Definition duo := bool -> side.
Definition duo0 : duo := fun _ => side0.

Definition peer (u : bool -> setup) (d : duo) (b : bool) : stdio :=
  stdio_run (stdio_start (su_now (u b)) (su_timeout (u b)) (su_cap (u b))) (sd_steps (d b)).

Definition put (b : bool) (x : side) (d : duo) : duo := fun c => if Bool.eqb b c then x else d c.

(** Steps:
    - DLocal b v: a step of the transport of b other than the handling of a message
    - DRead b n: b reads at most n of the bytes that the other side wrote and b has not read,
      StdioTransport.cpp:418-572, once all earlier messages are handled
    - DHandle b h: the next message is handed to processMessage, with the handlers then set; a frame
      that is too large disconnects, 271-278 *)
Inductive dev := DLocal (b : bool) (v : sev) | DRead (b : bool) (n : nat) | DHandle (b : bool) (h : handlers).

Definition local_step (v : sev) : bool := match v with SMessage _ _ => false | _ => true end.

Definition duo_step (u : bool -> setup) (d : duo) (e : dev) : duo :=
  match e with
  | DLocal b v =>
      let x := d b in
      if local_step v then
        put b {| sd_steps := sd_steps x ++ [v]; sd_read := sd_read x; sd_reader := sd_reader x; sd_inbox := sd_inbox x |} d
      else d
  | DRead b n =>
      let x := d b in
      match sd_inbox x with
      | [] =>
          if st_connected (peer u d b) then
            let chunk := firstn n (skipn (sd_read x) (w_wrote (st_wq (peer u d (negb b))))) in
            match on_read max_content (sd_reader x) chunk with
            | Some (evs, r) =>
                put b {| sd_steps := sd_steps x; sd_read := sd_read x + length chunk; sd_reader := r; sd_inbox := evs |} d
            | None => d
            end
          else d
      | _ => d
      end
  | DHandle b h =>
      let x := d b in
      match sd_inbox x with
      | [] => d
      | ev :: evs =>
          put b {| sd_steps := sd_steps x ++ match ev with
                                             | Delivered t => [SMessage h t]
                                             | SkippedHeader => []
                                             | TooLarge => [SDisconnect]
                                             end;
                   sd_read := sd_read x; sd_reader := sd_reader x; sd_inbox := evs |} d
      end
  end.

Definition duo_run (u : bool -> setup) (es : list dev) : duo := fold_left (duo_step u) es duo0.
