(** Keepalive: the settings, what is advertised, and the loop. *)
From Coq Require Import Ascii String List Arith NArith ZArith Bool.
From Verif Require Import StrModel DoubleModel JsonModel MapModel TaskModel.
Import ListNotations.
Local Open Scope nat_scope.

(** keepaliveThread: none that can be joined; running; ended but not joined. *)
Inductive thread := NoThread | Running | Ended.

(** keepaliveIntervalMs, keepaliveThread, keepaliveConsecutiveFailures, keepaliveFailureThreshold,
    keepaliveSendFailed (src/mcp/Server.cpp:194-200); whether the loop is between 3102 and 3117;
    the advertised interval and threshold; how many pings were sent and how often the loop closed
    the transport. *)
Record keep := {
  kp_interval : Z; kp_thread : thread; kp_fails : N; kp_thr : N; kp_flag : bool; kp_sending : bool;
  kp_adv : option (Z * N); kp_pings : nat; kp_closes : nat
}.
Definition keep0 : keep :=
  {| kp_interval := -1; kp_thread := NoThread; kp_fails := 0; kp_thr := 3; kp_flag := false; kp_sending := false;
     kp_adv := None; kp_pings := 0; kp_closes := 0 |}.

Definition MAX32 : N := (2 ^ 32 - 1)%N.

(** The events.
    - KInterval: SetKeepaliveIntervalMs, Server.cpp:3047-3138; None and values not above 0 disable.
      Disabling waits for the thread, which leaves its loop at the next test.
    - KThreshold: SetKeepaliveFailureThreshold, 3140-3156.
    - KStop: coStop up to the end of the keepalive thread, 1921-1931.
    - KError: the transport's error handler, 1520-1531.
    - KSend: an iteration that finds a connection: 3101-3107, up to handing over the notification.
    - KThrow: SendNotification threw, 3108-3115.
    - KCheck: 3116-3136. Iterations without a connection do nothing and are left out. *)
Inductive kev := KInterval (ms : option Z) | KThreshold (t : option N) | KStop | KError | KSend | KThrow | KCheck.

Definition keep_step (s : keep) (e : kev) : keep :=
  match e with
  | KInterval ms =>
      let ms := match ms with Some z => z | None => (-1)%Z end in
      if Z.leb ms 0 then
        {| kp_interval := -1; kp_thread := NoThread; kp_fails := kp_fails s; kp_thr := kp_thr s; kp_flag := kp_flag s;
           kp_sending := false; kp_adv := None; kp_pings := kp_pings s; kp_closes := kp_closes s |}
      else
        {| kp_interval := ms; kp_thread := match kp_thread s with NoThread => Running | t => t end;
           kp_fails := kp_fails s; kp_thr := kp_thr s; kp_flag := kp_flag s; kp_sending := kp_sending s;
           kp_adv := Some (ms, kp_thr s); kp_pings := kp_pings s; kp_closes := kp_closes s |}
  | KThreshold t =>
      let t := match t with Some n => n | None => kp_thr s end in
      let t := if N.ltb t 1 then 1%N else t in
      {| kp_interval := kp_interval s; kp_thread := kp_thread s; kp_fails := kp_fails s; kp_thr := t; kp_flag := kp_flag s;
         kp_sending := kp_sending s; kp_adv := if Z.ltb 0 (kp_interval s) then Some (kp_interval s, t) else kp_adv s;
         kp_pings := kp_pings s; kp_closes := kp_closes s |}
  | KStop =>
      {| kp_interval := kp_interval s; kp_thread := NoThread; kp_fails := kp_fails s; kp_thr := kp_thr s; kp_flag := kp_flag s;
         kp_sending := false; kp_adv := kp_adv s; kp_pings := kp_pings s; kp_closes := kp_closes s |}
  | KError =>
      {| kp_interval := kp_interval s; kp_thread := kp_thread s; kp_fails := kp_fails s; kp_thr := kp_thr s; kp_flag := true;
         kp_sending := kp_sending s; kp_adv := kp_adv s; kp_pings := kp_pings s; kp_closes := kp_closes s |}
  | KSend =>
      match kp_thread s, kp_sending s with
      | Running, false =>
          {| kp_interval := kp_interval s; kp_thread := kp_thread s; kp_fails := kp_fails s; kp_thr := kp_thr s; kp_flag := false;
             kp_sending := true; kp_adv := kp_adv s; kp_pings := S (kp_pings s); kp_closes := kp_closes s |}
      | _, _ => s
      end
  | KThrow =>
      if kp_sending s then
        {| kp_interval := kp_interval s; kp_thread := kp_thread s; kp_fails := kp_fails s; kp_thr := kp_thr s; kp_flag := true;
           kp_sending := true; kp_adv := kp_adv s; kp_pings := kp_pings s; kp_closes := kp_closes s |}
      else s
  | KCheck =>
      if kp_sending s then
        if kp_flag s then
          let next := if N.eqb (kp_fails s) MAX32 then kp_fails s else (kp_fails s + 1)%N in
          if N.leb (kp_thr s) next then
            {| kp_interval := kp_interval s; kp_thread := Ended; kp_fails := next; kp_thr := kp_thr s; kp_flag := kp_flag s;
               kp_sending := false; kp_adv := kp_adv s; kp_pings := kp_pings s; kp_closes := S (kp_closes s) |}
          else
            {| kp_interval := kp_interval s; kp_thread := kp_thread s; kp_fails := next; kp_thr := kp_thr s; kp_flag := kp_flag s;
               kp_sending := false; kp_adv := kp_adv s; kp_pings := kp_pings s; kp_closes := kp_closes s |}
        else
          {| kp_interval := kp_interval s; kp_thread := kp_thread s; kp_fails := 0; kp_thr := kp_thr s; kp_flag := kp_flag s;
             kp_sending := false; kp_adv := kp_adv s; kp_pings := kp_pings s; kp_closes := kp_closes s |}
      else s
  end.
Definition keep_run (s : keep) (l : list kev) : keep := fold_left keep_step l s.
