(** Log messages to the client: level filter and rate limit. *)
From Coq Require Import Ascii String List Arith NArith ZArith Bool.
From Verif Require Import StrModel DoubleModel JsonModel RpcModel MapModel TaskModel.
Import ListNotations.
Local Open Scope nat_scope.

(** Logger::Level, include/logging/Logger.h:61-67. *)
Inductive level := LDebug | LInfo | LWarn | LError | LFatal.
Definition lv (l : level) : nat := match l with LDebug => 0 | LInfo => 1 | LWarn => 2 | LError => 3 | LFatal => 4 end.

(** toupper in the C locale. *)
Definition upper (c : ascii) : ascii :=
  let n := code c in if (N.leb 97 n && N.leb n 122)%bool then ascii_of_N (n - 32) else c.

(** Logger::levelFromString, Logger.h:70-79. *)
Definition level_of (s : bstr) : level :=
  let s := map upper s in
  if beq s (bs "DEBUG") then LDebug
  else if beq s (bs "INFO") then LInfo
  else if (beq s (bs "WARN") || beq s (bs "WARNING"))%bool then LWarn
  else if beq s (bs "ERROR") then LError
  else if beq s (bs "FATAL") then LFatal
  else LDebug.

(** The level names understood by logging/setLevel, src/mcp/Server.cpp:2307-2323. *)
Definition threshold_of (s : bstr) : option level :=
  let s := lower s in
  if beq s (bs "debug") then Some LDebug
  else if (beq s (bs "info") || beq s (bs "notice"))%bool then Some LInfo
  else if beq s (bs "warning") then Some LWarn
  else if (beq s (bs "error") || beq s (bs "critical") || beq s (bs "alert") || beq s (bs "emergency"))%bool then Some LError
  else None.

(** handleSetLogLevel, Server.cpp:2294-2329: the answer and the new threshold. *)
Definition set_level (params : option json) : (Z * bstr) + level :=
  match params with
  | Some (JObj o) =>
      match obj_get (bs "level") o with
      | Some (JStr s) => match threshold_of s with Some l => inr l | None => inl ((-32602)%Z, bs "Unknown logging level") end
      | _ => inl ((-32602)%Z, bs "Missing or invalid 'level'")
      end
  | _ => inl ((-32602)%Z, bs "Invalid params")
  end.

(** The level filter of coLogToClient, Server.cpp:2241-2248: true means suppressed. *)
Definition suppressed (sev min : level) : bool :=
  (Nat.ltb (lv sev) (lv min) && negb (match sev with LError | LFatal => true | _ => false end))%bool.

(** The name sent, Server.cpp:2268-2276. *)
Definition spec_level (sev : level) : bstr :=
  match sev with LDebug => bs "debug" | LInfo => bs "info" | LWarn => bs "warning" | LError => bs "error" | LFatal => bs "critical" end.

(** The parameters of the notification, Server.cpp:2265-2283. *)
Definition log_payload (sev : level) (message : bstr) (data : option json) : json :=
  JObj (obj_set (bs "data") (match data with Some d => d | None => JStr message end) (obj_set (bs "level") (JStr (spec_level sev)) [])).

(** What became of a call. *)
Inductive outcome := Sent (time : Z) (payload : json) | Suppressed | Throttled.

(** Calls in progress: past the level filter; and past reading the limit. *)
Inductive stage := Passed (payload : json) | Limited (payload : json) (limit : N).

(** clientLogMin, logRateLimitPerSec, logWindowStart, logWindowCount, Server.cpp:205-211; the
    steady clock in nanoseconds; the calls in progress, by number; the outcomes; the next number. *)
Record logger := {
  lg_min : level; lg_limit : N; lg_start : Z; lg_count : N; lg_now : Z;
  lg_calls : list (nat * stage); lg_out : list (nat * outcome); lg_next : nat
}.
Definition logger0 (now : Z) : logger :=
  {| lg_min := LDebug; lg_limit := 0; lg_start := 0; lg_count := 0; lg_now := now; lg_calls := []; lg_out := []; lg_next := 0 |}.

Definition SECOND : Z := 1000000000%Z.

(** The atomic actions of the threads.
    - GTime: time passes.
    - GSetLevel: a logging/setLevel request.
    - GLimit, GReset: the two halves of SetLoggingRateLimitPerSecond, Server.cpp:3158-3185: the
      store, and the reset of the window under logRateMutex. perSecond is a 32-bit unsigned.
    - GCall: coLogToClient up to and including the level filter, 2239-2248.
    - GLoad: call number i reads the limit, 2251, and sends if it is zero.
    - GEnter: call number i runs the block under logRateMutex, 2253-2262, and sends if it is let
      through. The message is handed to the transport right after; its outcome is recorded here
      with the time read inside the block. *)
Inductive log_act :=
| GTime (d : N) | GSetLevel (params : option json) | GLimit (n : N) | GReset
| GCall (name message : bstr) (data : option json) | GLoad (i : nat) | GEnter (i : nat).

Definition with_calls (calls : list (nat * stage)) (out : list (nat * outcome)) (s : logger) : logger :=
  {| lg_min := lg_min s; lg_limit := lg_limit s; lg_start := lg_start s; lg_count := lg_count s; lg_now := lg_now s;
     lg_calls := calls; lg_out := out; lg_next := lg_next s |}.

Fixpoint find_call (i : nat) (l : list (nat * stage)) : option stage :=
  match l with [] => None | (j, x) :: r => if Nat.eqb i j then Some x else find_call i r end.
Definition drop_call (i : nat) (l : list (nat * stage)) : list (nat * stage) := filter (fun e => negb (Nat.eqb i (fst e))) l.

Definition log_step (s : logger) (a : log_act) : logger :=
  match a with
  | GTime d =>
      {| lg_min := lg_min s; lg_limit := lg_limit s; lg_start := lg_start s; lg_count := lg_count s;
         lg_now := lg_now s + Z.of_N d; lg_calls := lg_calls s; lg_out := lg_out s; lg_next := lg_next s |}
  | GSetLevel p =>
      {| lg_min := match set_level p with inr l => l | inl _ => lg_min s end;
         lg_limit := lg_limit s; lg_start := lg_start s; lg_count := lg_count s; lg_now := lg_now s;
         lg_calls := lg_calls s; lg_out := lg_out s; lg_next := lg_next s |}
  | GLimit n =>
      {| lg_min := lg_min s; lg_limit := n; lg_start := lg_start s; lg_count := lg_count s; lg_now := lg_now s;
         lg_calls := lg_calls s; lg_out := lg_out s; lg_next := lg_next s |}
  | GReset =>
      {| lg_min := lg_min s; lg_limit := lg_limit s; lg_start := lg_now s; lg_count := 0; lg_now := lg_now s;
         lg_calls := lg_calls s; lg_out := lg_out s; lg_next := lg_next s |}
  | GCall name message data =>
      let sev := level_of name in
      let i := lg_next s in
      if suppressed sev (lg_min s) then
        {| lg_min := lg_min s; lg_limit := lg_limit s; lg_start := lg_start s; lg_count := lg_count s; lg_now := lg_now s;
           lg_calls := lg_calls s; lg_out := lg_out s ++ [(i, Suppressed)]; lg_next := S i |}
      else
        {| lg_min := lg_min s; lg_limit := lg_limit s; lg_start := lg_start s; lg_count := lg_count s; lg_now := lg_now s;
           lg_calls := lg_calls s ++ [(i, Passed (log_payload sev message data))]; lg_out := lg_out s; lg_next := S i |}
  | GLoad i =>
      match find_call i (lg_calls s) with
      | Some (Passed p) =>
          if N.eqb (lg_limit s) 0 then with_calls (drop_call i (lg_calls s)) (lg_out s ++ [(i, Sent (lg_now s) p)]) s
          else with_calls (drop_call i (lg_calls s) ++ [(i, Limited p (lg_limit s))]) (lg_out s) s
      | _ => s
      end
  | GEnter i =>
      match find_call i (lg_calls s) with
      | Some (Limited p limit) =>
          let fresh := Z.leb SECOND (lg_now s - lg_start s) in
          let start := if fresh then lg_now s else lg_start s in
          let count := if fresh then 0%N else lg_count s in
          let throttled := N.leb limit count in
          {| lg_min := lg_min s; lg_limit := lg_limit s; lg_start := start;
             lg_count := if throttled then count else N.modulo (count + 1) (2 ^ 32); lg_now := lg_now s;
             lg_calls := drop_call i (lg_calls s);
             lg_out := lg_out s ++ [(i, if throttled then Throttled else Sent (lg_now s) p)]; lg_next := lg_next s |}
      | _ => s
      end
  end.
Definition log_run (s : logger) (l : list log_act) : logger := fold_left log_step l s.

(** One call from beginning to end, on its own. *)
Definition log_call (name message : bstr) (data : option json) (s : logger) : logger :=
  let i := lg_next s in log_run s [GCall name message data; GLoad i; GEnter i].
(** SetLoggingRateLimitPerSecond on its own. *)
Definition set_limit (n : N) (s : logger) : logger := log_run s [GLimit n; GReset].
