(** Severities, choices of the client, and the pace of messages. *)
From Coq Require Import Ascii String List Arith NArith ZArith Bool.
From Verif Require Import StrModel DoubleModel JsonModel RpcModel MapModel TaskModel LogModel.
Import ListNotations.
Local Open Scope nat_scope.

(** The protocol's levels, least severe first (RFC 5424). *)
Definition LEVELS : list bstr :=
  [bs "debug"; bs "info"; bs "notice"; bs "warning"; bs "error"; bs "critical"; bs "alert"; bs "emergency"].
Definition at_rank (name : bstr) (r : nat) : Prop := nth_error LEVELS r = Some name.

(** The levels on which messages and thresholds agree. *)
Definition plain (name : bstr) : Prop := In name [bs "debug"; bs "info"; bs "warning"; bs "error"].

(** A setLevel request for a level, and one that asks for no level of the protocol. *)
Definition asks_level (params : option json) (name : bstr) : Prop :=
  exists o, params = Some (JObj o) /\ obj_get (bs "level") o = Some (JStr name).
Definition no_choice (a : log_act) : Prop :=
  match a with GSetLevel p => forall name r, at_rank name r -> ~ (exists s, asks_level p s /\ lower s = name) | _ => True end.

(** The last choice in a history; it begins as debug. *)
Definition last_choice (hist : list log_act) (name : bstr) : Prop :=
  (name = bs "debug" /\ Forall no_choice hist) \/
  (exists before p s after, hist = before ++ GSetLevel p :: after /\ asks_level p s /\ lower s = name /\ Forall no_choice after).

(** What was sent, and when. *)
Definition sent_times (out : list (nat * outcome)) : list Z :=
  flat_map (fun e => match snd e with Sent t _ => [t] | _ => [] end) out.

(** Times in windows of one second, latest window first: each window is its start and the times
    in it. *)
Fixpoint paced (n : N) (ws : list (Z * list Z)) : Prop :=
  match ws with
  | [] => True
  | (st, w) :: r =>
      (N.of_nat (length w) <= n)%N /\ Forall (fun t => (st <= t < st + SECOND)%Z) w /\
      (match r with (st', _) :: _ => (st' + SECOND <= st)%Z | [] => True end) /\ paced n r
  end.

(** How many of the times lie in a stretch of one second. *)
Definition in_second (a : Z) (l : list Z) : nat := length (filter (fun t => (Z.leb a t && Z.ltb t (a + SECOND))%bool) l).

(** The rate limit is left alone. *)
Definition keeps_limit (a : log_act) : Prop := match a with GLimit _ | GReset => False | _ => True end.

(** The names a message may be given by the server's author, in any case, with the level of the
    protocol it is sent with; any other name counts as debug. *)
Definition MESSAGE_NAMES : list (bstr * bstr) :=
  [(bs "debug", bs "debug"); (bs "info", bs "info"); (bs "warn", bs "warning"); (bs "warning", bs "warning");
   (bs "error", bs "error"); (bs "fatal", bs "critical")].
Definition sent_as (name level : bstr) : Prop :=
  In (lower name, level) MESSAGE_NAMES \/ (~ In (lower name) (map fst MESSAGE_NAMES) /\ level = bs "debug").
