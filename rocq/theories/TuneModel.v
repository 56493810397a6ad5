(** What a client chose to be sent, and what it is then sent: its requests for subscriptions and the log level, the notifications they
    govern, and the messages between the two in their order. *)
From Coq Require Import Ascii String List Arith NArith ZArith Bool.
From Verif Require Import StrModel DoubleModel JsonModel RpcModel MapModel TaskModel SubModel LogModel FreshModel.
Import ListNotations.
Local Open Scope nat_scope.

(** The requests that choose (with their parameters) and the calls of the server's application that notify. *)
Inductive ask := ASub (params : option json) | AUnsub (params : option json) | ALevel (params : option json).
Inductive tell := TUpdated (uri : bstr) | TLog (level : bstr).

(** What is chosen: resourcesSubscribed and subscribedUris (src/mcp/Server.cpp:188-189) and clientLogMin (205). *)
Record choice := { ch_subs : subs; ch_min : level }.
Definition choice0 : choice := {| ch_subs := subs0; ch_min := LDebug |}.

(** handleSubscribeRequest, handleUnsubscribeRequest, handleSetLogLevel, Server.cpp:1838-1878, 2294-2329. Simplification: each changes what is
    chosen in one step (C37_overlap_refuted shows what overlapping ones do). *)
Definition apply_ask (c : choice) (a : ask) : choice :=
  match a with
  | ASub p => {| ch_subs := sub_step (ch_subs c) (OSubscribe p); ch_min := ch_min c |}
  | AUnsub p => {| ch_subs := sub_step (ch_subs c) (OUnsubscribe p); ch_min := ch_min c |}
  | ALevel p => {| ch_subs := ch_subs c; ch_min := match set_level p with inr l => l | inl _ => ch_min c end |}
  end.

(** The decision of coNotifyResourceUpdated (2201-2207) and of coLogToClient (2241-2248). Simplification: no rate limit is set (C39). *)
Definition allows (c : choice) (m : tell) : bool :=
  match m with TUpdated u => should_send u (ch_subs c) | TLog n => negb (suppressed (level_of n) (ch_min c)) end.

(** Messages to the client: an answer, or the notification of the call of this number. *)
Inductive tdown := TAns (a : ask) | TMsg (i : nat) (m : tell).

(** tu_up: requests sent. tu_done: requests carried out, not answered yet. tu_go: calls past the decision, whose notification is not handed to the
    transport yet. tu_down: messages under way, a queue. tu_got: what the client received, in order. tu_calls: calls begun. *)
Record tune := {
  tu_choice : choice; tu_up : list ask; tu_done : list ask; tu_go : list (nat * tell); tu_down : list tdown; tu_got : list tdown; tu_calls : nat }.
Definition tune0 : tune := {| tu_choice := choice0; tu_up := []; tu_done := []; tu_go := []; tu_down := []; tu_got := []; tu_calls := 0 |}.

(** What happens.
    - USend: the client sends a request (SubscribeResources, UnsubscribeResources, src/mcp/Client.cpp:1400-1432; setting the level has no call of its own)
    - UHandle: the server carries one out (each has its own thread over the in-memory and the shared-memory transport, InMemoryTransport.cpp:100-123,
      SharedMemoryTransport.cpp:98-118; the stdio transport takes them in order, UHandle 0); UAnswer: its answer is queued
    - UCall: NotifyResourceUpdated or LogToClient is called and decides; UPost: its notification is queued (2212-2218, 2284-2290)
    - UHear: the client receives the next message *)
Inductive tev := USend (a : ask) | UHandle (k : nat) | UAnswer (k : nat) | UCall (m : tell) | UPost (k : nat) | UHear.

Definition tstep (s : tune) (e : tev) : tune :=
  match e with
  | USend a =>
      {| tu_choice := tu_choice s; tu_up := tu_up s ++ [a]; tu_done := tu_done s; tu_go := tu_go s; tu_down := tu_down s; tu_got := tu_got s; tu_calls := tu_calls s |}
  | UHandle k =>
      match pick k (tu_up s) with
      | None => s
      | Some (a, r) =>
          {| tu_choice := apply_ask (tu_choice s) a; tu_up := r; tu_done := tu_done s ++ [a]; tu_go := tu_go s; tu_down := tu_down s; tu_got := tu_got s; tu_calls := tu_calls s |}
      end
  | UAnswer k =>
      match pick k (tu_done s) with
      | None => s
      | Some (a, r) =>
          {| tu_choice := tu_choice s; tu_up := tu_up s; tu_done := r; tu_go := tu_go s; tu_down := tu_down s ++ [TAns a]; tu_got := tu_got s; tu_calls := tu_calls s |}
      end
  | UCall m =>
      {| tu_choice := tu_choice s; tu_up := tu_up s; tu_done := tu_done s;
         tu_go := if allows (tu_choice s) m then tu_go s ++ [(tu_calls s, m)] else tu_go s;
         tu_down := tu_down s; tu_got := tu_got s; tu_calls := S (tu_calls s) |}
  | UPost k =>
      match pick k (tu_go s) with
      | None => s
      | Some ((i, m), r) =>
          {| tu_choice := tu_choice s; tu_up := tu_up s; tu_done := tu_done s; tu_go := r; tu_down := tu_down s ++ [TMsg i m]; tu_got := tu_got s; tu_calls := tu_calls s |}
      end
  | UHear =>
      match tu_down s with
      | [] => s
      | d :: r =>
          {| tu_choice := tu_choice s; tu_up := tu_up s; tu_done := tu_done s; tu_go := tu_go s; tu_down := r; tu_got := tu_got s ++ [d]; tu_calls := tu_calls s |}
      end
  end.
Definition trun (s : tune) (h : list tev) : tune := fold_left tstep h s.
