(** Cancellation tokens of requests in flight. *)
From Coq Require Import Ascii String List Arith NArith ZArith Bool.
From Verif Require Import StrModel DoubleModel JsonModel MapModel RpcModel TaskModel.
Import ListNotations.
Local Open Scope nat_scope.

(** The client has the same functions for the sampling requests of the server: Client.cpp:214-305,
    used at 602-610 and 1018-1052. Its guard calls unregisterCancelToken alone, which erases the
    stop sources too; that is CUnwatch followed by CEnd here, up to the stop source of a request
    without an id, which stays in the table under the empty text, where no cancellation reaches it. *)

(** Impl::idToString, src/mcp/Server.cpp:240-255 and Client.cpp:215-224. *)
Definition id_text (i : rpcid) : bstr := match i with IdStr s => s | IdInt z => print_Z z | IdNull => [] end.

(** parseIdFromParams, Server.cpp:625-639 and Client.cpp:226-240, and the use in handleNotification, 1145-1150 and 605-609. *)
Definition cancel_text (params : option json) : bstr :=
  match params with
  | Some (JObj o) =>
      match obj_get (bs "id") o with
      | Some (JStr s) => s
      | Some (JInt z) => print_Z z
      | _ => []
      end
  | _ => []
  end.

(** cancelMap and stopSources, Server.cpp:217-219. The shared CancellationToken and stop_source
    objects are numbered as they are made: cn_tokens and cn_sources hold their states. cn_held: the
    token dispatchRequest holds for a request in flight; cn_watch: the stop source its guard holds. *)
Record cancels := {
  cn_map : list (bstr * nat); cn_stops : list (bstr * list nat);
  cn_tokens : list bool; cn_sources : list bool;
  cn_held : list (nat * nat); cn_watch : list (nat * nat)
}.
Definition cancels0 : cancels :=
  {| cn_map := []; cn_stops := []; cn_tokens := []; cn_sources := []; cn_held := []; cn_watch := [] |}.

Fixpoint nget (n : nat) (m : list (nat * nat)) : option nat :=
  match m with [] => None | (k, v) :: m' => if Nat.eqb n k then Some v else nget n m' end.
Definition ndel (n : nat) (m : list (nat * nat)) : list (nat * nat) := filter (fun e => negb (Nat.eqb n (fst e))) m.
Fixpoint set_true (n : nat) (l : list bool) : list bool :=
  match l, n with [], _ => [] | _ :: l', 0 => true :: l' | b :: l', S n' => b :: set_true n' l' end.

(** A request: a number of its own, whatever its id, and its id. *)
Definition req := (nat * rpcid)%type.

(** The events: dispatchRequest registers and, at its end, unregisters a request (Server.cpp:1551-1553);
    a cancelled notification arrives (1143-1156); a handler's StopSourceGuard is made and destroyed
    (228-238). *)
Inductive cev := CBegin (q : req) | CEnd (q : req) | CCancel (params : option json) | CWatch (q : req) | CUnwatch (q : req).

(** registerCancelToken, Server.cpp:1020-1032 and Client.cpp:242-254. *)
Definition register (q : req) (s : cancels) : cancels :=
  match id_text (snd q), aget (id_text (snd q)) (cn_map s) with
  | _ :: _, Some t =>
      {| cn_map := cn_map s; cn_stops := cn_stops s; cn_tokens := cn_tokens s; cn_sources := cn_sources s;
         cn_held := (fst q, t) :: cn_held s; cn_watch := cn_watch s |}
  | i, _ =>
      {| cn_map := match i with [] => cn_map s | _ :: _ => aset i (length (cn_tokens s)) (cn_map s) end;
         cn_stops := cn_stops s; cn_tokens := cn_tokens s ++ [false]; cn_sources := cn_sources s;
         cn_held := (fst q, length (cn_tokens s)) :: cn_held s; cn_watch := cn_watch s |}
  end.

(** unregisterCancelToken, Server.cpp:1034-1042 and Client.cpp:255-262. *)
Definition unregister (q : req) (s : cancels) : cancels :=
  let i := id_text (snd q) in
  {| cn_map := match i with [] => cn_map s | _ :: _ => adel i (cn_map s) end;
     cn_stops := match i with [] => cn_stops s | _ :: _ => adel i (cn_stops s) end;
     cn_tokens := cn_tokens s; cn_sources := cn_sources s; cn_held := ndel (fst q) (cn_held s); cn_watch := cn_watch s |}.

(** cancelById, Server.cpp:1044-1066 and Client.cpp:263-283. *)
Definition cancel_by (i : bstr) (s : cancels) : cancels :=
  let srcs := match aget i (cn_stops s) with Some l => fold_left (fun st n => set_true n st) l (cn_sources s) | None => cn_sources s end in
  match aget i (cn_map s) with
  | None => {| cn_map := aset i (length (cn_tokens s)) (cn_map s); cn_stops := cn_stops s; cn_tokens := cn_tokens s ++ [true];
               cn_sources := srcs; cn_held := cn_held s; cn_watch := cn_watch s |}
  | Some t => {| cn_map := cn_map s; cn_stops := cn_stops s; cn_tokens := set_true t (cn_tokens s);
                 cn_sources := srcs; cn_held := cn_held s; cn_watch := cn_watch s |}
  end.

(** registerStopSource, Server.cpp:1069-1083 and Client.cpp:284-295. *)
Definition watch (q : req) (s : cancels) : cancels :=
  let i := id_text (snd q) in
  let now := match aget i (cn_map s) with Some t => nth t (cn_tokens s) false | None => false end in
  {| cn_map := cn_map s;
     cn_stops := aset i (match aget i (cn_stops s) with Some l => l | None => [] end ++ [length (cn_sources s)]) (cn_stops s);
     cn_tokens := cn_tokens s; cn_sources := cn_sources s ++ [now];
     cn_held := cn_held s; cn_watch := (fst q, length (cn_sources s)) :: cn_watch s |}.

(** unregisterStopSource, Server.cpp:1085-1096 and Client.cpp:296-307. *)
Definition unwatch (q : req) (s : cancels) : cancels :=
  let i := id_text (snd q) in
  match nget (fst q) (cn_watch s) with
  | None => s
  | Some n =>
      {| cn_map := cn_map s;
         cn_stops := match aget i (cn_stops s) with
                     | None => cn_stops s
                     | Some l => match filter (fun m => negb (Nat.eqb m n)) l with [] => adel i (cn_stops s) | l' => aset i l' (cn_stops s) end
                     end;
         cn_tokens := cn_tokens s; cn_sources := cn_sources s; cn_held := cn_held s; cn_watch := ndel (fst q) (cn_watch s) |}
  end.

Definition cancel_step (s : cancels) (e : cev) : cancels :=
  match e with
  | CBegin q => register q s
  | CEnd q => unregister q s
  | CCancel p => match cancel_text p with [] => s | i => cancel_by i s end
  | CWatch q => watch q s
  | CUnwatch q => unwatch q s
  end.
Definition cancel_run (l : list cev) : cancels := fold_left cancel_step l cancels0.

(** token->cancelled.load(), and what the handler's stop token says. *)
Definition is_cancelled (q : req) (s : cancels) : bool :=
  match nget (fst q) (cn_held s) with Some t => nth t (cn_tokens s) false | None => false end.
Definition is_stopped (q : req) (s : cancels) : bool :=
  match nget (fst q) (cn_watch s) with Some n => nth n (cn_sources s) false | None => false end.
