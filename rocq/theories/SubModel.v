(** Resource subscriptions and update notifications. *)
From Coq Require Import Ascii String List Arith NArith ZArith Bool.
From Verif Require Import StrModel DoubleModel JsonModel MapModel TaskModel.
Import ListNotations.
Local Open Scope nat_scope.

(** resourcesSubscribed and subscribedUris, src/mcp/Server.cpp:188-189, with the URIs for which
    an update notification was handed to the transport. *)
Record subs := { sb_flag : bool; sb_uris : list bstr; sb_sent : list bstr }.
Definition subs0 : subs := {| sb_flag := false; sb_uris := []; sb_sent := [] |}.

(** unordered_set insert and erase. *)
Definition mem (u : bstr) (l : list bstr) : bool := existsb (beq u) l.
Definition insert_uri (u : bstr) (l : list bstr) : list bstr := if mem u l then l else l ++ [u].
Definition erase_uri (u : bstr) (l : list bstr) : list bstr := filter (fun v => negb (beq u v)) l.

(** The uri member of the parameters, as both handlers read it: Server.cpp:1841-1845, 1859-1862. *)
Definition uri_param (params : option json) : option bstr :=
  match params with Some (JObj o) => get_str (bs "uri") o | _ => None end.

(** The atomic actions. The requests of a client may be handled on several threads.
    - AFlag: handleSubscribeRequest's first line, 1840.
    - AInsert: the insertion under registryMutex, 1846-1847.
    - AErase, AClear: erase or clear under registryMutex, 1863-1871.
    - AStore b: the store of 1873; b was read before, without the lock (not_empty). *)
Inductive sub_act :=
| AFlag | AInsert (u : bstr) | AErase (u : bstr) | AClear | AStore (b : bool).

Definition sub_act_step (s : subs) (a : sub_act) : subs :=
  match a with
  | AFlag => {| sb_flag := true; sb_uris := sb_uris s; sb_sent := sb_sent s |}
  | AInsert u => {| sb_flag := sb_flag s; sb_uris := insert_uri u (sb_uris s); sb_sent := sb_sent s |}
  | AErase u => {| sb_flag := sb_flag s; sb_uris := erase_uri u (sb_uris s); sb_sent := sb_sent s |}
  | AClear => {| sb_flag := sb_flag s; sb_uris := []; sb_sent := sb_sent s |}
  | AStore b => {| sb_flag := b; sb_uris := sb_uris s; sb_sent := sb_sent s |}
  end.

(** The value computed at 1873. *)
Definition not_empty (s : subs) : bool := match sb_uris s with [] => false | _ :: _ => true end.

(** handleSubscribeRequest, Server.cpp:1838-1854, uninterrupted. The reply is an empty object. *)
Definition subscribe (params : option json) (s : subs) : subs :=
  let s := sub_act_step s AFlag in
  match uri_param params with Some u => sub_act_step s (AInsert u) | None => s end.

(** handleUnsubscribeRequest, Server.cpp:1856-1878, uninterrupted. *)
Definition unsubscribe (params : option json) (s : subs) : subs :=
  let s := match uri_param params with Some u => sub_act_step s (AErase u) | None => sub_act_step s AClear end in
  sub_act_step s (AStore (not_empty s)).

(** The decision of coNotifyResourceUpdated, Server.cpp:2201-2207. *)
Definition should_send (u : bstr) (s : subs) : bool :=
  if sb_flag s then match sb_uris s with [] => true | _ :: _ => mem u (sb_uris s) end else true.

(** coNotifyResourceUpdated, Server.cpp:2199-2221. *)
Definition notify_updated (u : bstr) (s : subs) : subs :=
  if should_send u s then {| sb_flag := sb_flag s; sb_uris := sb_uris s; sb_sent := sb_sent s ++ [u] |} else s.

Inductive sub_op := OSubscribe (params : option json) | OUnsubscribe (params : option json) | OUpdated (u : bstr).

Definition sub_step (s : subs) (o : sub_op) : subs :=
  match o with
  | OSubscribe p => subscribe p s
  | OUnsubscribe p => unsubscribe p s
  | OUpdated u => notify_updated u s
  end.
Definition sub_run (ops : list sub_op) : subs := fold_left sub_step ops subs0.

(** An unsubscribe and a subscribe on two threads: the unsubscribe stops between its emptiness
    test and its store, and the whole subscribe happens there. *)
Definition overlapped (u v : bstr) (s : subs) : subs :=
  let s := sub_act_step s (AErase u) in
  let seen := not_empty s in
  let s := sub_act_step (sub_act_step s AFlag) (AInsert v) in
  sub_act_step s (AStore seen).
