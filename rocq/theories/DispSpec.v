(** Histories of requests handled by one server. *)
From Coq Require Import Ascii String List Arith NArith ZArith Bool.
From Verif Require Import StrModel DoubleModel JsonModel JsonSpec RpcModel TaskModel RegModel ValSpec ReadModel SubModel LogModel ServModel ServSpec.
Import ListNotations.
Local Open Scope nat_scope.

(** A request as it is handled: what the handlers do then, and when it is cancelled. *)
Record arrival := { ar_world : world; ar_pre : bool; ar_mid : bool; ar_post : bool; ar_req : request }.

(** The server after it handled them one after the other. *)
Definition handled_all (l : list arrival) (s : server) : server :=
  fold_left (fun s a => snd (dispatch (ar_world a) (ar_pre a) (ar_mid a) (ar_post a) (ar_req a) s)) l s.

(** The subscriptions and the choices of level among them. *)
Definition sub_requests (l : list arrival) : list sub_op :=
  flat_map (fun a =>
    if beq (rq_method (ar_req a)) (bs "resources/subscribe") then [OSubscribe (rq_params (ar_req a))]
    else if beq (rq_method (ar_req a)) (bs "resources/unsubscribe") then [OUnsubscribe (rq_params (ar_req a))] else []) l.
Definition level_requests (l : list arrival) : list log_act :=
  flat_map (fun a => if beq (rq_method (ar_req a)) (bs "logging/setLevel") then [GSetLevel (rq_params (ar_req a))] else []) l.

(** How many of them are initialize requests over a connected transport. *)
Definition init_requests (l : list arrival) : nat :=
  length (filter (fun a => (beq (rq_method (ar_req a)) (bs "initialize") && w_connected (ar_world a))%bool) l).

(** What a server announces after initialize. *)
Definition announcements : list bstr :=
  [bs "notifications/initialized"; bs "notifications/tools/list_changed";
   bs "notifications/resources/list_changed"; bs "notifications/prompts/list_changed"].

(** What a caller is given for a request with this method and these parameters. *)
Definition asked (w : world) (s : server) (i : rpcid) (m : bstr) (p : option json) : json :=
  match fst (dispatch w false false false {| rq_id := i; rq_method := m; rq_params := p |} s) with
  | Reply r => value_or_error r
  | Waits _ => JNull
  end.

(** A member of the parameters, null when there is none. *)
Definition member (k : string) (p : option json) : json :=
  match p with Some (JObj o) => match obj_get (bs k) o with Some v => v | None => JNull end | _ => JNull end.
