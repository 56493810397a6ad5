(** The life of a server and of a client, told from what happened to them. *)
From Coq Require Import Ascii String List Arith NArith ZArith Bool.
From Verif Require Import StrModel DoubleModel JsonModel JsonSpec MapModel RpcModel TaskModel DescModel RegModel ValSpec ReadModel SubModel LogModel ServModel ServSpec PeerModel PeerSpec CacheModel CacheSpec SessModel.
Import ListNotations.
Local Open Scope nat_scope.

(** The server was given a transport. *)
Definition has_wire (l : list hev) : Prop := exists ok, In (VStart ok) l.
(** The last thing that happened to a transport is that one was started and connected. *)
Definition touches_wire (e : hev) : Prop := match e with VStart _ | VStop | VDrop => True | _ => False end.
Definition connected_after (l : list hev) : Prop :=
  exists a b, l = a ++ VStart true :: b /\ forall e, In e b -> ~ touches_wire e.

(** A client said that it is initialized, or the application called HandleInitialize. *)
Definition begins_run (e : hev) : Prop :=
  (exists c, e = VInit c) \/ (exists b n, e = VNote b n /\ nt_method n = bs "notifications/initialized").
(** One of these happened, and the server was not stopped with a transport since. *)
Definition begun_after (l : list hev) : Prop :=
  exists a e b, l = a ++ e :: b /\ begins_run e /\ forall x y, b = x ++ VStop :: y -> ~ has_wire (a ++ e :: x).

(** Only this library's client talks to the server, and the application leaves HandleInitialize alone. *)
Definition own_client (e : hev) : Prop :=
  match e with VInit _ => False | VNote _ n => exists c, n = client_note c | _ => True end.

(** Every call that tells the client something comes after a transport was given. *)
Definition wired_first (l : list hev) : Prop := forall a t b, l = a ++ VTell t :: b -> has_wire a.

(** Calls that nothing holds back: no subscription and no level. *)
Definition unfiltered (t : tell) : Prop :=
  match t with
  | TellUpdated _ => False
  | TellLog n _ _ => n = bs "error" \/ n = bs "ERROR"
  | _ => True
  end.

(** What the application registered, in order. *)
Definition registrations (l : list hev) : list reg_op := flat_map (fun e => match e with VReg o => [o] | _ => [] end) l.

(** The server is stopped and started again, and the next client sends its first request. *)
Definition session (w : world) (x y z : bool) (q : request) : list hev := [VStop; VStart true; VAsk w x y z q].
(** An initialize request that says what the client can do. *)
Definition introduces (q : request) : Prop :=
  rq_method q = bs "initialize" /\ exists o k, rq_params q = Some (JObj o) /\ obj_get (bs "capabilities") o = Some (JObj k).
(** A request that has nothing to do with tasks. *)
Definition no_tasks (q : request) : Prop :=
  ~ In (rq_method q) [bs "tasks/get"; bs "tasks/list"; bs "tasks/result"; bs "tasks/cancel"] /\ ~ task_request q.

(** The request for a list. *)
Definition list_method (k : lkind) : bstr :=
  match k with KTools => bs "tools/list" | KResources => bs "resources/list" | KTemplates => bs "resources/templates/list" | KPrompts => bs "prompts/list" end.

(** How often a client connected, and the list calls among what happened to it. *)
Definition connections (h : list kev) : nat := length (filter (fun e => match e with KConnect => true | _ => false end) h).
Definition lists_in (h : list kev) : list lact := flat_map (fun e => match e with KList a => [a] | _ => [] end) h.

(** What thread t does is balanced: it has left every request it entered. Other threads do not matter. *)
Inductive balanced (t : nat) : list xev -> Prop :=
| bal_nil : balanced t []
| bal_other l u q : u <> t -> balanced t l -> balanced t (XBegin u q :: l)
| bal_other_end l u : u <> t -> balanced t l -> balanced t (XEnd u :: l)
| bal_nest a b q : balanced t a -> balanced t b -> balanced t (XBegin t q :: a ++ XEnd t :: b).

(** The text of a request's id and of its progress token, if it has one. *)
Definition id_is (q : request) (o : option bstr) : Prop :=
  match rq_id q with
  | IdStr s => o = match s with [] => None | _ => Some s end
  | IdInt z => o = Some (print_Z z)
  | IdNull => o = None
  end.
Definition token_of (q : request) (v : json) : Prop :=
  exists o m, rq_params q = Some (JObj o) /\ obj_get (bs "_meta") o = Some (JObj m) /\ obj_get (bs "progressToken") m = Some v.
Definition token_is (q : request) (o : option bstr) : Prop :=
  (forall s, token_of q (JStr s) -> s <> [] -> o = Some s) /\ (forall z, token_of q (JInt z) -> o = Some (print_Z z)) /\
  ((forall s, token_of q (JStr s) -> s = []) -> (forall z, ~ token_of q (JInt z)) -> o = None).
