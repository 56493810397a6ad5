(** A server whose lists change and a client that lists them: the registry, the messages between the two in their order, the cache of the
    client. One kind of list (tools, resources, templates or prompts). *)
From Coq Require Import List Arith Bool.
Import ListNotations.
Local Open Scope nat_scope.

(** Messages to the client: the list changed, or the answer to the call of this number with the list as it was after so many changes. *)
Inductive down := DNote | DReply (call : nat) (as_of : nat).

(** A call of ListTools (ListResources, ListResourceTemplates, ListPrompts) of the client: asked and waiting; its response is in its future;
    returned what the server answered; returned what the cache held. *)
Inductive call := CWait | CGot (as_of : nat) | CDone (as_of : nat) | CHit (as_of : nat).

(** fr_made: changes made to the registry. fr_owed: changes whose notification is not sent yet. fr_up: requests sent, by call. fr_work: requests
    the server is answering, each with the registry as it read it. fr_down: the messages on their way to the client, a queue (C65, C66, C15, C16).
    fr_heard: the notifications the client has handled. fr_on: a time to live is set. fr_cache: what is cached. *)
Record fresh := {
  fr_made : nat; fr_owed : nat; fr_up : list nat; fr_work : list (nat * nat); fr_down : list down;
  fr_heard : nat; fr_on : bool; fr_cache : option nat; fr_calls : list call }.
Definition fresh0 : fresh :=
  {| fr_made := 0; fr_owed := 0; fr_up := []; fr_work := []; fr_down := []; fr_heard := 0; fr_on := false; fr_cache := None; fr_calls := [] |}.

(** What happens.
    - SChange: RegisterTool, UnregisterTool and the like, under registryMutex, src/mcp/Server.cpp:2785-2913, 3223-3282
    - SNotify: their notification, after the lock is given back (2802-2804)
    - SRead: the server takes a request and copies the registry under the lock (668-678, 588-624, 740-750); SReply: it sends the answer
    - CBegin: a list call begins; young says whether a cached list would be young enough (src/mcp/Client.cpp:1455-1466); otherwise it asks (1467-1470)
    - CHear: the client handles the next message (538-550, 618-619; responses: StdioTransport.cpp:997-1015)
    - CStore: the call goes on with its response, stores it if a time to live is set, and returns (1471-1518)
    - CTtl: SetListingsCacheTtlMs, 2297-2310
    Simplifications: the transport is connected; every answer is a whole valid list (paging: C36; errors: C55); requests may be answered in any order
    (each has its own thread over the in-memory and the shared-memory transport, InMemoryTransport.cpp:100-123, SharedMemoryTransport.cpp:98-118; the stdio
    transport answers them in order). Over HTTP answers and notifications come on different connections: that order is not modelled. *)
Inductive ev := SChange | SNotify | SRead (k : nat) | SReply (k : nat) | CBegin (young : bool) | CHear | CStore (call : nat) | CTtl (on : bool).

Fixpoint pick {A : Type} (k : nat) (l : list A) : option (A * list A) :=
  match l, k with
  | [], _ => None
  | x :: r, O => Some (x, r)
  | x :: r, S k => match pick k r with Some (y, q) => Some (y, x :: q) | None => None end
  end.
Fixpoint put {A : Type} (k : nat) (v : A) (l : list A) : list A :=
  match l, k with [], _ => [] | _ :: r, O => v :: r | x :: r, S k => x :: put k v r end.

Definition fstep (s : fresh) (e : ev) : fresh :=
  match e with
  | SChange =>
      {| fr_made := S (fr_made s); fr_owed := S (fr_owed s); fr_up := fr_up s; fr_work := fr_work s; fr_down := fr_down s;
         fr_heard := fr_heard s; fr_on := fr_on s; fr_cache := fr_cache s; fr_calls := fr_calls s |}
  | SNotify =>
      match fr_owed s with
      | O => s
      | S n => {| fr_made := fr_made s; fr_owed := n; fr_up := fr_up s; fr_work := fr_work s; fr_down := fr_down s ++ [DNote];
                  fr_heard := fr_heard s; fr_on := fr_on s; fr_cache := fr_cache s; fr_calls := fr_calls s |}
      end
  | SRead k =>
      match pick k (fr_up s) with
      | None => s
      | Some (c, r) =>
          {| fr_made := fr_made s; fr_owed := fr_owed s; fr_up := r; fr_work := fr_work s ++ [(c, fr_made s)]; fr_down := fr_down s;
             fr_heard := fr_heard s; fr_on := fr_on s; fr_cache := fr_cache s; fr_calls := fr_calls s |}
      end
  | SReply k =>
      match pick k (fr_work s) with
      | None => s
      | Some ((c, v), r) =>
          {| fr_made := fr_made s; fr_owed := fr_owed s; fr_up := fr_up s; fr_work := r; fr_down := fr_down s ++ [DReply c v];
             fr_heard := fr_heard s; fr_on := fr_on s; fr_cache := fr_cache s; fr_calls := fr_calls s |}
      end
  | CBegin young =>
      match (if (fr_on s && young)%bool then fr_cache s else None) with
      | Some v =>
          {| fr_made := fr_made s; fr_owed := fr_owed s; fr_up := fr_up s; fr_work := fr_work s; fr_down := fr_down s;
             fr_heard := fr_heard s; fr_on := fr_on s; fr_cache := fr_cache s; fr_calls := fr_calls s ++ [CHit v] |}
      | None =>
          {| fr_made := fr_made s; fr_owed := fr_owed s; fr_up := fr_up s ++ [length (fr_calls s)]; fr_work := fr_work s; fr_down := fr_down s;
             fr_heard := fr_heard s; fr_on := fr_on s; fr_cache := fr_cache s; fr_calls := fr_calls s ++ [CWait] |}
      end
  | CHear =>
      match fr_down s with
      | [] => s
      | DNote :: r =>
          {| fr_made := fr_made s; fr_owed := fr_owed s; fr_up := fr_up s; fr_work := fr_work s; fr_down := r;
             fr_heard := S (fr_heard s); fr_on := fr_on s; fr_cache := None; fr_calls := fr_calls s |}
      | DReply c v :: r =>
          {| fr_made := fr_made s; fr_owed := fr_owed s; fr_up := fr_up s; fr_work := fr_work s; fr_down := r;
             fr_heard := fr_heard s; fr_on := fr_on s; fr_cache := fr_cache s; fr_calls := put c (CGot v) (fr_calls s) |}
      end
  | CStore c =>
      match nth_error (fr_calls s) c with
      | Some (CGot v) =>
          {| fr_made := fr_made s; fr_owed := fr_owed s; fr_up := fr_up s; fr_work := fr_work s; fr_down := fr_down s;
             fr_heard := fr_heard s; fr_on := fr_on s; fr_cache := if fr_on s then Some v else fr_cache s; fr_calls := put c (CDone v) (fr_calls s) |}
      | _ => s
      end
  | CTtl on =>
      {| fr_made := fr_made s; fr_owed := fr_owed s; fr_up := fr_up s; fr_work := fr_work s; fr_down := fr_down s;
         fr_heard := fr_heard s; fr_on := on; fr_cache := if on then fr_cache s else None; fr_calls := fr_calls s |}
  end.
Definition frun (s : fresh) (h : list ev) : fresh := fold_left fstep h s.
