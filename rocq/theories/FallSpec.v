(** What C206 asks for, in terms of what happens to connections and what the error handler is told. *)
From Coq Require Import Ascii String List Arith Bool.
From Verif Require Import StrModel FallModel.
Import ListNotations.
Local Open Scope nat_scope.

(** Connection i, by the order of acceptance, and what the error handler was told of it. *)
Definition conn_at (i : nat) (s : fall) : option conn := nth_error (f_conns s) i.
Definition told (i : nat) (s : fall) : list bstr := match conn_at i s with Some c => c_told c | None => [] end.
Definition is_at (i : nat) (p : pc) (s : fall) : Prop := exists c, conn_at i s = Some c /\ c_pc c = p.

(** The peer, or this side, hung up. *)
Definition hang_up (r : res) : Prop :=
  exists what, r = Sys CEof what \/ r = Sys CReset what \/ r = Sys CPipe what \/ r = Sys CAborted what \/ r = Sys CEndOfStream what \/
               r = Sys CTruncated what.
(** A failure that is not a hang-up, and its description. *)
Definition fails_as (r : res) (what : bstr) : Prop := r = Std what \/ exists n, r = Sys (COther n) what.

(** The operations of a connection that end well or by a hang-up in a history. *)
Definition at_peace (i : nat) (evs : list fev) : Prop := forall r a, In (FDone i r a) evs -> r = Fine \/ hang_up r.

(** Steps of the connection itself, in its coroutine or in the thread of its stream. *)
Definition in_session (p : pc) : Prop := In p [PShake; PRead; PMake; PReply; PRefuse; PHand].
Definition in_stream (p : pc) : Prop := In p [PHeader; PEvent].

(** The events that are about connection i, or about the server as a whole. *)
Definition about (i : nat) (v : fev) : bool :=
  match v with
  | FDone j _ _ | FMsg j | FQuit j | FShut j => Nat.eqb j i
  | FOpen | FDown | FHalt => true
  end.

(** Full statement of the independence of connections: what becomes of one is up to the events about it. *)
Definition apart (st : settings) : Prop :=
  forall evs i, f_dead (fall_run st evs) = false ->
  conn_at i (fall_run st evs) = conn_at i (fall_run st (filter (about i) evs)).
