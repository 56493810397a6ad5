(** Independent specification for generated request ids. *)
From Coq Require Import Ascii String List Arith NArith ZArith Bool.
From Verif Require Import StrModel DoubleModel JsonModel RpcModel RouterModel MapModel MemModel PendModel WqModel StdioModel ShmModel.
Import ListNotations.
Local Open Scope nat_scope.

(** The n-th id (from 0) of a transport with a 32-bit counter that started at 0. *)
Definition nth_id (prefix : bstr) (n : N) : bstr := prefix ++ print_N (N.modulo (n + 1) (2 ^ 32)).

(** The application leaves the id to the transport. *)
Definition no_id (r : request) : Prop := rq_id r = IdNull \/ rq_id r = IdStr [].

(** How many requests an application makes on side x of an in-memory pair, on a stdio
    transport, and which counter values the calls on a shared-memory transport draw. *)
Definition begins (x : side) (vs : list ev) : N :=
  N.of_nat (length (filter (fun v => match v with EBegin y _ => side_eqb x y | _ => false end) vs)).
Definition auto_ev (v : ev) : Prop := match v with EBegin _ r => no_id r | _ => True end.

Definition stdio_begins (vs : list sev) : N :=
  N.of_nat (length (filter (fun v => match v with SBegin _ => true | _ => false end) vs)).
Definition auto_sev (v : sev) : Prop := match v with SBegin r => no_id r | _ => True end.

Definition draws (vs : list hact) : list N :=
  flat_map (fun a => match a with ABegin _ old => [old] | _ => [] end) vs.
Definition auto_hact (a : hact) : Prop := match a with ABegin r _ => no_id r | _ => True end.

(** The value of the shared counter after n draws. *)
Fixpoint shm_counter (n : nat) : N := match n with O => 0%N | S n => shm_next (shm_counter n) end.
