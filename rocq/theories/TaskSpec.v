(** Independent specification for the task store. *)
From Coq Require Import Ascii String List Permutation Arith NArith ZArith Bool.
From Verif Require Import StrModel DoubleModel JsonModel MapModel TaskModel.
Import ListNotations.
Local Open Scope nat_scope.

(** How many tasks a history creates; the id counter has 64 bits. *)
Definition creations (vs : list tev) : nat :=
  length (filter (fun v => match v with TCreate _ _ _ => true | _ => false end) vs).
Definition few (vs : list tev) : Prop := (N.of_nat (creations vs) < 2 ^ 64)%N.

(** The attempts to end a task that succeeded, with the resulting task. *)
Definition wins (s : tstore) : list (attempt * task) :=
  flat_map (fun e => match snd e with Won t => [(fst e, t)] | _ => [] end) (ts_log s).

(** What tasks/result reports for a task, once there is something to report. *)
Definition outcome (i : bstr) (s : tstore) : option (bool * json) :=
  match aget i (ts_recs s) with
  | Some r => match tr_payload r with Some p => Some (tr_error r, p) | None => None end
  | None => None
  end.

(** The ids in order of creation. *)
Definition ids (s : tstore) : list bstr := map (fun tk => tk_id (fst tk)) (ts_created s).

(** The params of tasks/list asking for at most n tasks, from a cursor if there is one. *)
Definition asks (n : Z) (c : option bstr) (params : option json) : Prop :=
  exists o, params = Some (JObj o) /\ obj_get (bs "limit") o = Some (JInt n) /\ obj_get (bs "cursor") o = option_map JStr c.

(** A client asks for pages of n tasks until a page has no next cursor. Between pages the
    store goes on working, from history vs to us. The ids received are in pages. *)
Inductive walk (n : Z) : list tev -> option bstr -> list (list bstr) -> list tev -> Prop :=
| walk_last vs c params v page :
    asks n c params -> tasks_list params (ts_run tstore0 vs) = ListPage v -> parse_tasks v = (page, None) ->
    walk n vs c [map tk_id page] vs
| walk_more vs ws us c params v page c' pages :
    asks n c params -> tasks_list params (ts_run tstore0 vs) = ListPage v -> parse_tasks v = (page, Some c') ->
    walk n (vs ++ ws) (Some c') pages us ->
    walk n vs c (map tk_id page :: pages) us.

(** An optional integer of 64 bits. *)
Definition fits (z : option Z) : Prop := match z with Some n => (- 2 ^ 63 <= n < 2 ^ 63)%Z | None => True end.
