(** Notifications between the ends of an in-memory pair, told from the history alone. *)
From Coq Require Import Ascii String List Arith NArith ZArith Bool.
From Verif Require Import StrModel JsonModel RpcModel MemModel.
Import ListNotations.
Local Open Scope nat_scope.

(** Whether an end is open: it was started, and not closed since. *)
Definition turns_open (x : side) (v : ev) (open : bool) : bool :=
  match v with
  | EStart y => if side_eqb x y then true else open
  | EDisconnect y => if side_eqb x y then false else open
  | _ => open
  end.
Definition opened (x : side) (vs : list ev) : bool := fold_left (fun b v => turns_open x v b) vs false.

(** The notifications that end x sent while the other end was open, in order. *)
Fixpoint sent_from (x : side) (open : bool) (vs : list ev) : list notification :=
  match vs with
  | [] => []
  | v :: r =>
      (match v with ENotify y n => if (side_eqb x y && open)%bool then [n] else [] | _ => [] end) ++
      sent_from x (turns_open (other x) v open) r
  end.
Definition notes_sent (x : side) (vs : list ev) : list notification := sent_from x false vs.
