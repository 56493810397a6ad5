(** Histories of list calls, told without the cache. *)
From Coq Require Import Ascii String List Arith NArith ZArith Bool.
From Verif Require Import StrModel DoubleModel JsonModel RpcModel DescModel CacheModel.
Import ListNotations.
Local Open Scope nat_scope.

(** The notification says that this list changed. *)
Definition concerns (m : bstr) (k : lkind) : Prop :=
  match k with
  | KTools => m = bs "notifications/tools/list_changed"
  | KResources | KTemplates => m = bs "notifications/resources/list_changed"
  | KPrompts => m = bs "notifications/prompts/list_changed"
  end.

(** Calls are numbered in the order they are made. *)
Definition begins (h : list lact) : nat := length (filter (fun a => match a with LBegin _ => true | _ => false end) h).
(** Time that passes, in nanoseconds. *)
Definition elapsed (h : list lact) : Z :=
  fold_right Z.add 0%Z (map (fun a => match a with LTime d => Z.of_N d | _ => 0%Z end) h).

(** The time to live in force, from the last call that set it; 0 and none switch caching off. *)
Fixpoint ttl_last (past : list lact) : option N :=
  match past with
  | [] => None
  | LTtl (Some n) :: r => if N.eqb n 0 then None else Some n
  | LTtl None :: r => None
  | _ :: r => ttl_last r
  end.
Definition ttl_now (h : list lact) : option N := ttl_last (rev h).

(** What a list call made now is answered from the cache with, if it is. *)
Definition served (s : lcache) (k : lkind) (l : list entry) : Prop :=
  In (lc_next s, Cached l) (lc_out (lstep s (LBegin k))).

(** Call t on list k was made in h and has not ended. *)
Definition unanswered (s0 : lcache) (h : list lact) (t : nat) (k : lkind) : Prop :=
  (exists a b, h = a ++ LBegin k :: b /\ begins a = t) /\ ~ In t (map fst (lc_out (lrun s0 h))).

(** Caching is switched off, or the list is said to have changed. *)
Definition clears (k : lkind) (a : lact) : Prop :=
  match a with
  | LNotify m => concerns m k
  | LTtl None => True
  | LTtl (Some n) => n = 0%N
  | _ => False
  end.

(** A result, as opposed to an error, no response or an exception. *)
Definition is_result (r : reply) (v : json) : Prop :=
  exists p, r = RResponse (Some p) /\ rs_error p = None /\ rs_result p = Some v.
