(** What the life of the stdio transport is compared with. *)
From Coq Require Import List Arith Bool.
From Verif Require Import LifeModel.
Import ListNotations.
Local Open Scope nat_scope.

(** Threads that read standard input, and threads that write standard output. *)
Definition readers (s : life) : nat := lf_old_readers s + match lf_reader s with Some false => 1 | _ => 0 end.
Definition writers (s : life) : nat := lf_old_writers s + match lf_writer s with Some false => 1 | _ => 0 end.

(** Start was called and Close has not returned since. *)
Definition running (s : life) : bool :=
  match lf_reader s, lf_writer s, lf_timer s with None, None, None => false | _, _, _ => true end.

(** The application starts a transport only when it is stopped, and destroys it only then. *)
Fixpoint orderly (s : life) (h : list lev) : Prop :=
  match h with
  | [] => True
  | v :: h => (match v with LStart | LDestroy => running s = false | _ => True end) /\ orderly (life_step s v) h
  end.

(** No wait of Close runs out: the threads notice its call within half a second. *)
Definition prompt (h : list lev) : Prop := ~ In (LStep true) h.

Definition in_close (s : life) : Prop := In (lf_pc s) [CNotify; CReader; CWriter; CTimer; CFail].
(** Close has told the timeout thread, which was just about to wait for a deadline, and had none. *)
Definition missed (s : life) : Prop :=
  lf_conn s = false /\ In (lf_pc s) [CReader; CWriter; CTimer] /\ (lf_timer s = Some (TChecked false) \/ lf_timer s = Some (TBlocked false)).
