(** Pings and their outcomes. *)
From Coq Require Import Ascii String List Arith NArith ZArith Bool.
From Verif Require Import StrModel KeepModel.
Import ListNotations.
Local Open Scope nat_scope.

(** What happens, round by round: a ping, with the number of transport errors reported before it,
    whether sending threw, and the number of errors reported while it was being sent; or a change
    of the threshold. *)
Inductive round := RPing (before : nat) (threw : bool) (during : nat) | RThreshold (t : N).

Definition events (r : round) : list kev :=
  match r with
  | RPing b threw d => repeat KError b ++ [KSend] ++ repeat KError d ++ (if threw then [KThrow] else []) ++ [KCheck]
  | RThreshold t => [KThreshold (Some t)]
  end.

Definition ping_failed (r : round) : Prop := match r with RPing _ threw d => threw = true \/ 0 < d | RThreshold _ => False end.
Definition ping_went (r : round) : Prop := match r with RPing _ threw d => threw = false /\ d = 0 | RThreshold _ => False end.

(** The last n pings all failed, and the one before them, if any, did not. *)
Inductive failing : list round -> nat -> Prop :=
| failing_none : failing [] 0
| failing_reset l r : ping_went r -> failing (l ++ [r]) 0
| failing_more l r n : ping_failed r -> failing l n -> failing (l ++ [r]) (S n)
| failing_thr l t n : failing l n -> failing (l ++ [RThreshold t]) n.

(** The threshold in force; values below 1 count as 1. *)
Inductive threshold : list round -> N -> Prop :=
| threshold_default : threshold [] 3
| threshold_set l t : threshold (l ++ [RThreshold t]) (N.max 1 t)
| threshold_ping l b w d t : threshold l t -> threshold (l ++ [RPing b w d]) t.
