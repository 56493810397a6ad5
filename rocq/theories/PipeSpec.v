(** What the reading of standard input is compared with. *)
From Coq Require Import Ascii String List Arith NArith ZArith Bool.
From Verif Require Import StrModel FramerModel PipeModel.
Import ListNotations.
Local Open Scope nat_scope.

(** The bytes the other side wrote before it went away. *)
Fixpoint wrote (h : list pev) : bstr :=
  match h with
  | [] => []
  | PWrite b :: h => b ++ wrote h
  | PEnd :: _ => []
  | _ :: h => wrote h
  end.

(** The messages respect the size limit (and a frame has a length that a machine can hold). *)
Definition fitting (max : N) (ps : list bstr) : Prop :=
  Forall (fun p => (N.of_nat (length p) <= max)%N /\ (N.of_nat (length (encode p)) < 2 ^ 64)%N) ps.

(** A turn in which no system call fails and no handler leaves an errno behind. *)
Definition healthy (t : turn) : Prop := tn_epoll t = true /\ tn_wait t = Waited false /\ tn_io t = IoFine /\ tn_left t = false.
(** The same with interruptions. *)
Definition calm (t : turn) : Prop :=
  tn_epoll t = true /\ (tn_wait t = Interrupted \/ tn_wait t = Waited false) /\ tn_io t <> IoHard /\ tn_left t = false.
(** A history in which nothing goes wrong so far: the other side is there and no thread disconnects. *)
Definition undisturbed (h : list pev) : Prop := forall v, In v h -> (exists b, v = PWrite b) \/ exists t, v = PTurn t /\ calm t.

(** When the transport last received bytes: the clock of the last turn that took some, or of the start. *)
Fixpoint last_heard (p : pipe) (z : Z) (h : list pev) : Z :=
  match h with
  | [] => z
  | PTurn t :: h => last_heard (pp_turn t p) (if Nat.ltb (length (pp_in (pp_turn t p))) (length (pp_in p)) then tn_read t else z) h
  | v :: h => last_heard (pp_step p v) z h
  end.
