(** What bearer authentication means, without the code's helpers. *)
From Coq Require Import Ascii String List Arith NArith ZArith Bool.
From Verif Require Import StrModel AuthModel.
Import ListNotations.
Local Open Scope nat_scope.

(** The header carries the bearer token t: the word Bearer in any case, a space, perhaps more
    white space, then t. *)
Definition carries (header t : bstr) : Prop :=
  exists word blanks c r, t = c :: r /\
    header = word ++ [SPACE] ++ blanks ++ t /\
    lower word = bs "bearer" /\
    forallb is_space blanks = true /\ is_space c = false.

(** The token info i has every one of the scopes. *)
Definition has_scopes (i : token_info) (l : list bstr) : Prop :=
  forall s, In s l -> In s (ti_scopes i).

(** The request may proceed and i is what its token stands for. The expiry of a token is
    unset when it is the epoch. *)
Definition admitted (header : bstr) (verify : verifier) (o : bearer_opts) (now : Z) (i : token_info) : Prop :=
  exists t, carries header t /\ verify t = Accepts i /\ has_scopes i (bo_required o) /\
            ti_expiration i <> 0%Z /\ (now < ti_expiration i)%Z.

(** Ways a request can fail the check. *)
Definition no_token (header : bstr) : Prop := forall t, ~ carries header t.
Definition unverified (header : bstr) (verify : verifier) (err : bstr) : Prop :=
  exists t, carries header t /\ verify t = Rejects err.
Definition unscoped (header : bstr) (verify : verifier) (o : bearer_opts) : Prop :=
  exists t i, carries header t /\ verify t = Accepts i /\ ~ has_scopes i (bo_required o).
Definition expired (header : bstr) (verify : verifier) (now : Z) : Prop :=
  exists t i, carries header t /\ verify t = Accepts i /\
              (ti_expiration i = 0 \/ ti_expiration i <= now)%Z.

(** The scopes of thread n that are open after the events, innermost first. *)
Fixpoint opened (n : nat) (es : list scope_event) (st : list (option token_info)) : list (option token_info) :=
  match es with
  | [] => st
  | EnterScope k i :: r => opened n r (if Nat.eqb k n then i :: st else st)
  | LeaveScope k :: r => opened n r (if Nat.eqb k n then tl st else st)
  end.
