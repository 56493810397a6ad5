(** Maps keyed by strings (std::unordered_map<std::string, T>): association lists. The order
    stands for the unspecified iteration order. *)
From Coq Require Import Ascii String List Arith Bool.
From Verif Require Import StrModel.
Import ListNotations.
Local Open Scope nat_scope.

Section Map.
Context {A : Type}.

(** find. *)
Fixpoint aget (k : bstr) (m : list (bstr * A)) : option A :=
  match m with
  | [] => None
  | (k', v) :: m' => if beq k k' then Some v else aget k m'
  end.

(** m[k] = v. *)
Fixpoint aset (k : bstr) (v : A) (m : list (bstr * A)) : list (bstr * A) :=
  match m with
  | [] => [(k, v)]
  | (k', v') :: m' => if beq k k' then (k, v) :: m' else (k', v') :: aset k v m'
  end.

(** erase(k). *)
Fixpoint adel (k : bstr) (m : list (bstr * A)) : list (bstr * A) :=
  match m with
  | [] => []
  | (k', v') :: m' => if beq k k' then adel k m' else (k', v') :: adel k m'
  end.


End Map.

(** Remove the n-th element of a list (used to pick one of several threads). *)
Fixpoint take_nth {A : Type} (n : nat) (l : list A) : option (A * list A) :=
  match l, n with
  | [], _ => None
  | x :: l', 0 => Some (x, l')
  | x :: l', S n' => match take_nth n' l' with
                     | Some (y, r) => Some (y, x :: r)
                     | None => None
                     end
  end.
