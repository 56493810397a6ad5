(** What the arguments put together are to be, independently of how they are kept. *)
From Coq Require Import Ascii String List Arith ZArith Bool.
From Verif Require Import StrModel DoubleModel JsonModel ArgsModel.
Import ListNotations.
Local Open Scope nat_scope.

(** A call gives a value to a name. *)
Definition gives (c : args_call) (k : bstr) (v : json) : Prop :=
  c = GAdd k v \/ (exists s, c = GString k s /\ v = JStr s) \/ (exists n, c = GInt k n /\ v = JInt n) \/ (exists b, c = GBool k b /\ v = JBool b).

(** The value given last to a name in a sequence of calls. *)
Definition given_last (cs : list args_call) (k : bstr) (v : json) : Prop :=
  exists before c after, cs = before ++ c :: after /\ gives c k v /\ forall d w, In d after -> ~ gives d k w.
Definition never_given (cs : list args_call) (k : bstr) : Prop := forall c v, In c cs -> ~ gives c k v.
