(** When two JSON values are the same data: equal up to the order of object members, at
    every depth. A JSON object is unordered, and the iteration order of unordered_map is
    unspecified. *)
From Coq Require Import Ascii String List Permutation Arith NArith ZArith Bool.
From Verif Require Import StrModel DoubleModel JsonModel JsonSpec.
Import ListNotations.
Local Open Scope nat_scope.

Inductive same : json -> json -> Prop :=
| same_null : same JNull JNull
| same_bool b : same (JBool b) (JBool b)
| same_int z : same (JInt z) (JInt z)
| same_dbl d : same (JDbl d) (JDbl d)
| same_str s : same (JStr s) (JStr s)
| same_arr l l' : Forall2 same l l' -> same (JArr l) (JArr l')
| same_obj o o1 o' : Permutation o o1 -> Forall2 same_member o1 o' -> same (JObj o) (JObj o')
with same_member : bstr * json -> bstr * json -> Prop :=
| same_kv k v v' : same v v' -> same_member (k, v) (k, v').
