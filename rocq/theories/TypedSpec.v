(** What a caller of the typed calls is promised. *)
From Coq Require Import Ascii String List Permutation Arith NArith ZArith Bool.
From Verif Require Import StrModel DoubleModel JsonModel JsonSpec ObjSpec MapModel RpcModel TaskModel DescModel DescSpec RegModel ValModel ValSpec ReadModel ServModel.
Import ListNotations.
Local Open Scope nat_scope.

(** A value in which no object has two members of the same name. *)
Inductive keyed : json -> Prop :=
| keyed_null : keyed JNull
| keyed_bool b : keyed (JBool b)
| keyed_int z : keyed (JInt z)
| keyed_dbl d : keyed (JDbl d)
| keyed_str s : keyed (JStr s)
| keyed_arr l : Forall keyed l -> keyed (JArr l)
| keyed_obj o : NoDup (map fst o) -> Forall keyed (map snd o) -> keyed (JObj o).

(** The same result of a tool: the same items in the same order, the same structured content and
    metadata, the same error flag. *)
Definition same_out (x y : tool_out) : Prop :=
  Forall2 same (to_content x) (to_content y) /\ same_opt (to_struct x) (to_struct y) /\ same_opt (to_meta x) (to_meta y) /\ to_error x = to_error y.

(** A response that bears neither a result nor an error, or none at all. *)
Definition nothing (resp : option response) : Prop := forall r, resp = Some r -> rs_result r = None /\ rs_error r = None.
