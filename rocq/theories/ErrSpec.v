(** Error codes, and errors that are the same. *)
From Coq Require Import Ascii String List Permutation Arith NArith ZArith Bool.
From Verif Require Import StrModel DoubleModel JsonModel JsonSpec ObjSpec RpcModel DescSpec ErrModel.
Import ListNotations.
Local Open Scope nat_scope.

(** The codes of JSON-RPC 2.0 and of MCP, and their categories. *)
Definition known_codes : list (Z * category) :=
  [((-32700)%Z, CatParse); ((-32600)%Z, CatInvalidRequest); ((-32601)%Z, CatMethodNotFound); ((-32602)%Z, CatInvalidParams);
   ((-32603)%Z, CatInternal); ((-32000)%Z, CatInvalidRequestId); ((-32001)%Z, CatMethodNotAllowed);
   ((-32002)%Z, CatResourceNotFound); ((-32003)%Z, CatToolNotFound); ((-32004)%Z, CatPromptNotFound)].

(** The category that belongs to a code. *)
Definition belongs (code : Z) (c : category) : Prop :=
  In (code, c) known_codes \/ (c = CatUnknown /\ ~ In code (map fst known_codes)).

Definition int32 (z : Z) : Prop := (- 2 ^ 31 <= z < 2 ^ 31)%Z.

(** The same code, message and category, and the same data up to member order. *)
Definition same_error (e e' : mcp_error) : Prop :=
  er_code e' = er_code e /\ er_message e' = er_message e /\ er_category e' = er_category e /\ same_opt (er_data e) (er_data e').
