(** Typed errors. *)
From Coq Require Import Ascii String List Arith NArith ZArith Bool.
From Verif Require Import StrModel DoubleModel JsonModel MapModel RpcModel TaskModel.
Import ListNotations.
Local Open Scope nat_scope.

(** enum class ErrorCategory, include/mcp/errors/Errors.h:19-31. *)
Inductive category :=
| CatParse | CatInvalidRequest | CatMethodNotFound | CatInvalidParams | CatInternal
| CatInvalidRequestId | CatMethodNotAllowed | CatResourceNotFound | CatToolNotFound | CatPromptNotFound | CatUnknown.

(** struct McpError, Errors.h:34-39. The code is an int. *)
Record mcp_error := { er_code : Z; er_message : bstr; er_data : option json; er_category : category }.

(** errorCategoryFromCode, Errors.h:48-62; the codes are those of JSONRPCErrorCodes,
    include/mcp/JSONRPCTypes.h. *)
Definition category_of (code : Z) : category :=
  match code with
  | (-32700)%Z => CatParse
  | (-32600)%Z => CatInvalidRequest
  | (-32601)%Z => CatMethodNotFound
  | (-32602)%Z => CatInvalidParams
  | (-32603)%Z => CatInternal
  | (-32000)%Z => CatInvalidRequestId
  | (-32001)%Z => CatMethodNotAllowed
  | (-32002)%Z => CatResourceNotFound
  | (-32003)%Z => CatToolNotFound
  | (-32004)%Z => CatPromptNotFound
  | _ => CatUnknown
  end.

(** static_cast<int> of an int64_t: the low 32 bits, signed. *)
Definition to_int (z : Z) : Z := let m := Z.modulo z (2 ^ 32) in if Z.ltb m (2 ^ 31) then m else (m - 2 ^ 32)%Z.

(** mcpErrorFromErrorValue, Errors.h:72-104. *)
Definition read_error (v : json) : option mcp_error :=
  match v with
  | JObj o =>
      match obj_get (bs "code") o, obj_get (bs "message") o with
      | Some (JInt c), Some (JStr m) =>
          Some {| er_code := to_int c; er_message := m; er_data := obj_get (bs "data") o; er_category := category_of (to_int c) |}
      | _, _ => None
      end
  | _ => None
  end.

(** mcpErrorFromResponse, Errors.h:113-118. *)
Definition response_error (r : response) : option mcp_error :=
  match rs_error r with Some v => read_error v | None => None end.

(** makeErrorValue, Errors.h:127-135. *)
Definition error_value (e : mcp_error) : json :=
  let o := obj_set (bs "message") (JStr (er_message e)) (obj_set (bs "code") (JInt (er_code e)) []) in
  JObj (opt_set (bs "data") (fun v => v) (er_data e) o).

(** makeErrorResponse, Errors.h:145-147. *)
Definition make_error (i : rpcid) (e : mcp_error) : response := error_response i (er_code e) (er_message e) (er_data e).
