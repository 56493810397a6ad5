(** Independent specification of the JSON-RPC messages the round-trip laws are about. *)
From Coq Require Import Ascii String List Arith NArith ZArith Bool.
From Verif Require Import StrModel DoubleModel JsonModel RpcModel.
Import ListNotations.
Local Open Scope nat_scope.

(** An id that can be sent: a string without quotation marks, or a 64-bit integer. *)
Definition id_ok (i : rpcid) : Prop :=
  match i with
  | IdStr s => ~ In """"%char s
  | IdInt z => (- 2 ^ 63 <= z < 2 ^ 63)%Z
  | IdNull => True
  end.

(** A text that JSON writes as it is. *)
Definition clean (s : bstr) : Prop :=
  Forall (fun c => (32 <= N_of_ascii c)%N /\ c <> """"%char /\ c <> "\"%char) s.

(** The JSON value of an id. *)
Definition id_json (i : rpcid) : json :=
  match i with IdStr s => JStr s | IdInt z => JInt z | IdNull => JNull end.

Definition opt_json (k : bstr) (v : option json) : list (bstr * json) :=
  match v with Some x => [(k, x)] | None => [] end.

(** The JSON-RPC 2.0 objects a message stands for. *)
Definition request_object (r : request) : list (bstr * json) :=
  [(bs "jsonrpc", JStr (bs "2.0")); (bs "id", id_json (rq_id r)); (bs "method", JStr (rq_method r))]
  ++ opt_json (bs "params") (rq_params r).
Definition response_object (r : response) : list (bstr * json) :=
  [(bs "jsonrpc", JStr (bs "2.0")); (bs "id", id_json (rs_id r))]
  ++ opt_json (bs "result") (rs_result r) ++ opt_json (bs "error") (rs_error r).
Definition notification_object (n : notification) : list (bstr * json) :=
  [(bs "jsonrpc", JStr (bs "2.0")); (bs "method", JStr (nt_method n))]
  ++ opt_json (bs "params") (nt_params n).
