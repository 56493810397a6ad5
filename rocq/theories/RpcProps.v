(** Properties C09-C12: JSON-RPC message objects. *)
From Coq Require Import Ascii String List Permutation Arith NArith ZArith Bool Lia ZifyBool ZifyNat ZifyN.
From Verif Require Import StrModel DoubleModel JsonModel JsonSpec JsonProofs RpcModel RpcSpec RpcProofs.
Import ListNotations.
Local Open Scope nat_scope.

(** C09: ids, methods and params survive, whatever the params contain. *)
Theorem C09_request_roundtrip : forall r : request,
  id_ok (rq_id r) -> rq_method r <> [] -> ~ In """"%char (rq_method r) ->
  (forall p, rq_params r = Some p -> ok p) ->
  deser_request request0 (ser_request r) = (true, r).
Proof. exact request_roundtrip. Qed.
Print Assumptions C09_request_roundtrip.

(** C09: what is sent is the JSON text of the request object. *)
Theorem C09_request_text : forall r : request,
  (forall s, rq_id r = IdStr s -> clean s) -> clean (rq_method r) ->
  ser_request r = ser (JObj (request_object r)).
Proof. exact request_text. Qed.
Print Assumptions C09_request_text.

Example C09_ex :
  let r := {| rq_id := IdStr (bs "a-1"); rq_method := bs "tools/call";
              rq_params := Some (JObj [(bs "id", JInt 7); (bs "method", JStr (bs """params"":1"))]) |} in
  id_ok (rq_id r) /\ rq_method r <> [] /\ ~ In """"%char (rq_method r) /\
  (forall p, rq_params r = Some p -> ok p) /\
  ser_request r =
    bs "{""jsonrpc"":""2.0"",""id"":""a-1"",""method"":""tools/call"",""params"":{""id"":7,""method"":""\""params\"":1""}}".
Proof.
  cbv zeta. cbn [rq_id rq_method rq_params]. split; [cbn; intuition discriminate|].
  split; [discriminate|]. split; [cbn; intuition discriminate|]. split; [|reflexivity].
  intros p [= <-]. apply okb_ok. reflexivity.
Qed.

(** C10: responses survive provided the result does not contain a member named error
    and, if there is only an error, the error does not contain a member named result. *)
Theorem C10_response_roundtrip_partial : forall r : response,
  id_ok (rs_id r) ->
  (forall v, rs_result r = Some v -> ok v /\ ~ key_in (bs "error") v) ->
  (forall e, rs_error r = Some e -> ok e /\ (rs_result r = None -> ~ key_in (bs "result") e)) ->
  deser_response response0 (ser_response r) = (true, r).
Proof. exact response_roundtrip. Qed.
Print Assumptions C10_response_roundtrip_partial.

Theorem C10_response_text : forall r : response,
  (forall s, rs_id r = IdStr s -> clean s) -> ser_response r = ser (JObj (response_object r)).
Proof. exact response_text. Qed.
Print Assumptions C10_response_text.

Example C10_ex :
  let r := error_response (IdInt (-3)) (-32601) (bs "Method not found") (Some (JArr [JStr (bs """result"":")])) in
  id_ok (rs_id r) /\
  (forall v, rs_result r = Some v -> ok v /\ ~ key_in (bs "error") v) /\
  (forall e, rs_error r = Some e -> ok e /\ (rs_result r = None -> ~ key_in (bs "result") e)).
Proof.
  cbv zeta. split; [cbn; lia|]. split; [discriminate|].
  intros e [= <-]. split; [apply okb_ok; reflexivity|]. intros _. now apply key_inb_not.
Qed.

(** C10 fails in general: a successful response whose result has a nested member named
    error arrives as a response carrying that member as its error. *)
Theorem C10_nested_error_refuted :
  exists r : response, id_ok (rs_id r) /\ (forall v, rs_result r = Some v -> ok v) /\ rs_error r = None /\
    snd (deser_response response0 (ser_response r)) =
      {| rs_id := rs_id r; rs_result := rs_result r; rs_error := Some (JBool false) |}.
Proof.
  exists {| rs_id := IdInt 1; rs_result := Some (JObj [(bs "error", JBool false)]); rs_error := None |}.
  split; [cbn; lia|]. split; [intros v [= <-]; apply okb_ok; reflexivity|]. split; reflexivity.
Qed.
Print Assumptions C10_nested_error_refuted.

(** C11 *)
Theorem C11_notification_roundtrip : forall n : notification,
  nt_method n <> [] -> ~ In """"%char (nt_method n) ->
  (forall p, nt_params n = Some p -> ok p) ->
  deser_notification notification0 (ser_notification n) = (true, n).
Proof. exact notification_roundtrip. Qed.
Print Assumptions C11_notification_roundtrip.

Theorem C11_notification_text : forall n : notification, clean (nt_method n) ->
  ser_notification n = ser (JObj (notification_object n)).
Proof. exact notification_text. Qed.
Print Assumptions C11_notification_text.

Example C11_ex :
  let n := {| nt_method := bs "notifications/progress"; nt_params := Some (JObj [(bs "params", JArr [JNull])]) |} in
  nt_method n <> [] /\ ~ In """"%char (nt_method n) /\ (forall p, nt_params n = Some p -> ok p).
Proof.
  cbv zeta. cbn [nt_method nt_params]. split; [discriminate|]. split; [cbn; intuition discriminate|].
  intros p [= <-]. apply okb_ok. reflexivity.
Qed.

(** C12 fails: with params first, its nested id is taken for the id of the request; the
    text is a well-formed JSON-RPC request with id 1. *)
Theorem C12_nested_id_refuted :
  exists r l, Permutation l (request_object r) /\ ok (JObj l) /\ rq_id r = IdInt 1 /\
    rq_id (snd (deser_request request0 (ser (JObj l)))) = IdInt 7.
Proof.
  exists {| rq_id := IdInt 1; rq_method := bs "m"; rq_params := Some (JObj [(bs "id", JInt 7)]) |}.
  exists [(bs "params", JObj [(bs "id", JInt 7)]); (bs "jsonrpc", JStr (bs "2.0")); (bs "id", JInt 1); (bs "method", JStr (bs "m"))].
  split; [|split; [apply okb_ok; reflexivity|split; reflexivity]].
  exact (Permutation_cons_append [(bs "jsonrpc", JStr (bs "2.0")); (bs "id", JInt 1); (bs "method", JStr (bs "m"))] (bs "params", JObj [(bs "id", JInt 7)])).
Qed.
Print Assumptions C12_nested_id_refuted.

(** C12 holds, in every member order, when the payload does not reuse the names. *)
Theorem C12_request_any_order_partial : forall (r : request) l,
  id_ok (rq_id r) -> (forall s, rq_id r = IdStr s -> clean s) ->
  rq_method r <> [] -> clean (rq_method r) ->
  (forall p, rq_params r = Some p ->
     ok p /\ ~ key_in (bs "id") p /\ ~ key_in (bs "method") p /\ ~ key_in (bs "params") p) ->
  Permutation l (request_object r) ->
  deser_request request0 (ser (JObj l)) = (true, r).
Proof. exact request_any_order. Qed.
Print Assumptions C12_request_any_order_partial.

Theorem C12_response_any_order_partial : forall (r : response) l,
  id_ok (rs_id r) -> (forall s, rs_id r = IdStr s -> clean s) ->
  (forall p, rs_result r = Some p \/ rs_error r = Some p ->
     ok p /\ ~ key_in (bs "id") p /\ ~ key_in (bs "result") p /\ ~ key_in (bs "error") p) ->
  Permutation l (response_object r) ->
  deser_response response0 (ser (JObj l)) = (true, r).
Proof. exact response_any_order. Qed.
Print Assumptions C12_response_any_order_partial.

Example C12_ex :
  let r := {| rq_id := IdStr (bs "x"); rq_method := bs "ping"; rq_params := Some (JArr [JStr (bs "id")]) |} in
  id_ok (rq_id r) /\ clean (bs "x") /\ clean (rq_method r) /\
  (forall p, rq_params r = Some p ->
     ok p /\ ~ key_in (bs "id") p /\ ~ key_in (bs "method") p /\ ~ key_in (bs "params") p).
Proof.
  cbv zeta. cbn [rq_id rq_method rq_params]. split; [cbn; intuition discriminate|].
  split; [now apply cleanb_clean|]. split; [now apply cleanb_clean|].
  intros p [= <-]. split; [apply okb_ok; reflexivity|].
  split; [now apply key_inb_not|]. split; now apply key_inb_not.
Qed.
