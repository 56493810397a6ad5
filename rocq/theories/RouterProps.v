(** Properties C13 and C14: the message router. *)
From Coq Require Import Ascii String List Permutation Arith NArith ZArith Bool Lia ZifyBool ZifyNat ZifyN.
From Verif Require Import StrModel DoubleModel JsonModel JsonSpec JsonProofs RpcModel RpcSpec RpcProofs RouterModel RouterProofs.
Import ListNotations.
Local Open Scope nat_scope.

(** C13: whatever the payload contains. *)
Theorem C13_request : forall r : request,
  (forall s, rq_id r = IdStr s -> plain s) -> plain (rq_method r) ->
  (forall p, rq_params r = Some p -> ok p) ->
  classify (ser_request r) = KRequest.
Proof. exact classify_request. Qed.
Print Assumptions C13_request.

Theorem C13_notification : forall n : notification,
  plain (nt_method n) -> (forall p, nt_params n = Some p -> ok p) ->
  classify (ser_notification n) = KNotification.
Proof. exact classify_notification. Qed.
Print Assumptions C13_notification.

Theorem C13_response : forall r : response,
  (forall s, rs_id r = IdStr s -> plain s) ->
  (forall p, rs_result r = Some p \/ rs_error r = Some p -> ok p) ->
  rs_result r <> None \/ rs_error r <> None ->
  classify (ser_response r) = KResponse.
Proof. exact classify_response. Qed.
Print Assumptions C13_response.

(** C13, any object text, any member order: classification looks at the names of the
    top-level members only. *)
Theorem C13_top_level_members : forall l : list (bstr * json), ok (JObj l) ->
  (In (bs "result") (map fst l) \/ In (bs "error") (map fst l) -> classify (ser (JObj l)) = KResponse) /\
  (~ In (bs "result") (map fst l) -> ~ In (bs "error") (map fst l) -> In (bs "method") (map fst l) ->
   classify (ser (JObj l)) = if existsb (beq (bs "id")) (map fst l) then KRequest else KNotification).
Proof. exact classify_obj. Qed.
Print Assumptions C13_top_level_members.

(** C13: white space before the message and whatever follows it do not matter. *)
Theorem C13_surroundings : forall ws (l : list (bstr * json)) rest, forallb is_ws ws = true -> ok (JObj l) ->
  In (bs "result") (map fst l) \/ In (bs "error") (map fst l) \/ In (bs "method") (map fst l) ->
  classify (ws ++ ser (JObj l) ++ rest) = classify (ser (JObj l)).
Proof. exact classify_around. Qed.
Print Assumptions C13_surroundings.

Example C13_around_ex :
  classify (bs " {""method"":""x""}{""result"":1,""id"":2}") = KNotification /\ ok (JObj [(bs "method", JStr (bs "x"))]).
Proof. split; [reflexivity|apply okb_ok; reflexivity]. Qed.

Example C13_ex :
  let p := JObj [(bs "result", JObj [(bs "error", JStr (bs "}"",""id"":"))]); (bs "id", JArr [JObj []])] in
  let n := {| nt_method := bs "x"; nt_params := Some p |} in
  plain (nt_method n) /\ ok p /\ classify (ser_notification n) = KNotification /\
  classify (ser (JObj [(bs "params", p); (bs "method", JStr (bs "m")); (bs "id", JNull)])) = KRequest.
Proof.
  cbv zeta. split; [now apply plainb_plain|]. split; [apply okb_ok; reflexivity|]. split; reflexivity.
Qed.

(** C14: a well-formed request is handled once and answered once with its id, whatever
    the handler does. *)
Theorem C14_request : forall (h : handlers) (f : request -> handled) (r : request),
  h_request h = Some f ->
  id_ok (rq_id r) -> (forall s, rq_id r = IdStr s -> plain s) ->
  rq_method r <> [] -> plain (rq_method r) -> (forall p, rq_params r = Some p -> ok p) ->
  route h (ser_request r) =
    ([CRequest r],
     RReturn (Some (ser_response
       match f r with
       | HReturn x => {| rs_id := rq_id r; rs_result := rs_result x; rs_error := rs_error x |}
       | HNull => {| rs_id := rq_id r; rs_result := None;
                     rs_error := Some (JObj [(bs "code", JInt (-32603));
                                             (bs "message", JStr (bs "Null response from handler"))]) |}
       | HThrow what => {| rs_id := rq_id r; rs_result := None;
                           rs_error := Some (JObj [(bs "code", JInt (-32603)); (bs "message", JStr what)]) |}
       end))).
Proof.
  intros h f r Hh H1 H2 H3 H4 H5. rewrite (route_request h f r Hh H1 H2 H3 H4 H5).
  unfold reply, with_id, error_response, error_object. destruct (f r); reflexivity.
Qed.
Print Assumptions C14_request.

(** C14: a response is only handed to the resolver, and nothing is sent. *)
Theorem C14_response : forall (h : handlers) (r : response),
  id_ok (rs_id r) -> (forall s, rs_id r = IdStr s -> plain s) ->
  rs_result r <> None \/ rs_error r <> None ->
  (forall v, rs_result r = Some v -> ok v /\ ~ key_in (bs "error") v) ->
  (forall e, rs_error r = Some e -> ok e /\ (rs_result r = None -> ~ key_in (bs "result") e)) ->
  route h (ser_response r) = ([CResolve r], RReturn None).
Proof. exact route_response. Qed.
Print Assumptions C14_response.

(** C14: a notification is only handed to the notification handler, and nothing is sent. *)
Theorem C14_notification : forall (h : handlers) (n : notification),
  nt_method n <> [] -> plain (nt_method n) -> (forall p, nt_params n = Some p -> ok p) ->
  route h (ser_notification n) =
  match h_notification h with
  | Some f => ([CNotification n], if f n then RReturn None else RThrow)
  | None => ([], RReturn None)
  end.
Proof. exact route_notif. Qed.
Print Assumptions C14_notification.

(** C14, any text whatsoever: at most one callback runs, and if a message is returned it
    answers the one request that was handled, and the id read back from it is that
    request's id. *)
Theorem C14_any_text_one_call : forall (h : handlers) (s : bstr), length (fst (route h s)) <= 1.
Proof. exact route_one_call. Qed.
Print Assumptions C14_any_text_one_call.

Theorem C14_any_text_answer : forall (h : handlers) (s : bstr) calls out,
  route h s = (calls, RReturn (Some out)) ->
  exists f r, h_request h = Some f /\ calls = [CRequest r] /\
    out = ser_response (reply (rq_id r) (f r)) /\
    rs_id (snd (deser_response response0 out)) = rq_id r.
Proof. exact route_answer. Qed.
Print Assumptions C14_any_text_answer.

Example C14_ex :
  let h := {| h_request := Some (fun r => if beq (rq_method r) (bs "boom") then HThrow (bs "bad") else HNull);
              h_notification := None; h_error := true |} in
  route h (bs "{""jsonrpc"":""2.0"",""id"":9,""method"":""boom""}") =
    ([CRequest {| rq_id := IdInt 9; rq_method := bs "boom"; rq_params := None |}],
     RReturn (Some (bs "{""jsonrpc"":""2.0"",""id"":9,""error"":{""code"":-32603,""message"":""bad""}}"))) /\
  route h (bs "{}") = ([CError (bs "Router: unrecognized JSON-RPC message")], RReturn None).
Proof. split; reflexivity. Qed.
