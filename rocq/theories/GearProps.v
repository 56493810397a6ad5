(** C193 to C195: the errors of the auth object, the fields of requests, and the last response (src/mcp/HTTPTransport.cpp). *)
From Coq Require Import Ascii String List Arith NArith ZArith Bool Lia.
From Verif Require Import StrModel StrProofs GearModel GearSpec GearProofs.
Import ListNotations.
Local Open Scope nat_scope.

(** C193: in whatever order the error handler and the auth object were set, and however often, the auth object in use, if it reports
    errors at all, reports them to the error handler in use; the auth object in use is the last one set. The full claim,
    that errors go to no other handler, is refuted below. *)
Theorem C193_reports_partial : forall keeps os h a, handler_set os = Some h -> auth_set os = Some a ->
  current (wrun keeps os) = Some a /\ gw_sinks (wrun keeps os) a = if keeps a then Some h else None.
Proof.
  intros keeps os h a H A. destruct (wired_run keeps os) as [WH WA _ WS _]. rewrite H in WH. rewrite A in WA. split; [exact WA|]. now apply WS.
Qed.
Print Assumptions C193_reports_partial.

(** C193: without an auth object none is in use. *)
Theorem C193_none_partial : forall keeps os, auth_set os = None -> current (wrun keeps os) = None.
Proof. intros keeps os A. destruct (wired_run keeps os) as [_ WA _ _ _]. congruence. Qed.
Print Assumptions C193_none_partial.

(** C193 fails: when the error handler is taken away, the auth object in use goes on reporting to it. *)
Theorem C193_cleared_refuted : exists keeps os h a,
  handler_set os = None /\ auth_set os = Some a /\ gw_sinks (wrun keeps os) a = Some h.
Proof. exists (fun _ => true), [WAuth 0; WHandler (Some 7); WHandler None], 7, 0. repeat split. Qed.
Print Assumptions C193_cleared_refuted.

Example C193_ex :
  let os := [WHandler (Some 1); WShared (Some 0); WAuth 5; WHandler (Some 2); WShared None; WAuth 3; WHandler (Some 4)] in
  handler_set os = Some 4 /\ auth_set os = Some 3 /\ gw_sinks (wrun (fun _ => true) os) 3 = Some 4 /\ gw_sinks (wrun (fun _ => true) os) 5 = Some 2.
Proof. repeat split. Qed.

(** C194: whatever headers the auth object gives, every field of a request to the server has the last value that the auth object gives it, or
    else the transport's own; but on a POST and a DELETE the host is always the transport's own. *)
Theorem C194_fields : forall c k session version auth n,
  value_of n (sent c k session version auth) =
    if (match k with AStream => false | _ => true end && beq (lower n) (bs "host"))%bool then Some (whose c)
    else match last_of n auth with Some x => Some x | None => value_of n (own_fields c k session version) end.
Proof. exact sent_value. Qed.
Print Assumptions C194_fields.

(** C194: no field is sent twice. *)
Theorem C194_once : forall c k session version auth, NoDup (map (fun f => lower (fst f)) (sent c k session version auth)).
Proof. exact sent_once. Qed.
Print Assumptions C194_once.

(** C194: a token is sent as the one value of Authorization, without a token there is no such field, and everything else is
    the transport's own. *)
Theorem C194_token : forall c k session version token,
  value_of (bs "Authorization") (sent c k session version (token_fields token)) = (if beq token [] then None else Some (bs "Bearer " ++ token)) /\
  (forall n, lower n <> bs "authorization" ->
     value_of n (sent c k session version (token_fields token)) = value_of n (own_fields c k session version)).
Proof.
  intros c k session version token.
  assert (N : value_of (bs "Authorization") (own_fields c k session version) = None).
  { destruct k; cbn [own_fields]; unfold some_field; [destruct (gc_streamable c)| |]; destruct (beq session []), (beq version []); reflexivity. }
  assert (H : forall n, value_of n (own_fields c k session version) =
    if (match k with AStream => false | _ => true end && beq (lower n) (bs "host"))%bool then Some (whose c) else value_of n (own_fields c k session version)).
  { intro n. destruct (match k with AStream => false | _ => true end && beq (lower n) (bs "host"))%bool eqn:E; [|reflexivity].
    apply andb_prop in E as [E1 E2]. apply beq_eq in E2.
    destruct k; [| |discriminate]; cbn [own_fields]; unfold some_field; [destruct (gc_streamable c)|];
      destruct (beq session []), (beq version []); cbn [value_of List.app]; rewrite E2; reflexivity. }
  split.
  - rewrite sent_value. replace (match k with AStream => false | _ => true end && beq (lower (bs "Authorization")) (bs "host"))%bool with false by (destruct k; reflexivity).
    destruct token as [|x t]; [cbn; exact N|reflexivity].
  - intros n D. rewrite sent_value, (H n). destruct (match k with AStream => false | _ => true end && beq (lower n) (bs "host"))%bool; [reflexivity|].
    destruct token as [|x t]; [reflexivity|]. cbn [token_fields last_of rev List.app value_of].
    destruct (beq (lower n) (lower (bs "Authorization"))) eqn:E; [|reflexivity]. apply beq_eq in E. contradiction.
Qed.
Print Assumptions C194_token.

Example C194_ex :
  sent {| gc_streamable := true; gc_https := true; gc_host := bs "10.0.0.1"; gc_server := bs "mcp.example" |} (APost (bs "{}")) (bs "s-1") (bs "2025-11-25")
    [(bs "authorization", bs "Basic x"); (bs "ACCEPT", bs "*/*"); (bs "host", bs "evil"); (bs "Authorization", bs "Bearer y")] =
  [(bs "Content-Type", bs "application/json"); (bs "Connection", bs "close"); (bs "Content-Length", bs "2"); (bs "Mcp-Session-Id", bs "s-1");
   (bs "MCP-Protocol-Version", bs "2025-11-25"); (bs "ACCEPT", bs "*/*"); (bs "Authorization", bs "Bearer y"); (bs "Host", bs "mcp.example")].
Proof. vm_compute. reflexivity. Qed.

(** C195: after any history of requests, QueryLastHttpResponse gives the status, all fields and the challenge of the response to the last POST or
    DELETE that had one. The full claim is about the event stream too, and is refuted below. *)
Theorem C195_last_partial : forall es st hs, latest es = Some (st, hs) -> st <> 0%N ->
  let (ok, i) := query (last_info es) in
  ok = true /\ in_status i = st /\ in_headers i = hs /\
  in_challenge i = match value_of (bs "WWW-Authenticate") hs with Some v => v | None => [] end.
Proof.
  intros es st hs H N. rewrite last_latest, H. unfold query. cbn [in_status in_headers in_challenge].
  apply N.eqb_neq in N. rewrite N. cbn [negb]. auto.
Qed.
Print Assumptions C195_last_partial.

(** C195: and says that there is none if no POST or DELETE had a response. *)
Theorem C195_none_partial : forall es, latest es = None -> query (last_info es) = (false, info0).
Proof. intros es H. rewrite last_latest, H. reflexivity. Qed.
Print Assumptions C195_none_partial.

(** C195 fails for the event stream: the challenge in the response to its GET is never shown. *)
Theorem C195_stream_refuted : exists hs w, value_of (bs "WWW-Authenticate") hs = Some w /\ w <> [] /\
  forall es, query (last_info (es ++ [XStream 401 hs])) = query (last_info es).
Proof.
  exists [(bs "WWW-Authenticate", bs "Bearer")], (bs "Bearer"). split; [reflexivity|]. split; [discriminate|]. intro es.
  unfold last_info. rewrite fold_left_app. reflexivity.
Qed.
Print Assumptions C195_stream_refuted.

Example C195_ex :
  latest [XAnswered 200 []; XAnswered 401 [(bs "www-authenticate", bs "Bearer realm=""x"""); (bs "Server", bs "s")]; XFailed] =
    Some (401%N, [(bs "www-authenticate", bs "Bearer realm=""x"""); (bs "Server", bs "s")]) /\
  in_challenge (snd (query (last_info [XAnswered 401 [(bs "www-authenticate", bs "Bearer realm=""x""")]]))) = bs "Bearer realm=""x""".
Proof. split; reflexivity. Qed.
