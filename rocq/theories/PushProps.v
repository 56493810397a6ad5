(** The server's requests to an HTTP client over the event stream (C157 to C159). *)
From Coq Require Import Ascii String List Arith NArith ZArith Bool Lia.
From Verif Require Import StrModel DoubleModel JsonModel JsonSpec RpcModel RpcSpec RouterModel MapModel MemModel PendModel AuthModel AuthSpec AuthProps WwwModel GuardModel WireSpec
  HttpModel HcliModel HcliSpec HttpProps HcliProps WebModel WebSpec WebInv WebProps PushModel PushSpec PushRun PushDone.
Import ListNotations.
Local Open Scope nat_scope.

(** C157. A request that an HTTP server sends to its client completes with what the client's handler
    answers to that very request, or with an error that the server makes up for that very request
    when it closes the session; without a session it completes at once with an error. *)
Theorem C157_own_answer : forall (e : ends) (es : list pact) t o, let p := prun e es in
  refusals_plain e -> Forall pproper es -> NoDup (asked_keys p) -> In (t, o) (hs_done (wb_srv (pu_web p))) ->
  exists resp, o = Some resp /\
    ((exists n r, In (t, n, r) (pu_asked p) /\ (answered_with p r resp \/ server_gave_up r resp)) \/
     (exists r, In (t, r) (pu_refused p) /\ resp = gave (rq_id r) (bs "No active HTTP session"))).
Proof. exact push_answer. Qed.
Print Assumptions C157_own_answer.

(** C157. The client runs its handler at most once for each request of the server, and only for those. *)
Theorem C157_once : forall (e : ends) (es : list pact), let p := prun e es in
  refusals_plain e -> Forall pproper es -> NoDup (asked_keys p) ->
  NoDup (map (fun x => id_key (rq_id (snd x))) (pu_ran p)) /\
  forall hd r, In (hd, r) (pu_ran p) -> exists t n, In (t, n, r) (pu_asked p).
Proof. exact push_once. Qed.
Print Assumptions C157_once.

(** C157. No two requests share a ticket. *)
Theorem C157_tickets : forall (e : ends) (es : list pact), let p := prun e es in
  refusals_plain e -> Forall pproper es -> NoDup (asked_keys p) -> NoDup (map (fun x => fst (fst x)) (pu_asked p) ++ map fst (pu_refused p)).
Proof. exact push_tickets. Qed.
Print Assumptions C157_tickets.

(** The client asks for a session and opens an event stream; the server sends two requests, the second
    overtaking the first; the client hears both; it posts the answers in the other order. One more
    request comes before there is a session. *)
Definition push_get : hreq := demo_req GET [(bs "Mcp-Session-Id", bs "mcp-http-4242")] [].
Definition push_start : list pact :=
  [PAsk (demo_rq (IdInt 5)) 1; PWeb (WClient TStart); PWeb (WClient (TBegin web_init)); PWeb (WClient (TRegister 0)); PWeb (WPost 0);
   PWeb (WServe 0 0 4242 web_hd); PWeb (WDone 0 quiet_hd); PWeb (WOther push_get 0 0 web_hd);
   PAsk (demo_rq (IdInt 6)) 1; PAsk (demo_rq (IdStr [])) 2; PQueue 1; PQueue 0;
   PWeb (WServer (OTake 0)); PWeb (WServer (OWrite 0 true)); PWeb (WServer (OTake 0)); PWeb (WServer (OWrite 0 true))].
Definition push_two : list pact :=
  push_start ++ [PHear 0 web_hd; PHear 0 quiet_hd; PWeb (WPost 1); PWeb (WPost 0)].
Definition push_all : list pact := push_two ++ [PWeb (WServe 0 0 0 web_hd); PWeb (WServe 1 0 0 web_hd)].
Definition push_second : request := sent_as (demo_rq (IdStr [])) 2.

Lemma push_get_quiet : no_response (hq_body push_get).
Proof. intros r H. specialize (H quiet_hd). vm_compute in H. discriminate H. Qed.
Lemma push_second_ok : wire_ok (WRequest push_second).
Proof.
  cbn. split; [intro K; repeat (destruct K as [K|K]; [discriminate K|]); exact K|]. split; [intros s E; injection E as <-|split; [discriminate|]; split; [|discriminate]];
  split; intro K; repeat (destruct K as [K|K]; [discriminate K|]); exact K.
Qed.

Ltac prove_pproper :=
  repeat (constructor; [first [exact I | exact push_get_quiet | exact push_second_ok | apply web_init_ok | (cbn; apply demo_rq_ok; lia) | (split; [discriminate|apply web_hd_well]) | apply quiet_well | apply web_hd_well]|]); try constructor.
Ltac prove_nodup :=
  match goal with |- NoDup ?l => let v := eval vm_compute in l in change (NoDup v) end;
  let K := fresh "K" in repeat (constructor; [intro K; repeat (destruct K as [K|K]; [discriminate K|]); exact K|]); constructor.

Example C157_ex :
  refusals_plain web_ends /\ Forall pproper push_all /\ NoDup (asked_keys (prun web_ends push_all)) /\
  hs_done (wb_srv (pu_web (prun web_ends push_all))) =
    [(0, Some (gave (IdInt 5) (bs "No active HTTP session")));
     (1, Some (error_response (IdInt 6) (-32001) (bs "No request handler registered") None));
     (2, Some (demo_result (IdStr (bs "http-server-req-2"))))] /\
  map (fun x => rq_id (snd x)) (pu_ran (prun web_ends push_all)) = [IdStr (bs "http-server-req-2"); IdInt 6].
Proof.
  split; [exact web_plain|]. split; [prove_pproper|]. split; [prove_nodup|]. split; vm_compute; reflexivity.
Qed.

(** C158. A request among the events that a connected client reads is handled by its handler, and the
    answer is posted. *)
Theorem C158_heard : forall (e : ends) (es : list pact) k hd m i r, let p := prun e es in
  refusals_plain e -> Forall pproper es -> NoDup (asked_keys p) -> wire_ok (WRequest r) ->
  nth_error (hs_streams (wb_srv (pu_web p))) k = Some m -> nth_error (sm_wire m) (reads k (pu_read p)) = Some (i, ser_request r) ->
  listening (client e (pu_web p)) = true ->
  let p' := pstep e p (PHear k hd) in
  pu_ran p' = pu_ran p ++ [(hd, r)] /\
  exists resp, answers hd r resp /\ hc_queue (client e (pu_web p')) = hc_queue (client e (pu_web p)) ++ [(PuReply, ser_response resp)].
Proof. exact push_heard. Qed.
Print Assumptions C158_heard.

(** C158. When the server sees the POST with the answer, and the POST names the session that the request
    was sent on, the request completes with that answer, unless it has completed before. *)
Theorem C158_completed : forall (e : ends) (es : list pact) n now draw hd t s r resp q, let p := prun e es in
  refusals_plain e -> lets_in e -> same_endpoint e -> Forall pproper es -> NoDup (asked_keys p) ->
  In (t, s, r) (pu_asked p) -> answered_with p r resp -> reply_under_way p n resp q -> names (wb_srv (pu_web p)) q s ->
  (forall o, ~ In (t, o) (hs_done (wb_srv (pu_web p)))) ->
  In (t, Some resp) (hs_done (wb_srv (pu_web (pstep e p (PWeb (WServe n now draw hd)))))).
Proof. exact push_completed. Qed.
Print Assumptions C158_completed.

(** Both requests of push_two: the second is the first to be heard; then the POST of its answer. *)
Example C158_ex :
  (let p := prun web_ends push_start in
   listening (client web_ends (pu_web p)) = true /\
   exists m i, nth_error (hs_streams (wb_srv (pu_web p))) 0 = Some m /\ nth_error (sm_wire m) (reads 0 (pu_read p)) = Some (i, ser_request push_second)) /\
  (let p := prun web_ends push_two in
   Forall pproper push_two /\ NoDup (asked_keys p) /\ lets_in web_ends /\ same_endpoint web_ends /\ In (2, 0, push_second) (pu_asked p) /\
   answered_with p push_second (demo_result (IdStr (bs "http-server-req-2"))) /\
   exists q, reply_under_way p 1 (demo_result (IdStr (bs "http-server-req-2"))) q /\ names (wb_srv (pu_web p)) q 0 /\
     forall o, ~ In (2, o) (hs_done (wb_srv (pu_web p)))).
Proof.
  split.
  - split; [vm_compute; reflexivity|]. do 2 eexists. split; vm_compute; reflexivity.
  - split; [prove_pproper|]. split; [prove_nodup|]. split; [exact web_in|]. split; [repeat split; discriminate|]. split; [vm_compute; right; now left|].
    split; [exists web_hd; split; [vm_compute; left; reflexivity|split; [reflexivity|split; reflexivity]]|].
    eexists. split; [split; vm_compute; reflexivity|]. split.
    + split; [vm_compute; discriminate|]. split; [vm_compute; reflexivity|]. eexists. split; vm_compute; reflexivity.
    + intros o I. match type of I with In _ ?l => let v := eval vm_compute in l in change (In (2, o) v) in I end. destruct I as [I|[]]. discriminate I.
Qed.

(** C159. Whoever completes a request of the server over HTTP names the session it was sent on and,
    with authentication, has a token that is admitted; the request completes with a response to that
    very request, or, on DELETE, with an error. Nothing is assumed about who posts what. *)
Theorem C159_completer_partial : forall (e : ends) (es : list pact) q now draw hd t o, let p := prun e es in
  In (t, o) (hs_done (wb_srv (pu_web (pstep e p (PWeb (WOther q now draw hd)))))) -> In (t, o) (hs_done (wb_srv (pu_web p))) \/
  exists s r resp, In (t, s, r) (pu_asked p) /\ o = Some resp /\ find_session (f_session q) (wb_srv (pu_web p)) = Some s /\
    (hc_auth (en_server e) = true -> exists i, admitted (f_auth q) (en_verify e) (hc_bearer (en_server e)) now i) /\
    (hq_verb q = POST /\ id_key (rs_id resp) = id_key (rq_id r) \/ hq_verb q = DELETE /\ resp = gave (IdStr (id_key (rq_id r))) (bs "HTTP session closed")).
Proof. exact push_completer. Qed.
Print Assumptions C159_completer_partial.

(** C159 fails: anybody whom the server lets in and who has the number of the session completes the
    request with an answer of their own; the client never heard of it. With authentication any token
    that is admitted will do, though the session was opened with another one. *)
Definition push_auth : ends :=
  {| en_client := demo_cfg; en_version := demo_version; en_host := bs "127.0.0.1:9443"; en_auth := bs "Bearer alice"; en_server := demo_conf;
     en_verify := fun t => if (beq t (bs "alice") || beq t (bs "mallory"))%bool
                           then Accepts {| ti_scopes := [bs "read"; bs "write"]; ti_expiration := 100; ti_extra := [] |} else Rejects (bs "unknown");
     en_loopback := demo_loopback |}.
Definition push_forged : hreq :=
  demo_req POST [(bs "Mcp-Session-Id", bs "mcp-http-4242"); (bs "Authorization", bs "Bearer mallory")] (ser_response (demo_result (IdInt 6))).
Theorem C159_forged_refuted : exists (e : ends) (es : list pact) q now draw hd t s r resp, let p := prun e es in
  hc_auth (en_server e) = true /\ f_auth q <> en_auth e /\
  hc_session (client e (pu_web p)) = f_session q /\ find_session (f_session q) (wb_srv (pu_web p)) = Some s /\
  In (t, s, r) (pu_asked p) /\ hs_done (wb_srv (pu_web p)) = [] /\ pu_ran p = [] /\
  hs_done (wb_srv (pu_web (pstep e p (PWeb (WOther q now draw hd))))) = [(t, Some resp)].
Proof.
  exists push_auth,
    [PWeb (WClient TStart); PWeb (WClient (TBegin web_init)); PWeb (WClient (TRegister 0)); PWeb (WPost 0);
     PWeb (WServe 0 50 4242 web_hd); PWeb (WDone 0 quiet_hd); PAsk (demo_rq (IdInt 6)) 1; PQueue 0],
    push_forged, 50%Z, 0%N, web_hd, 0, 0, (demo_rq (IdInt 6)), (demo_result (IdInt 6)).
  cbv zeta. split; [reflexivity|]. split; [intro K; vm_compute in K; discriminate K|]. split; [vm_compute; reflexivity|]. split; [vm_compute; reflexivity|].
  split; [vm_compute; left; reflexivity|]. split; [vm_compute; reflexivity|]. split; vm_compute; reflexivity.
Qed.
Print Assumptions C159_forged_refuted.

Example C159_ex :
  let p := prun push_auth [PWeb (WClient TStart); PWeb (WClient (TBegin web_init)); PWeb (WClient (TRegister 0)); PWeb (WPost 0);
     PWeb (WServe 0 50 4242 web_hd); PWeb (WDone 0 quiet_hd); PAsk (demo_rq (IdInt 6)) 1; PQueue 0] in
  map (fun q => hs_done (wb_srv (pu_web (pstep push_auth p (PWeb (WOther q 50 0 web_hd))))))
    [push_forged;
     demo_req DELETE [(bs "Mcp-Session-Id", bs "mcp-http-4242"); (bs "Authorization", bs "Bearer mallory")] [];
     demo_req POST [(bs "Mcp-Session-Id", bs "mcp-http-4243"); (bs "Authorization", bs "Bearer mallory")] (ser_response (demo_result (IdInt 6)));
     demo_req POST [(bs "Mcp-Session-Id", bs "mcp-http-4242"); (bs "Authorization", bs "Bearer eve")] (ser_response (demo_result (IdInt 6)))] =
  [[(0, Some (demo_result (IdInt 6)))]; [(0, Some (gave (IdStr (bs "6")) (bs "HTTP session closed")))]; []; []].
Proof. vm_compute. reflexivity. Qed.
