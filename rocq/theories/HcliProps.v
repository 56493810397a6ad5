(** Theorems about the HTTP client transport: C97 to C102, and its part of C15, C16, C61, C66. *)
From Coq Require Import Ascii String List Permutation Arith NArith ZArith Bool Lia.
From Verif Require Import StrModel StrProofs DoubleModel JsonModel JsonSpec JsonProofs RpcModel RpcSpec RouterModel RouterProofs MapModel MemModel PendModel
  WireSpec SseModel HcliModel HcliSpec HcliProofs.
Import ListNotations.
Local Open Scope nat_scope.

Definition demo_cfg : hccfg := {| cf_endpoint := bs "/mcp"; cf_rpc := bs "/mcp/rpc"; cf_notify := bs "/mcp/notify"; cf_delete := true |}.
Definition demo_version : bstr := bs "2025-11-25".
Definition demo_rq (i : rpcid) : request := {| rq_id := i; rq_method := bs "tools/list"; rq_params := None |}.
Definition quiet_hd : handlers := {| h_request := None; h_notification := Some (fun _ => true); h_error := true |}.
Definition demo_result (i : rpcid) : response := {| rs_id := i; rs_result := Some (JInt 7); rs_error := None |}.
Definition reply_body (m : bstr) : exchange := {| ex_headers := []; ex_body := m |}.

(** C15: whatever the schedule and whatever the server sends, no future is completed twice. *)
Theorem C15_http_client_at_most_once : forall (c : hccfg) (v : bstr) (vs : list hcact),
  NoDup (map fst (pt_done (hc_tab (hcrun c (hcli0 v) vs)))).
Proof. exact hc_once. Qed.
Print Assumptions C15_http_client_at_most_once.

(** C15: when the ids of the requests are distinct, every completion has its cause: it belongs to a
    registered request and a cause for that one's id, or it is the future of a call made while the
    transport was not connected (futures are numbered in the order in which they are handed out). *)
Theorem C15_http_client_for_cause : forall (c : hccfg) (v : bstr) (vs : list hcact) (t : nat) (o : option response),
  let h := hcrun c (hcli0 v) vs in
  NoDup (hc_keys h) -> In (t, o) (pt_done (hc_tab h)) -> exists resp, o = Some resp /\
    ((exists r, In (t, r) (hc_reg h) /\ hc_cause vs h (id_key (rq_id r)) resp) \/
     (exists r vs1 vs2, resp = gave (rq_id r) (bs "Transport not connected") /\
        vs = vs1 ++ TBegin r :: vs2 /\ hc_connected (hcrun c (hcli0 v) vs1) = false /\ t = pt_next (hc_tab (hcrun c (hcli0 v) vs1)) /\
        ~ In t (map fst (hc_reg h)))).
Proof. exact hc_for_cause. Qed.
Print Assumptions C15_http_client_for_cause.

Example C15_http_client_ex :
  let vs := [TBegin (demo_rq (IdInt 9)); TStart; TBegin (demo_rq (IdInt 4)); TBegin (demo_rq IdNull); TBegin (demo_rq (IdStr (bs "x")));
             TRegister 2; TRegister 0; TRegister 0; TPost 0; TPost 0; TPost 0;
             TDone 1 (reply_body (ser_response (demo_result (IdInt 4)))) quiet_hd;
             TDone 0 (reply_body (ser_response (demo_result (IdInt 5)))) quiet_hd;
             TDone 0 no_exchange quiet_hd] in
  let h := hcrun demo_cfg (hcli0 demo_version) vs in
  NoDup (hc_keys h) /\ hc_keys h = [bs "x"; bs "4"; bs "http-req-1"] /\
  map snd (pt_done (hc_tab h)) =
    [Some (gave (IdInt 9) (bs "Transport not connected")); Some (demo_result (IdInt 4));
     Some (gave (IdStr (bs "x")) (bs "Mismatched response id"));
     Some (gave (IdStr (bs "http-req-1")) (bs "Invalid/empty HTTP response"))].
Proof.
  cbn zeta. split; [|split; vm_compute; reflexivity]. vm_compute. repeat constructor; intro H; repeat destruct H as [H|H]; try discriminate H; easy.
Qed.

(** C16: when Close is done, every request registered before has been completed. *)
Theorem C16_http_client_close_completes : forall (c : hccfg) (v : bstr) (vs : list hcact),
  let h := hcrun c (hcli0 v) vs in hc_crashed h = false ->
  pt_pend (hc_tab (hcrun c (hcli0 v) (vs ++ [TClosed]))) = [] /\
  forall t r, In (t, r) (hc_reg h) -> exists o, In (t, o) (pt_done (hc_tab (hcrun c (hcli0 v) (vs ++ [TClosed])))).
Proof. intros c v vs h C. rewrite hcrun_snoc. now apply hc_close. Qed.
Print Assumptions C16_http_client_close_completes.

Example C16_http_client_ex :
  let vs := [TStart; TBegin (demo_rq (IdInt 4)); TRegister 0; TPost 0; TDelete; TDisconnect; TForget; TStop] in
  let h := hcrun demo_cfg (hcli0 demo_version) vs in
  hc_crashed h = false /\ hc_reg h = [(0, demo_rq (IdInt 4))] /\
  pt_done (hc_tab (hcrun demo_cfg (hcli0 demo_version) (vs ++ [TClosed]))) = [(0, Some (gave (IdStr (bs "4")) (bs "Transport closed")))].
Proof. cbn zeta. split; [reflexivity|]. split; vm_compute; reflexivity. Qed.

(** C66 fails: a request that passed the connected test before Close and is registered after it is
    never completed, whatever happens short of closing again or sending again. *)
Theorem C66_http_client_race_refuted : exists (vs : list hcact) (r : request) (t : nat),
  vs = [TStart; TBegin r; TDisconnect; TForget; TStop; TClosed; TRegister 0] /\
  forall c v, let h := hcrun c (hcli0 v) vs in
  In (t, r) (hc_reg h) /\
  forall ws, (forall a, In a ws -> a <> TClosed /\ forall q, a <> TBegin q) ->
    In (id_key (rq_id r), t) (pt_pend (hc_tab (hcrun c h ws))) /\ forall o, ~ In (t, o) (pt_done (hc_tab (hcrun c h ws))).
Proof.
  exists [TStart; TBegin (demo_rq (IdInt 4)); TDisconnect; TForget; TStop; TClosed; TRegister 0], (demo_rq (IdInt 4)), 0.
  split; [reflexivity|]. intros c v. cbn zeta. split; [vm_compute; now left|]. intros ws N.
  rewrite hc_stuck; [|reflexivity|reflexivity|reflexivity|exact N]. split; [vm_compute; now left|intros o []].
Qed.
Print Assumptions C66_http_client_race_refuted.

(** C61, HTTP client: the generated ids are distinct until the 32-bit counter wraps. *)
Theorem C61_http_client : forall c v vs, Forall auto_hcact vs -> (hc_begins vs < 2 ^ 32)%N ->
  NoDup (hc_keys (hcrun c (hcli0 v) vs)).
Proof.
  intros c v vs F B. destruct (hc_ids c v vs F B) as (N & _). unfold all_keys in N.
  clear - N. induction (hc_keys (hcrun c (hcli0 v) vs)) as [|x l IH]; [constructor|]. cbn in N. inversion N as [|? ? N1 N2]; subst.
  constructor; [intro H; apply N1, in_or_app; now left|now apply IH].
Qed.
Print Assumptions C61_http_client.

Example C61_http_client_ex :
  let vs := [TStart; TBegin (demo_rq IdNull); TBegin (demo_rq (IdStr [])); TRegister 1; TRegister 0] in
  Forall auto_hcact vs /\ hc_begins vs = 2%N /\ hc_keys (hcrun demo_cfg (hcli0 demo_version) vs) = [bs "http-req-2"; bs "http-req-1"].
Proof. cbn zeta. split; [repeat (apply Forall_cons; [cbn; auto|]); apply Forall_nil|]. split; vm_compute; reflexivity. Qed.

(** C97. When the POST of a request ends, the request is answered, whether the POST failed, its
    reply was empty, malformed, a notification, or any response. Missing: a reply that is itself a
    JSON-RPC request, or the response to another pending request. *)
Theorem C97_answered_partial : forall c v vs n ex hd k b, let h := hcrun c (hcli0 v) vs in
  running h -> nth_error (hc_flight h) n = Some (PuRequest k, b) -> calm hd ->
  (forall r, ~ is_request (ex_body ex) r) ->
  (forall r, is_response (ex_body ex) r -> id_key (rs_id r) = k \/ forall t, ~ In (id_key (rs_id r), t) (pt_pend (hc_tab h))) ->
  forall t r, In (t, r) (hc_reg h) -> id_key (rq_id r) = k ->
  exists o, In (t, o) (pt_done (hc_tab (hcrun c (hcli0 v) (vs ++ [TDone n ex hd])))).
Proof. intros c v vs n ex hd k b h R F C N H t r Hr E. rewrite hcrun_snoc. eapply hc_answered; eauto. Qed.
Print Assumptions C97_answered_partial.

(** C97. The answer to a pending request reaches it, whether in the reply to its own POST, in the
    reply to another or in an event, and unchanged. *)
Theorem C97_own_answer : forall c v vs r t, let h := hcrun c (hcli0 v) vs in
  wire_ok (WResponse r) -> In (id_key (rs_id r), t) (pt_pend (hc_tab h)) ->
  (forall n hs hd k b, running h -> nth_error (hc_flight h) n = Some (PuRequest k, b) ->
     In (t, Some r) (pt_done (hc_tab (hcrun c (hcli0 v) (vs ++ [TDone n {| ex_headers := hs; ex_body := ser_response r |} hd]))))) /\
  (forall hd, hc_crashed h = false -> hc_connected h = true -> hc_sse h = true ->
     In (t, Some r) (pt_done (hc_tab (hcrun c (hcli0 v) (vs ++ [TEvent (ser_response r) hd]))))).
Proof.
  intros c v vs r t h (A & B & C & D & E) P.
  assert (I : is_response (ser_response r) r) by (intro hd; now rewrite route_response).
  split.
  - intros n hs hd k b R F. rewrite hcrun_snoc. apply (hc_own_answer c v vs _ (ser_response r)); auto; [apply R|]. left. eexists _, _, _, k, b. eauto.
  - intros hd R1 R2 R3. rewrite hcrun_snoc. apply (hc_own_answer c v vs _ (ser_response r)); auto. right. now exists hd.
Qed.
Print Assumptions C97_own_answer.

Example C97_ex :
  let vs := [TStart; TBegin (demo_rq (IdInt 4)); TRegister 0; TPost 0] in
  let h := hcrun demo_cfg (hcli0 demo_version) vs in
  running h /\ nth_error (hc_flight h) 0 = Some (PuRequest (bs "4"), ser_request (demo_rq (IdInt 4))) /\
  In (bs "4", 0) (pt_pend (hc_tab h)) /\ calm quiet_hd /\ wire_ok (WResponse (demo_result (IdInt 4))) /\
  hc_connected h = true /\ hc_sse h = true.
Proof.
  cbn zeta. split; [repeat split|]. split; [reflexivity|]. split; [vm_compute; now left|].
  split; [intros f E n; injection E as <-; reflexivity|].
  split; [|now split]. cbn. split; [lia|]. split; [discriminate|]. split; [left; discriminate|].
  split; [|discriminate]. intros w E. injection E as <-. split; [now apply okb_ok|]. intro H. inversion H.
Qed.

(** C97 fails: the reply to the POST of one request answers another that is pending, and then the
    first stays pending although its POST has ended, until the transport is closed or the server
    sends its answer some other way. *)
Theorem C97_other_refuted : exists (vs : list hcact) (r : request) (t : nat) (ex : exchange), forall c v,
  let h := hcrun c (hcli0 v) vs in
  In (t, r) (hc_reg h) /\ In (id_key (rq_id r), ex) (hc_ended h) /\ hc_flight h = [] /\ hc_queue h = [] /\
  In (id_key (rq_id r), t) (pt_pend (hc_tab h)) /\ forall o, ~ In (t, o) (pt_done (hc_tab h)).
Proof.
  exists [TStart; TBegin (demo_rq (IdInt 4)); TBegin (demo_rq (IdInt 5)); TRegister 0; TRegister 0; TPost 0; TPost 0;
          TDone 0 (reply_body (ser_response (demo_result (IdInt 5)))) quiet_hd;
          TDone 0 (reply_body (ser_response (demo_result (IdInt 5)))) quiet_hd],
         (demo_rq (IdInt 4)), 0, (reply_body (ser_response (demo_result (IdInt 5)))).
  intros c v. cbn zeta. vm_compute. repeat split; auto. intros o [H|[]]. discriminate H.
Qed.
Print Assumptions C97_other_refuted.

(** C97 fails: so does a request whose POST was replied to with a request. *)
Theorem C97_request_refuted : exists (vs : list hcact) (r : request) (t : nat) (ex : exchange), forall c v,
  let h := hcrun c (hcli0 v) vs in
  In (t, r) (hc_reg h) /\ In (id_key (rq_id r), ex) (hc_ended h) /\ hc_flight h = [] /\
  In (id_key (rq_id r), t) (pt_pend (hc_tab h)) /\ forall o, ~ In (t, o) (pt_done (hc_tab h)).
Proof.
  exists [TStart; TBegin (demo_rq (IdInt 4)); TRegister 0; TPost 0; TDone 0 (reply_body (ser_request (demo_rq (IdInt 1)))) quiet_hd],
         (demo_rq (IdInt 4)), 0, (reply_body (ser_request (demo_rq (IdInt 1)))).
  intros c v. cbn zeta. vm_compute. repeat split; auto.
Qed.
Print Assumptions C97_request_refuted.

(** C97 fails: a transport that was closed and started again says it is connected, yet a request
    is neither posted nor answered nor refused, whatever happens short of closing it. *)
Theorem C97_restart_refuted : exists (vs : list hcact) (r : request) (t : nat), forall c v,
  let h := hcrun c (hcli0 v) vs in
  hc_connected h = true /\ hc_crashed h = false /\ In (t, r) (hc_reg h) /\
  forall ws, (forall a, In a ws -> a <> TClosed /\ forall q, a <> TBegin q) ->
    In (id_key (rq_id r), t) (pt_pend (hc_tab (hcrun c h ws))) /\ forall o, ~ In (t, o) (pt_done (hc_tab (hcrun c h ws))).
Proof.
  exists [TStart; TDelete; TDisconnect; TForget; TStop; TClosed; TStart; TBegin (demo_rq (IdInt 4)); TRegister 0], (demo_rq (IdInt 4)), 0.
  intros c v. cbn zeta. split; [reflexivity|]. split; [reflexivity|]. split; [vm_compute; now left|]. intros ws N.
  rewrite hc_stuck; [|reflexivity|reflexivity|reflexivity|exact N]. split; [vm_compute; now left|intros o []].
Qed.
Print Assumptions C97_restart_refuted.

(** C98. Every POST carries the session in force when it left, if there is one and an endpoint
    path is configured, and no session otherwise. *)
Theorem C98_session : forall c v vs l1 path s ver body l2,
  hc_log (hcrun c (hcli0 v) vs) = l1 ++ SPost path s ver body :: l2 ->
  exists s0, in_force l1 s0 /\
    match s with Some x => cf_endpoint c <> [] /\ x = s0 /\ s0 <> [] | None => cf_endpoint c = [] \/ s0 = [] end.
Proof.
  intros c v vs l1 path s ver body l2 E. destruct (hc_headers _ _ _ _ _ _ _ _ _ E) as [(s0 & F & S) _].
  exists s0. split; [exact F|]. now apply some_text_iff.
Qed.
Print Assumptions C98_session.

Theorem C98_session_unique : forall l s s', in_force l s -> in_force l s' -> s = s'.
Proof. intros l s s' H H'. now apply (in_force_det l). Qed.
Print Assumptions C98_session_unique.

Definition session_hs (name : string) : list (bstr * bstr) := [(bs "Content-Type", bs "application/json"); (bs name, bs "s-17")].

Example C98_ex :
  let init := {| rq_id := IdInt 1; rq_method := bs "initialize"; rq_params := None |} in
  let vs := [TStart; TBegin init; TRegister 0; TPost 0;
             TDone 0 {| ex_headers := session_hs "Mcp-Session-Id"; ex_body := ser_response (demo_result (IdInt 1)) |} quiet_hd;
             TBegin (demo_rq (IdInt 2)); TRegister 0; TPost 0] in
  hc_log (hcrun demo_cfg (hcli0 demo_version) vs) =
    [SPost (bs "/mcp") None (Some demo_version) (ser_request init); SReply (session_hs "Mcp-Session-Id");
     SPost (bs "/mcp") (Some (bs "s-17")) (Some demo_version) (ser_request (demo_rq (IdInt 2)))].
Proof. vm_compute. reflexivity. Qed.

(** C98 fails for the header as HTTP defines it: a server, or a proxy, that writes its name in
    lower case issues a session the client does not use. *)
Theorem C98_case_refuted : exists (vs : list hcact) (hs : list (bstr * bstr)) name sid l1 path ver body,
  In (name, sid) hs /\ same_name name (bs "Mcp-Session-Id") /\ sid <> [] /\
  In (SReply hs) l1 /\ (forall hs', In (SReply hs') l1 -> hs' = hs) /\ ~ In SCleared l1 /\
  hc_log (hcrun demo_cfg (hcli0 demo_version) vs) = l1 ++ [SPost path None ver body].
Proof.
  set (init := {| rq_id := IdInt 1; rq_method := bs "initialize"; rq_params := None |}).
  exists [TStart; TBegin init; TRegister 0; TPost 0;
          TDone 0 {| ex_headers := session_hs "mcp-session-id"; ex_body := ser_response (demo_result (IdInt 1)) |} quiet_hd;
          TBegin (demo_rq (IdInt 2)); TRegister 0; TPost 0],
    (session_hs "mcp-session-id"), (bs "mcp-session-id"), (bs "s-17"),
    [SPost (bs "/mcp") None (Some demo_version) (ser_request init); SReply (session_hs "mcp-session-id")],
    (bs "/mcp"), (Some demo_version), (ser_request (demo_rq (IdInt 2))).
  split; [right; now left|]. split; [reflexivity|]. split; [discriminate|]. split; [right; now left|].
  split; [intros hs' [H|[H|[]]]; [discriminate H|now injection H as <-]|].
  split; [intros [H|[H|[]]]; discriminate H|]. vm_compute. reflexivity.
Qed.
Print Assumptions C98_case_refuted.

(** C99. What leaves the client: every POST is one that was asked for, at its path, none is
    posted twice, and those asked for are exactly: the registered requests in order, the
    notifications sent while connected, and one reply, bearing its id and what the handler
    returned, for every request of the server that arrived, in order. *)
Theorem C99_posts : forall c v vs, let h := hcrun c (hcli0 v) vs in hc_crashed h = false ->
  exists asks waiting : list (purpose * bstr),
    Permutation (posted (hc_log h) ++ map (fun p => (url_for c (fst p), snd p)) waiting) (map (fun p => (url_for c (fst p), snd p)) asks) /\
    texts_for for_request asks = map (fun tr => ser_request (snd tr)) (hc_reg h) /\
    texts_for for_notify asks = map ser_notification (sent_notes false vs) /\
    Forall2 (fun r t => exists hd resp, installed vs hd /\ answers hd r resp /\ t = ser_response resp)
      (asked (hc_calls h)) (texts_for for_reply asks).
Proof.
  intros c v vs h C. exists (hc_spawned h), (hc_queue h). split; [apply posts_at|]. split; [apply requests_spawned|].
  split; [now apply notes_spawned|]. apply replies_spawned.
Qed.
Print Assumptions C99_posts.

Definition echo_hd : handlers := {| h_request := Some (fun _ => HReturn (demo_result IdNull)); h_notification := None; h_error := false |}.

Example C99_ex :
  let note := {| nt_method := bs "notifications/initialized"; nt_params := None |} in
  let vs := [TStart; TNotify note; TBegin (demo_rq (IdInt 2)); TRegister 0; TEvent (ser_request (demo_rq (IdInt 30))) echo_hd; TPost 2; TPost 0] in
  let h := hcrun demo_cfg (hcli0 demo_version) vs in
  hc_crashed h = false /\ posted (hc_log h) = [(bs "/mcp", ser_response (demo_result (IdInt 30))); (bs "/mcp", ser_notification note)] /\
  asked (hc_calls h) = [demo_rq (IdInt 30)].
Proof. cbn zeta. split; [reflexivity|]. split; vm_compute; reflexivity. Qed.

(** C100 fails: the version header names the version the client was built for, whatever the
    server answered: every POST over an endpoint carries it. *)
Theorem C100_version_fixed : forall c v vs l1 path s ver body l2,
  hc_log (hcrun c (hcli0 v) vs) = l1 ++ SPost path s ver body :: l2 ->
  match ver with Some x => cf_endpoint c <> [] /\ x = v /\ v <> [] | None => cf_endpoint c = [] \/ v = [] end.
Proof.
  intros c v vs l1 path s ver body l2 E. destruct (hc_headers _ _ _ _ _ _ _ _ _ E) as [_ V]. now apply some_text_iff.
Qed.
Print Assumptions C100_version_fixed.

Definition init_answer (agreed : bstr) : response :=
  {| rs_id := IdInt 1; rs_result := Some (JObj [(bs "protocolVersion", JStr agreed)]); rs_error := None |}.

Theorem C100_negotiated_refuted : exists (agreed : bstr) (vs : list hcact) (t : nat) l1 path s body,
  let h := hcrun demo_cfg (hcli0 demo_version) vs in
  agreed <> demo_version /\ In (t, Some (init_answer agreed)) (pt_done (hc_tab h)) /\
  In (SReply []) l1 /\ hc_log h = l1 ++ [SPost path s (Some demo_version) body].
Proof.
  set (init := {| rq_id := IdInt 1; rq_method := bs "initialize"; rq_params := None |}).
  exists (bs "2025-06-18"), [TStart; TBegin init; TRegister 0; TPost 0;
          TDone 0 (reply_body (ser_response (init_answer (bs "2025-06-18")))) quiet_hd;
          TBegin (demo_rq (IdInt 2)); TRegister 0; TPost 0], 0,
    [SPost (bs "/mcp") None (Some demo_version) (ser_request init); SReply []], (bs "/mcp"), None, (ser_request (demo_rq (IdInt 2))).
  cbn zeta. split; [discriminate|]. split; [vm_compute; now left|]. split; [right; now left|]. vm_compute. reflexivity.
Qed.
Print Assumptions C100_negotiated_refuted.

(** C101: which formats it says it accepts. *)
Theorem C101_named : forall c, accept_header c = bs "application/json" ++ match cf_endpoint c with [] => [] | _ => bs ", text/event-stream" end.
Proof. intro c. unfold accept_header, streamable. destruct (cf_endpoint c); reflexivity. Qed.
Print Assumptions C101_named.

(** C101 fails: the client says that it accepts an event stream in reply to a POST, and gives a
    request whose answer comes that way an error. *)
Theorem C101_event_reply_refuted : forall c v vs n hs eid answer hd k b t, let h := hcrun c (hcli0 v) vs in
  cf_endpoint c <> [] -> running h -> nth_error (hc_flight h) n = Some (PuRequest k, b) ->
  In (k, t) (pt_pend (hc_tab h)) -> calm hd ->
  (exists x y, accept_header c = x ++ bs "text/event-stream" ++ y) /\
  In (t, Some (gave (IdStr k) (bs "Invalid/empty HTTP response")))
    (pt_done (hc_tab (hcrun c (hcli0 v) (vs ++ [TDone n {| ex_headers := hs; ex_body := event_text (eid, ser_response answer) |} hd])))).
Proof.
  intros c v vs n hs eid answer hd k b t h E R F P C. split.
  - unfold accept_header, streamable. destruct (cf_endpoint c); [easy|]. exists (bs "application/json, "), []. reflexivity.
  - rewrite hcrun_snoc. eapply hc_event_body; eauto.
Qed.
Print Assumptions C101_event_reply_refuted.

(** C102. As long as no notification handler throws and Start is not called on a transport that is
    already running, nothing the server sends brings the process down. *)
Theorem C102_partial : forall c v vs, Forall calm_act vs -> started_once false vs -> hc_crashed (hcrun c (hcli0 v) vs) = false.
Proof. intros c v vs F S. now apply no_crash. Qed.
Print Assumptions C102_partial.

Example C102_ex :
  let vs := [TStart; TEvent (ser_request (demo_rq (IdInt 1))) quiet_hd; TStop; TStart] in
  Forall calm_act vs /\ started_once false vs.
Proof.
  cbn zeta. split; [|now repeat split]. repeat constructor. intros f E n. injection E as <-. reflexivity.
Qed.

(** C102 fails: a server that replies to a POST with a notification brings down a process whose
    notification handler throws. *)
Theorem C102_throw_refuted : exists (vs : list hcact) (m : notification) (hd : handlers) (f : notification -> bool),
  h_notification hd = Some f /\ f m = false /\
  vs = [TStart; TBegin (demo_rq (IdInt 4)); TRegister 0; TPost 0; TDone 0 (reply_body (ser_notification m)) hd] /\
  forall c v, hc_crashed (hcrun c (hcli0 v) vs) = true.
Proof.
  set (m := {| nt_method := bs "notifications/message"; nt_params := None |}).
  set (hd := {| h_request := None; h_notification := Some (fun _ => false); h_error := false |}).
  exists [TStart; TBegin (demo_rq (IdInt 4)); TRegister 0; TPost 0; TDone 0 (reply_body (ser_notification m)) hd], m, hd, (fun _ => false).
  split; [reflexivity|]. split; [reflexivity|]. split; [reflexivity|]. intros c v. vm_compute. reflexivity.
Qed.
Print Assumptions C102_throw_refuted.

(** C102 fails: so does calling Start twice. *)
Theorem C102_start_refuted : forall c v, hc_crashed (hcrun c (hcli0 v) [TStart; TStart]) = true.
Proof. reflexivity. Qed.
Print Assumptions C102_start_refuted.
