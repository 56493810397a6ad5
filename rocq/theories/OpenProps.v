(** C190 to C192: sessions that clients open over HTTP, responses they post, and where they learn
    about tokens (src/mcp/HTTPServer.cpp). *)
From Coq Require Import Ascii String List Arith NArith ZArith Bool Lia.
From Verif Require Import StrModel StrProofs DoubleModel JsonModel JsonSpec JsonProofs RpcModel RpcSpec RpcProofs RouterModel MapModel MemModel AuthModel AuthSpec AuthProofs AuthProps WwwModel
  GuardModel GuardSpec HttpModel HttpSpec HttpProofs HttpProps RefuseSpec RefuseProofs RefuseProps OpenSpec OpenProofs.
Import ListNotations.
Local Open Scope nat_scope.

(** C190: an initialize request without a session that is let in is handed to the request handler once,
    and its answer comes back with the name of a new session of the version it asked for, which
    everything else the server holds is left alone by, unless an older session has the same name. The
    full claim, that a session is only opened when the request succeeds, is refuted below. *)
Theorem C190_opened_partial : forall loopback c verify now draw hd f q h r v,
  reaches loopback c verify now q -> f_session q = [] -> hq_body q = ser_request r -> well r -> rq_method r = bs "initialize" ->
  h_request hd = Some f -> session_of r v ->
  exists info a h' name, serve loopback c verify now draw hd q h = (Answer a, [(info, CRequest r)], h') /\
    hr_status a = 200%N /\ hr_session a = Some name /\ hr_body a = ser_response (given r (f r)) /\ name <> [] /\
    session_at h' name (length (hs_heap h)) v /\ hs_active h' = name /\ hs_done h' = hs_done h /\
    (forall n s, nth_error (hs_heap h) n = Some s -> nth_error (hs_heap h') n = Some s) /\
    (forall i, i <> name -> find_session i h' = find_session i h).
Proof. exact opened. Qed.
Print Assumptions C190_opened_partial.

(** C190: every initialize request asks for one version, the current one if it names none. *)
Theorem C190_version_partial : forall r, exists v, session_of r v /\ forall w, session_of r w -> w = v.
Proof.
  intro r. destruct (session_of_ex r) as [v V]. exists v. split; [exact V|]. intros w W.
  rewrite <- (asked_session r v V). now rewrite <- (asked_session r w W).
Qed.
Print Assumptions C190_version_partial.

(** C190: a request that names the session and fits its version is handed to the request handler once,
    and its answer comes back under the same name. *)
Theorem C190_used_partial : forall loopback c verify now draw hd f q h r n v,
  reaches loopback c verify now q -> session_at h (f_session q) n v -> f_session q <> [] -> fits q v -> hq_body q = ser_request r -> well r ->
  h_request hd = Some f ->
  exists info a, serve loopback c verify now draw hd q h = (Answer a, [(info, CRequest r)], h) /\
    hr_status a = 200%N /\ hr_session a = Some (f_session q) /\ hr_body a = ser_response (given r (f r)).
Proof. exact used. Qed.
Print Assumptions C190_used_partial.

(** C190: one of another version is refused, whatever it is. *)
Theorem C190_unfit_partial : forall loopback c verify now draw hd q h n v,
  reaches loopback c verify now q -> session_at h (f_session q) n v -> f_session q <> [] -> ~ fits q v ->
  exists a, serve loopback c verify now draw hd q h = (Answer a, [], h) /\ hr_status a = 400%N /\ hr_session a = None /\
    hr_body a = bs "{""error"":""Unsupported protocol version""}".
Proof. intros. rewrite (unfit loopback c verify now draw hd q h n v) by assumption. eexists. split; [reflexivity|]. auto. Qed.
Print Assumptions C190_unfit_partial.

Definition open_request (params : option json) : request := {| rq_id := IdInt 1; rq_method := bs "initialize"; rq_params := params |}.
Definition open_req (fields : list (bstr * bstr)) (body : bstr) : hreq :=
  {| hq_verb := POST; hq_target := bs "/mcp";
     hq_fields := [(bs "Host", bs "localhost:9443"); (bs "authorization", bs "bearer good")] ++ fields; hq_body := body |}.

Lemma not_asked : forall c q, (beq (hq_target q) WELL_KNOWN || beq (hq_target q) (well_known_base c))%bool = false -> ~ asks_metadata c q.
Proof. intros c q E A. apply is_meta in A. congruence. Qed.
Ltac reach := refine (conj _ (conj (conj _ _) (conj _ (conj _ _)))); [vm_compute; reflexivity|discriminate|reflexivity
  |now apply not_asked; vm_compute|right; eexists; apply admitted_iff; split; vm_compute; reflexivity|reflexivity].
Ltac welltac := refine (conj _ (conj _ (conj _ (conj _ _)))); [cbn; lia|discriminate|discriminate|split; vm_compute; intuition discriminate
  |intros p [= <-]; apply okb_ok; reflexivity].

(** A server that refuses to be initialized. *)
Definition refusing : handlers :=
  {| h_request := Some (fun r => HReturn (error_response (rq_id r) (-32602) (bs "Unsupported protocol version") None)); h_notification := None; h_error := true |}.

(** C190 fails: an initialize request that the request handler answers with an error opens a session
    all the same, and a request that names it is handed on. *)
Theorem C190_failed_refuted : exists loopback c verify now draw hd q h r info a h' name,
  reaches loopback c verify now q /\ f_session q = [] /\ hq_body q = ser_request r /\ well r /\ rq_method r = bs "initialize" /\
  serve loopback c verify now draw hd q h = (Answer a, [(info, CRequest r)], h') /\
  hr_body a = ser_response (error_response (rq_id r) (-32602) (bs "Unsupported protocol version") None) /\
  find_session name h = None /\ hr_session a = Some name /\ find_session name h' = Some 0.
Proof.
  exists demo_loopback, demo_conf, demo_verifier, 50%Z, 4242%N, refusing, (open_req [] (ser_request (open_request (Some (JObj [(bs "protocolVersion", JStr (bs "1999-01-01"))]))))),
    hstate0, (open_request (Some (JObj [(bs "protocolVersion", JStr (bs "1999-01-01"))]))). do 3 eexists. exists (bs "mcp-http-4242").
  split; [reach|]. split; [reflexivity|]. split; [reflexivity|]. split; [welltac|]. split; [reflexivity|].
  split; [vm_compute; reflexivity|]. split; [vm_compute; reflexivity|]. repeat split.
Qed.
Print Assumptions C190_failed_refuted.

Definition pinging (r : request) : handled := HReturn (result_of (IdInt 77) (JObj [])).
Definition served_by : handlers := {| h_request := Some pinging; h_notification := None; h_error := true |}.

Example C190_ex :
  let init := open_request (Some (JObj [(bs "protocolVersion", JStr (bs "2025-06-18"))])) in
  let q := open_req [] (ser_request init) in
  let h1 := snd (serve demo_loopback demo_conf demo_verifier 50 4242 served_by q hstate0) in
  let ping := {| rq_id := IdStr (bs "a"); rq_method := bs "ping"; rq_params := Some (JObj []) |} in
  let q1 v := open_req [(bs "Mcp-Session-Id", bs "mcp-http-4242"); (bs "MCP-Protocol-Version", bs v)] (ser_request ping) in
  (reaches demo_loopback demo_conf demo_verifier 50 q /\ well init /\ session_of init (bs "2025-06-18")) /\
  (reaches demo_loopback demo_conf demo_verifier 50 (q1 "2025-06-18"%string) /\ well ping /\ fits (q1 "2025-06-18"%string) (bs "2025-06-18")) /\
  session_at h1 (f_session (q1 "2025-06-18"%string)) 0 (bs "2025-06-18") /\ ~ fits (q1 "2025-11-25"%string) (bs "2025-06-18") /\
  session_of (open_request None) (bs "2025-11-25").
Proof.
  cbv zeta. refine (conj (conj _ (conj _ _)) (conj (conj _ (conj _ _)) (conj _ (conj _ _)))).
  - reach.
  - welltac.
  - left. split; [discriminate|]. eexists. split; reflexivity.
  - reach.
  - refine (conj _ (conj _ (conj _ (conj _ _)))); [vm_compute; intuition discriminate|intros s [= <-]; split; vm_compute; intuition discriminate|discriminate|split; vm_compute; intuition discriminate
      |intros p [= <-]; apply okb_ok; reflexivity].
  - right. left. reflexivity.
  - split; [vm_compute; reflexivity|]. eexists. split; [vm_compute; reflexivity|]. split; reflexivity.
  - intros [H|[H|[H _]]]; vm_compute in H; discriminate H.
  - right. split; [reflexivity|]. intros w (o & E & _). discriminate E.
Qed.

(** C191: a response that a request of the session waits for completes that request with it; nobody is told
    of an error. *)
Theorem C191_awaited : forall loopback c verify now draw hd q h r n v s t,
  reaches loopback c verify now q -> session_at h (f_session q) n v -> f_session q <> [] -> fits q v -> hq_body q = ser_response r -> well_response r ->
  nth_error (hs_heap h) n = Some s -> id_key (rs_id r) <> [] -> aget (id_key (rs_id r)) (ss_pending s) = Some t ->
  exists a h', serve loopback c verify now draw hd q h = (Answer a, [], h') /\
    hr_status a = 202%N /\ hr_body a = [] /\ hr_session a = Some (f_session q) /\ hs_done h' = hs_done h ++ [(t, Some r)].
Proof. exact awaited. Qed.
Print Assumptions C191_awaited.

(** C191: one that none of them waits for changes nothing, is acknowledged, and the error handler is told once. *)
Theorem C191_unawaited : forall loopback c verify now draw hd q h r n v s,
  reaches loopback c verify now q -> session_at h (f_session q) n v -> f_session q <> [] -> fits q v -> hq_body q = ser_response r -> well_response r ->
  nth_error (hs_heap h) n = Some s -> (id_key (rs_id r) = [] \/ ~ In (id_key (rs_id r)) (map fst (ss_pending s))) ->
  exists info a, serve loopback c verify now draw hd q h =
      (Answer a, if h_error hd then [(info, CError (bs "HTTPServer: unexpected response received on streamable endpoint"))] else [], h) /\
    hr_status a = 202%N /\ hr_body a = [] /\ hr_session a = Some (f_session q).
Proof. exact unawaited. Qed.
Print Assumptions C191_unawaited.

Example C191_ex :
  let h := hrun [OCreate [] 4242; OPend 0 (bs "http-server-req-1")] hstate0 in
  let q r := open_req [(bs "Mcp-Session-Id", bs "mcp-http-4242")] (ser_response r) in
  let r i := result_of (IdStr (bs i)) (JObj []) in
  (forall i, i = "http-server-req-1"%string \/ i = "other"%string ->
     reaches demo_loopback demo_conf demo_verifier 50 (q (r i)) /\ session_at h (f_session (q (r i))) 0 (bs "2025-11-25") /\ fits (q (r i)) (bs "2025-11-25") /\ well_response (r i)) /\
  exists s, nth_error (hs_heap h) 0 = Some s /\ aget (id_key (rs_id (r "http-server-req-1"%string))) (ss_pending s) = Some 0 /\
    ~ In (id_key (rs_id (r "other"%string))) (map fst (ss_pending s)).
Proof.
  cbv zeta. split.
  - intros i [-> | ->]; (refine (conj _ (conj _ (conj _ _))); [reach|split; [vm_compute; reflexivity|eexists; split; [vm_compute; reflexivity|split; reflexivity]]|left; reflexivity
      |refine (conj _ (conj _ (conj _ (conj _ _)))); [vm_compute; intuition discriminate|intros s [= <-]; split; vm_compute; intuition discriminate|left; discriminate
        |intros w [= <-]; split; [apply okb_ok; reflexivity|now apply key_inb_not]|discriminate]]).
  - eexists. split; [vm_compute; reflexivity|]. split; [vm_compute; reflexivity|]. vm_compute. intuition discriminate.
Qed.

(** C192: on the path of the whole server and on the one of the folder its main path is in, a GET is told where to get
    tokens and which scopes there are, whether it comes with a token or not; nothing happens otherwise. *)
Theorem C192_served : forall loopback c verify now draw hd q h,
  check_local loopback (hc_address c) (f_host q) (f_origin q) = None -> asks_metadata c q -> hq_verb q = GET -> ~ at_stream c q ->
  exists a, serve loopback c verify now draw hd q h = (Answer a, [], h) /\ hr_status a = 200%N /\ hr_challenge a = None /\ hr_session a = None /\
    (Forall no_escapes (bo_servers (hc_bearer c)) -> Forall no_escapes (bo_supported (hc_bearer c)) ->
     parse_json (hr_body a) = POk (JObj [(bs "authorization_servers", JArr (map JStr (bo_servers (hc_bearer c))));
                                         (bs "scopes_supported", JArr (map JStr (bo_supported (hc_bearer c))))]) []).
Proof.
  intros loopback c verify now draw hd q h L M V S. rewrite (metadata_served loopback c verify now draw hd q h L M V S). eexists. split; [reflexivity|].
  cbn [plain hr_status hr_challenge hr_session hr_body]. refine (conj eq_refl (conj eq_refl (conj eq_refl _))). apply C83_metadata_json.
Qed.
Print Assumptions C192_served.

Example C192_ex :
  let c := {| hc_address := bs "127.0.0.1"; hc_endpoint := bs "/api/v1/mcp"; hc_stream := []; hc_rpc := bs "/mcp/rpc"; hc_notify := bs "/mcp/notify";
              hc_bearer := demo_opts; hc_auth := true |} in
  let q t := {| hq_verb := GET; hq_target := bs t; hq_fields := [(bs "Host", bs "localhost")]; hq_body := [] |} in
  asks_metadata c (q "/.well-known/oauth-protected-resource"%string) /\ asks_metadata c (q "/.well-known/oauth-protected-resource/api/v1"%string) /\
  ~ asks_metadata c (q "/.well-known/oauth-protected-resource/api/v1/"%string) /\ ~ asks_metadata c (q "/.well-known/oauth-protected-resource/api"%string) /\
  ~ at_stream c (q "/.well-known/oauth-protected-resource/api/v1"%string) /\ Forall no_escapes (bo_servers demo_opts) /\ Forall no_escapes (bo_supported demo_opts).
Proof.
  cbv zeta. refine (conj _ (conj _ (conj _ (conj _ (conj _ (conj _ _)))))).
  - now left.
  - right. exists (bs "/api/v1"), (bs "mcp"). split; [reflexivity|]. split; [vm_compute; intuition discriminate|reflexivity].
  - now apply not_asked; vm_compute.
  - now apply not_asked; vm_compute.
  - intros (_ & _ & H). discriminate H.
  - repeat constructor; vm_compute; intuition (try discriminate; try lia).
  - repeat constructor; vm_compute; intuition (try discriminate; try lia).
Qed.
