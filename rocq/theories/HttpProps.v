(** C45, C48, C51, C52, C53, C81, C82 and C83: the HTTP server. *)
From Coq Require Import Ascii String List Sorted Permutation Arith NArith ZArith Bool Lia.
From Verif Require Import StrModel StrProofs DoubleModel JsonModel JsonSpec JsonProofs JsonProps RpcModel RouterModel MapModel MapProofs MemModel
  AuthModel AuthSpec AuthProofs AuthProps WwwModel GuardModel GuardSpec GuardProofs HttpModel HttpSpec HttpProofs HttpHist.
Import ListNotations.
Local Open Scope nat_scope.

(** C45: with bearer authentication on, a request without a token that counts runs no user
    code, changes nothing, and gets an answer without a session, whatever its method, path,
    fields and body, unless it asks for the event stream. The full claim has no such
    exception and is refuted below. *)
Theorem C45_partial : forall loopback c verify now draw hd q h,
  hc_auth c = true -> unadmitted c verify now q -> ~ asks_stream c q ->
  exists r, serve loopback c verify now draw hd q h = (Answer r, [], h) /\ hr_session r = None.
Proof.
  intros loopback c verify now draw hd q h A U N. rewrite serve_not_stream by exact N.
  exact (make_unadmitted loopback c verify now draw hd q h A U).
Qed.
Print Assumptions C45_partial.

(** C45: in particular, what would reach user code is answered with 401 or 403. *)
Theorem C45_status_partial : forall loopback c verify now draw hd q h,
  hc_auth c = true -> unadmitted c verify now q ->
  check_local loopback (hc_address c) (f_host q) (f_origin q) = None ->
  hq_target q <> WELL_KNOWN -> hq_target q <> well_known_base c ->
  hq_verb q = POST -> In (hq_target q) [hc_endpoint c; hc_rpc c; hc_notify c] -> hc_endpoint c <> [] ->
  exists r, serve loopback c verify now draw hd q h = (Answer r, [], h) /\ (hr_status r = 401%N \/ hr_status r = 403%N).
Proof.
  intros loopback c verify now draw hd q h A U L W1 W2 P T E.
  rewrite serve_not_stream by (intros (_ & Q & _); congruence).
  destruct (enforce_refuses c verify now q A U) as (r & Q & S & _). exists r. split; [|exact S].
  unfold make_response. rewrite L, P.
  assert (beq (hq_target q) WELL_KNOWN = false) as -> by (now apply beq_neq).
  assert (beq (hq_target q) (well_known_base c) = false) as -> by (now apply beq_neq). cbn [orb].
  assert (M : match hc_endpoint c with [] => false | _ => true end = true) by (destruct (hc_endpoint c); [congruence | reflexivity]).
  rewrite M. cbn [andb]. unfold handle_endpoint, handle_rpc, handle_notify. rewrite Q.
  destruct (beq (hq_target q) (hc_endpoint c)) eqn:B1; [reflexivity|].
  destruct (beq (hq_target q) (hc_rpc c)) eqn:B2; [reflexivity|].
  destruct (beq (hq_target q) (hc_notify c)) eqn:B3; [reflexivity|]. exfalso.
  destruct T as [T|[T|[T|[]]]]; rewrite <- T, beq_refl in *; discriminate.
Qed.
Print Assumptions C45_status_partial.

(** C45: every call of user code runs with the token info of an admitted token. *)
Theorem C45_calls : forall loopback c verify now draw hd q h a calls h',
  hc_auth c = true -> serve loopback c verify now draw hd q h = (a, calls, h') ->
  forall t x, In (t, x) calls -> exists i, t = Some i /\ admitted (f_auth q) verify (hc_bearer c) now i.
Proof.
  intros loopback c verify now draw hd q h a calls h' A H t x I.
  pose proof (serve_tags loopback c verify now draw hd q h a calls h' H t x I) as E.
  apply enforce_admits in E as [[B _]|[_ E]]; [congruence | exact E].
Qed.
Print Assumptions C45_calls.

Definition result_of (i : rpcid) (v : json) : response := {| rs_id := i; rs_result := Some v; rs_error := None |}.

Definition demo_conf : hconf :=
  {| hc_address := bs "127.0.0.1"; hc_endpoint := bs "/mcp"; hc_stream := []; hc_rpc := bs "/mcp/rpc";
     hc_notify := bs "/mcp/notify"; hc_bearer := demo_opts; hc_auth := true |}.
Definition demo_loopback (a : bstr) : bool := beq a (bs "127.0.0.1") || beq a (bs "::1").
Definition demo_handlers : handlers :=
  {| h_request := None; h_notification := Some (fun _ => true); h_error := true |}.
Definition demo_req (v : verb) (fields : list (bstr * bstr)) (body : bstr) : hreq :=
  {| hq_verb := v; hq_target := bs "/mcp"; hq_fields := (bs "Host", bs "localhost:9443") :: fields; hq_body := body |}.

(** C45 fails for the event stream: a GET without any token is given the session's messages
    to the client, though authentication is on. *)
Theorem C45_stream_refuted : exists c verify now q os n k x,
  hc_auth c = true /\ unadmitted c verify now q /\ field (bs "authorization") q = [] /\
  serve demo_loopback c verify now 0 demo_handlers q (hrun os hstate0) = (Streaming n, [], open_stream n (hrun os hstate0)) /\
  wire_of k (hrun (os ++ [OOpen n; OTake k; OWrite k true]) hstate0) = [x] /\ snd x = bs "secret".
Proof.
  exists demo_conf, demo_verifier, 50%Z,
    (demo_req GET [(bs "Mcp-Session-Id", bs "mcp-http-4242")] []), [OCreate [] 4242; OQueue 0 (bs "secret")], 0, 0, (bs "1", bs "secret").
  split; [reflexivity|]. split.
  { intros i A. apply admitted_iff in A as [A _]. vm_compute in A. discriminate A. }
  split; [reflexivity|]. split; [vm_compute; reflexivity|]. split; vm_compute; reflexivity.
Qed.
Print Assumptions C45_stream_refuted.

Example C45_ex :
  (forall c, hq_verb c = POST -> ~ asks_stream demo_conf c) /\
  unadmitted demo_conf demo_verifier 50 (demo_req POST [(bs "authorization", bs "Bearer weak")] []) /\
  admitted (f_auth (demo_req POST [(bs "authorization", bs "bearer good")] [])) demo_verifier demo_opts 50
    {| ti_scopes := [bs "read"; bs "write"]; ti_expiration := 100; ti_extra := [] |} /\
  fst (fst (serve demo_loopback demo_conf demo_verifier 50 4242 demo_handlers
    (demo_req POST [(bs "authorization", bs "bearer good")] (bs "{""jsonrpc"":""2.0"",""id"":1,""method"":""initialize""}")) hstate0)) =
    Answer {| hr_status := 202; hr_challenge := None; hr_session := Some (bs "mcp-http-4242"); hr_body := [] |}.
Proof.
  split; [intros c P (_ & Q & _); congruence|]. split.
  { intros i A. apply admitted_iff in A as [A _]. vm_compute in A. discriminate A. }
  split; [apply admitted_iff; split; reflexivity|]. vm_compute. reflexivity.
Qed.

(** C48: a server bound to this machine refuses every request whose Host names another host,
    or whose Origin does, with 403 and without any effect. *)
Theorem C48_host_refused : forall loopback c verify now draw hd q h w a w' host,
  bound_local loopback (hc_address c) -> f_host q = w ++ a ++ w' -> spaces w -> spaces w' -> names a host -> ~ local loopback host ->
  exists r, serve loopback c verify now draw hd q h = (Answer r, [], h) /\ hr_status r = 403%N.
Proof.
  intros loopback c verify now draw hd q h w a w' host B F W W' N L. rewrite serve_guard.
  destruct (check_local loopback (hc_address c) (f_host q) (f_origin q)) as [body|] eqn:K; [eexists; split; reflexivity|].
  exfalso. apply check_local_none_iff in K as [K|[K _]].
  - rewrite (guarded_iff loopback _ B) in K. discriminate.
  - rewrite F in K. apply (names_accepted loopback w a w' host N W W') in K. contradiction.
Qed.
Print Assumptions C48_host_refused.

Theorem C48_origin_refused : forall loopback c verify now draw hd q h w o w' host,
  bound_local loopback (hc_address c) -> f_origin q = w ++ o ++ w' -> spaces w -> spaces w' -> origin_names o host -> ~ local loopback host ->
  exists r, serve loopback c verify now draw hd q h = (Answer r, [], h) /\ hr_status r = 403%N.
Proof.
  intros loopback c verify now draw hd q h w o w' host B F W W' N L. rewrite serve_guard.
  destruct (check_local loopback (hc_address c) (f_host q) (f_origin q)) as [body|] eqn:K; [eexists; split; reflexivity|].
  exfalso. apply check_local_none_iff in K as [K|[_ [K|(h' & K1 & K2)]]].
  - rewrite (guarded_iff loopback _ B) in K. discriminate.
  - rewrite K in F. destruct N as (s & x & p & -> & NS & _). destruct w; [|discriminate F]. destruct s; [congruence | discriminate F].
  - rewrite F, (origin_host_names loopback w o w' host N W W') in K1. injection K1 as <-.
    apply (local_plain loopback) in K2; [contradiction|].
    destruct N as (s & x & p & _ & _ & _ & N & _). exact (proj2 (names_nospace x host N)).
Qed.
Print Assumptions C48_origin_refused.

(** C48: a request whose Host, and Origin if there is one, name a local host in any spelling
    is handled as by a server that does not look at them. *)
Theorem C48_local_accepted : forall loopback c verify now draw hd q h w a w' host,
  f_host q = w ++ a ++ w' -> spaces w -> spaces w' -> names a host -> local loopback host ->
  (f_origin q = [] \/ exists v o v' host', f_origin q = v ++ o ++ v' /\ spaces v /\ spaces v' /\ origin_names o host' /\ local loopback host') ->
  serve loopback c verify now draw hd q h = serve (fun _ => false) (bound_to [] c) verify now draw hd q h.
Proof.
  intros loopback c verify now draw hd q h w a w' host F W W' N L O. rewrite (serve_guard loopback).
  assert (K : check_local loopback (hc_address c) (f_host q) (f_origin q) = None); [|now rewrite K].
  apply check_local_none_iff. right. split.
  - rewrite F. now apply (names_accepted loopback w a w' host N W W').
  - destruct O as [O|(v & o & v' & host' & E & V & V' & N' & L')]; [now left|]. right. exists host'.
    rewrite E. split; [exact (origin_host_names loopback v o v' host' N' V V')|].
    apply (local_plain loopback); [|exact L']. destruct N' as (s & x & p & _ & _ & _ & N' & _). exact (proj2 (names_nospace x host' N')).
Qed.
Print Assumptions C48_local_accepted.

(** C48: any Host at all, well formed or not: what is let through, exactly. *)
Theorem C48_any_host : forall loopback c verify now draw hd q h,
  bound_local loopback (hc_address c) -> f_origin q = [] ->
  ((exists a x y, trimmed (f_host q) a /\ reads a x /\ trimmed x y /\ local loopback y) ->
     serve loopback c verify now draw hd q h = serve (fun _ => false) (bound_to [] c) verify now draw hd q h) /\
  (~ (exists a x y, trimmed (f_host q) a /\ reads a x /\ trimmed x y /\ local loopback y) ->
     exists r, serve loopback c verify now draw hd q h = (Answer r, [], h) /\ hr_status r = 403%N).
Proof.
  intros loopback c verify now draw hd q h B O. rewrite (serve_guard loopback). split; intro H.
  - assert (K : check_local loopback (hc_address c) (f_host q) (f_origin q) = None); [|now rewrite K].
    apply check_local_none_iff. right. split; [now apply host_local_iff | now left].
  - destruct (check_local loopback (hc_address c) (f_host q) (f_origin q)) as [body|] eqn:K; [eexists; split; reflexivity|].
    exfalso. apply check_local_none_iff in K as [K|[K _]].
    + rewrite (guarded_iff loopback _ B) in K. discriminate.
    + apply H. now apply host_local_iff.
Qed.
Print Assumptions C48_any_host.

(** C48 fails for authorities with user info: this Host and this Origin name evil.com. *)
Theorem C48_userinfo_refuted : exists loopback c q,
  bound_local loopback (hc_address c) /\ names_user (f_host q) (bs "evil.com") /\ ~ local loopback (bs "evil.com") /\
  f_origin q = bs "http://" ++ f_host q /\
  check_local loopback (hc_address c) (f_host q) (f_origin q) = None.
Proof.
  exists demo_loopback, demo_conf,
    {| hq_verb := POST; hq_target := bs "/mcp"; hq_body := [];
       hq_fields := [(bs "Host", bs "localhost:x@evil.com"); (bs "Origin", bs "http://localhost:x@evil.com")] |}.
  split.
  { exists [], (bs "127.0.0.1"), []. split; [reflexivity|]. split; [intros ? []|]. split; [intros ? []|]. split.
    - split; [discriminate|]. right. reflexivity.
    - intros c I. cbn in I. decompose [or] I; try contradiction; subst c; reflexivity. }
  split.
  { exists (bs "localhost:x"), (bs "evil.com"). split; [reflexivity|]. rewrite <- (app_nil_r (bs "evil.com")) at 1.
    constructor; [|now left]. split; [discriminate|]. intros c I. cbn in I.
    decompose [or] I; try contradiction; subst c; (split; [reflexivity|]); cbn; intros J; decompose [or] J; try discriminate; contradiction. }
  split; [intros [_ [H|H]]; vm_compute in H; discriminate H|]. split; vm_compute; reflexivity.
Qed.
Print Assumptions C48_userinfo_refuted.

Example C48_ex :
  bound_local demo_loopback (bs " LOCALHOST ") /\ names (bs "[::1]:8080") (bs "::1") /\ local demo_loopback (bs "::1") /\
  names (bs "evil.com:80") (bs "evil.com") /\ ~ local demo_loopback (bs "evil.com") /\ origin_names (bs "http://evil.com:80/x") (bs "evil.com").
Proof.
  assert (R : reg_name (bs "evil.com")).
  { split; [discriminate|]. intros c I. cbn in I.
    decompose [or] I; try contradiction; subst c; (split; [reflexivity|]); cbn; intros J; decompose [or] J; try discriminate; contradiction. }
  assert (N : names (bs "evil.com:80") (bs "evil.com")).
  { change (bs "evil.com:80") with (bs "evil.com" ++ bs ":80"). constructor; [exact R|]. right. exists (bs "80"). split; [reflexivity|].
    intros c I. cbn in I. decompose [or] I; try contradiction; subst c; reflexivity. }
  split.
  { exists [SPACE], (bs "LOCALHOST"), [SPACE]. split; [reflexivity|].
    split; [intros c [<-|[]]; reflexivity|]. split; [intros c [<-|[]]; reflexivity|]. split.
    - split; [discriminate|]. now left.
    - intros c I. cbn in I. decompose [or] I; try contradiction; subst c; reflexivity. }
  split.
  { change (bs "[::1]:8080") with ([LBR] ++ bs "::1" ++ [RBR] ++ bs ":8080"). constructor.
    - split; [discriminate|]. intros c I. cbn in I.
      decompose [or] I; try contradiction; subst c; (split; [reflexivity|]); cbn; intros J; decompose [or] J; try discriminate; contradiction.
    - right. exists (bs "8080"). split; [reflexivity|]. intros c I. cbn in I. decompose [or] I; try contradiction; subst c; reflexivity. }
  split; [split; [discriminate | now right]|]. split; [exact N|].
  split; [intros [_ [H|H]]; vm_compute in H; discriminate H|].
  exists (bs "http"), (bs "evil.com:80"), (bs "/x"). split; [reflexivity|]. split; [discriminate|]. split.
  - intros c I. cbn in I. decompose [or] I; try contradiction; subst c; (split; [reflexivity | discriminate]).
  - split; [exact N|]. right. exists (bs "x"). split; [reflexivity|]. intros c [<-|[]]. reflexivity.
Qed.

(** C51: whatever happened before, an HTTP request that names a session changes no other
    session (here sessions are numbered in order of creation) and no other name's session,
    except that a session it creates takes its random name. *)
Theorem C51_one_session : forall loopback c verify now draw hd q h,
  let h' := snd (serve loopback c verify now draw hd q h) in
  (forall m, m < length (hs_heap h) -> find_session (f_session q) h <> Some m ->
     nth_error (hs_heap h') m = nth_error (hs_heap h) m) /\
  (forall j, j <> f_session q -> j <> session_name draw -> find_session j h' = find_session j h).
Proof. intros. exact (serve_touches loopback c verify now draw hd q h). Qed.
Print Assumptions C51_one_session.

(** C51: the session found under a name has that name. *)
Theorem C51_named : forall os i n, find_session i (hrun os hstate0) = Some n ->
  exists s, nth_error (hs_heap (hrun os hstate0)) n = Some s /\ ss_id s = i.
Proof. exact find_id. Qed.
Print Assumptions C51_named.

(** C51: after any history, an HTTP request completes no request but those sent on the
    session it names: with a response that bears the same id, or with an error when it
    deletes the session. *)
Theorem C51_completions : forall os loopback c verify now draw hd q t x,
  In (t, x) (hs_done (snd (serve loopback c verify now draw hd q (hrun os hstate0)))) ->
  In (t, x) (hs_done (hrun os hstate0)) \/
  exists n k r, find_session (f_session q) (hrun os hstate0) = Some n /\ In (t, n, k) (issued 0 0 os) /\ x = Some r /\
    (id_key (rs_id r) = k \/ r = error_response (IdStr k) (-32603) (bs "HTTP session closed") None).
Proof.
  intros os loopback c verify now draw hd q t x H.
  destruct (serve_completes os loopback c verify now draw hd q t x H) as [K|(n & F & k & I & r & -> & K)]; [now left|].
  right. exists n, k, r. repeat split; assumption.
Qed.
Print Assumptions C51_completions.

(** C51: no request completes twice, and each is pending on one session or completed. *)
Theorem C51_once : forall os,
  NoDup (map fst (hs_done (hrun os hstate0))) /\
  Permutation (flat_map (fun s => map snd (ss_pending s)) (hs_heap (hrun os hstate0)) ++ map fst (hs_done (hrun os hstate0)))
    (seq 0 (length (issued 0 0 os))).
Proof.
  intro os. split; [apply tickets_once|]. rewrite <- (pv_tick _ _ (pinv_run os)). exact (pv_all _ _ (pinv_run os)).
Qed.
Print Assumptions C51_once.

(** C51: creating a session leaves every existing session object and every other name alone.
    The full claim, that it disturbs no existing session, needs fresh names and is refuted
    below. *)
Theorem C51_create_partial : forall version draw h,
  let h' := create_session version draw h in
  (forall n s, nth_error (hs_heap h) n = Some s -> nth_error (hs_heap h') n = Some s) /\
  (forall i, find_session (session_name draw) h = None -> find_session i h <> None -> find_session i h' = find_session i h) /\
  hs_done h' = hs_done h /\ hs_streams h' = hs_streams h.
Proof.
  intros version draw h h'. split; [intros n s; apply create_keeps|]. split; [|split; reflexivity].
  intros i F N. apply create_others. intros ->. contradiction.
Qed.
Print Assumptions C51_create_partial.

(** C51 fails when a random name repeats: the older session can no longer be reached, and
    the response to a request sent on it is lost. *)
Theorem C51_collision_refuted : exists os d r,
  let h := hrun os hstate0 in
  find_session (session_name d) h = Some 0 /\ In (0, 0, id_key (rs_id r)) (issued 0 0 os) /\
  (exists s, nth_error (hs_heap h) 0 = Some s /\ aget (id_key (rs_id r)) (ss_pending s) = Some 0) /\
  find_session (session_name d) (hstep h (OCreate [] d)) = Some 1 /\
  hs_done (hrun [OCreate [] d; OResolve 1 r] h) = [].
Proof.
  exists [OCreate [] 1234; OPend 0 (bs "http-server-req-1")], 1234%N, (result_of (IdStr (bs "http-server-req-1")) JNull).
  cbv zeta. split; [reflexivity|]. split; [now left|]. split; [eexists; split; reflexivity|]. split; vm_compute; reflexivity.
Qed.
Print Assumptions C51_collision_refuted.

(** C51: and among more than 9000 sessions a name does repeat, whatever the generator draws. *)
Theorem C51_names_run_out : forall os, draws_ok os -> (9000 < N.of_nat (length (created os)))%N -> ~ NoDup (created os).
Proof. exact names_repeat. Qed.
Print Assumptions C51_names_run_out.

Example C51_ex :
  let os := [OCreate [] 1000; OCreate [] 2000; OPend 0 (bs "a"); OPend 1 (bs "a")] in
  issued 0 0 os = [(0, 0, bs "a"); (1, 1, bs "a")] /\ find_session (bs "mcp-http-2000") (hrun os hstate0) = Some 1 /\
  hs_done (snd (serve demo_loopback demo_conf demo_verifier 50 0 demo_handlers
    (demo_req POST [(bs "authorization", bs "Bearer good"); (bs "mcp-session-id", bs "mcp-http-2000")]
      (bs "{""jsonrpc"":""2.0"",""id"":""a"",""result"":7}")) (hrun os hstate0))) = [(1, Some (result_of (IdStr (bs "a")) (JInt 7)))] /\
  draws_ok os.
Proof.
  cbv zeta. split; [reflexivity|]. split; [reflexivity|]. split; [vm_compute; reflexivity|].
  intros v d H. cbn in H. decompose [or] H; try discriminate; try contradiction.
  - match goal with E : OCreate _ _ = OCreate _ _ |- _ => injection E as <- <- end. lia.
  - match goal with E : OCreate _ _ = OCreate _ _ |- _ => injection E as <- <- end. lia.
Qed.

(** C52: for every history and interleaving, the messages taken for a session's streams, in
    the order taken, followed by those still waiting, are the messages queued to it, in
    order, numbered 1, 2, 3, ... *)
Theorem C52_fifo : forall os n, taken n os hstate0 ++ queue_of n (hrun os hstate0) = numbered 1 (queued n 0 os).
Proof. intros. apply fifo. Qed.
Print Assumptions C52_fifo.

(** C52: what a stream has written is what it has taken, but for at most one message, and is a
    subsequence of what was queued, with increasing numbers as event ids. *)
Theorem C52_stream : forall os k n, serves k n (hrun os hstate0) = true -> (N.of_nat (length (queued n 0 os)) < two64)%N ->
  (exists d, taken_by k os hstate0 = wire_of k (hrun os hstate0) ++ d /\ length d <= 1) /\
  subseq (wire_of k (hrun os hstate0)) (numbered 1 (queued n 0 os)) /\
  exists ids, map fst (wire_of k (hrun os hstate0)) = map print_N ids /\ StronglySorted N.lt ids.
Proof.
  intros os k n S L. split; [destruct (wire_prefix k os) as (d & E & B & _); now exists d|].
  exact (wire_increasing k n os S L).
Qed.
Print Assumptions C52_stream.

(** C52: no message goes to two streams. *)
Theorem C52_once : forall os k j n x, k <> j -> serves k n (hrun os hstate0) = true -> serves j n (hrun os hstate0) = true ->
  (N.of_nat (length (queued n 0 os)) < two64)%N ->
  In x (taken_by k os hstate0) -> ~ In x (taken_by j os hstate0).
Proof. intros os k j n x. apply once_one_stream. Qed.
Print Assumptions C52_once.

(** C52: a stream that is still running has written all it took, up to the message in hand. *)
Theorem C52_running : forall os k, alive k (hrun os hstate0) = true ->
  taken_by k os hstate0 = wire_of k (hrun os hstate0) ++ match held_by k (hrun os hstate0) with Some x => [x] | None => [] end.
Proof. intros os k A. destruct (wire_prefix k os) as (d & E & _ & D). rewrite E, (D A). destruct (held_by _ _); reflexivity. Qed.
Print Assumptions C52_running.

(** C52 fails when a write fails: the message is gone, a later stream starts with the next. *)
Theorem C52_lost_refuted : exists os,
  queued 0 0 os = [bs "a"; bs "b"] /\ wire_of 0 (hrun os hstate0) = [] /\ wire_of 1 (hrun os hstate0) = [(bs "2", bs "b")] /\
  queue_of 0 (hrun os hstate0) = [].
Proof.
  exists [OCreate [] 1000; OOpen 0; OQueue 0 (bs "a"); OTake 0; OWrite 0 false; OQueue 0 (bs "b"); OOpen 0; OTake 1; OWrite 1 true].
  repeat split; reflexivity.
Qed.
Print Assumptions C52_lost_refuted.

Example C52_ex :
  let os := [OCreate [] 1000; OOpen 0; OOpen 0; OQueue 0 (bs "a"); OTake 1; OQueue 0 (bs "b"); OQueue 0 (bs "c"); OTake 0; OWrite 0 true; OWrite 1 true; OTake 1] in
  serves 0 0 (hrun os hstate0) = true /\ serves 1 0 (hrun os hstate0) = true /\ queued 0 0 os = [bs "a"; bs "b"; bs "c"] /\
  wire_of 0 (hrun os hstate0) = [(bs "2", bs "b")] /\ wire_of 1 (hrun os hstate0) = [(bs "1", bs "a")] /\
  taken 0 os hstate0 = [(bs "1", bs "a"); (bs "2", bs "b"); (bs "3", bs "c")] /\ alive 1 (hrun os hstate0) = true.
Proof. repeat split; reflexivity. Qed.

(** C53: on an existing session, a request whose version field is absent, is the session's
    version, or is one of the two older versions while the session has the current one, is
    handled as if there were no such field. *)
Theorem C53_accepted : forall loopback c verify now draw hd q h v,
  session_version q h v ->
  f_version q = [] \/ f_version q = v \/ (v = PROTO /\ In (f_version q) [bs "2025-03-26"; bs "2025-06-18"]) ->
  serve loopback c verify now draw hd q h = serve loopback c verify now draw hd (without (bs "mcp-protocol-version") q) h.
Proof.
  intros loopback c verify now draw hd q h v S H. apply (serve_version_ok loopback c verify now draw hd q h v S).
  apply check_version_iff. destruct H as [H|[H|(H & [K|[K|[]]])]]; auto.
Qed.
Print Assumptions C53_accepted.

(** C53: any other version is refused with 400 and no effect, on the endpoint and on the
    stream, by a server that would look at the request otherwise. *)
Theorem C53_refused : forall loopback c verify now draw hd q h v,
  session_version q h v ->
  f_version q <> [] -> f_version q <> v -> ~ (v = PROTO /\ In (f_version q) [bs "2025-03-26"; bs "2025-06-18"]) ->
  check_local loopback (hc_address c) (f_host q) (f_origin q) = None ->
  asks_stream c q \/
  (hq_verb q = POST /\ hc_endpoint c <> [] /\ hq_target q = hc_endpoint c /\ hc_endpoint c <> WELL_KNOWN /\
   hc_endpoint c <> well_known_base c /\ f_session q <> [] /\ (hc_auth c = false \/ exists i, admitted (f_auth q) verify (hc_bearer c) now i)) ->
  exists r, serve loopback c verify now draw hd q h = (Answer r, [], h) /\ hr_status r = 400%N.
Proof.
  intros loopback c verify now draw hd q h v S N1 N2 N3 L K.
  assert (B : check_version (f_version q) v = false).
  { destruct (check_version (f_version q) v) eqn:E; [|reflexivity]. exfalso. apply check_version_iff in E as [E|[E|(E & [F|F])]]; auto.
    - apply N3. split; [exact E | now left].
    - apply N3. split; [exact E | right; now left]. }
  eexists. destruct K as [K|(K1 & K2 & K3 & K4 & K5 & K6 & K7)].
  - split; [exact (serve_version_bad_stream loopback c verify now draw hd q h v K S B L) | reflexivity].
  - split; [exact (serve_version_bad_post loopback c verify now draw hd q h v K1 K2 K3 K4 K5 K6 S B L K7) | reflexivity].
Qed.
Print Assumptions C53_refused.

(** C53 fails in two ways: an older version that the server supports is refused when the
    session was opened with another older version; and the two paths without sessions do not
    look at the field at all. *)
Theorem C53_older_refuted : exists loopback c verify now hd q os v,
  session_version q (hrun os hstate0) v /\ v = bs "2025-06-18" /\ f_version q = bs "2025-03-26" /\
  serve loopback c verify now 0 hd q (hrun os hstate0) = (Answer (plain 400 (bs "{""error"":""Unsupported protocol version""}")), [], hrun os hstate0).
Proof.
  exists demo_loopback, demo_conf, demo_verifier, 50%Z, demo_handlers,
    (demo_req GET [(bs "Mcp-Session-Id", bs "mcp-http-1000"); (bs "MCP-Protocol-Version", bs "2025-03-26")] []), [OCreate (bs "2025-06-18") 1000], (bs "2025-06-18").
  split; [eexists 0, _; repeat split; reflexivity|]. repeat split; vm_compute; reflexivity.
Qed.
Print Assumptions C53_older_refuted.

Theorem C53_rpc_refuted : exists loopback c verify now hd q calls r,
  f_version q = bs "1999-01-01" /\
  serve loopback c verify now 0 hd q hstate0 = (Answer r, calls, hstate0) /\ hr_status r = 200%N /\ calls <> [].
Proof.
  exists demo_loopback, demo_conf, demo_verifier, 50%Z,
    {| h_request := Some (fun _ => HReturn (result_of IdNull JNull)); h_notification := None; h_error := false |},
    {| hq_verb := POST; hq_target := bs "/mcp/rpc";
       hq_fields := [(bs "Host", bs "localhost"); (bs "Authorization", bs "Bearer good"); (bs "MCP-Protocol-Version", bs "1999-01-01")];
       hq_body := bs "{""jsonrpc"":""2.0"",""id"":1,""method"":""ping""}" |}.
  eexists _, _. split; [reflexivity|]. split; [vm_compute; reflexivity|]. split; [reflexivity | discriminate].
Qed.
Print Assumptions C53_rpc_refuted.

Example C53_ex :
  let q v := demo_req GET [(bs "Mcp-Session-Id", bs "mcp-http-1000"); (bs "MCP-Protocol-Version", v)] [] in
  let h := hrun [OCreate [] 1000] hstate0 in
  (forall v, session_version (q v) h PROTO) /\ asks_stream demo_conf (q PROTO) /\
  check_local demo_loopback (hc_address demo_conf) (f_host (q PROTO)) (f_origin (q PROTO)) = None /\
  fst (fst (serve demo_loopback demo_conf demo_verifier 50 0 demo_handlers (q (bs "2025-03-26")) h)) = Streaming 0 /\
  fst (fst (serve demo_loopback demo_conf demo_verifier 50 0 demo_handlers (q (bs "2025-03-27")) h)) =
    Answer (plain 400 (bs "{""error"":""Unsupported protocol version""}")).
Proof.
  cbv zeta. split; [intro v; eexists 0, _; repeat split; reflexivity|]. split; [repeat split; try reflexivity; discriminate|].
  repeat split; vm_compute; reflexivity.
Qed.

(** C81: deleting a session, and stopping the transport, completes every request pending on
    the session with an error, and by C51_once only once. *)
Theorem C81_deleted : forall h i n s k t, find_session i h = Some n -> nth_error (hs_heap h) n = Some s -> In (k, t) (ss_pending s) ->
  In (t, Some (error_response (IdStr k) (-32603) (bs "HTTP session closed") None)) (hs_done (remove_session i h)) /\
  find_session i (remove_session i h) = None.
Proof. exact remove_completes. Qed.
Print Assumptions C81_deleted.

Theorem C81_stopped : forall h i n s k t, find_session i h = Some n -> nth_error (hs_heap h) n = Some s -> In (k, t) (ss_pending s) ->
  In (t, Some (error_response (IdStr k) (-32603) (bs "Transport closed") None)) (hs_done (stop_sessions h)).
Proof. exact stop_completes. Qed.
Print Assumptions C81_stopped.

(** C81: the DELETE request is such a deletion. *)
Theorem C81_delete_request : forall loopback c verify now draw hd q h,
  hq_verb q = DELETE -> hc_endpoint c <> [] -> hq_target q = hc_endpoint c ->
  hc_endpoint c <> WELL_KNOWN -> hc_endpoint c <> well_known_base c -> f_session q <> [] ->
  check_local loopback (hc_address c) (f_host q) (f_origin q) = None ->
  (hc_auth c = false \/ exists i, admitted (f_auth q) verify (hc_bearer c) now i) ->
  serve loopback c verify now draw hd q h = (Answer (plain 204 []), [], remove_session (f_session q) h).
Proof.
  intros loopback c verify now draw hd q h P E T W1 W2 NS L A.
  rewrite serve_not_stream by (intros (_ & Q & _); congruence). unfold make_response. rewrite L, T.
  assert (beq (hc_endpoint c) WELL_KNOWN = false) as -> by (now apply beq_neq).
  assert (beq (hc_endpoint c) (well_known_base c) = false) as -> by (now apply beq_neq).
  rewrite beq_refl. cbn [orb]. destruct (hc_endpoint c) as [|e0 e1]; [congruence|]. cbn [andb]. unfold handle_endpoint.
  assert (X : exists info, enforce c verify now q = inr info).
  { unfold enforce. destruct A as [->|(i & A)]; [eexists; reflexivity|].
    destruct (hc_auth c); cbn [negb]; [|eexists; reflexivity]. apply admitted_iff in A as [-> _]. eexists; reflexivity. }
  destruct X as (info & ->). rewrite P. destruct (f_session q); [congruence | reflexivity].
Qed.
Print Assumptions C81_delete_request.

(** C81 fails for a request that is being sent while its session is deleted: it becomes
    pending after the sweep, and neither a response nor Stop will complete it. *)
Theorem C81_race_refuted : exists os t,
  issued 0 0 os = [(t, 0, bs "k")] /\ In (OClose 0) os /\
  forall os', ~ In (OClose 0) os' ->
    (forall n r, In (OResolve n r) os' -> n <> 0) -> (forall k, ~ In (OPend 0 k) os') ->
    forall x, ~ In (t, x) (hs_done (hrun (os ++ os') hstate0)).
Proof.
  exists [OCreate [] 1000; OUnlink (bs "mcp-http-1000"); OClose 0; OPend 0 (bs "k")], 0.
  split; [reflexivity|]. split; [right; right; now left|]. intros os' NC NR NP x.
  assert (G : forall os h, (exists s, nth_error (hs_heap h) 0 = Some s /\ In (bs "k", 0) (ss_pending s)) ->
    ~ (exists i, In (i, 0) (hs_table h)) -> ~ In (OClose 0) os -> (forall n r, In (OResolve n r) os -> n <> 0) -> (forall k, ~ In (OPend 0 k) os) ->
    exists s, nth_error (hs_heap (hrun os h)) 0 = Some s /\ In (bs "k", 0) (ss_pending s)).
  { clear. induction os as [|o os IH]; intros h (s & E & K) T NC NR NP; [now exists s|].
    change (hrun (o :: os) h) with (hrun os (hstep h o)).
    apply IH; clear IH; [| |intro I; apply NC; now right|intros n r I; apply (NR n r); now right|intros k I; apply (NP k); now right].
    - pose proof (nth_lt _ _ _ _ E) as L. destruct o as [v d|i|n|n p|n k|n r|n|k|k ok|]; cbn [hstep].
      + exists s. split; [now apply create_keeps | exact K].
      + exists s. split; [|exact K]. unfold unlink_session. destruct (aget i (hs_table h)); exact E.
      + exists s. split; [|exact K]. rewrite close_other; [exact E|]. intros <-. apply NC. now left.
      + unfold queue_outbound. destruct (nth_error (hs_heap h) n) as [s'|] eqn:E'; [|now exists s].
        destruct (Nat.eq_dec 0 n) as [<-|N].
        * rewrite E in E'. injection E' as <-. eexists. rewrite put_session_nth by exact L. split; [reflexivity | exact K].
        * exists s. rewrite put_session_nth by exact (nth_lt _ _ _ _ E'). assert (Nat.eqb 0 n = false) as -> by (now apply Nat.eqb_neq). now split.
      + unfold pend_request. destruct (nth_error (hs_heap h) n) as [s'|] eqn:E'; [|now exists s].
        destruct (Nat.eq_dec 0 n) as [<-|N]; [exfalso; apply (NP k); now left|].
        exists s. cbn [hs_heap put_session]. rewrite nth_set_other; [now split | exact (nth_lt _ _ _ _ E') | exact N].
      + exists s. rewrite resolve_other; [now split|]. intros <-. apply (NR 0 r); [now left | reflexivity].
      + now exists s.
      + destruct (stream_take_ends k h) as [-> | [(m & _ & _ & _ & ->) | (m & s' & y & q & _ & _ & _ & E' & _ & _ & ->)]]; try (now exists s).
        cbn [hs_heap put_session put_stream]. destruct (Nat.eq_dec 0 (sm_session m)) as [Q|N].
        * rewrite <- Q in *. rewrite E in E'. injection E' as <-. eexists. rewrite nth_set_same by exact L. split; [reflexivity | exact K].
        * exists s. rewrite nth_set_other; [now split | exact (nth_lt _ _ _ _ E') | exact N].
      + destruct (stream_write_ends k ok h) as [-> | (m & y & _ & _ & _ & ->)]; now exists s.
      + exists s. split; [|exact K]. unfold stop_sessions. cbn [hs_heap].
        enough (G : forall l g, (forall i, ~ In (i, 0) l) -> nth_error (hs_heap g) 0 = Some s ->
          nth_error (hs_heap (fold_left (fun a kn => close_session (bs "Transport closed") (snd kn) a) l g)) 0 = Some s)
          by (apply G; [intros i I; apply T; now exists i | exact E]).
        clear. induction l as [|[i n] l IH]; intros g N E; [exact E|]. cbn [fold_left snd]. apply IH; [intros j J; apply (N j); now right|].
        rewrite close_other; [exact E|]. intros <-. apply (N i). now left.
    - intros (i & I). apply T. pose proof (nth_lt _ _ _ _ E) as L. destruct o as [v d|j|n|n p|n k|n r|n|k|k ok|]; cbn [hstep] in I.
      + cbn [create_session hs_table] in I. apply in_aset_any in I as [I|I]; [|now exists i]. injection I as _ I. lia.
      + unfold unlink_session in I. destruct (aget j (hs_table h)); [|now exists i]. cbn [hs_table] in I. apply in_adel in I as [I _]. now exists i.
      + unfold close_session in I. destruct (nth_error (hs_heap h) n); now exists i.
      + unfold queue_outbound in I. destruct (nth_error (hs_heap h) n); now exists i.
      + unfold pend_request in I. destruct (nth_error (hs_heap h) n); now exists i.
      + rewrite resolve_table in I. now exists i.
      + now exists i.
      + destruct (stream_take_ends k h) as [E'|[(m & _ & _ & _ & E')|(m & s' & y & q & _ & _ & _ & _ & _ & _ & E')]]; rewrite E' in I; now exists i.
      + destruct (stream_write_ends k ok h) as [E'|(m & y & _ & _ & _ & E')]; rewrite E' in I; now exists i.
      + destruct I. }
  unfold hrun at 1. rewrite fold_left_app. fold (hrun os').
  match goal with |- context [fold_left hstep ?l hstate0] => fold (hrun l hstate0) end.
  intro D. set (os := [OCreate [] 1000; OUnlink (bs "mcp-http-1000"); OClose 0; OPend 0 (bs "k")]) in *.
  destruct (G os' (hrun os hstate0)) as (s & E & K).
  - eexists. split; [reflexivity|]. now left.
  - intros (i & []).
  - exact NC.
  - exact NR.
  - exact NP.
  - pose proof (pinv_run (os ++ os')) as P. assert (X : hrun (os ++ os') hstate0 = hrun os' (hrun os hstate0)) by (unfold hrun; apply fold_left_app).
    rewrite X in P. pose proof (pv_all _ _ P) as A. symmetry in A. apply Permutation_NoDup in A; [|apply seq_NoDup].
    apply nth_error_In in E. change (fold_left hstep os' (hrun os hstate0)) with (hrun os' (hrun os hstate0)) in D.
    assert (I1 : In 0 (tickets (hs_heap (hrun os' (hrun os hstate0))))).
    { apply in_flat_map. exists s. split; [exact E|]. apply in_map_iff. now exists (bs "k", 0). }
    assert (I2 : In 0 (map fst (hs_done (hrun os' (hrun os hstate0))))) by (apply in_map_iff; now exists (0, x)).
    clear - A I1 I2. induction (tickets _) as [|y l IH]; [destruct I1|]. cbn [app] in A. inversion A as [|? ? N D]; subst.
    destruct I1 as [->|I1]; [apply N; apply in_or_app; now right | exact (IH D I1)].
Qed.
Print Assumptions C81_race_refuted.

Example C81_ex :
  let h := hrun [OCreate [] 1000; OPend 0 (bs "a"); OPend 0 (bs "b")] hstate0 in
  find_session (bs "mcp-http-1000") h = Some 0 /\ (exists s, nth_error (hs_heap h) 0 = Some s /\ In (bs "b", 1) (ss_pending s)) /\
  map fst (hs_done (remove_session (bs "mcp-http-1000") h)) = [0; 1].
Proof. cbv zeta. split; [reflexivity|]. split; [eexists; split; [reflexivity | right; now left] | reflexivity]. Qed.

(** C82: a message the server sends goes to one session, and the other sessions are not
    affected: the session created last, while it lives. *)
Theorem C82_last_created : forall os version d m,
  let h := hrun os hstate0 in
  let h1 := create_session version d h in
  send_notification m h1 = queue_outbound (length (hs_heap h)) (ser_notification m) h1.
Proof. intros os version d m h h1. unfold send_notification, active_session, h1. cbn. now rewrite aget_aset_same. Qed.
Print Assumptions C82_last_created.

(** C82: a request to it is queued on that session, and a response with its id posted on that
    session completes it. *)
Theorem C82_request_answered : forall h n s r counter resp, active_session h = Some n -> nth_error (hs_heap h) n = Some s ->
  let i := send_key (rq_id r) counter in
  let h1 := send_request r counter h in
  queue_of n h1 = queue_of n h ++ [(print_N (ss_next s), ser_request {| rq_id := i; rq_method := rq_method r; rq_params := rq_params r |})] /\
  (id_key (rs_id resp) = id_key i ->
     fst (resolve_pending n resp h1) = true /\ In (hs_ticket h, Some resp) (hs_done (snd (resolve_pending n resp h1)))).
Proof.
  intros h n s r counter resp A N i h1. assert (n < length (hs_heap h)) as L by (apply nth_error_Some; congruence).
  assert (forall x (l : list session), n < length l -> nth_error (set_nth n x l) n = Some x) as G.
  { intros x l Hl. apply nth_set_same. exact Hl. }
  assert (exists s1, nth_error (hs_heap h1) n = Some s1 /\
    ss_queue s1 = ss_queue s ++ [(print_N (ss_next s), ser_request {| rq_id := i; rq_method := rq_method r; rq_params := rq_params r |})] /\
    aget (id_key i) (ss_pending s1) = Some (hs_ticket h)) as (s1 & N1 & Q1 & P1).
  { unfold h1, send_request. rewrite A. unfold queue_outbound, pend_request. rewrite N. cbn [hs_heap put_session].
    rewrite G by exact L. eexists. cbn [hs_heap put_session]. split; [apply G; rewrite set_nth_length; exact L|]. cbn [ss_queue ss_pending].
    split; [reflexivity|]. apply aget_aset_same. }
  split; [unfold queue_of; now rewrite N, N1|]. intro K. unfold resolve_pending. rewrite N1, K.
  assert (id_key i <> []) as Ne.
  { unfold i, send_key. destruct (id_key (rq_id r)) eqn:E; [discriminate|]. rewrite E. discriminate. }
  destruct (id_key i) as [|c k] eqn:E; [contradiction|]. rewrite P1. split; [reflexivity|]. cbn [snd hs_done]. apply in_or_app. right. now left.
Qed.
Print Assumptions C82_request_answered.

(** C82: and when that session is gone, to none, though others live: a request is answered
    with an error, a notification is dropped. *)
Theorem C82_none : forall h i r counter m, find_session i h <> None -> hs_active h = i ->
  find_session [] h = None ->
  let h' := remove_session i h in
  send_notification m h' = h' /\
  hs_done (send_request r counter h') = hs_done h' ++ [(hs_ticket h', Some (error_response (rq_id r) (-32603) (bs "No active HTTP session") None))].
Proof.
  intros h i r counter m F A NE h'. assert (K : active_session h' = None).
  { unfold h', remove_session. destruct (find_session i h) as [n|] eqn:E; [|congruence]. unfold active_session, close_session.
    assert (U : hs_active (unlink_session i h) = [] /\ hs_table (unlink_session i h) = adel i (hs_table h))
      by (unfold unlink_session, find_session in *; rewrite E, A, beq_refl; now split).
    destruct U as [U1 U2]. assert (V : aget [] (adel i (hs_table h)) = None).
    { destruct (beq [] i) eqn:B; [apply beq_eq in B; subst i; rewrite <- B; apply aget_adel_same|].
      rewrite aget_adel_other; [exact NE|]. intros C. rewrite C, beq_refl in B. discriminate B. }
    destruct (nth_error (hs_heap (unlink_session i h)) n); cbn [hs_active hs_table put_session]; rewrite U1, U2; exact V. }
  unfold send_notification, send_request. rewrite K. now split.
Qed.
Print Assumptions C82_none.

(** C82 fails: a notification sent while a request of the first client is handled is queued
    for the second client, and the first gets nothing. *)
Theorem C82_other_client_refuted : exists os m p,
  find_session (bs "mcp-http-1000") (hrun os hstate0) = Some 0 /\ find_session (bs "mcp-http-2000") (hrun os hstate0) = Some 1 /\
  let h := send_notification m (hrun os hstate0) in queue_of 0 h = [] /\ queue_of 1 h = [(bs "1", p)].
Proof.
  exists [OCreate [] 1000; OCreate [] 2000], {| nt_method := bs "notifications/progress"; nt_params := None |}.
  eexists. split; [reflexivity|]. split; [reflexivity|]. cbv zeta. split; [reflexivity|]. vm_compute. reflexivity.
Qed.
Print Assumptions C82_other_client_refuted.

Example C82_ex :
  let h := hrun [OCreate [] 1000; OCreate [] 2000] hstate0 in
  hs_active h = bs "mcp-http-2000" /\ find_session (bs "mcp-http-2000") h <> None /\ find_session [] h = None /\
  find_session (bs "mcp-http-1000") (remove_session (bs "mcp-http-2000") h) = Some 0.
Proof. cbv zeta. split; [reflexivity|]. split; [discriminate|]. split; reflexivity. Qed.

(** C83: the body of a refusal, and the metadata document, are JSON texts with the message
    and the configured strings, when those need no escapes. *)
Definition no_escapes (s : bstr) : Prop := forall c, In c s -> (32 <= code c)%N /\ c <> QUOTE /\ c <> BACKSLASH.

Lemma esc_same : forall s, no_escapes s -> esc s = s.
Proof.
  induction s as [|c s IH]; intro H; [reflexivity|]. cbn [esc flat_map]. fold (esc s). rewrite IH by (intros d I; apply H; now right).
  destruct (H c (or_introl eq_refl)) as (A & B & D).
  assert (E : esc_char c = [c]); [|now rewrite E]. unfold esc_char.
  assert (NQ : (code c <> 34)%N) by (intro Q; apply B; apply (f_equal chr) in Q; unfold chr, code in Q; now rewrite ascii_N_embedding in Q).
  assert (NB : (code c <> 92)%N) by (intro Q; apply D; apply (f_equal chr) in Q; unfold chr, code in Q; now rewrite ascii_N_embedding in Q).
  repeat match goal with |- (if ?b then _ else _) = _ => replace b with false by (symmetry; first [apply N.eqb_neq | apply N.ltb_ge]; lia) end.
  reflexivity.
Qed.

Theorem C83_refusal_json : forall c verify now q r, enforce c verify now q = inl r ->
  no_escapes (br_message (check_bearer (f_auth q) verify (hc_bearer c) now)) ->
  parse_json (hr_body r) = POk (JObj [(bs "error", JStr (br_message (check_bearer (f_auth q) verify (hc_bearer c) now)))]) [].
Proof.
  intros c verify now q r H N. unfold enforce in H. destruct (negb (hc_auth c)); [discriminate|].
  set (b := check_bearer (f_auth q) verify (hc_bearer c) now) in *. destruct (br_ok b); [discriminate|].
  assert (BD : hr_body r = bs "{""error"":""" ++ br_message b ++ bs """}") by (injection H as <-; reflexivity). rewrite BD.
  assert (E : bs "{""error"":""" ++ br_message b ++ bs """}" = ser (JObj [(bs "error", JStr (br_message b))]) ++ []).
  { rewrite app_nil_r. cbn [ser map join fst snd]. unfold ser_str. rewrite (esc_same _ N). cbn. now rewrite <- app_assoc. }
  rewrite E. apply C06_value_roundtrip; [|exact I]. apply okb_ok. reflexivity.
Qed.
Print Assumptions C83_refusal_json.

Lemma quoted_list_ser : forall l, Forall no_escapes l -> quoted_list l = join [COMMA] (map ser (map JStr l)).
Proof.
  intros l H. unfold quoted_list. rewrite map_map. f_equal. apply map_ext_in. intros s I.
  rewrite Forall_forall in H. cbn [ser]. unfold ser_str. now rewrite (esc_same s (H s I)).
Qed.

Theorem C83_metadata_json : forall o, Forall no_escapes (bo_servers o) -> Forall no_escapes (bo_supported o) ->
  parse_json (metadata_json o) =
    POk (JObj [(bs "authorization_servers", JArr (map JStr (bo_servers o))); (bs "scopes_supported", JArr (map JStr (bo_supported o)))]) [].
Proof.
  intros o A B. set (v := JObj _).
  assert (E : metadata_json o = ser v ++ []).
  { rewrite app_nil_r. unfold metadata_json. rewrite (quoted_list_ser _ A), (quoted_list_ser _ B).
    unfold v. cbn [ser map join fst snd]. unfold ser_member.
    generalize (join [COMMA] (map ser (map JStr (bo_servers o)))), (join [COMMA] (map ser (map JStr (bo_supported o)))). intros x y.
    cbn. repeat (rewrite <- app_assoc; cbn). reflexivity. }
  rewrite E. apply C06_value_roundtrip; [|exact I]. unfold v.
  apply okb_ok. cbn. assert (Q : forall l, forallb okb (map JStr l) = true) by (induction l; [reflexivity | assumption]). rewrite !Q. reflexivity.
Qed.
Print Assumptions C83_metadata_json.

(** C83 fails otherwise: nothing is escaped. *)
Theorem C83_escapes_refuted : exists c verify now q r,
  enforce c verify now q = inl r /\ parse_json (hr_body r) = PThrow.
Proof.
  exists demo_conf, (fun t => Rejects (bs "token ""x"" unknown")), 50%Z, (demo_req POST [(bs "authorization", bs "Bearer x")] []),
    {| hr_status := 401; hr_challenge := challenge demo_opts (refuse 401 (bs "token ""x"" unknown"));
       hr_session := None; hr_body := bs "{""error"":""token ""x"" unknown""}" |}.
  split; vm_compute; reflexivity.
Qed.
Print Assumptions C83_escapes_refuted.

Example C83_ex :
  no_escapes (bs "insufficient scope") /\
  (exists r, enforce demo_conf demo_verifier 50 (demo_req POST [(bs "authorization", bs "Bearer weak")] []) = inl r /\
    hr_body r = bs "{""error"":""insufficient scope""}") /\
  Forall no_escapes [bs "https://as.example.com/x?y=1"].
Proof.
  assert (D : forall s, forallb (fun c => (N.leb 32 (code c) && negb (Ascii.eqb c QUOTE) && negb (Ascii.eqb c BACKSLASH))%bool) s = true -> no_escapes s).
  { intros s H c I. rewrite forallb_forall in H. specialize (H c I). apply andb_true_iff in H as [H H3]. apply andb_true_iff in H as [H1 H2].
    apply N.leb_le in H1. split; [exact H1|]. split; [now apply Ascii.eqb_neq, negb_true_iff | now apply Ascii.eqb_neq, negb_true_iff]. }
  split; [apply D; reflexivity|]. split; [eexists; split; vm_compute; reflexivity|]. constructor; [apply D; reflexivity | constructor].
Qed.

(** C139 fails over HTTP: a notification that a handler sends before it returns waits for the thread of the event stream, and the answer
    does not: the client can have the answer, status 200 with the result, when nothing was written to the stream, and the notification comes after. *)
Theorem C139_http_refuted : exists os m q r calls h', let hd := {| h_request := Some (fun r => HReturn (result_of (rq_id r) (JStr (bs "done")))); h_notification := None; h_error := false |} in
  serve demo_loopback demo_conf demo_verifier 50 0 hd q (send_notification m (hrun os hstate0)) = (Answer r, calls, h') /\
  hr_status r = 200%N /\ hr_body r = ser_response (result_of (IdInt 7) (JStr (bs "done"))) /\ length (hs_streams h') = 1 /\
  wire_of 0 h' = [] /\ wire_of 0 (hrun [OTake 0; OWrite 0 true] h') = [(bs "1", ser_notification m)].
Proof.
  exists [OCreate PROTO 1000; OOpen 0], {| nt_method := bs "notifications/progress"; nt_params := None |},
    (demo_req POST [(bs "Authorization", bs "Bearer good"); (bs "Mcp-Session-Id", bs "mcp-http-1000")] (bs "{""jsonrpc"":""2.0"",""id"":7,""method"":""tools/call""}")).
  eexists _, _, _. cbn zeta. split; [vm_compute; reflexivity|]. repeat split; vm_compute; reflexivity.
Qed.
Print Assumptions C139_http_refuted.
