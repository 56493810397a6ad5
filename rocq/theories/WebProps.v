(** An HTTP client joined to an HTTP server: answers, their number, and sessions (C154 to C156). *)
From Coq Require Import Ascii String List Arith NArith ZArith Bool Lia.
From Verif Require Import StrModel DoubleModel JsonModel JsonSpec RpcModel RpcSpec RouterModel MapModel MemModel PendModel AuthModel AuthProps WwwModel GuardModel WireSpec
  HttpModel HcliModel HcliSpec HttpProps HcliProps WebModel WebSpec WebInv WebLive WebSess.
Import ListNotations.
Local Open Scope nat_scope.

(** The two ends of the examples: the same endpoint, no authentication, an address of this machine. *)
Definition web_conf : hconf :=
  {| hc_address := bs "127.0.0.1"; hc_endpoint := bs "/mcp"; hc_stream := []; hc_rpc := bs "/mcp/rpc"; hc_notify := bs "/mcp/notify";
     hc_bearer := demo_opts; hc_auth := false |}.
Definition web_ends : ends :=
  {| en_client := demo_cfg; en_version := demo_version; en_host := bs "127.0.0.1:9443"; en_auth := []; en_server := web_conf;
     en_verify := demo_verifier; en_loopback := demo_loopback |}.
Definition web_hd : handlers :=
  {| h_request := Some (fun r => HReturn {| rs_id := IdNull; rs_result := Some (JInt 7); rs_error := None |});
     h_notification := Some (fun _ => true); h_error := true |}.
Definition web_init : request := {| rq_id := IdInt 1; rq_method := bs "initialize"; rq_params := None |}.

Lemma web_hd_well : answers_well web_hd.
Proof.
  intros r resp (A & B & _) (C & D & E). cbn in C, D, E. unfold wire_ok. rewrite C, D, E. split; [exact A|]. split; [exact B|]. split; [left; discriminate|].
  split; [|discriminate]. intros v V. injection V as <-. split; [constructor; lia|]. intro K. inversion K.
Qed.
Lemma web_plain : refusals_plain web_ends.
Proof. left. reflexivity. Qed.
Lemma web_in : lets_in web_ends.
Proof. split; [reflexivity|now left]. Qed.

(** C154. A request sent through an HTTP client to an HTTP server completes with what the server's
    handler answers to that very request, or with an error that the client makes up for that
    very request; never with the answer to another. *)
Theorem C154_own_answer : forall (e : ends) (es : list wact) t o, let w := wrun e es in
  refusals_plain e -> Forall proper es -> NoDup (hc_keys (client e w)) ->
  In (t, o) (pt_done (hc_tab (client e w))) -> exists resp, o = Some resp /\
  ((exists r, In (t, r) (hc_reg (client e w)) /\ (ran_with w r resp \/ own_error r resp)) \/
   (exists r, ~ In t (map fst (hc_reg (client e w))) /\ resp = gave (rq_id r) (bs "Transport not connected"))).
Proof. exact web_answer. Qed.
Print Assumptions C154_own_answer.

(** C154. The server runs its handler at most once for each request of the client, and only for those. *)
Theorem C154_once : forall (e : ends) (es : list wact), let w := wrun e es in
  refusals_plain e -> Forall proper es -> NoDup (hc_keys (client e w)) ->
  NoDup (map (fun r => id_key (rq_id r)) (ran_requests w)) /\
  forall r, In r (ran_requests w) -> exists t, In (t, r) (hc_reg (client e w)).
Proof. exact web_once. Qed.
Print Assumptions C154_once.

(** Two requests; the second is answered, the POST of the first is lost after the handler ran. *)
Definition web_two : list wact :=
  [WClient TStart; WClient (TBegin web_init); WClient (TRegister 0); WPost 0; WServe 0 0 4242 web_hd; WDone 0 quiet_hd;
   WClient (TBegin (demo_rq (IdInt 2))); WClient (TRegister 0); WClient (TBegin (demo_rq (IdInt 3))); WClient (TRegister 0);
   WPost 0; WPost 0; WServe 1 0 4243 web_hd; WServe 0 0 4244 web_hd; WLose 0; WDone 1 quiet_hd; WDone 0 quiet_hd].

Lemma quiet_well : answers_well quiet_hd.
Proof.
  intros r resp (A & B & _) C. cbn in C. subst resp. cbn. split; [exact A|]. split; [exact B|]. split; [right; discriminate|]. split; [discriminate|].
  intros v V. injection V as <-.
  assert (L : forall k : bstr, k = bs "code" \/ k = bs "message" \/ False -> k <> bs "result" /\ JsonSpec.plain k).
  { intros k [-> |[-> |[]]]; (split; [discriminate|]; split; intro K; repeat (destruct K as [K|K]; [discriminate K|]); exact K). }
  split.
  - apply ok_obj; cbn.
    + constructor; [intros [K|[]]; discriminate K|]. constructor; [intros []|]. constructor.
    + constructor; [apply L; auto|]. constructor; [apply L; auto|]. constructor.
    + constructor; [constructor; lia|]. constructor; [constructor|]. constructor.
  - intros _ K. inversion K as [l H|l v H1 H2|]; subst; cbn in *.
    + destruct (L (bs "result")) as [K1 _]; [intuition congruence|]. now apply K1.
    + destruct H1 as [<-|[<-|[]]]; inversion H2.
Qed.

Lemma demo_rq_ok : forall n, (0 <= n < 1000)%Z -> wire_ok (WRequest (demo_rq (IdInt n))).
Proof.
  intros n H. cbn. split; [lia|]. split; [discriminate|]. split; [discriminate|]. split; [|discriminate].
  split; intro K; repeat (destruct K as [K|K]; [discriminate K|]); exact K.
Qed.

Lemma web_init_ok : wire_ok (WRequest web_init).
Proof.
  cbn. split; [lia|]. split; [discriminate|]. split; [discriminate|]. split; [|discriminate].
  split; intro K; repeat (destruct K as [K|K]; [discriminate K|]); exact K.
Qed.

Ltac prove_proper :=
  repeat (constructor; [cbn; first [exact I | apply web_init_ok | apply demo_rq_ok; lia | split; [discriminate|apply web_hd_well] | apply quiet_well | apply web_hd_well]|]); try constructor.

Example C154_ex :
  Forall proper web_two /\ NoDup (hc_keys (client web_ends (wrun web_ends web_two))) /\
  pt_done (hc_tab (client web_ends (wrun web_ends web_two))) =
    [(0, Some (demo_result (IdInt 1))); (2, Some (demo_result (IdInt 3))); (1, Some (gave (IdStr (bs "2")) (bs "Invalid/empty HTTP response")))] /\
  map rq_id (ran_requests (wrun web_ends web_two)) = [IdInt 1; IdInt 3; IdInt 2].
Proof.
  split; [prove_proper|]. split.
  - match goal with |- NoDup ?l => let v := eval vm_compute in l in change (NoDup v) end.
    repeat (constructor; [intro K; repeat (destruct K as [K|K]; [discriminate K|]); exact K|]). constructor.
  - split; vm_compute; reflexivity.
Qed.

(** C155. A request whose POST the server accepts and handles completes with the handler's answer,
    whatever else both do in the meantime, once that POST has ended: the connection is not lost, and
    the client's thread runs and is not closed. *)
Theorem C155_answered : forall (e : ends) es1 es2 n now draw hd hc f t r q,
  let w1 := wrun e es1 in
  let es := es1 ++ WServe n now draw hd :: es2 in
  let w2 := wrun e es in
  refusals_plain e -> lets_in e -> Forall proper es -> NoDup (hc_keys (client e w2)) -> ~ In (WClient TClosed) es ->
  In (t, r) (hc_reg (client e w1)) -> under_way w1 n r q -> acceptable e (wb_srv w1) r q -> h_request hd = Some f ->
  Forall (spares n) es2 -> running (client e w2) ->
  In (t, Some (reply (rq_id r) (f r))) (pt_done (hc_tab (client e (wrun e (es ++ [WDone n hc]))))) /\ In (hd, CRequest r) (wb_ran w2).
Proof.
  intros e es1 es2 n now draw hd hc f t r q w1 es w2 A1 A2 A3 A4 A5 A6 A7 A8 A9 A10 A11. rewrite wrun_snoc.
  destruct (web_answered e es1 es2 n now draw hd hc f t r q A1 A2 A3 A4 A5 A6 A7 A8 A9 A10 A11) as (B1 & B2 & _). split; assumption.
Qed.
Print Assumptions C155_answered.

(** The second request of web_two, whose POST is overtaken. *)
Example C155_ex :
  let es1 := firstn 12 web_two in
  let es2 := [WServe 0 0 4244 web_hd; WLose 0] in
  let es := es1 ++ WServe 1 0 4243 web_hd :: es2 in
  exists q, Forall proper es /\ NoDup (hc_keys (client web_ends (wrun web_ends es))) /\ ~ In (WClient TClosed) es /\
    In (2, demo_rq (IdInt 3)) (hc_reg (client web_ends (wrun web_ends es1))) /\ under_way (wrun web_ends es1) 1 (demo_rq (IdInt 3)) q /\
    acceptable web_ends (wb_srv (wrun web_ends es1)) (demo_rq (IdInt 3)) q /\
    Forall (spares 1) es2 /\ running (client web_ends (wrun web_ends es)).
Proof.
  cbn zeta. eexists. split; [prove_proper|]. split.
  { match goal with |- NoDup ?l => let v := eval vm_compute in l in change (NoDup v) end.
    repeat (constructor; [intro K; repeat (destruct K as [K|K]; [discriminate K|]); exact K|]). constructor. }
  split; [intro K; cbn in K; repeat (destruct K as [K|K]; [discriminate K|]); exact K|].
  split; [vm_compute; right; right; now left|]. split; [vm_compute; reflexivity|]. split.
  { right. split; [repeat split; discriminate|]. left. exists 0. eexists. split; [vm_compute; reflexivity|]. split; [vm_compute; reflexivity|]. vm_compute. reflexivity. }
  split; [repeat constructor; discriminate|]. repeat split; vm_compute; reflexivity.
Qed.

(** C156. As long as no session is deleted, the server is not stopped and no session number is drawn
    twice, every session the client has, and every one that a POST of the client names, is known to
    the server, and the client's version is taken for it. *)
Theorem C156_known : forall (e : ends) (es : list wact), let w := wrun e es in lasting_run e web0 es ->
  (hc_session (client e w) = [] \/ welcome e (wb_srv w) (hc_session (client e w))) /\
  forall a, In a (wb_air w) -> f_session (ar_req a) = [] \/ welcome e (wb_srv w) (f_session (ar_req a)).
Proof.
  intros e es w L. pose proof (linv_run e es L) as [I1 I2 I3]. split; [exact I2|]. intros a A. rewrite Forall_forall in I3. now apply I3.
Qed.
Print Assumptions C156_known.

(** C156. So the server accepts the client's initialize request, which has no session, and every request that names
    one. *)
Theorem C156_accepted : forall (e : ends) es n r q, let w := wrun e es in lasting_run e web0 es -> same_endpoint e -> under_way w n r q ->
  f_session q <> [] \/ rq_method r = bs "initialize" -> acceptable e (wb_srv w) r q.
Proof. exact lasting_acceptable. Qed.
Print Assumptions C156_accepted.

(** C156. The session the server opens for an initialize request is the client's once the answer is there. *)
Theorem C156_initialized : forall (e : ends) es1 es2 n now draw hd hc t r q,
  let w1 := wrun e es1 in
  let es := es1 ++ WServe n now draw hd :: es2 in
  let w2 := wrun e es in
  refusals_plain e -> lets_in e -> same_endpoint e -> Forall proper es -> NoDup (hc_keys (client e w2)) -> ~ In (WClient TClosed) es ->
  In (t, r) (hc_reg (client e w1)) -> under_way w1 n r q -> rq_method r = bs "initialize" -> f_session q = [] ->
  Forall (spares n) es2 -> running (client e w2) ->
  hc_session (client e (wrun e (es ++ [WDone n hc]))) = session_name draw.
Proof.
  intros e es1 es2 n now draw hd hc t r q w1 es w2 A1 A2 A3 A4 A5 A6 A7 A8 A9 A10 A11 A12. rewrite wrun_snoc.
  assert (F : exists f, h_request hd = Some f).
  { unfold es in A4. apply Forall_app in A4 as [_ A4]. apply Forall_inv in A4. destruct A4 as [H _]. destruct (h_request hd) as [f|]; [eauto|now elim H]. }
  destruct F as (f & F).
  destruct (web_answered e es1 es2 n now draw hd hc f t r q A1 A2 A4 A5 A6 A7 A8 ltac:(right; split; [exact A3|right; split; assumption]) F A11 A12) as (_ & _ & B).
  now apply B.
Qed.
Print Assumptions C156_initialized.

(** C156. A POST that leaves while the client has a session names it. *)
Theorem C156_names : forall (e : ends) es n, let w := wrun e es in same_endpoint e -> running (client e w) -> n < length (hc_queue (client e w)) ->
  exists a, wb_air (wrun e (es ++ [WPost n])) = wb_air w ++ [a] /\ f_session (ar_req a) = hc_session (client e w) /\ ar_back a = None /\
    nth_error (hc_queue (client e w)) n = Some (ar_purpose a, hq_body (ar_req a)).
Proof. intros e es n w A B C. rewrite wrun_snoc. exact (post_names e es n A B C). Qed.
Print Assumptions C156_names.

Example C156_ex :
  lasting_run web_ends web0 web_two /\ same_endpoint web_ends /\
  hc_session (client web_ends (wrun web_ends web_two)) = bs "mcp-http-4242" /\
  running (client web_ends (wrun web_ends (firstn 10 web_two))) /\ length (hc_queue (client web_ends (wrun web_ends (firstn 10 web_two)))) = 2 /\
  exists q, under_way (wrun web_ends (firstn 4 web_two)) 0 web_init q /\ f_session q = [].
Proof.
  split.
  { assert (O : forall q r, hq_body q = ser_request web_init -> opens q r -> r = web_init).
    { intros q r B (O & _). rewrite B in O. vm_compute in O. injection O as <-. reflexivity. }
    assert (P : forall q r n, (0 <= n < 10)%Z -> hq_body q = ser_request (demo_rq (IdInt n)) -> opens q r -> False).
    { intros q r n N B (O1 & O2 & _). rewrite B in O1. assert (n = 0 \/ n = 1 \/ n = 2 \/ n = 3 \/ n = 4 \/ n = 5 \/ n = 6 \/ n = 7 \/ n = 8 \/ n = 9)%Z as C by lia.
      repeat destruct C as [-> | C]; try subst n; vm_compute in O1; injection O1 as <-; discriminate O2. }
    unfold web_two. repeat (split; [first [exact I | split; [vm_compute; reflexivity|] ]|]); [| | |exact I].
    - intros x r X Or. vm_compute in X. injection X as <-. pose proof (fun B => O _ _ B Or) as Q. rewrite Q by (vm_compute; reflexivity). vm_compute. reflexivity.
    - intros x r X Or. vm_compute in X. injection X as <-. pose proof (fun B => P _ _ 3%Z ltac:(lia) B Or) as Q. exfalso. apply Q. vm_compute. reflexivity.
    - intros x r X Or. vm_compute in X. injection X as <-. pose proof (fun B => P _ _ 2%Z ltac:(lia) B Or) as Q. exfalso. apply Q. vm_compute. reflexivity. }
  split; [repeat split; discriminate|]. split; [vm_compute; reflexivity|]. split; [repeat split; vm_compute; reflexivity|]. split; [vm_compute; reflexivity|].
  eexists. split; vm_compute; reflexivity.
Qed.
