(** The shared-memory transport. *)
From Coq Require Import Ascii String List Permutation Arith NArith ZArith Bool Lia ZifyBool ZifyNat ZifyN.
From Verif Require Import StrModel StrProofs DoubleModel JsonModel JsonSpec JsonProofs RpcModel RpcSpec RpcProofs RouterModel RouterProofs MapModel MapProofs MemModel MemSpec MemProofs PendModel PendProofs OauthModel LayoutSpec LayoutProofs ShmModel ShmSpec ShmProofs ShmWords ShmPair.
Import ListNotations.
Local Open Scope nat_scope.

(** C15: on a shared-memory endpoint no future is completed twice, whatever is called, received
    or fails. *)
Theorem C15_shm_at_most_once : forall (creator handler : bool) (max : N) (vs : list hact),
  NoDup (map fst (pt_done (hm_tab (hrun creator (shm0 handler max) vs)))).
Proof. exact shm_once. Qed.
Print Assumptions C15_shm_at_most_once.

(** C15: when the ids of the requests are distinct, every completion has its cause: a message
    with that id, a send failure, the end of the transport or of the peer, or a request made
    while not connected. *)
Theorem C15_shm_for_cause : forall (creator handler : bool) (max : N) (vs : list hact) (t : nat) (o : option response),
  let e := hrun creator (shm0 handler max) vs in
  NoDup (shm_keys e) -> In (t, o) (pt_done (hm_tab e)) -> exists resp, o = Some resp /\
    ((exists r, In (t, r) (hm_reg e) /\ shm_cause vs e r resp) \/
     (exists r vs1 vs2 old, resp = failed (rq_id r) (bs "Peer not connected") /\
        vs = vs1 ++ ABegin r old :: vs2 /\ hm_connected (hrun creator (shm0 handler max) vs1) = false)).
Proof. exact shm_for_cause. Qed.
Print Assumptions C15_shm_for_cause.

Definition demo_rq (i : rpcid) (p : option json) : request := {| rq_id := i; rq_method := bs "tools/call"; rq_params := p |}.

Example C15_shm_ex :
  let r := demo_rq (IdStr []) None in
  let vs := [ABegin r 0; AStart; ABegin r 0; ABegin r 1; ABegin r 2; ARegister 0; ARegister 0; ARegister 0;
             ASend 0 true; ASend 0 false; AFail 0; AReceive (bs "{""jsonrpc"":""2.0"",""id"":""shm-req-1"",""result"":5}");
             AClose true; AExit; AClosed] in
  let e := hrun true (shm0 true 65536) vs in
  NoDup (shm_keys e) /\ length (hm_reg e) = 3 /\
  pt_done (hm_tab e) =
    [(0, Some (failed (IdStr []) (bs "Peer not connected")));
     (2, Some (failed (IdStr (bs "shm-req-2")) (bs "Send failed")));
     (1, Some {| rs_id := IdStr (bs "shm-req-1"); rs_result := Some (JInt 5); rs_error := None |});
     (3, Some (failed (IdStr (bs "shm-req-3")) (bs "Transport closed")))].
Proof. split; [apply nodupb_nodup; vm_compute; reflexivity|]. split; vm_compute; reflexivity. Qed.

(** C16: once Close has joined the processing thread and returned, everything registered
    before is complete. *)
Theorem C16_shm_close_completes : forall (creator handler : bool) (max : N) (vs : list hact),
  let e := hrun creator (shm0 handler max) vs in hm_live e = false ->
  pt_pend (hm_tab (hrun creator (shm0 handler max) (vs ++ [AClosed]))) = [] /\
  forall t r, In (t, r) (hm_reg e) -> exists o, In (t, o) (pt_done (hm_tab (hrun creator (shm0 handler max) (vs ++ [AClosed])))).
Proof. exact shm_close. Qed.
Print Assumptions C16_shm_close_completes.

Example C16_shm_ex :
  let r := demo_rq (IdInt 4) None in
  let e := hrun false (shm0 true 65536) [AStart; ABegin r 0; ARegister 0; AClose true; AExit] in
  hm_live e = false /\ hm_reg e = [(0, r)].
Proof. split; vm_compute; reflexivity. Qed.

(** C66: a request that passes the connected test before Close and is registered after it stays
    pending whatever happens, until Close is called again. *)
Lemma C66_stuck : forall e k t ws, hm_live e = false -> hm_connected e = false -> hm_started e = true ->
  hm_entering e = [] -> hm_failing e = [] -> hm_out e = [] -> In (k, t) (pt_pend (hm_tab e)) -> ~ In AClosed ws ->
  In (k, t) (pt_pend (hm_tab (hrun true e ws))).
Proof.
  intros e k t ws. revert e. induction ws as [|a ws IH]; intros e L C S En Fa Ou H N; [exact H|].
  unfold hrun. cbn [fold_left]. apply IH; [| | | | | | |intro K; apply N; now right].
  all: destruct a as [|r old|n|n ok|n|nt ok|m| | |n h ok|ok|]; cbn [hstep fst]; unfold shm_begin, put, shm_send;
    rewrite ?L, ?C, ?S, ?En, ?Fa, ?Ou; cbn [negb andb fst hm_live hm_connected hm_started hm_entering hm_failing hm_out hset_tab hset_conn];
    try assumption; try (destruct n; assumption); try (exfalso; apply N; now left).
  all: repeat match goal with
    | |- context[N.ltb ?a ?b] => destruct (N.ltb a b)
    | |- context[take_nth ?n ?l] => destruct (take_nth n l) as [[? ?]|]
    | |- context[if ?b then _ else _] => destruct b end; cbn; assumption || reflexivity.
Qed.

Theorem C66_shm_race_refuted : exists (vs : list hact) (t : nat) (r : request),
  let e := hrun true (shm0 true 65536) vs in
  vs = [AStart; ABegin r 0; AClose true; AExit; AClosed; ARegister 0; ASend 0 true] /\
  In (t, r) (hm_reg e) /\
  forall ws, ~ In AClosed ws -> In (id_key (rq_id r), t) (pt_pend (hm_tab (hrun true e ws))).
Proof.
  exists [AStart; ABegin (demo_rq (IdInt 4) None) 0; AClose true; AExit; AClosed; ARegister 0; ASend 0 true], 0, (demo_rq (IdInt 4) None).
  cbn zeta. split; [reflexivity|]. split; [vm_compute; now left|]. intros ws N.
  apply C66_stuck; try (vm_compute; reflexivity); [vm_compute; now left|exact N].
Qed.
Print Assumptions C66_shm_race_refuted.

(** C62: exactly the JSON documents in which result or error is a key or a string are taken for
    responses. *)
Theorem C62_exact : forall v : json, ok v ->
  (contains (bs """result""") (ser v) || contains (bs """error""") (ser v))%bool = true <-> ~ silent v.
Proof. exact mistaken_iff. Qed.
Print Assumptions C62_exact.

Example C62_exact_ex :
  silent (JObj [(bs "results", JStr (bs "no error")); (bs "x", JArr [JStr (bs "result!")])]) /\
  ~ silent (JObj [(bs "x", JArr [JStr (bs "error")])]).
Proof.
  split.
  - split; intro H; repeat match goal with
      | K : says _ (JObj _) |- _ => inversion K; clear K; subst
      | K : says _ (JArr _) |- _ => inversion K; clear K; subst
      | K : says _ (JStr _) |- _ => inversion K; clear K; subst
      | K : In _ _ |- _ => cbn in K
      | K : _ \/ _ |- _ => destruct K as [K|K]
      | K : False |- _ => destruct K
      | K : JStr _ = ?v |- _ => subst v
      | K : JArr _ = ?v |- _ => subst v
      | K : quotes _ _ |- _ => revert K; apply quotes_no; [cbn; intuition discriminate|discriminate]
      | K : _ = _ |- _ => discriminate K
      end.
  - intros [_ H]. apply H. apply says_val with (JArr [JStr (bs "error")]); [now left|].
    apply says_elem with (JStr (bs "error")); [now left|]. apply says_str. now left.
Qed.

(** C62 for requests that do not say either word: handed to the request handler, nothing else
    changes. Missing: requests that do, which are refuted below. *)
Theorem C62_request_partial : forall (r : request) (e : shm), clean_request r -> silent_request r -> hm_handler e = true ->
  shm_process (ser_request r) e = hset_work (hm_running e ++ [r]) (hm_got e) (hm_served e) (hm_notified e) e.
Proof. exact process_request. Qed.
Print Assumptions C62_request_partial.

(** C62 for notifications that do not say either word. *)
Theorem C62_notification_partial : forall (n : notification) (e : shm), clean_notification n -> silent_notification n ->
  nt_method n <> bs "transport/disconnected" ->
  shm_process (ser_notification n) e = hset_work (hm_running e) (hm_got e) (hm_served e) (hm_notified e ++ [n]) e.
Proof. exact process_notification. Qed.
Print Assumptions C62_notification_partial.

(** Responses are always taken for responses. *)
Theorem C62_response : forall (r : response) (e : shm), id_ok (rs_id r) -> good_body r ->
  shm_process (ser_response r) e = hset_tab (pt_complete (id_key (rs_id r)) r (hm_tab e)) e.
Proof. exact process_response. Qed.
Print Assumptions C62_response.

(** C62 fails for every request that says one of the words: it never reaches the handler, no
    error is reported, and it completes the endpoint's own pending request with the same id. *)
Theorem C62_lost_refuted : forall (r : request) (e : shm), clean_request r -> ~ silent_request r ->
  exists resp, rs_id resp = rq_id r /\
    shm_process (ser_request r) e = hset_tab (pt_complete (id_key (rq_id r)) resp (hm_tab e)) e.
Proof.
  intros r e C S. exists (snd (deser_response response0 (ser_request r))). pose proof (lost_id r (proj1 C)) as E.
  split; [exact E|]. rewrite process_lost by assumption. unfold shm_resolve. now rewrite E.
Qed.
Print Assumptions C62_lost_refuted.

Lemma clean_demo : forall i p, id_ok i -> (forall s, i = IdStr s -> clean s) -> (forall v, p = Some v -> ok v) -> clean_request (demo_rq i p).
Proof.
  intros i p H1 H2 H3. split; [split; [exact H1|split; [|split; [discriminate|split; [now apply plainb_plain|exact H3]]]]|split; [now apply cleanb_clean|exact H2]].
  intros s E. apply H2 in E. unfold clean in E. rewrite Forall_forall in E. split; intro K; apply E in K; now destruct K as (_ & K1 & K2).
Qed.

Lemma silent_tools_call : silent (JStr (bs "tools/call")).
Proof.
  split; intro H; inversion H as [s Q| | |]; revert Q; apply quotes_no; try discriminate; cbn; intuition discriminate.
Qed.

Example C62_ex : clean_request (demo_rq (IdInt 3) (Some (JStr (bs "an error, and a result")))) /\
  silent_request (demo_rq (IdInt 3) (Some (JStr (bs "an error, and a result")))).
Proof.
  split.
  - apply clean_demo; cbn; [lia|discriminate|]. intros v [= <-]. now apply okb_ok.
  - split; [exact silent_tools_call|]. split; [discriminate|]. intros p [= <-].
    split; intro H; inversion H as [s Q| | |]; revert Q; apply quotes_no; try discriminate; cbn; intuition discriminate.
Qed.

Example C62_lost_ex :
  let r := demo_rq (IdInt 3) (Some (JObj [(bs "level", JStr (bs "error"))])) in clean_request r /\ ~ silent_request r.
Proof.
  cbn zeta. split.
  - apply clean_demo; cbn; [lia|discriminate|]. intros v [= <-]. now apply okb_ok.
  - intros (_ & _ & H). destruct (H _ eq_refl) as [_ K]. apply K. apply says_val with (JStr (bs "error")); [now left|].
    apply says_str. now left.
Qed.

(** C88: in every history of the two endpoints, what one side has taken from its queue followed by
    what is still on it is exactly what the other side's successful sends put there, in order. *)
Theorem C88_shm_fifo : forall (ha hb : bool) (ma mb : N) (vs : list (side * hact)) (x : side),
  let s := hprun (hpair0 ha hb ma mb) vs in
  hp_sent s x = hm_got (hp_ep s (other x)) ++ hp_q s (other x).
Proof. exact shm_fifo. Qed.
Print Assumptions C88_shm_fifo.

Example C88_ex :
  let r i := demo_rq (IdInt i) None in
  let s := hprun (hpair0 true true 65536 65536)
    [(SideA, AStart); (SideB, AStart); (SideA, ABegin (r 1%Z) 0); (SideA, ABegin (r 2%Z) 0); (SideA, ARegister 1);
     (SideA, ARegister 0); (SideA, ASend 0 true); (SideA, ASend 0 true); (SideB, AReceive (ser_request (r 2%Z)))] in
  hp_sent s SideA = [ser_request (r 2%Z); ser_request (r 1%Z)] /\ hp_q s SideB = [ser_request (r 1%Z)] /\
  hm_running (hp_ep s SideB) = [r 2%Z].
Proof. split; [|split]; vm_compute; reflexivity. Qed.

(** C89 for traffic that says neither word and distinct ids: a future that completes holds what the
    other side's handler returned for that very request, or the transport's own error. *)
Theorem C89_own_answer_partial : forall (ha hb : bool) (ma mb : N) (vs : list (side * hact)) (x : side) (t : nat) (o : option response),
  Forall (fun v => good_hact (snd v)) vs ->
  let s := hprun (hpair0 ha hb ma mb) vs in NoDup (shm_keys (hp_ep s x)) ->
  In (t, o) (pt_done (hm_tab (hp_ep s x))) -> exists resp, o = Some resp /\
    ((exists r, In (t, r) (hm_reg (hp_ep s x)) /\
       ((exists h, In (r, h) (hm_served (hp_ep s (other x))) /\ resp = reply (rq_id r) h) \/
        (exists i msg, id_key i = id_key (rq_id r) /\ gave_up msg /\ resp = failed i msg))) \/
     (exists i, resp = failed i (bs "Peer not connected"))).
Proof. exact shm_own_answer. Qed.
Print Assumptions C89_own_answer_partial.

(** And the other side's handler runs at most once for each request, and only for requests made. *)
Theorem C89_runs_once_partial : forall (ha hb : bool) (ma mb : N) (vs : list (side * hact)) (x : side),
  Forall (fun v => good_hact (snd v)) vs ->
  let s := hprun (hpair0 ha hb ma mb) vs in NoDup (shm_keys (hp_ep s x)) ->
  NoDup (hm_running (hp_ep s (other x)) ++ map fst (hm_served (hp_ep s (other x)))) /\
  forall r, In r (hm_running (hp_ep s (other x)) ++ map fst (hm_served (hp_ep s (other x)))) ->
    exists t, In (t, r) (hm_reg (hp_ep s x)).
Proof. exact shm_at_most_once_run. Qed.
Print Assumptions C89_runs_once_partial.

Definition C89_history : list (side * hact) :=
  let r := demo_rq (IdStr []) None in
  let r1 := demo_rq (IdStr (bs "shm-req-1")) None in
  let h := HReturn {| rs_id := IdNull; rs_result := Some (JInt 7); rs_error := None |} in
  [(SideA, AStart); (SideB, AStart); (SideA, ABegin r 0); (SideA, ARegister 0); (SideA, ASend 0 true);
   (SideB, AReceive (ser_request r1)); (SideB, AHandler 0 h true);
   (SideA, AReceive (ser_response (reply (rq_id r1) h)))].

Example C89_ex :
  let s := hprun (hpair0 true true 65536 65536) C89_history in
  Forall (fun v => good_hact (snd v)) C89_history /\ NoDup (shm_keys (hp_ep s SideA)) /\
  pt_done (hm_tab (hp_ep s SideA)) =
    [(0, Some {| rs_id := IdStr (bs "shm-req-1"); rs_result := Some (JInt 7); rs_error := None |})].
Proof.
  cbn zeta. split; [|split; [apply nodupb_nodup; vm_compute; reflexivity|vm_compute; reflexivity]].
  unfold C89_history. cbn zeta. repeat (apply Forall_cons; [try exact I|]); [| |apply Forall_nil].
  - cbn [snd good_hact]. split.
    + apply clean_demo; [now cbn|now intros s [= <-]; apply Forall_nil|discriminate].
    + split; [exact silent_tools_call|]. split; [|discriminate]. intros s [= <-].
      split; intro H; inversion H as [s0 Q| | |]; revert Q; apply quotes_no; try discriminate; cbn; intuition discriminate.
  - cbn [snd good_hact]. split; [left; discriminate|]. split; [|discriminate]. intros v [= <-].
    split; [now apply okb_ok|]. intro K. inversion K.
Qed.

(** C89 fails in general: both processes number their requests from 1, and a request whose
    arguments have the key result is taken by the other side for the answer to its own request
    of the same number. *)
Theorem C89_wrong_answer_refuted : exists (vs : list (side * hact)) (r : request) (resp : response),
  let s := hprun (hpair0 true true 65536 65536) vs in
  hm_reg (hp_ep s SideA) = [(0, r)] /\ pt_done (hm_tab (hp_ep s SideA)) = [(0, Some resp)] /\
  rs_error resp = None /\ rs_result resp = Some (JInt 7) /\
  hm_served (hp_ep s SideB) = [] /\ hm_running (hp_ep s SideB) = [] /\
  hm_running (hp_ep s SideA) = [] /\ hm_errors (hp_ep s SideA) = [].
Proof.
  pose (ra := demo_rq (IdStr []) None). pose (rb := demo_rq (IdStr []) (Some (JObj [(bs "result", JInt 7)]))).
  exists [(SideA, AStart); (SideB, AStart); (SideA, ABegin ra 0); (SideA, ARegister 0); (SideA, ASend 0 true);
          (SideB, ABegin rb 0); (SideB, ARegister 0); (SideB, ASend 0 true);
          (SideA, AReceive (ser_request (demo_rq (IdStr (bs "shm-req-1")) (Some (JObj [(bs "result", JInt 7)])))))],
         (demo_rq (IdStr (bs "shm-req-1")) None),
         {| rs_id := IdStr (bs "shm-req-1"); rs_result := Some (JInt 7); rs_error := None |}.
  cbn zeta. repeat (split; [vm_compute; reflexivity|]). vm_compute. reflexivity.
Qed.
Print Assumptions C89_wrong_answer_refuted.
