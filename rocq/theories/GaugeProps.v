(** C211: the sizes of messages over shared memory. *)
From Coq Require Import Ascii String List Arith NArith ZArith Bool Lia.
From Verif Require Import StrModel DoubleModel JsonModel RpcModel RouterModel MapModel MemModel MemSpec PendModel ShmModel ShmSpec ShmProofs ShmPair GaugeModel GaugeSpec GaugeProofs.
Import ListNotations.
Local Open Scope nat_scope.

(** Whatever the two sizes are, messages arrive in order, each once, and each of them is one the
    sender and the queue had room for. *)
Theorem C211_order : forall (ha hb : bool) (ma mb : N) (vs : list (side * gact)) (x : side),
  let s := grun ha hb ma mb vs in
  hp_sent s x = hm_got (hp_ep s (other x)) ++ hp_q s (other x) /\ forall m, In m (hp_sent s x) -> fits ma mb x m.
Proof. intros. split; [apply order|]. intros m H. exact (sent_fits ha hb ma mb vs x m H). Qed.
Print Assumptions C211_order.

(** A request both have room for is put on the queue, if that is not full. *)
Theorem C211_sent : forall ha hb ma mb vs x n r rest, let s := grun ha hb ma mb vs in
  take_nth n (hm_out (hp_ep s x)) = Some (r, rest) -> hm_started (hp_ep s x) = true -> fits ma mb x (ser_request r) ->
  let s' := grun ha hb ma mb (vs ++ [(x, GDo (ASend n true))]) in
  hp_sent s' x = hp_sent s x ++ [ser_request r] /\ hp_q s' (other x) = hp_q s (other x) ++ [ser_request r] /\
  hm_failing (hp_ep s' x) = hm_failing (hp_ep s x).
Proof.
  intros ha hb ma mb vs x n r rest s T St (L1 & L2). rewrite grun_snoc. apply (send_in ma _ x n r rest T St); [|exact L2].
  unfold s; rewrite size_now. exact L1.
Qed.
Print Assumptions C211_sent.

(** One that either has no room for is not sent: it is given up with an error. *)
Theorem C211_refused : forall ha hb ma mb vs x n ok r rest, let s := grun ha hb ma mb vs in
  take_nth n (hm_out (hp_ep s x)) = Some (r, rest) -> hm_started (hp_ep s x) = true -> ~ fits ma mb x (ser_request r) ->
  let s' := grun ha hb ma mb (vs ++ [(x, GDo (ASend n ok))]) in
  hp_sent s' x = hp_sent s x /\ hp_q s' (other x) = hp_q s (other x) /\
  exists msg, hm_failing (hp_ep s' x) = hm_failing (hp_ep s x) ++ [(r, msg)] /\ gave_up msg.
Proof.
  intros ha hb ma mb vs x n ok r rest s T St L. rewrite grun_snoc. apply (send_large ma _ x n ok r rest T St).
  unfold s; rewrite size_now. unfold fits in L. lia.
Qed.
Print Assumptions C211_refused.

(** The part that holds: an end whose size is not below that of the creator takes the messages
    of its queue one by one, and goes on when there is none. Missing: an opener with a smaller
    size. *)
Theorem C211_taken_partial : forall ha hb ma mb vs x, (ma <= size_of ma mb x)%N -> let s := grun ha hb ma mb vs in
  let s' := grun ha hb ma mb (vs ++ [(x, GTurn)]) in
  (hp_q s x = [] -> s' = s) /\
  (forall m q, hm_live (hp_ep s x) = true -> hp_q s x = m :: q -> hm_got (hp_ep s' x) = hm_got (hp_ep s x) ++ [m] /\ hp_q s' x = q).
Proof.
  intros ha hb ma mb vs x L s s'. assert (ma <= hm_max (hp_ep s x))%N as M by (unfold s; rewrite size_now; exact L).
  unfold s'. rewrite grun_snoc. fold s. split; [apply turn_idle; exact M|]. intros m q Li Q. exact (turn_takes ma s x m q M Li Q).
Qed.
Print Assumptions C211_taken_partial.

(** The part that holds of the answers, whatever the sizes are: a request completes with what
    the handler of the other side gave to it, or with an error of the transport. Missing: that it
    completes at all, and payloads mistaken in the sense of C62. *)
Theorem C211_answer_partial : forall ha hb ma mb vs x t o,
  Forall (fun v => match snd v with GDo a => good_hact a | GTurn => True end) vs ->
  let s := grun ha hb ma mb vs in NoDup (shm_keys (hp_ep s x)) ->
  In (t, o) (pt_done (hm_tab (hp_ep s x))) -> exists resp, o = Some resp /\
    ((exists r, In (t, r) (hm_reg (hp_ep s x)) /\
       ((exists h, In (r, h) (hm_served (hp_ep s (other x))) /\ resp = reply (rq_id r) h) \/
        (exists i msg, id_key i = id_key (rq_id r) /\ gave_up msg /\ resp = failed i msg))) \/
     (exists i, resp = failed i (bs "Peer not connected"))).
Proof.
  intros ha hb ma mb vs x t o G s. subst s. destruct (grun_pair ha hb ma mb vs) as (ws & -> & H). exact (shm_own_answer ha hb ma mb ws x t o (H G)).
Qed.
Print Assumptions C211_answer_partial.

(** An opener with a smaller size than the creator never receives anything, however short the
    messages are, and the first turn of its thread disconnects it. *)
Theorem C211_opener_refuted : forall ha hb ma mb vs, (mb < ma)%N -> let s := grun ha hb ma mb vs in
  hm_got (hp_ep s SideB) = [] /\
  (hm_live (hp_ep s SideB) = true -> hm_connected (hp_ep (grun ha hb ma mb (vs ++ [(SideB, GTurn)])) SideB) = false).
Proof.
  intros ha hb ma mb vs L s. split; [apply never_got; exact L|]. intro Li. rewrite grun_snoc.
  apply turn_breaks; [unfold s; rewrite size_now; exact L|exact Li].
Qed.
Print Assumptions C211_opener_refuted.

(** A reply that is too large is dropped without a word to the other side. *)
Theorem C211_reply_refuted : forall ha hb ma mb vs x n h ok r rest, let s := grun ha hb ma mb vs in
  take_nth n (hm_running (hp_ep s x)) = Some (r, rest) -> ~ fits ma mb x (ser_response (reply (rq_id r) h)) ->
  let s' := grun ha hb ma mb (vs ++ [(x, GDo (AHandler n h ok))]) in
  hp_ep s' (other x) = hp_ep s (other x) /\ same_traffic s s' /\ hm_running (hp_ep s' x) = rest.
Proof.
  intros ha hb ma mb vs x n h ok r rest s T L. rewrite grun_snoc. apply (reply_lost ma _ x n h ok r rest T).
  unfold s; rewrite size_now. unfold fits in L. lia.
Qed.
Print Assumptions C211_reply_refuted.

(** A request whose answer is too large: both ends are connected, nothing is on its way and
    nothing runs, but the request is still open. *)
Definition gauge_rq : request := {| rq_id := IdInt 7; rq_method := bs "tools/call"; rq_params := None |}.
Definition gauge_long : handled :=
  HReturn {| rs_id := IdNull; rs_result := Some (JStr (repeat "x"%char 200)); rs_error := None |}.
Definition gauge_ask : list (side * gact) :=
  [(SideA, GDo AStart); (SideB, GDo AStart); (SideB, GDo (ABegin gauge_rq 0)); (SideB, GDo (ARegister 0))].

Example C211_ex_reply :
  let s := grun true true 100 100 (gauge_ask ++ [(SideB, GDo (ASend 0 true)); (SideA, GTurn); (SideA, GDo (AHandler 0 gauge_long true)); (SideB, GTurn)]) in
  hm_connected (hp_ep s SideA) = true /\ hm_connected (hp_ep s SideB) = true /\ hm_running (hp_ep s SideA) = [] /\
  hp_q s SideA = [] /\ hp_q s SideB = [] /\ hm_failing (hp_ep s SideB) = [] /\
  pt_pend (hm_tab (hp_ep s SideB)) = [(bs "7", 0)] /\ pt_done (hm_tab (hp_ep s SideB)) = [].
Proof. vm_compute. repeat split. Qed.

(** With room for it the answer arrives, and with a smaller opener even a short one does not. *)
Example C211_ex_room :
  let s := grun true true 1000 2000 (gauge_ask ++ [(SideB, GDo (ASend 0 true)); (SideA, GTurn); (SideA, GDo (AHandler 0 gauge_long true)); (SideB, GTurn)]) in
  pt_pend (hm_tab (hp_ep s SideB)) = [] /\ pt_done (hm_tab (hp_ep s SideB)) =
    [(0, Some {| rs_id := IdInt 7; rs_result := Some (JStr (repeat "x"%char 200)); rs_error := None |})].
Proof. vm_compute. split; reflexivity. Qed.

Example C211_ex_small :
  let s := grun true true 1000 999 (gauge_ask ++ [(SideB, GDo (ASend 0 true)); (SideB, GTurn); (SideB, GDo AExit)]) in
  hm_connected (hp_ep s SideA) = true /\ hm_connected (hp_ep s SideB) = false /\
  pt_done (hm_tab (hp_ep s SideB)) = [(0, Some (failed (IdStr (bs "7")) (bs "Transport closed")))].
Proof. vm_compute. repeat split. Qed.

Example C211_ex_sent :
  let s := grun true true 1000 2000 gauge_ask in
  take_nth 0 (hm_out (hp_ep s SideB)) = Some (gauge_rq, []) /\ hm_started (hp_ep s SideB) = true /\ fits 1000 2000 SideB (ser_request gauge_rq).
Proof. split; [vm_compute; reflexivity|]. split; [vm_compute; reflexivity|]. unfold fits. split; apply N.leb_le; vm_compute; reflexivity. Qed.

Example C211_ex_refused :
  let s := grun true true 20 2000 gauge_ask in
  take_nth 0 (hm_out (hp_ep s SideB)) = Some (gauge_rq, []) /\ hm_started (hp_ep s SideB) = true /\ ~ fits 20 2000 SideB (ser_request gauge_rq).
Proof. split; [vm_compute; reflexivity|]. split; [vm_compute; reflexivity|]. unfold fits. intros (_ & H). apply N.leb_le in H. vm_compute in H. discriminate H. Qed.
