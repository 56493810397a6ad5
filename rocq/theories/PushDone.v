(** Who completes a request of the server, whatever the executions and whoever posts. *)
From Coq Require Import Ascii String List Permutation Arith NArith ZArith Bool Lia.
From Verif Require Import StrModel StrProofs DoubleModel JsonModel JsonSpec JsonProofs RpcModel RpcSpec RpcProofs RouterModel RouterProofs MapModel MapProofs MemModel
  PendModel PendProofs AuthModel AuthSpec WwwModel GuardModel WireSpec HttpModel HttpSpec HttpProofs HttpHist HcliModel HcliSpec HcliProofs WebModel WebSpec WebProofs WebInv WebLive PushModel PushSpec PushProofs PushInv PushRun.
Import ListNotations.
Local Open Scope nat_scope.

(** ** The sessions' tables hold what was sent on them *)
Definition owns (A : list (nat * nat * request)) (h : hstate) : Prop :=
  forall n s k t, nth_error (hs_heap h) n = Some s -> In (k, t) (ss_pending s) -> exists r, In (t, n, r) A /\ id_key (rq_id r) = k.
Definition fewer (h h' : hstate) : Prop :=
  forall n s', nth_error (hs_heap h') n = Some s' -> ss_pending s' = [] \/ exists s, nth_error (hs_heap h) n = Some s /\ incl (ss_pending s') (ss_pending s).

Lemma fewer_refl : forall h, fewer h h.
Proof. intros h n s G. right. exists s. split; [exact G|]. now intros x. Qed.
Lemma fewer_trans : forall a b c, fewer a b -> fewer b c -> fewer a c.
Proof.
  intros a b c X Y n s G. destruct (Y n s G) as [E|(s1 & G1 & I1)]; [now left|]. destruct (X n s1 G1) as [E|(s2 & G2 & I2)].
  - left. rewrite E in I1. destruct (ss_pending s) as [|x l]; [reflexivity|]. now elim (I1 x (or_introl eq_refl)).
  - right. exists s2. split; [exact G2|]. intros x I. now apply I2, I1.
Qed.
Lemma fewer_heap : forall h h', hs_heap h' = hs_heap h -> fewer h h'.
Proof. intros h h' E n s G. rewrite E in G. now apply fewer_refl. Qed.
Lemma fewer_put : forall h h' n s s', nth_error (hs_heap h) n = Some s -> hs_heap h' = set_nth n s' (hs_heap h) -> incl (ss_pending s') (ss_pending s) -> fewer h h'.
Proof.
  intros h h' n s s' G H Q m x X. rewrite H in X. destruct (Nat.eq_dec m n) as [->|Ne].
  - rewrite nth_set_same in X by now apply nth_lt in G. injection X as <-. right. now exists s.
  - rewrite nth_set_other in X by (assumption || now apply nth_lt in G). right. exists x. split; [exact X|]. now intros y.
Qed.
Lemma fewer_close : forall what n h, fewer h (close_session what n h).
Proof.
  intros what n h. unfold close_session. destruct (nth_error (hs_heap h) n) as [s|] eqn:G; [|apply fewer_refl].
  eapply fewer_put; [exact G|reflexivity|]. cbn. now intros x.
Qed.

Lemma fewer_op : forall h o, (forall n k, o <> OPend n k) -> fewer h (hstep h o).
Proof.
  intros h o Q. destruct o as [v d|i|n|n p|n k|n resp|n|k|k ok|]; cbn [hstep].
  - intros n s G. cbn [create_session hs_heap] in G. destruct (lt_dec n (length (hs_heap h))) as [L|L].
    + rewrite nth_error_app1 in G by exact L. right. exists s. split; [exact G|]. now intros x.
    + left. rewrite nth_error_app2 in G by lia. destruct (n - length (hs_heap h)) as [|[|x]]; try discriminate G. injection G as <-. reflexivity.
  - apply fewer_heap. unfold unlink_session. now destruct (aget i (hs_table h)).
  - apply fewer_close.
  - unfold queue_outbound. destruct (nth_error (hs_heap h) n) as [s|] eqn:G; [|apply fewer_refl]. eapply fewer_put; [exact G|reflexivity|]. now intros x.
  - now elim (Q n k).
  - unfold resolve_pending. destruct (nth_error (hs_heap h) n) as [s|] eqn:G; [|apply fewer_refl]. destruct (id_key (rs_id resp)) as [|c k]; [apply fewer_refl|].
    destruct (aget (c :: k) (ss_pending s)) as [t|]; [|apply fewer_refl]. eapply fewer_put; [exact G|reflexivity|]. intros [a b] I. cbn [ss_pending] in I. now apply in_adel in I.
  - now apply fewer_heap.
  - unfold stream_take. destruct (nth_error (hs_streams h) k) as [m|]; [|apply fewer_refl].
    destruct (sm_alive m), (sm_held m); try apply fewer_refl. destruct (nth_error (hs_heap h) (sm_session m)) as [s|] eqn:G; [|apply fewer_refl].
    destruct (ss_closed s); [now apply fewer_heap|]. destruct (ss_queue s) as [|x q0]; [apply fewer_refl|].
    eapply fewer_put; [exact G|reflexivity|]. now intros y.
  - unfold stream_write. destruct (nth_error (hs_streams h) k) as [m|]; [|apply fewer_refl]. destruct (sm_alive m), (sm_held m); try apply fewer_refl. now apply fewer_heap.
  - unfold stop_sessions. eapply fewer_trans; [|apply fewer_heap; reflexivity].
    assert (G : forall (l : list (bstr * nat)) h0, fewer h0 (fold_left (fun a kn => close_session (bs "Transport closed") (snd kn) a) l h0)).
    { induction l as [|x l IH]; intro h0; [apply fewer_refl|]. cbn [fold_left]. eapply fewer_trans; [apply fewer_close|apply IH]. }
    apply G.
Qed.
Lemma fewer_ops : forall os h, (forall n k, ~ In (OPend n k) os) -> fewer h (hrun os h).
Proof.
  induction os as [|o os IH]; intros h Q; [apply fewer_refl|]. cbn [hrun fold_left]. eapply fewer_trans; [apply fewer_op|apply IH].
  - intros n k ->. apply (Q n k). now left.
  - intros n k I. apply (Q n k). now right.
Qed.

Lemma owns_fewer : forall A h h', owns A h -> fewer h h' -> owns A h'.
Proof.
  intros A h h' O F n s k t G I. destruct (F n s G) as [E|(s0 & G0 & J)]; [now rewrite E in I|]. exact (O n s0 k t G0 (J _ I)).
Qed.

Lemma owns_serve : forall A lb c verify now draw hd q h, owns A h -> owns A (snd (serve lb c verify now draw hd q h)).
Proof.
  intros A lb c verify now draw hd q h O. destruct (serve_ops lb c verify now draw hd q h) as (os & -> & F). eapply owns_fewer; [exact O|]. apply fewer_ops.
  intros n k I. rewrite Forall_forall in F. exact (F _ I).
Qed.

Lemma owns_step : forall e p a, owns (pu_asked p) (wb_srv (pu_web p)) -> owns (pu_asked (pstep e p a)) (wb_srv (pu_web (pstep e p a))).
Proof.
  intros e p a O. destruct a as [a|r c|j|m|k hd]; cbn [pstep].
  - destruct (web_step a) eqn:S; [|exact O]. cbn [on_web pu_asked pu_web]. destruct a as [a|n|n now draw hd|n|n hd|q now draw hd|o|hs|m hd]; cbn [wstep]; try discriminate S.
    + destruct (own_step a); exact O.
    + destruct (_ && _ && _)%bool; [|exact O]. destruct (take_nth n (hc_queue (client e (pu_web p)))) as [[x rest]|]; exact O.
    + destruct (nth_error (wb_air (pu_web p)) n) as [a|]; [|exact O]. destruct (ar_back a); [exact O|].
      pose proof (owns_serve _ (en_loopback e) (en_server e) (en_verify e) now draw hd (ar_req a) _ O) as Q. destruct (serve _ _ _ _ _ _ _ _) as [[x calls] h]. exact Q.
    + destruct (nth_error (wb_air (pu_web p)) n); exact O.
    + destruct (_ && _ && _)%bool; [|exact O]. destruct (take_nth n (wb_air (pu_web p))) as [[a rest]|]; [|exact O]. destruct (ar_back a); exact O.
    + pose proof (owns_serve _ (en_loopback e) (en_server e) (en_verify e) now draw hd q _ O) as Q. destruct (serve _ _ _ _ _ _ _ _) as [[x calls] h]. exact Q.
    + cbn [put_srv wb_srv]. eapply owns_fewer; [exact O|]. apply fewer_op. intros n k ->. discriminate S.
    + exact O.
  - destruct (active_session (wb_srv (pu_web p))) as [n|]; [|exact O]. cbn [pu_asked pu_web on_srv put_srv wb_srv]. intros m x k t X I. unfold pend_request in X.
    destruct (nth_error (hs_heap (wb_srv (pu_web p))) n) as [s|] eqn:G.
    + cbn [hs_heap put_session] in X. destruct (Nat.eq_dec m n) as [->|Ne].
      * rewrite nth_set_same in X by now apply nth_lt in G. injection X as <-. cbn [ss_pending] in I. apply in_aset_any in I as [I|I]; [injection I as -> ->|].
        -- exists (sent_as r c). split; [|reflexivity]. apply in_or_app. right. now left.
        -- destruct (O n s k t G I) as (q & J1 & J2). exists q. split; [apply in_or_app; now left|exact J2].
      * rewrite nth_set_other in X by (assumption || now apply nth_lt in G). destruct (O m x k t X I) as (q & J1 & J2). exists q. split; [apply in_or_app; now left|exact J2].
    + destruct (O m x k t X I) as (q & J1 & J2). exists q. split; [apply in_or_app; now left|exact J2].
  - destruct (take_nth j (pu_wait p)) as [[[n text] rest]|]; [|exact O]. cbn [pu_asked pu_web on_srv put_srv wb_srv]. eapply owns_fewer; [exact O|].
    apply (fewer_op _ (OQueue n text)). intros; discriminate.
  - cbn [on_web pu_asked pu_web on_srv put_srv wb_srv]. unfold send_notification. destruct (active_session _) as [n|]; [|exact O]. eapply owns_fewer; [exact O|].
    apply (fewer_op _ (OQueue n _)). intros; discriminate.
  - destruct (nth_error (hs_streams (wb_srv (pu_web p))) k) as [m|]; [|exact O]. destruct (nth_error (sm_wire m) (reads k (pu_read p))) as [[i text]|]; exact O.
Qed.

Lemma owns_run : forall e es, owns (pu_asked (prun e es)) (wb_srv (pu_web (prun e es))).
Proof.
  intros e es. induction es as [|a es IH] using rev_ind; [intros [|n] s k t G; discriminate G|]. rewrite prun_snoc. now apply owns_step.
Qed.

(** ** A request over HTTP that completes something *)
Lemma calls_done : forall hd n cs a t o, In (t, o) (hs_done (snd (fold_left (take_call hd n) cs a))) ->
  In (t, o) (hs_done (snd a)) \/ exists x k resp, nth_error (hs_heap (snd a)) n = Some x /\ In (k, t) (ss_pending x) /\ o = Some resp /\ id_key (rs_id resp) = k /\ In (CResolve resp) cs.
Proof.
  intros hd n cs. induction cs as [|c cs IH]; intros a t o H; [now left|]. cbn [fold_left] in H. apply IH in H. clear IH.
  destruct c as [r|r|m|m].
  2-4: (destruct H as [H|(x & k & resp & H1 & H2 & H3 & H4 & H5)]; [now left|right]; exists x, k, resp; (split; [exact H1|]); (split; [exact H2|]); (split; [exact H3|]); split; [exact H4|now right]).
  cbn [take_call] in H. assert (R : forall r h, hs_done (snd (resolve_pending n r h)) = hs_done h \/
     exists x t, nth_error (hs_heap h) n = Some x /\ In (id_key (rs_id r), t) (ss_pending x) /\ hs_done (snd (resolve_pending n r h)) = hs_done h ++ [(t, Some r)]).
  { intros r0 h. unfold resolve_pending. destruct (nth_error (hs_heap h) n) as [s|] eqn:G; [|now left]. destruct (id_key (rs_id r0)) as [|c k]; [now left|].
    destruct (aget (c :: k) (ss_pending s)) as [u|] eqn:Q; [|now left]. right. exists s, u. split; [reflexivity|]. split; [now apply aget_in|reflexivity]. }
  specialize (R r (snd a)). pose proof (fewer_op (snd a) (OResolve n r) ltac:(intros; discriminate)) as F. cbn [hstep] in F.
  destruct (resolve_pending n r (snd a)) as [ok h']. cbn [snd fst] in *.
  destruct H as [H|(x & k & resp & H1 & H2 & H3 & H4 & H5)].
  - destruct R as [R|(x & u & R1 & R2 & R3)]; [left; congruence|]. rewrite R3 in H. apply in_app_or in H as [H|[H|[]]]; [now left|]. injection H as <- <-.
    right. exists x, (id_key (rs_id r)), r. split; [exact R1|]. split; [exact R2|]. split; [reflexivity|]. split; [reflexivity|now left].
  - right. destruct (F n x H1) as [E|(s & G & J)]; [now rewrite E in H2|]. exists s, k, resp. split; [exact G|]. split; [now apply J|]. split; [exact H3|]. split; [exact H4|now right].
Qed.

Lemma serve_done : forall lb c verify now draw hd q h t o,
  In (t, o) (hs_done (snd (serve lb c verify now draw hd q h))) -> In (t, o) (hs_done h) \/
  check_local lb (hc_address c) (f_host q) (f_origin q) = None /\ (exists i, enforce c verify now q = inr i) /\
  exists n x k resp, find_session (f_session q) h = Some n /\ nth_error (hs_heap h) n = Some x /\ In (k, t) (ss_pending x) /\ o = Some resp /\
    (hq_verb q = POST /\ In (CResolve resp) (fst (route hd (hq_body q))) /\ id_key (rs_id resp) = k \/
     hq_verb q = DELETE /\ resp = error_response (IdStr k) (-32603) (bs "HTTP session closed") None).
Proof.
  intros lb c verify now draw hd q h t o. unfold serve. destruct (_ && _ && _)%bool.
  { destruct (check_local _ _ _ _); [now left|]. destruct (find_session (f_session q) h); [|now left]. cbv zeta. destruct (check_version _ _); now left. }
  unfold make_response. destruct (check_local _ _ _ _) as [b|] eqn:L; [now left|].
  destruct (_ || _)%bool; [destruct (hq_verb q); now left|].
  destruct (_ && beq (hq_target q) (hc_endpoint c))%bool.
  - unfold handle_endpoint. destruct (enforce c verify now q) as [r|info] eqn:En; [now left|].
    destruct (hq_verb q) eqn:Vq; try now left.
    + destruct (deser_request request0 (hq_body q)) as [isreq r]. destruct (_ && _ && _)%bool.
      * rewrite endpoint_route_state. intro H. apply calls_done in H as [H|(x & k & resp & H1 & H2 & _)]; [now left|]. exfalso. cbn [snd create_session hs_heap] in H1.
        rewrite nth_error_app2 in H1 by lia. rewrite Nat.sub_diag in H1. injection H1 as <-. easy.
      * destruct (find_session (f_session q) h) as [n|] eqn:F; [|now left]. cbv zeta. destruct (check_version _ _); [|now left].
        rewrite endpoint_route_state. intro H. apply calls_done in H as [H|(x & k & resp & H1 & H2 & H3 & H4 & H5)]; [now left|]. right. split; [reflexivity|]. split; [now exists info|].
        exists n, x, k, resp. split; [reflexivity|]. split; [exact H1|]. split; [exact H2|]. split; [exact H3|]. left. now split.
    + destruct (f_session q) as [|a l]; [now left|]. cbn [snd]. unfold remove_session.
      destruct (find_session (a :: l) h) as [n|] eqn:F; [|now left]. unfold close_session.
      assert (U : hs_heap (unlink_session (a :: l) h) = hs_heap h /\ hs_done (unlink_session (a :: l) h) = hs_done h)
        by (unfold unlink_session; destruct (aget (a :: l) (hs_table h)); now split).
      destruct U as [U1 U2]. rewrite U1. destruct (nth_error (hs_heap h) n) as [s|] eqn:E; [|rewrite U2; now left].
      cbn [hs_done put_session]. rewrite U2. intro H. apply in_app_or in H as [H|H]; [now left|]. right. split; [reflexivity|]. split; [now exists info|].
      apply in_map_iff in H as ([k t'] & H & I). cbn [fst snd] in H. injection H as <- <-.
      exists n, s, k. eexists. split; [reflexivity|]. split; [exact E|]. split; [exact I|]. split; [reflexivity|]. now right.
  - destruct (hq_verb q); try now left.
    destruct (beq (hq_target q) (hc_rpc c)).
    { unfold handle_rpc. destruct (enforce c verify now q) as [r|info]; [now left|].
      destruct (deser_request request0 (hq_body q)) as [[] rpc]; [|now left]. cbn [negb].
      destruct (route hd (hq_body q)) as [cs [[b|]|]]; now left. }
    destruct (beq (hq_target q) (hc_notify c)); [|now left].
    unfold handle_notify. destruct (enforce c verify now q) as [r|info]; [now left|].
    destruct (deser_notification notification0 (hq_body q)) as [[] rpc]; [|now left]. cbn [negb].
    destruct (route hd (hq_body q)) as [cs [b|]]; now left.
Qed.

(** Whoever completes a request of the server knows the number of its session and, with
    authentication, has a token that is admitted. *)
Lemma push_completer : forall (e : ends) (es : list pact) q now draw hd t o, let p := prun e es in
  In (t, o) (hs_done (wb_srv (pu_web (pstep e p (PWeb (WOther q now draw hd)))))) -> In (t, o) (hs_done (wb_srv (pu_web p))) \/
  exists s r resp, In (t, s, r) (pu_asked p) /\ o = Some resp /\ find_session (f_session q) (wb_srv (pu_web p)) = Some s /\
    (hc_auth (en_server e) = true -> exists i, admitted (f_auth q) (en_verify e) (hc_bearer (en_server e)) now i) /\
    (hq_verb q = POST /\ id_key (rs_id resp) = id_key (rq_id r) \/ hq_verb q = DELETE /\ resp = gave (IdStr (id_key (rq_id r))) (bs "HTTP session closed")).
Proof.
  intros e es q now draw hd t o p H. cbn [pstep web_step on_web pu_web wstep] in H.
  pose proof (serve_done (en_loopback e) (en_server e) (en_verify e) now draw hd q (wb_srv (pu_web p)) t o) as D.
  destruct (serve _ _ _ _ _ _ _ _) as [[x calls] h]. cbn [put_srv wb_srv] in H. cbn [snd] in D. apply D in H as [H|(_ & (i & En) & n & y & k & resp & F & G & I & -> & Q)]; [now left|].
  right. destruct (owns_run e es n y k t G I) as (r & J1 & J2). exists n, r, resp. split; [exact J1|]. split; [reflexivity|]. split; [exact F|]. split.
  - intro A. apply enforce_admits in En as [[B _]|[_ (j & _ & E)]]; [congruence|]. now exists j.
  - rewrite J2. destruct Q as [(Q1 & _ & Q2)|(Q1 & Q2)]; [left; now split|right; now split].
Qed.
