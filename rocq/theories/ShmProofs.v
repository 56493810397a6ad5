From Coq Require Import Ascii String List Permutation Arith NArith ZArith Bool Lia ZifyBool ZifyNat ZifyN.
From Verif Require Import StrModel StrProofs DoubleModel JsonModel JsonSpec JsonProofs RpcModel RpcSpec RpcProofs RouterModel RouterProofs MapModel MapProofs MemModel MemSpec PendModel PendProofs LayoutSpec ShmModel ShmSpec.
Import ListNotations.
Local Open Scope nat_scope.

Lemma hrun_app : forall c e vs ws, hrun c e (vs ++ ws) = hrun c (hrun c e vs) ws.
Proof. intros. unfold hrun. now rewrite fold_left_app. Qed.

Lemma hrun_snoc : forall c e vs a, hrun c e (vs ++ [a]) = fst (hstep c (hrun c e vs) a).
Proof. intros. now rewrite hrun_app. Qed.

(** Sending changes only the error log. *)
Lemma send_same : forall p ok e, exists b l, shm_send p ok e = (b, l) /\
  (l = e \/ exists m, l = hadd_error m e).
Proof.
  intros p ok e. unfold shm_send. destruct (hm_started e); cbn [negb].
  - destruct (N.ltb _ _); [eexists _, _; split; [reflexivity|]; eauto|].
    destruct ok; eexists _, _; split; try reflexivity; eauto.
  - eexists _, _. split; [reflexivity|]. eauto.
Qed.

Lemma put_same : forall p ok e, exists o l, put p ok e = (l, o) /\ (l = e \/ exists m, l = hadd_error m e).
Proof.
  intros p ok e. unfold put. destruct (send_same p ok e) as (b & l & -> & H). eexists _, _. split; [reflexivity|exact H].
Qed.

(** The parts of an endpoint the completion properties are about. *)
Record same_core (e f : shm) : Prop := {
  sc_tab : hm_tab f = hm_tab e;
  sc_reg : hm_reg f = hm_reg e;
  sc_got : hm_got f = hm_got e;
  sc_max : hm_max f = hm_max e;
  sc_en : hm_entering f = hm_entering e;
  sc_out : hm_out f = hm_out e;
  sc_fail : hm_failing f = hm_failing e
}.

Lemma same_core_refl : forall e, same_core e e.
Proof. intro e. now constructor. Qed.

Lemma put_core : forall p ok e, same_core e (fst (put p ok e)).
Proof.
  intros p ok e. destruct (put_same p ok e) as (o & l & -> & [-> | (m & ->)]); cbn [fst]; now constructor.
Qed.

(** How the processing of a message changes the table. *)
Inductive tab_effect (m : bstr) (p : ptab) : ptab -> Prop :=
| te_none : tab_effect m p p
| te_resolve resp : deser_response response0 m = (true, resp) ->
    (contains (bs """result""") m || contains (bs """error""") m)%bool = true -> tab_effect m p (pt_complete (id_key (rs_id resp)) resp p)
| te_bye n : deser_notification notification0 m = (true, n) -> nt_method n = bs "transport/disconnected" ->
    tab_effect m p (pt_fail_all (fun k => shm_error (IdStr k) (bs "Peer not connected")) p).

Record same_calls (e f : shm) : Prop := {
  sl_reg : hm_reg f = hm_reg e;
  sl_got : hm_got f = hm_got e;
  sl_max : hm_max f = hm_max e;
  sl_en : hm_entering f = hm_entering e;
  sl_out : hm_out f = hm_out e;
  sl_fail : hm_failing f = hm_failing e
}.

Lemma notification_effect : forall m e,
  tab_effect m (hm_tab e) (hm_tab (shm_notification m e)) /\ same_calls e (shm_notification m e).
Proof.
  intros m e. unfold shm_notification. destruct (deser_notification notification0 m) as [[|] n] eqn:D.
  - destruct (beq (nt_method n) (bs "transport/disconnected")) eqn:B.
    + apply beq_eq in B. split; [now apply te_bye with n|now constructor].
    + split; [constructor|now constructor].
  - split; [constructor|now constructor].
Qed.

Lemma request_effect : forall m e,
  tab_effect m (hm_tab e) (hm_tab (shm_request m e)) /\ same_calls e (shm_request m e).
Proof.
  intros m e. unfold shm_request.
  destruct (if contains (bs """method""") m then classify m else KUnknown); try apply notification_effect.
  destruct (deser_request request0 m) as [[|] r]; [|apply notification_effect].
  destruct (hm_handler e); [|apply notification_effect]. split; [constructor|now constructor].
Qed.

Lemma process_effect : forall m e,
  tab_effect m (hm_tab e) (hm_tab (shm_process m e)) /\ same_calls e (shm_process m e).
Proof.
  intros m e. unfold shm_process.
  destruct (contains (bs """result""") m || contains (bs """error""") m)%bool eqn:B; [|apply request_effect].
  destruct (deser_response response0 m) as [[|] resp] eqn:D; [|apply request_effect].
  split; [now apply te_resolve|now constructor].
Qed.

(** ** The table stays consistent *)
Record hinv (e : shm) : Prop := {
  hi_tab : pt_inv (hm_tab e);
  hi_reg : forall t r, In (t, r) (hm_reg e) -> In (t, id_key (rq_id r)) (pt_keys (hm_tab e));
  hi_pend : forall k t, In (k, t) (pt_pend (hm_tab e)) -> exists r, In (t, r) (hm_reg e) /\ id_key (rq_id r) = k;
  hi_out : forall r, In r (hm_out e) -> exists t, In (t, r) (hm_reg e);
  hi_fail : forall r msg, In (r, msg) (hm_failing e) -> exists t, In (t, r) (hm_reg e)
}.

Lemma hinv0 : forall h max, hinv (shm0 h max).
Proof. intros. constructor; cbn; try easy. apply pt_inv0. Qed.

Lemma tab_effect_inv : forall m p q, tab_effect m p q -> pt_inv p -> pt_inv q /\ pt_grows p q /\
  (forall kt, In kt (pt_pend q) -> In kt (pt_pend p)).
Proof.
  intros m p q H I. destruct H as [|resp D B|n D B].
  - split; [exact I|]. split; [apply pt_grows_refl|auto].
  - split; [now apply pt_inv_complete|]. split; [apply pt_grows_complete|]. intros kt K.
    now apply in_complete_pend in K as [K _].
  - split; [now apply pt_inv_fail_all|]. split; [apply pt_grows_fail_all|]. intros kt [].
Qed.

(** A step that changes the table only by completing entries. *)
Lemma hinv_shrink : forall e f, hinv e -> pt_inv (hm_tab f) -> pt_grows (hm_tab e) (hm_tab f) ->
  (forall kt, In kt (pt_pend (hm_tab f)) -> In kt (pt_pend (hm_tab e))) ->
  hm_reg f = hm_reg e -> (forall r, In r (hm_out f) -> In r (hm_out e)) ->
  (forall rm, In rm (hm_failing f) -> In rm (hm_failing e) \/ In (fst rm) (hm_out e)) -> hinv f.
Proof.
  intros e f I P [[a Ga] _] S R O F. constructor.
  - exact P.
  - intros t r H. rewrite R in H. rewrite Ga. apply in_or_app. left. now apply (hi_reg e I).
  - intros k t H. rewrite R. apply (hi_pend e I). now apply S.
  - intros r H. rewrite R. apply (hi_out e I). now apply O.
  - intros r msg H. rewrite R. apply F in H as [H|H]; [now apply (hi_fail e I) with msg|]. now apply (hi_out e I).
Qed.

Lemma hinv_step : forall c e a, hinv e -> hinv (fst (hstep c e a)).
Proof.
  intros c e a I. pose proof (hi_tab e I) as PI.
  assert (forall f, same_core e f -> hinv f) as Core.
  { intros f [H1 H2 H3 H4 H5 H6 H7]. apply (hinv_shrink e f I); rewrite ?H1; auto.
    - apply pt_grows_refl.
    - intros r. now rewrite H6.
    - intros r. rewrite H7. auto. }
  destruct a as [|r old|n|n ok|n|nt ok|m| | |n h ok|ok|]; cbn [hstep].
  - destruct (hm_started e); cbn [fst]; [exact I|]. apply Core. now constructor.
  - cbn [fst]. unfold shm_begin. destruct (hm_connected e).
    + apply (hinv_shrink e _ I); cbn; auto. apply pt_grows_refl.
    + apply (hinv_shrink e _ I); cbn [hset_tab hm_tab hm_reg hm_out hm_failing]; auto.
      * now apply pt_inv_immediate.
      * apply pt_grows_immediate.
  - destruct (take_nth n (hm_entering e)) as [[r rest]|] eqn:T; cbn [fst]; [|exact I].
    unfold shm_register. set (p := pt_register (id_key (rq_id r)) (hm_tab e)).
    constructor; cbn [hset_reg hset_calls hset_tab hm_tab hm_reg hm_out hm_failing].
    + now apply pt_inv_register.
    + intros t r0 H. unfold p. cbn [pt_register pt_keys]. apply in_or_app. apply in_app_iff in H as [H|[H|[]]].
      * left. now apply (hi_reg e I).
      * right. left. now injection H as <- <-.
    + intros k t H. unfold p in H. cbn [pt_register pt_pend] in H. apply in_aset in H; [|apply (pi_keys _ PI)]. destruct H as [H|[H _]].
      * injection H as -> ->. exists r. split; [apply in_or_app; right; now left|reflexivity].
      * destruct (hi_pend e I k t H) as (r0 & H1 & H2). exists r0. split; [apply in_or_app; now left|exact H2].
    + intros r0 H. apply in_app_iff in H as [H|[<-|[]]].
      * destruct (hi_out e I r0 H) as (t & H1). exists t. apply in_or_app. now left.
      * exists (pt_next (hm_tab e)). apply in_or_app. right. now left.
    + intros r0 msg H. destruct (hi_fail e I r0 msg H) as (t & H1). exists t. apply in_or_app. now left.
  - destruct (take_nth n (hm_out e)) as [[r rest]|] eqn:T; cbn [fst]; [|exact I].
    assert (In r (hm_out e) /\ forall x, In x rest -> In x (hm_out e)) as [T1 T2].
    { apply take_nth_perm in T. split; [|intros x Hx]; eapply Permutation_in; try (symmetry; apply T); [now left|now right]. }
    unfold shm_transmit. destruct (N.ltb (hm_max e) (N.of_nat (length (ser_request r)))) eqn:L.
    + apply (hinv_shrink e _ I); cbn; auto; [apply pt_grows_refl|].
      intros rm H. apply in_app_iff in H as [H|[<-|[]]]; [now left|right; exact T1].
    + destruct (send_same (ser_request r) ok (hset_calls (hm_entering e) rest (hm_failing e) e)) as (b & l & -> & Hl).
      assert (hm_tab l = hm_tab e /\ hm_reg l = hm_reg e /\ hm_out l = rest /\ hm_failing l = hm_failing e) as (L1 & L2 & L3 & L4).
      { destruct Hl as [-> | (m & ->)]; cbn; auto. }
      destruct b; cbn [fst].
      * apply (hinv_shrink e l I); rewrite ?L1; auto; [apply pt_grows_refl|rewrite L3; auto|rewrite L4; auto].
      * apply (hinv_shrink e _ I); cbn; rewrite ?L1; auto; [apply pt_grows_refl|rewrite L3; auto|].
        rewrite L4. intros rm H. apply in_app_iff in H as [H|[<-|[]]]; [now left|right; exact T1].
  - destruct (take_nth n (hm_failing e)) as [[[r msg] rest]|] eqn:T; cbn [fst]; [|exact I].
    assert (forall x, In x rest -> In x (hm_failing e)) as T2.
    { apply take_nth_perm in T. intros x Hx. eapply Permutation_in; [symmetry; apply T|now right]. }
    apply (hinv_shrink e _ I); cbn [hset_calls hset_tab hm_tab hm_reg hm_out hm_failing]; auto.
    + now apply pt_inv_complete.
    + apply pt_grows_complete.
    + intros kt H. now apply in_complete_pend in H as [H _].
  - apply Core, put_core.
  - destruct (hm_live e); cbn [fst]; [|exact I].
    destruct (process_effect m (hlog_got m e)) as [E [S1 S2 S3 S4 S5 S6]].
    destruct (tab_effect_inv _ _ _ E PI) as (Q1 & Q2 & Q3).
    apply (hinv_shrink e _ I); auto; [intros r; now rewrite S5|intros rm; rewrite S6; auto].
  - destruct (hm_live e); cbn [fst]; [|exact I]. apply Core. now constructor.
  - destruct (hm_live e && negb (hm_connected e))%bool; cbn [fst]; [|exact I].
    apply (hinv_shrink e _ I); cbn [hset_tab hset_conn hm_tab hm_reg hm_out hm_failing]; auto.
    + now apply pt_inv_fail_all.
    + apply pt_grows_fail_all.
    + intros kt [].
  - destruct (take_nth n (hm_running e)) as [[r rest]|] eqn:T; cbn [fst]; [|exact I].
    destruct (put_core (ser_response (reply (rq_id r) h)) ok
      (hset_work rest (hm_got e) (hm_served e ++ [(r, h)]) (hm_notified e) e)) as [H1 H2 H3 H4 H5 H6 H7].
    apply Core. constructor; assumption.
  - destruct (c && hm_started e)%bool.
    + pose proof (put_core (ser_notification bye) ok e) as [H1 H2 H3 H4 H5 H6 H7].
      destruct (put (ser_notification bye) ok e) as [e1 o]. cbn [fst] in *. apply Core. now constructor.
    + cbn [fst]. apply Core. now constructor.
  - destruct (hm_live e); cbn [fst]; [exact I|].
    apply (hinv_shrink e _ I); cbn [hset_tab hm_tab hm_reg hm_out hm_failing]; auto.
    + now apply pt_inv_fail_all.
    + apply pt_grows_fail_all.
    + intros kt [].
Qed.

Lemma hinv_run : forall c vs e, hinv e -> hinv (hrun c e vs).
Proof. intros c vs. induction vs as [|a vs IH]; intros e I; [exact I|]. apply IH. now apply hinv_step. Qed.

Lemma hinv_reachable : forall c h max vs, hinv (hrun c (shm0 h max) vs).
Proof. intros. apply hinv_run, hinv0. Qed.

(** ** Every completion has a cause *)
Definition hjust (c h : bool) (max : N) (vs : list hact) (e : shm) (t : nat) (o : option response) : Prop :=
  (exists r, In (t, r) (hm_reg e) /\
     match o with
     | None => exists t' r', In (t', r') (hm_reg e) /\ t < t' /\ id_key (rq_id r') = id_key (rq_id r)
     | Some resp => exists r0 t0, In (t0, r0) (hm_reg e) /\ id_key (rq_id r0) = id_key (rq_id r) /\ shm_cause vs e r0 resp
     end) \/
  (exists r vs1 vs2 old, o = Some (failed (rq_id r) (bs "Peer not connected")) /\
     vs = vs1 ++ ABegin r old :: vs2 /\ hm_connected (hrun c (shm0 h max) vs1) = false).

(** Reasons for failing to send. *)
Definition fail_reason (vs : list hact) (e : shm) (r : request) (msg : bstr) : Prop :=
  (msg = bs "Payload too large" /\ (hm_max e < N.of_nat (length (ser_request r)))%N) \/
  (msg = bs "Send failed" /\ exists n ok, In (ASend n ok) vs).

Record hgrow (e f : shm) : Prop := {
  hg_reg : exists l, hm_reg f = hm_reg e ++ l;
  hg_got : exists l, hm_got f = hm_got e ++ l;
  hg_max : hm_max f = hm_max e
}.

Lemma core_grow : forall e f, same_core e f -> hgrow e f.
Proof.
  intros e f [H1 H2 H3 H4 H5 H6 H7]. constructor; [exists []; now rewrite app_nil_r|exists []; now rewrite app_nil_r|exact H4].
Qed.

Lemma calls_grow : forall e f, same_calls e f -> hgrow e f.
Proof.
  intros e f [H1 H2 H3 H4 H5 H6]. constructor; [exists []; now rewrite app_nil_r|exists []; now rewrite app_nil_r|exact H3].
Qed.

Lemma grow_refl : forall e, hgrow e e.
Proof. intro e. apply core_grow, same_core_refl. Qed.

Lemma grow_triv : forall e f, hm_reg f = hm_reg e -> hm_got f = hm_got e -> hm_max f = hm_max e -> hgrow e f.
Proof.
  intros e f H1 H2 H3. constructor; [exists []; now rewrite app_nil_r|exists []; now rewrite app_nil_r|exact H3].
Qed.

Lemma hstep_grow : forall c e a, hgrow e (fst (hstep c e a)).
Proof.
  intros c e a. destruct a as [|r old|n|n ok|n|nt ok|m| | |n h ok|ok|]; cbn [hstep].
  - destruct (hm_started e); [apply grow_refl|now apply grow_triv].
  - cbn [fst]. unfold shm_begin. destruct (hm_connected e); now apply grow_triv.
  - destruct (take_nth n (hm_entering e)) as [[r rest]|]; [|apply grow_refl].
    constructor; cbn; [eexists; reflexivity|exists []; now rewrite app_nil_r|reflexivity].
  - destruct (take_nth n (hm_out e)) as [[r rest]|]; [|apply grow_refl].
    unfold shm_transmit. destruct (N.ltb _ _); [now apply grow_triv|].
    destruct (send_same (ser_request r) ok (hset_calls (hm_entering e) rest (hm_failing e) e)) as (b & l & -> & Hl).
    destruct Hl as [-> | (m & ->)], b; now apply grow_triv.
  - destruct (take_nth n (hm_failing e)) as [[[r msg] rest]|]; [now apply grow_triv|apply grow_refl].
  - apply core_grow, put_core.
  - destruct (hm_live e); [|apply grow_refl]. destruct (process_effect m (hlog_got m e)) as [_ [S1 S2 S3 S4 S5 S6]].
    cbn [fst]. constructor; [exists []; now rewrite S1, app_nil_r|exists [m]; now rewrite S2|now rewrite S3].
  - destruct (hm_live e); [now apply grow_triv|apply grow_refl].
  - destruct (hm_live e && negb (hm_connected e))%bool; [now apply grow_triv|apply grow_refl].
  - destruct (take_nth n (hm_running e)) as [[r rest]|]; [|apply grow_refl].
    destruct (put_core (ser_response (reply (rq_id r) h)) ok
      (hset_work rest (hm_got e) (hm_served e ++ [(r, h)]) (hm_notified e) e)) as [H1 H2 H3 H4 H5 H6 H7].
    now apply grow_triv.
  - destruct (c && hm_started e)%bool; [|now apply grow_triv].
    pose proof (put_core (ser_notification bye) ok e) as [H1 H2 H3 H4 H5 H6 H7].
    destruct (put (ser_notification bye) ok e) as [e1 o]. cbn [fst] in *. now apply grow_triv.
  - destruct (hm_live e); [apply grow_refl|now apply grow_triv].
Qed.

Lemma in_grow : forall (A : Type) (l m : list A) x, (exists k, m = l ++ k) -> In x l -> In x m.
Proof. intros A l m x [k ->] H. apply in_or_app. now left. Qed.

Lemma cause_mono : forall vs a e f r resp, hgrow e f -> shm_cause vs e r resp -> shm_cause (vs ++ [a]) f r resp.
Proof.
  intros vs a e f r resp [G1 G2 G3] [[H1 (m & M1 & M2 & M3)]|[[H1 H2]|[[H1 (n & ok & H2)]|[[H1 H2]|[H1 (m & n & M1 & M2 & M3)]]]]].
  - left. split; [exact H1|]. exists m. split; [eapply in_grow; eassumption|]. now split.
  - right. left. split; [exact H1|]. now rewrite G3.
  - right. right. left. split; [exact H1|]. exists n, ok. apply in_or_app. now left.
  - right. right. right. left. split; [exact H1|]. destruct H2 as [H2|H2]; [left|right]; apply in_or_app; now left.
  - right. right. right. right. split; [exact H1|]. exists m, n. split; [eapply in_grow; eassumption|]. now split.
Qed.

Lemma reason_mono : forall vs a e f r msg, hgrow e f -> fail_reason vs e r msg -> fail_reason (vs ++ [a]) f r msg.
Proof.
  intros vs a e f r msg [G1 G2 G3] [[H1 H2]|[H1 (n & ok & H2)]]; [left|right]; (split; [exact H1|]).
  - now rewrite G3.
  - exists n, ok. apply in_or_app. now left.
Qed.

Lemma failing_reason : forall c h max vs r msg, let e := hrun c (shm0 h max) vs in
  In (r, msg) (hm_failing e) -> fail_reason vs e r msg.
Proof.
  intros c h max vs. induction vs as [|a vs IH] using rev_ind; intros r msg e H; [destruct H|].
  subst e. rewrite hrun_snoc in *. set (e := hrun c (shm0 h max) vs) in *.
  pose proof (hstep_grow c e a) as G.
  assert (In (r, msg) (hm_failing e) -> fail_reason (vs ++ [a]) (fst (hstep c e a)) r msg) as Old.
  { intro K. eapply reason_mono; [exact G|]. now apply IH. }
  destruct a as [|r1 old|n|n ok|n|nt ok|m| | |n h1 ok|ok|]; cbn [hstep] in H.
  - destruct (hm_started e); now apply Old.
  - apply Old. cbn [fst] in H. unfold shm_begin in H. now destruct (hm_connected e).
  - apply Old. destruct (take_nth n (hm_entering e)) as [[r1 rest]|]; exact H.
  - destruct (take_nth n (hm_out e)) as [[r1 rest]|] eqn:T; [|now apply Old].
    cbn [hstep] in G, Old |- *. rewrite T in G, Old |- *.
    unfold shm_transmit in *. destruct (N.ltb (hm_max e) (N.of_nat (length (ser_request r1)))) eqn:L.
    + cbn [fst] in *. cbn in H. apply in_app_iff in H as [H|[H|[]]]; [now apply Old|].
      injection H as <- <-. left. split; [reflexivity|]. cbn. now apply N.ltb_lt.
    + destruct (send_same (ser_request r1) ok (hset_calls (hm_entering e) rest (hm_failing e) e)) as (b & l & E & Hl).
      rewrite E in *.
      assert (hm_failing l = hm_failing e) as L4 by (destruct Hl as [-> | (m & ->)]; reflexivity).
      destruct b; cbn [fst] in *.
      * rewrite L4 in H. now apply Old.
      * cbn in H. rewrite L4 in H. apply in_app_iff in H as [H|[H|[]]]; [now apply Old|].
        injection H as <- <-. right. split; [reflexivity|]. exists n, ok. apply in_or_app. right. now left.
  - apply Old. destruct (take_nth n (hm_failing e)) as [[[r1 msg1] rest]|] eqn:T; [|exact H].
    cbn in H. apply take_nth_in in T as [_ T]. now apply T.
  - apply Old. destruct (put_core (ser_notification nt) ok e) as [_ _ _ _ _ _ E]. now rewrite E in H.
  - apply Old. destruct (hm_live e); [|exact H]. cbn [fst] in H.
    destruct (process_effect m (hlog_got m e)) as [_ [_ _ _ _ _ E]]. now rewrite E in H.
  - apply Old. now destruct (hm_live e).
  - apply Old. now destruct (hm_live e && negb (hm_connected e))%bool.
  - apply Old. destruct (take_nth n (hm_running e)) as [[r1 rest]|]; [|exact H].
    destruct (put_core (ser_response (reply (rq_id r1) h1)) ok
      (hset_work rest (hm_got e) (hm_served e ++ [(r1, h1)]) (hm_notified e) e)) as [_ _ _ _ _ _ E]. now rewrite E in H.
  - apply Old. destruct (c && hm_started e)%bool; [|exact H].
    pose proof (put_core (ser_notification bye) ok e) as [_ _ _ _ _ _ E].
    destruct (put (ser_notification bye) ok e) as [e1 o]. cbn [fst] in *. cbn in H. now rewrite E in H.
  - apply Old. now destruct (hm_live e).
Qed.

Lemma hjust_mono : forall c h max vs a e t o,
  hjust c h max vs e t o -> hjust c h max (vs ++ [a]) (fst (hstep c e a)) t o.
Proof.
  intros c h max vs a e t o. pose proof (hstep_grow c e a) as G. pose proof G as [G1 G2 G3].
  intros [(r & H1 & H2)|(r & vs1 & vs2 & old & H1 & H3 & H4)].
  - left. exists r. split; [eapply in_grow; eassumption|]. destruct o as [resp|].
    + destruct H2 as (r0 & t0 & K1 & K2 & K3). exists r0, t0. split; [eapply in_grow; eassumption|].
      split; [exact K2|]. eapply cause_mono; eassumption.
    + destruct H2 as (t' & r' & K1 & K2 & K3). exists t', r'. split; [eapply in_grow; eassumption|]. now split.
  - right. exists r, vs1, (vs2 ++ [a]), old. split; [exact H1|]. split; [rewrite H3, <- app_assoc; reflexivity|exact H4].
Qed.

(** A completion of the entry of r, found under a key. *)
Lemma just_pend : forall c h max vs e f k t resp, hinv e -> hgrow e f ->
  In (k, t) (pt_pend (hm_tab e)) -> (forall r, id_key (rq_id r) = k -> shm_cause vs f r resp) ->
  hjust c h max vs f t (Some resp).
Proof.
  intros c h max vs e f k t resp I [G1 G2 G3] H C. destruct (hi_pend e I k t H) as (r & H1 & H2).
  left. exists r. split; [eapply in_grow; eassumption|]. exists r, t. split; [eapply in_grow; eassumption|].
  split; [reflexivity|]. now apply C.
Qed.

Lemma in_fail_all_done : forall f p t o, In (t, o) (pt_done (pt_fail_all f p)) ->
  In (t, o) (pt_done p) \/ exists k, In (k, t) (pt_pend p) /\ o = Some (f k).
Proof.
  intros f p t o H. cbn in H. apply in_app_iff in H as [H|H]; [now left|right].
  apply in_map_iff in H as ([k t0] & E & H). injection E as <- <-. now exists k.
Qed.

Lemma all_hjust : forall c h max vs t o, let e := hrun c (shm0 h max) vs in
  In (t, o) (pt_done (hm_tab e)) -> hjust c h max vs e t o.
Proof.
  intros c h max vs. induction vs as [|a vs IH] using rev_ind; intros t o e H; [destruct H|].
  subst e. rewrite hrun_snoc in *. set (e := hrun c (shm0 h max) vs) in *.
  pose proof (hinv_reachable c h max vs) as I. fold e in I. pose proof (hi_tab e I) as PI.
  pose proof (hstep_grow c e a) as G.
  assert (In (t, o) (pt_done (hm_tab e)) -> hjust c h max (vs ++ [a]) (fst (hstep c e a)) t o) as Old.
  { intro K. apply hjust_mono. now apply IH. }
  assert (forall b, In b (vs ++ [b])) as Last by (intro; apply in_or_app; right; now left).
  destruct a as [|r1 old|n|n ok|n|nt ok|m| | |n h1 ok|ok|].
  - apply Old. cbn in H. now destruct (hm_started e).
  - cbn [hstep fst] in H. unfold shm_begin in H. destruct (hm_connected e) eqn:Cn; [now apply Old|].
    cbn [hset_tab hm_tab pt_immediate pt_done] in H. apply in_app_iff in H as [H|[H|[]]]; [now apply Old|].
    injection H as <- <-. right. now exists r1, vs, [], old.
  - cbn [hstep] in H, G, Old |- *. destruct (take_nth n (hm_entering e)) as [[r1 rest]|] eqn:T; [|now apply Old].
    cbn [fst] in *. unfold shm_register in *.
    cbn [hset_reg hset_calls hset_tab hm_tab pt_register pt_done] in H.
    destruct (aget (id_key (rq_id r1)) (pt_pend (hm_tab e))) as [t0|] eqn:E; [|rewrite app_nil_r in H; now apply Old].
    apply in_app_iff in H as [H|[H|[]]]; [now apply Old|]. injection H as <- <-.
    apply aget_in in E. destruct (hi_pend e I _ _ E) as (r0 & K1 & K2).
    left. exists r0. cbn [hset_reg hm_reg]. split; [apply in_or_app; now left|].
    exists (pt_next (hm_tab e)), r1. split; [apply in_or_app; right; now left|]. split; [|now symmetry].
    apply (hi_reg e I) in K1. apply (in_map fst) in K1. rewrite (pi_issued _ PI) in K1. apply in_seq in K1. cbn [fst] in K1. lia.
  - apply Old. cbn [hstep] in H. destruct (take_nth n (hm_out e)) as [[r1 rest]|] eqn:T; [|exact H].
    unfold shm_transmit in H. destruct (N.ltb _ _); [exact H|].
    destruct (send_same (ser_request r1) ok (hset_calls (hm_entering e) rest (hm_failing e) e)) as (b & l & E & Hl).
    rewrite E in H. destruct Hl as [-> | (m & ->)], b; exact H.
  - cbn [hstep] in H, G, Old |- *. destruct (take_nth n (hm_failing e)) as [[[r1 msg] rest]|] eqn:T; [|now apply Old].
    cbn [fst] in *. cbn [hset_calls hset_tab hm_tab] in H. apply in_complete_done in H as [H|[E ->]]; [now apply Old|].
    apply take_nth_in in T as [T _]. pose proof (failing_reason c h max vs r1 msg T) as R. fold e in R.
    destruct (hi_fail e I r1 msg T) as (t1 & K1). apply aget_in in E.
    destruct (hi_pend e I _ _ E) as (r0 & K2 & K3).
    left. exists r0. split; [exact K2|]. exists r1, t1. split; [exact K1|]. split; [now symmetry|].
    destruct R as [[-> R]|[-> (n0 & ok & R)]].
    + right. left. now split.
    + right. right. left. split; [reflexivity|]. exists n0, ok. apply in_or_app. now left.
  - apply Old. cbn [hstep] in H. destruct (put_core (ser_notification nt) ok e) as [E _ _ _ _ _ _]. now rewrite E in H.
  - cbn [hstep] in H, G, Old |- *. destruct (hm_live e); [|now apply Old]. cbn [fst] in *.
    destruct (process_effect m (hlog_got m e)) as [E [S1 S2 S3 S4 S5 S6]].
    assert (In m (hm_got (shm_process m (hlog_got m e)))) as Gm.
    { rewrite S2. cbn. apply in_or_app. right. now left. }
    set (f := shm_process m (hlog_got m e)) in *. cbn [hlog_got hset_work hm_tab] in E.
    destruct E as [|resp D B|nt D B].
    + now apply Old.
    + apply in_complete_done in H as [H|[E ->]]; [now apply Old|]. apply aget_in in E.
      eapply (just_pend c h max _ e f); [exact I|exact G|exact E|]. intros r K. left. split; [now symmetry|]. now exists m.
    + apply in_fail_all_done in H as [H|(k & E & ->)]; [now apply Old|].
      eapply (just_pend c h max _ e f); [exact I|exact G|exact E|]. intros r <-. right. right. right. right.
      split; [reflexivity|]. now exists m, nt.
  - apply Old. cbn [hstep] in H. now destruct (hm_live e).
  - cbn [hstep] in H, G, Old |- *. destruct (hm_live e && negb (hm_connected e))%bool; [|now apply Old].
    cbn [fst] in *. cbn [hset_tab hm_tab] in H. apply in_fail_all_done in H as [H|(k & E & ->)]; [now apply Old|].
    eapply just_pend; [exact I|exact G|exact E|]. intros r <-. right. right. right. left. split; [reflexivity|]. now left.
  - apply Old. cbn [hstep] in H. destruct (take_nth n (hm_running e)) as [[r1 rest]|]; [|exact H].
    destruct (put_core (ser_response (reply (rq_id r1) h1)) ok
      (hset_work rest (hm_got e) (hm_served e ++ [(r1, h1)]) (hm_notified e) e)) as [E _ _ _ _ _ _]. now rewrite E in H.
  - apply Old. cbn [hstep] in H. destruct (c && hm_started e)%bool; [|exact H].
    pose proof (put_core (ser_notification bye) ok e) as [E _ _ _ _ _ _].
    destruct (put (ser_notification bye) ok e) as [e1 o1]. cbn [fst] in *. cbn in H. now rewrite E in H.
  - cbn [hstep] in H, G, Old |- *. destruct (hm_live e); [now apply Old|].
    cbn [fst] in *. cbn [hset_tab hm_tab] in H. apply in_fail_all_done in H as [H|(k & E & ->)]; [now apply Old|].
    eapply just_pend; [exact I|exact G|exact E|]. intros r <-. right. right. right. left. split; [reflexivity|]. now right.
Qed.

(** With distinct ids the cause is one of the request itself, and nothing completes empty. *)
Lemma nodup_key : forall e t1 t2 r1 r2, NoDup (shm_keys e) -> In (t1, r1) (hm_reg e) -> In (t2, r2) (hm_reg e) ->
  id_key (rq_id r1) = id_key (rq_id r2) -> t1 = t2 /\ r1 = r2.
Proof.
  intros e t1 t2 r1 r2. unfold shm_keys. induction (hm_reg e) as [|[t r] l IH]; intros N H1 H2 E; [destruct H1|].
  inversion N as [|x y N1 N2]. subst x y. destruct H1 as [H1|H1], H2 as [H2|H2].
  - injection H1 as <- <-. injection H2 as <- <-. now split.
  - injection H1 as <- <-. exfalso. apply N1. cbn [snd]. rewrite E. exact (in_map (fun tr => id_key (rq_id (snd tr))) _ _ H2).
  - injection H2 as <- <-. exfalso. apply N1. cbn [snd]. rewrite <- E. exact (in_map (fun tr => id_key (rq_id (snd tr))) _ _ H1).
  - now apply IH.
Qed.

Lemma shm_for_cause : forall c h max vs t o, let e := hrun c (shm0 h max) vs in NoDup (shm_keys e) ->
  In (t, o) (pt_done (hm_tab e)) -> exists resp, o = Some resp /\
    ((exists r, In (t, r) (hm_reg e) /\ shm_cause vs e r resp) \/
     (exists r vs1 vs2 old, resp = failed (rq_id r) (bs "Peer not connected") /\
        vs = vs1 ++ ABegin r old :: vs2 /\ hm_connected (hrun c (shm0 h max) vs1) = false)).
Proof.
  intros c h max vs t o e N H. destruct (all_hjust c h max vs t o H) as [(r & H1 & H2)|(r & vs1 & vs2 & old & -> & H3 & H4)].
  - destruct o as [resp|].
    + exists resp. split; [reflexivity|]. left. destruct H2 as (r0 & t0 & K1 & K2 & K3).
      destruct (nodup_key _ _ _ _ _ N K1 H1 K2) as [-> ->]. now exists r.
    + destruct H2 as (t' & r' & K1 & K2 & K3). destruct (nodup_key _ _ _ _ _ N K1 H1 K3) as [-> ->]. lia.
  - exists (failed (rq_id r) (bs "Peer not connected")). split; [reflexivity|]. right. now exists r, vs1, vs2, old.
Qed.

Lemma shm_once : forall c h max vs, NoDup (map fst (pt_done (hm_tab (hrun c (shm0 h max) vs)))).
Proof. intros. apply pt_once. apply (hi_tab _ (hinv_reachable c h max vs)). Qed.

(** Whatever was pending when Close finished is complete. *)
Lemma shm_close : forall c h max vs, let e := hrun c (shm0 h max) vs in hm_live e = false ->
  pt_pend (hm_tab (hrun c (shm0 h max) (vs ++ [AClosed]))) = [] /\
  forall t r, In (t, r) (hm_reg e) -> exists o, In (t, o) (pt_done (hm_tab (hrun c (shm0 h max) (vs ++ [AClosed])))).
Proof.
  intros c h max vs e L. rewrite hrun_snoc. fold e. cbn [hstep]. rewrite L. cbn [fst]. split; [reflexivity|].
  intros t r H. pose proof (hinv_reachable c h max vs) as I. fold e in I. apply (hi_reg e I) in H.
  destruct (pt_pending_or_done _ _ _ (hi_tab e I) H) as [K|(o & K)].
  - eexists. cbn. apply in_or_app. right. apply in_map_iff. eexists. split; [|exact K]. reflexivity.
  - exists o. cbn. apply in_or_app. now left.
Qed.
