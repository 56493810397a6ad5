(** The invariant of PushModel along an execution, and what follows. *)
From Coq Require Import Ascii String List Permutation Arith NArith ZArith Bool Lia.
From Verif Require Import StrModel StrProofs DoubleModel JsonModel JsonSpec JsonProofs RpcModel RpcSpec RpcProofs RouterModel RouterProofs MapModel MapProofs MemModel
  PendModel PendProofs AuthModel WwwModel GuardModel WireSpec HttpModel HttpSpec HttpProofs HttpHist HcliModel HcliSpec HcliProofs WebModel WebSpec WebProofs WebInv WebLive PushModel PushSpec PushProofs PushInv.
Import ListNotations.
Local Open Scope nat_scope.

Record pinv (e : ends) (p : push) : Prop := {
  pv_web : inv e (pu_web p);
  pv_pend : pend_ok (pu_asked p) (pu_refused p) (pu_ran p) (wb_srv (pu_web p));
  pv_mail : mail_inv (pu_asked p) (pu_ran p) (pu_wait p) (pu_read p) (wb_srv (pu_web p));
  pv_cli : cli_ok (pu_ran p) (client e (pu_web p));
  pv_ran : forall hd r, In (hd, r) (pu_ran p) -> (answers_well hd /\ wire_ok (WRequest r)) /\ exists t n, In (t, n, r) (pu_asked p);
  pv_table : table_ok (wb_srv (pu_web p))
}.

Lemma pinv0 : forall e, pinv e push0.
Proof.
  intro e. constructor; cbn; try easy.
  - exact (winv0 e).
  - constructor; cbn; try easy; [intros [|n]; discriminate|constructor].
  - constructor; cbn; auto.
  - constructor.
Qed.

Lemma tables_ops : forall os h, table_ok h -> table_ok (hrun os h).
Proof. induction os as [|o os IH]; intros h T; [exact T|]. cbn [hrun fold_left]. apply IH. now apply table_op. Qed.

(** A change of the server by critical sections that send nothing. *)
Lemma srv_ops : forall A N R wait read h os, NoDup (map akey A) -> Forall (resolvable A R) os ->
  pend_ok A N R h -> mail_inv A R wait read h -> table_ok h ->
  pend_ok A N R (hrun os h) /\ mail_inv A R wait read (hrun os h) /\ table_ok (hrun os h).
Proof.
  intros A N R wait read h os ND F P M T. split; [now apply pend_ops|]. split; [|now apply tables_ops].
  eapply mail_shrinks; [|exact M]. apply mail_ops. eapply Forall_impl; [|exact F]. intros o. now destruct o.
Qed.

Lemma resolvable_minor : forall A R cs os, Forall (minor cs) os ->
  (forall r, In (CResolve r) cs -> resolvable A R (OResolve 0 r)) -> Forall (resolvable A R) os.
Proof.
  intros A R cs os F H. eapply Forall_impl; [|exact F]. intros o. destruct o; cbn; auto; intro K; try easy. exact (H r K).
Qed.

(** What the server finds in a POST of the client. *)
Lemma post_resolves : forall A reg R hd p, (forall hd r, In (hd, r) R -> exists t n, In (t, n, r) A) -> h_request hd <> None ->
  post_ok reg p -> reply_ok R p -> forall r, In (CResolve r) (fst (route hd (snd p))) -> resolvable A R (OResolve 0 r).
Proof.
  intros A reg R hd [pu body] Ra Hr P Q r I. unfold post_ok, reply_ok in *. cbn [fst snd] in *. destruct pu as [k| |].
  - destruct P as (t & q & _ & _ & -> & M). destruct M as (M1 & M2 & M3 & M4 & M5). destruct (h_request hd) as [f|] eqn:Hf; [|now elim Hr].
    rewrite (route_request hd f q) in I by auto. destruct I as [I|[]]. discriminate I.
  - destruct Q as (n & (M1 & M2 & M3) & ->). rewrite route_notif in I by auto. destruct (h_notification hd) as [f|]; [|easy]. destruct (f n); destruct I as [I|[]]; discriminate I.
  - destruct Q as (h0 & q & resp & Q1 & Q2 & Q3 & ->). pose proof (wire_response resp _ Q3 eq_refl hd) as K. rewrite K in I. destruct I as [I|[]]. injection I as <-.
    cbn. exists h0, q. split; [exact Q1|]. split; [exact Q2|]. split; [now apply answers_id with h0|]. now apply (Ra h0).
Qed.

Lemma pproper_web : forall a, pproper (PWeb a) -> proper a.
Proof. intros [a|n|n now draw hd|n|n hd|q now draw hd|o|hs|m hd] H; try exact H. exact I. Qed.

Lemma pinv_web : forall e p a, refusals_plain e -> pproper (PWeb a) -> web_step a = true -> NoDup (asked_keys p) -> pinv e p ->
  pinv e (on_web (fun w => wstep e w a) p).
Proof.
  intros e p a RP P S ND [V1 V2 V3 V4 V5 V6].
  pose proof (inv_step e (pu_web p) a RP (pproper_web a P) V1) as V1'.
  assert (Cl : client e (wstep e (pu_web p) a) = client e (pu_web p) -> cli_ok (pu_ran p) (client e (wstep e (pu_web p) a))) by (intros ->; exact V4).
  assert (Sr : forall os, Forall (resolvable (pu_asked p) (pu_ran p)) os -> wb_srv (wstep e (pu_web p) a) = hrun os (wb_srv (pu_web p)) ->
    pend_ok (pu_asked p) (pu_refused p) (pu_ran p) (wb_srv (wstep e (pu_web p) a)) /\
    mail_inv (pu_asked p) (pu_ran p) (pu_wait p) (pu_read p) (wb_srv (wstep e (pu_web p) a)) /\ table_ok (wb_srv (wstep e (pu_web p) a))).
  { intros os F ->. now apply srv_ops. }
  assert (Fin : cli_ok (pu_ran p) (client e (wstep e (pu_web p) a)) ->
    (exists os, Forall (resolvable (pu_asked p) (pu_ran p)) os /\ wb_srv (wstep e (pu_web p) a) = hrun os (wb_srv (pu_web p))) ->
    pinv e (on_web (fun w => wstep e w a) p)).
  { intros C (os & F & E). destruct (Sr os F E) as (X1 & X2 & X3). constructor; auto. }
  assert (Stay : wb_srv (wstep e (pu_web p) a) = wb_srv (pu_web p) -> exists os, Forall (resolvable (pu_asked p) (pu_ran p)) os /\ wb_srv (wstep e (pu_web p) a) = hrun os (wb_srv (pu_web p))).
  { intro E. exists []. split; [constructor|exact E]. }
  apply Fin; clear Fin Sr; destruct a as [a|n|n now draw hd|n|n hd|q now draw hd|o|hs|m hd]; cbn [wstep] in *; try discriminate S.
  - destruct (own_step a) eqn:O; [|exact V4]. rewrite client_act. apply cli_own; auto.
  - destruct (_ && _ && _)%bool; [|exact V4]. destruct (take_nth n (hc_queue (client e (pu_web p)))) as [[x rest]|]; [|exact V4].
    rewrite client_act, client_put_air. now apply cli_post.
  - apply Cl. destruct (nth_error (wb_air (pu_web p)) n) as [a|]; [|reflexivity]. destruct (ar_back a); [reflexivity|]. destruct (serve _ _ _ _ _ _ _ _) as [[x calls] h]. reflexivity.
  - apply Cl. destruct (nth_error (wb_air (pu_web p)) n) as [a|]; reflexivity.
  - destruct (_ && _ && _)%bool; [|exact V4]. destruct (take_nth n (wb_air (pu_web p))) as [[a rest]|] eqn:T; [|exact V4].
    destruct (ar_back a) as [ex|] eqn:B; [|exact V4]. rewrite client_act, client_put_air. eapply cli_done; [exact V4|exact V1|exact T|exact B].
  - apply Cl. destruct (serve _ _ _ _ _ _ _ _) as [[x calls] h]. reflexivity.
  - apply Cl. reflexivity.
  - rewrite client_act. unfold hcstep. destruct (hc_crashed (client e (pu_web p))); [exact V4|]. destruct (_ && _)%bool; exact V4.
  - apply Stay. destruct (own_step a); reflexivity.
  - apply Stay. destruct (_ && _ && _)%bool; [|reflexivity]. destruct (take_nth n (hc_queue (client e (pu_web p)))) as [[x rest]|]; reflexivity.
  - destruct (nth_error (wb_air (pu_web p)) n) as [a|] eqn:N; [|now apply Stay]. destruct (ar_back a) eqn:B; [now apply Stay|].
    destruct (serve_ops (en_loopback e) (en_server e) (en_verify e) now draw hd (ar_req a) (wb_srv (pu_web p))) as (os & E & F).
    exists os. split.
    + eapply resolvable_minor; [exact F|]. intros r I.
      assert (In (flown a) (hc_flight (client e (pu_web p)))) as Ia.
      { rewrite <- (wi_air _ _ _ _ V1). apply in_map. now apply nth_error_In in N. }
      eapply (post_resolves _ (hc_reg (client e (pu_web p))) _ hd (flown a)); [intros h0 r0 I0; now apply (V5 h0)|apply P| | |exact I].
      * pose proof (wi_posts _ _ _ _ V1) as Q. rewrite Forall_forall in Q. apply Q. apply in_or_app. now right.
      * unfold cli_ok in V4. rewrite Forall_forall in V4. apply V4. apply in_or_app. now right.
    + destruct (serve _ _ _ _ _ _ _ _) as [[x calls] h]. exact E.
  - apply Stay. destruct (nth_error (wb_air (pu_web p)) n) as [a|]; reflexivity.
  - apply Stay. destruct (_ && _ && _)%bool; [|reflexivity]. destruct (take_nth n (wb_air (pu_web p))) as [[a rest]|]; [|reflexivity]. destruct (ar_back a); reflexivity.
  - destruct (serve_ops (en_loopback e) (en_server e) (en_verify e) now draw hd q (wb_srv (pu_web p))) as (os & E & F).
    exists os. split.
    + eapply resolvable_minor; [exact F|]. intros r I. now elim (no_resolve hd (hq_body q) P r).
    + destruct (serve _ _ _ _ _ _ _ _) as [[x calls] h]. exact E.
  - exists [o]. split; [|reflexivity]. constructor; [|constructor]. destruct o; try exact I; discriminate S.
  - now apply Stay.
Qed.

Lemma ran_keys_app : forall a b, ran_keys (a ++ b) = ran_keys a ++ ran_keys b.
Proof. intros. apply map_app. Qed.

Lemma texts_keys_cons : forall x l, texts_keys (x :: l) = text_keys x ++ texts_keys l.
Proof. reflexivity. Qed.

Lemma active_there : forall h n, table_ok h -> active_session h = Some n -> n < length (hs_heap h).
Proof. intros h n T A. unfold active_session in A. apply aget_in in A. now apply T in A. Qed.

Lemma queue_pend : forall A N R n text h, pend_ok A N R h -> pend_ok A N R (queue_outbound n text h).
Proof.
  intros A N R n text h P. eapply pend_same; [|exact P]. unfold queue_outbound. destruct (nth_error (hs_heap h) n) as [s|] eqn:G; [|apply like_pend_refl].
  eapply like_pend_put; [exact G|reflexivity..].
Qed.

Lemma queue_mail : forall A R wait read n text h, mail_ok A text -> mail_inv A R wait read h ->
  (forall k, cnt k (ran_keys R) + cnt k (texts_keys (map snd wait)) + cnt k (text_keys text) + cnt k (texts_keys (mail read h)) <= cnt k (map akey A)) ->
  mail_inv A R wait read (queue_outbound n text h).
Proof.
  intros A R wait read n text h Ok [W M C] K. pose proof (mail_queue read n text h) as S. constructor; [exact W| |].
  - eapply shrinks_forall; [exact S|]. now constructor.
  - intro k. specialize (K k). pose proof (shrinks_count k _ _ S) as L. rewrite texts_keys_cons, cnt_app in L. lia.
Qed.

Lemma inv_srv : forall e w f, inv e w -> inv e (on_srv f w).
Proof. intros e w f I. unfold inv, on_srv in *. rewrite client_put_srv. cbn [wb_air wb_ran put_srv]. now rewrite app_nil_r. Qed.

Lemma pinv_step : forall e p a, refusals_plain e -> pproper a -> NoDup (asked_keys (pstep e p a)) -> pinv e p -> pinv e (pstep e p a).
Proof.
  intros e p a RP P ND V. destruct a as [a|r counter|j|m|k hd].
  - cbn [pstep] in *. destruct (web_step a) eqn:S; [|exact V]. now apply pinv_web.
  - cbn [pstep] in *. pose proof V as [V1 V2 V3 V4 V5 V6]. destruct (active_session (wb_srv (pu_web p))) as [n|] eqn:Ac.
    + pose proof (active_there _ _ V6 Ac) as L. constructor; cbn [pu_web pu_wait pu_read pu_asked pu_refused pu_ran on_srv put_srv wb_srv].
      * now apply inv_srv.
      * apply pend_ask; auto.
      * apply mail_ask; auto.
      * exact V4.
      * intros h0 q I. destruct (V5 h0 q I) as (J0 & t & m & J). split; [exact J0|]. exists t, m. apply in_or_app. now left.
      * exact (table_op _ (OPend n (id_key (rq_id (sent_as r counter)))) V6).
    + destruct V2 as [Q1 Q2 Q3 Q4 Q5]. constructor; cbn [pu_web pu_wait pu_read pu_asked pu_refused pu_ran on_srv put_srv wb_srv]; auto.
      * now apply inv_srv.
      * constructor; cbn [refuse hs_heap hs_done hs_ticket]; auto.
        -- intros t o I. apply in_app_or in I as [I|[I|[]]].
           ++ destruct (Q2 t o I) as (resp & D1 & [D2|(q & D2 & D3)]); exists resp; (split; [exact D1|]); [now left|right]. exists q. split; [apply in_or_app; now left|exact D3].
           ++ injection I as <- <-. eexists. split; [reflexivity|]. right. exists r. split; [apply in_or_app; right; now left|reflexivity].
        -- intros t n q I. destruct (Q3 t n q I) as [X|(o & X)]; [now left|right]. exists o. apply in_or_app. now left.
        -- intros t I. rewrite map_app, app_assoc in I. apply in_app_or in I as [I|[<-|[]]]; [apply Q4 in I; lia|cbn; lia].
        -- rewrite map_app, app_assoc. cbn [map fst]. apply NoDup_Add with (a := hs_ticket (wb_srv (pu_web p))) (l := map (fun x => fst (fst x)) (pu_asked p) ++ map fst (pu_refused p)).
           ++ rewrite <- (app_nil_r (_ ++ map fst (pu_refused p))) at 1. apply Add_app.
           ++ split; [exact Q5|]. intro I. apply Q4 in I. lia.
      * eapply mail_shrinks; [|exact V3]. apply shrinks_eq. reflexivity.
  - cbn [pstep] in *. destruct (take_nth j (pu_wait p)) as [[[n text] rest]|] eqn:T; [|exact V]. destruct V as [V1 V2 V3 V4 V5 V6].
    destruct V3 as [W M C]. destruct (take_nth_forall _ _ _ _ _ _ T W) as [W1 W2]. cbn [snd] in W1.
    assert (Cp : forall k, cnt k (texts_keys (map snd (pu_wait p))) = cnt k (text_keys text) + cnt k (texts_keys (map snd rest))).
    { intro k. rewrite <- cnt_app, <- texts_keys_cons. apply cnt_perm. apply Permutation_flat_map. change (text :: map snd rest) with (map snd ((n, text) :: rest)).
      apply Permutation_map. now apply take_nth_perm in T. }
    constructor; cbn [pu_web pu_wait pu_read pu_asked pu_refused pu_ran on_srv put_srv wb_srv]; auto.
    + now apply inv_srv.
    + now apply queue_pend.
    + apply queue_mail; [exact W1| |].
      * constructor; auto. intro k. specialize (C k). specialize (Cp k). lia.
      * intro k. specialize (C k). specialize (Cp k). lia.
    + exact (table_op _ (OQueue n text) V6).
  - cbn [pstep] in *. destruct V as [V1 V2 V3 V4 V5 V6]. constructor; cbn [pu_web pu_wait pu_read pu_asked pu_refused pu_ran on_web on_srv put_srv wb_srv]; auto.
    + now apply inv_srv.
    + unfold send_notification. destruct (active_session _) as [n|]; [|exact V2]. now apply queue_pend.
    + unfold send_notification. destruct (active_session _) as [n|]; [|exact V3].
      assert (Ok : mail_ok (pu_asked p) (ser_notification m)) by (exists (WNotification m); split; [reflexivity|]; split; [exact P|exact I]).
      apply queue_mail; auto. intro k. pose proof (mi_count _ _ _ _ _ V3 k) as C. unfold text_keys. rewrite notification_text by exact P. cbn. lia.
    + unfold send_notification. destruct (active_session _) as [n|]; [|exact V6]. exact (table_op _ (OQueue n (ser_notification m)) V6).
  - cbn [pstep] in *. destruct (nth_error (hs_streams (wb_srv (pu_web p))) k) as [m|] eqn:G; [|exact V].
    destruct (nth_error (sm_wire m) (reads k (pu_read p))) as [[i text]|] eqn:N; [|exact V]. destruct V as [V1 V2 V3 V4 V5 V6].
    pose proof (mail_read _ _ _ _ _ G N) as PM. cbn [snd] in PM.
    assert (Ok : mail_ok (pu_asked p) text).
    { pose proof (mi_mail _ _ _ _ _ V3) as F. apply (Permutation_Forall PM) in F. now inversion F. }
    constructor; cbn [pu_web pu_wait pu_read pu_asked pu_refused pu_ran act wb_srv]; auto.
    + unfold inv. rewrite client_act. cbn [wb_air wb_ran act]. destruct Ok as (w & -> & Wk & Kd). apply winv_event; [exact V1|]. split; [exact Wk|]. split; [|exact P]. intros r0 ->. easy.
    + now apply pend_grows.
    + destruct V3 as [W M C]. constructor; [exact W| |].
      * apply (Permutation_Forall PM) in M. now inversion M.
      * intro q. specialize (C q). rewrite (cnt_perm q (texts_keys (mail (pu_read p) (wb_srv (pu_web p)))) (texts_keys (text :: mail (pu_read p ++ [k]) (wb_srv (pu_web p))))) in C by (apply Permutation_flat_map; exact PM).
        rewrite texts_keys_cons, cnt_app in C. rewrite ran_keys_app, cnt_app.
        assert (L : cnt q (ran_keys (if listening (client e (pu_web p)) then map (fun r => (hd, r)) (requests_in (fst (route (wrap_handlers hd) text))) else [])) <= cnt q (text_keys text)).
        { destruct (listening _); [|cbn; lia]. rewrite (mail_requests _ hd _ Ok). unfold ran_keys, text_keys. rewrite map_map. cbn [snd]. lia. }
        clear - C L. lia.
    + rewrite client_act. now apply (cli_event _ _ _ _ _ (pu_asked p)).
    + intros h0 q I. apply in_app_or in I as [I|I]; [now apply (V5 h0)|]. destruct (listening _); [|easy].
      apply in_map_iff in I as (r & E & I). injection E as <- <-. destruct Ok as (w & -> & Wk & Kd). destruct w as [r0|r0|n0]; [|easy|]; cbn [wire_text] in I.
      * rewrite request_text in I by exact Wk. destruct I as [<-|[]]. split; [now split|exact Kd].
      * rewrite notification_text in I by exact Wk. easy.
Qed.

Lemma prun_snoc : forall e es a, prun e (es ++ [a]) = pstep e (prun e es) a.
Proof. intros. unfold prun. now rewrite fold_left_app. Qed.

Lemma asked_grows : forall e p a, exists x, pu_asked (pstep e p a) = pu_asked p ++ x.
Proof.
  intros e p a. destruct a as [a|r counter|j|m|k hd]; cbn [pstep].
  - exists []. rewrite app_nil_r. now destruct (web_step a).
  - destruct (active_session _) as [n|]; cbn [pu_asked]; [eauto|exists []; now rewrite app_nil_r].
  - exists []. rewrite app_nil_r. destruct (take_nth j (pu_wait p)) as [[[n t] rest]|]; reflexivity.
  - exists []. now rewrite app_nil_r.
  - exists []. rewrite app_nil_r. destruct (nth_error (hs_streams (wb_srv (pu_web p))) k) as [m|]; [|reflexivity]. destruct (nth_error (sm_wire m) _) as [[i t]|]; reflexivity.
Qed.

Lemma NoDup_front : forall (A : Type) (a b : list A), NoDup (a ++ b) -> NoDup a.
Proof.
  intros A a b. induction a as [|x a IH]; intro H; [constructor|]. inversion H as [|? ? H1 H2]; subst. constructor; [|auto].
  intro I. apply H1. apply in_or_app. now left.
Qed.

Lemma asked_before : forall e p a, NoDup (asked_keys (pstep e p a)) -> NoDup (asked_keys p).
Proof.
  intros e p a. destruct (asked_grows e p a) as (x & E). unfold asked_keys. rewrite E, map_app. apply NoDup_front.
Qed.

Lemma pinv_run : forall e es, refusals_plain e -> Forall pproper es -> NoDup (asked_keys (prun e es)) -> pinv e (prun e es).
Proof.
  intros e es RP. induction es as [|a es IH] using rev_ind; intros P ND; [apply pinv0|]. apply Forall_app in P as [P1 P2]. inversion P2; subst.
  rewrite prun_snoc in *. apply pinv_step; auto. apply IH; auto. now apply asked_before in ND.
Qed.

(** ** What follows *)
Lemma push_answer : forall (e : ends) (es : list pact) t o, let p := prun e es in
  refusals_plain e -> Forall pproper es -> NoDup (asked_keys p) -> In (t, o) (hs_done (wb_srv (pu_web p))) ->
  exists resp, o = Some resp /\
    ((exists n r, In (t, n, r) (pu_asked p) /\ (answered_with p r resp \/ server_gave_up r resp)) \/
     (exists r, In (t, r) (pu_refused p) /\ resp = gave (rq_id r) (bs "No active HTTP session"))).
Proof. intros e es t o p RP P ND I. exact (po_done _ _ _ _ (pv_pend _ _ (pinv_run e es RP P ND)) t o I). Qed.

Lemma push_once : forall (e : ends) (es : list pact), let p := prun e es in
  refusals_plain e -> Forall pproper es -> NoDup (asked_keys p) ->
  NoDup (map (fun x => id_key (rq_id (snd x))) (pu_ran p)) /\
  forall hd r, In (hd, r) (pu_ran p) -> exists t n, In (t, n, r) (pu_asked p).
Proof.
  intros e es p RP P ND. pose proof (pinv_run e es RP P ND) as V. split; [|intros hd r I; now apply (pv_ran _ _ V hd)].
  apply (NoDup_count_occ kdec). intro k. pose proof (mi_count _ _ _ _ _ (pv_mail _ _ V) k) as C.
  pose proof (proj1 (NoDup_count_occ kdec _) ND k) as N. change (count_occ kdec (map (fun x => id_key (rq_id (snd x))) (pu_ran p)) k) with (cnt k (ran_keys (pu_ran p))).
  change (count_occ kdec (asked_keys p) k) with (cnt k (map akey (pu_asked p))) in N. fold p in C. clear - C N. lia.
Qed.

Lemma push_tickets : forall (e : ends) (es : list pact), let p := prun e es in
  refusals_plain e -> Forall pproper es -> NoDup (asked_keys p) -> NoDup (map (fun x => fst (fst x)) (pu_asked p) ++ map fst (pu_refused p)).
Proof. intros e es p RP P ND. exact (po_each _ _ _ _ (pv_pend _ _ (pinv_run e es RP P ND))). Qed.

(** ** A reply that arrives *)
Lemma send_key_some : forall i c, id_key (send_key i c) <> [].
Proof. intros i c. unfold send_key. destruct (id_key i) eqn:E; [discriminate|]. now rewrite E. Qed.

Lemma asked_some : forall e es t n r, In (t, n, r) (pu_asked (prun e es)) -> id_key (rq_id r) <> [].
Proof.
  intros e es. induction es as [|a es IH] using rev_ind; intros t n r I; [easy|]. rewrite prun_snoc in I.
  destruct a as [a|q counter|j|m|k hd]; cbn [pstep] in I.
  - destruct (web_step a); now apply IH in I.
  - destruct (active_session _) as [s|]; cbn [pu_asked] in I; [|now apply IH in I]. apply in_app_or in I as [I|[I|[]]]; [now apply IH in I|].
    injection I as <- <- <-. cbn. apply send_key_some.
  - destruct (take_nth j _) as [[[s x] rest]|]; now apply IH in I.
  - now apply IH in I.
  - destruct (nth_error _ k) as [m|]; [|now apply IH in I]. destruct (nth_error (sm_wire m) _) as [[i x]|]; now apply IH in I.
Qed.

Lemma serve_reply : forall e h path ss v body now draw hd s resp q, lets_in e -> same_endpoint e -> wire_ok (WResponse resp) -> body = ser_response resp ->
  path = cf_endpoint (en_client e) -> q = post_of e path ss v body -> names h q s ->
  snd (serve (en_loopback e) (en_server e) (en_verify e) now draw hd q h) = snd (resolve_pending s resp h).
Proof.
  intros e h path ss v body now draw hd s resp q L SE W -> -> Q (N1 & N2 & x & N3 & N4).
  pose proof (f_post e (cf_endpoint (en_client e)) ss v (ser_response resp)) as FP. cbn zeta in FP.
  destruct (enforce_passes e now (cf_endpoint (en_client e)) ss v (ser_response resp) L) as (info & EN). rewrite <- Q in FP, EN. destruct FP as (F1 & F2 & _).
  assert (V : hq_verb q = POST) by now rewrite Q. assert (B : hq_body q = ser_response resp) by now rewrite Q.
  assert (T : hq_target q = cf_endpoint (en_client e)) by now rewrite Q. destruct SE as (A1 & A2 & A3 & A4).
  unfold serve. rewrite V, andb_false_r. cbn [andb]. unfold make_response. rewrite F1, F2, (proj1 L), T.
  destruct (beq (cf_endpoint (en_client e)) WELL_KNOWN) eqn:X1; [apply beq_eq in X1; now elim A3|].
  destruct (beq (cf_endpoint (en_client e)) (well_known_base (en_server e))) eqn:X2; [apply beq_eq in X2; now elim A4|]. cbn [orb].
  rewrite <- A2, beq_refl. destruct (cf_endpoint (en_client e)) as [|c0 ep] eqn:Ep; [now elim A1|]. cbn [andb].
  unfold handle_endpoint. rewrite EN, V, B. destruct (deser_request request0 (ser_response resp)) as [isreq r].
  destruct (f_session q) as [|c1 sn] eqn:Es; [now elim N1|]. rewrite andb_false_r. rewrite N2, N3, N4, endpoint_route_state.
  rewrite (wire_response resp _ W eq_refl hd). cbn [fold_left take_call snd fst]. destruct (resolve_pending s resp h) as [ok h']. reflexivity.
Qed.

Lemma push_completed : forall (e : ends) (es : list pact) n now draw hd t s r resp q, let p := prun e es in
  refusals_plain e -> lets_in e -> same_endpoint e -> Forall pproper es -> NoDup (asked_keys p) ->
  In (t, s, r) (pu_asked p) -> answered_with p r resp -> reply_under_way p n resp q -> names (wb_srv (pu_web p)) q s ->
  (forall o, ~ In (t, o) (hs_done (wb_srv (pu_web p)))) ->
  In (t, Some resp) (hs_done (wb_srv (pu_web (pstep e p (PWeb (WServe n now draw hd)))))).
Proof.
  intros e es n now draw hd t s r resp q p RP L SE P ND I (hd0 & An1 & An2) [U1 U2] Nm Op. pose proof (pinv_run e es RP P ND) as V. fold p in V.
  cbn [pstep web_step on_web pu_web wstep]. rewrite U1. cbn [ar_back ar_req ar_purpose].
  (* the response is one that the router takes for a response *)
  assert (Fl : In (flown {| ar_purpose := PuReply; ar_req := q; ar_back := None |}) (hc_flight (client e (pu_web p)))).
  { rewrite <- (wi_air _ _ _ _ (pv_web _ _ V)). apply in_map. now apply nth_error_In in U1. }
  pose proof (pv_cli _ _ V) as C. unfold cli_ok in C. rewrite Forall_forall in C. specialize (C _ (in_or_app _ _ _ (or_intror Fl))).
  destruct C as (hd1 & r1 & resp1 & C1 & C2 & C3 & C4). cbn [flown snd ar_req] in C4. rewrite U2 in C4.
  assert (W : is_response (ser_response resp1) resp1) by now apply wire_response.
  pose proof (wi_form _ _ _ _ (pv_web _ _ V)) as F. rewrite Forall_forall in F. specialize (F _ (nth_error_In _ _ U1)). destruct F as (ss & F). cbn [ar_req ar_purpose] in F.
  assert (Pa : post_path (en_client e) PuReply = cf_endpoint (en_client e)).
  { unfold post_path, notify_path, streamable. destruct SE as (A1 & _). destruct (cf_endpoint (en_client e)); [now elim A1|reflexivity]. }
  rewrite Pa in F.
  pose proof (serve_reply e (wb_srv (pu_web p)) _ _ _ _ now draw hd s resp1 q L SE C3 (eq_trans U2 C4) eq_refl F Nm) as S.
  destruct (serve _ _ _ _ _ _ _ _) as [[x calls] h] eqn:Sv. cbn [snd] in S. cbn [put_srv wb_srv put_air]. rewrite S. clear S Sv.
  (* and it is resp *)
  destruct (pv_ran _ _ V hd0 r An1) as ((Aw & Wr) & _). assert (E1 : resp1 = resp).
  { apply (response_unique (ser_response resp)); [rewrite C4; exact W|]. apply wire_response; [now apply (Aw r)|reflexivity]. }
  subst resp1. assert (Rid : rs_id resp = rq_id r) by now apply answers_id with hd0.
  destruct (po_kept _ _ _ _ (pv_pend _ _ V) t s r I) as [(y & Y1 & Y2)|(o & Y)]; [|now elim (Op o)].
  unfold resolve_pending. rewrite Y1, Rid. pose proof (asked_some e es t s r I) as Ne. destruct (id_key (rq_id r)) as [|c0 k0] eqn:Ek; [now elim Ne|]. rewrite <- Ek in *. clear c0 k0 Ek.
  destruct (aget (id_key (rq_id r)) (ss_pending y)) as [t'|] eqn:G.
  - cbn [snd hs_done]. apply in_or_app. right. left. f_equal. apply aget_in in G. destruct (po_pend _ _ _ _ (pv_pend _ _ V) s y _ t' Y1 G) as (r2 & J1 & J2).
    assert (Eq : (t', s, r2) = (t, s, r)) by (apply (same_entry _ akey (pu_asked p)); auto). congruence.
  - apply aget_none in G. elim G. apply in_map_iff. now exists (id_key (rq_id r), t).
Qed.

(** ** An event that is heard *)
Lemma push_heard : forall (e : ends) (es : list pact) k hd m i r, let p := prun e es in
  refusals_plain e -> Forall pproper es -> NoDup (asked_keys p) -> wire_ok (WRequest r) ->
  nth_error (hs_streams (wb_srv (pu_web p))) k = Some m -> nth_error (sm_wire m) (reads k (pu_read p)) = Some (i, ser_request r) ->
  listening (client e (pu_web p)) = true ->
  let p' := pstep e p (PHear k hd) in
  pu_ran p' = pu_ran p ++ [(hd, r)] /\
  exists resp, answers hd r resp /\ hc_queue (client e (pu_web p')) = hc_queue (client e (pu_web p)) ++ [(PuReply, ser_response resp)].
Proof.
  intros e es k hd m i r p RP P ND Wr G N Li p'. unfold p'. cbn [pstep]. rewrite G, N, Li. cbn [pu_ran pu_web]. rewrite request_text by exact Wr. split; [reflexivity|].
  destruct (h_request (wrap_handlers hd)) as [f|] eqn:F; [|discriminate F]. exists (reply (rq_id r) (f r)). split.
  { cbn in F. unfold answers. destruct (h_request hd) as [f0|]; injection F as <-; [destruct (f0 r); cbn; auto|reflexivity]. }
  rewrite client_act. unfold hcstep. unfold listening in Li. apply andb_true_iff in Li as [L1 L2]. apply negb_true_iff in L1. rewrite L1, L2.
  destruct (incoming_effect false hd [] (ser_request r) (client e (pu_web p))) as (_ & _ & _ & _ & Q & _). rewrite Q. f_equal.
  unfold replies_to. pose proof Wr as (M1 & M2 & M3 & M4 & M5). rewrite (route_request _ f r F) by auto. reflexivity.
Qed.
