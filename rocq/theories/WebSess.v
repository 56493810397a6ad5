(** Sessions that last. *)
From Coq Require Import Ascii String List Permutation Arith NArith ZArith Bool Lia.
From Verif Require Import StrModel StrProofs DoubleModel JsonModel JsonSpec JsonProofs RpcModel RpcSpec RpcProofs RouterModel RouterProofs MapModel MapProofs MemModel
  PendModel PendProofs AuthModel WwwModel GuardModel WireSpec HttpModel HttpProofs HcliModel HcliSpec HcliProofs WebModel WebSpec WebProofs WebInv WebLive.
Import ListNotations.
Local Open Scope nat_scope.

Definition named (h : hstate) : Prop := forall i n, find_session i h = Some n -> i <> [] /\ exists x, nth_error (hs_heap h) n = Some x /\ ss_id x = i.
Definition keeps (h h' : hstate) : Prop := hs_table h' = hs_table h /\
  forall n x, nth_error (hs_heap h) n = Some x -> exists y, nth_error (hs_heap h') n = Some y /\ ss_id y = ss_id x /\ ss_version y = ss_version x.
Definition good (h h' : hstate) : Prop := (named h -> named h') /\ forall e s, welcome e h s -> welcome e h' s.

Lemma keeps_refl : forall h, keeps h h.
Proof. intro h. split; [reflexivity|]. intros n x H. eauto. Qed.
Lemma keeps_trans : forall a b c, keeps a b -> keeps b c -> keeps a c.
Proof.
  intros a b c [A1 A2] [B1 B2]. split; [congruence|]. intros n x H. destruct (A2 n x H) as (y & Y1 & Y2 & Y3). destruct (B2 n y Y1) as (z & Z1 & Z2 & Z3).
  exists z. split; [exact Z1|]. split; congruence.
Qed.
Lemma keeps_good : forall h h', keeps h h' -> good h h'.
Proof.
  intros h h' [A B]. split.
  - intros N i n F. unfold find_session in *. rewrite A in F. destruct (N i n F) as (N1 & x & N2 & N3). split; [exact N1|].
    destruct (B n x N2) as (y & Y1 & Y2 & _). exists y. split; [exact Y1|congruence].
  - intros e s (n & x & F & G & C). destruct (B n x G) as (y & Y1 & Y2 & Y3). exists n, y. unfold find_session. rewrite A. split; [exact F|]. split; [exact Y1|]. now rewrite Y3.
Qed.
Lemma good_refl : forall h, good h h.
Proof. intro h. apply keeps_good, keeps_refl. Qed.
Lemma good_trans : forall a b c, good a b -> good b c -> good a c.
Proof. intros a b c [A1 A2] [B1 B2]. split; auto. Qed.

Lemma put_keeps : forall n s s' h, nth_error (hs_heap h) n = Some s -> ss_id s' = ss_id s -> ss_version s' = ss_version s -> keeps h (put_session n s' h).
Proof.
  intros n s s' h H I V. split; [reflexivity|]. intros m x M. cbn [put_session hs_heap]. destruct (Nat.eq_dec m n) as [->|D].
  - exists s'. rewrite nth_set_same by now apply nth_lt in H. split; [reflexivity|]. split; congruence.
  - exists x. rewrite nth_set_other by (try apply nth_lt in H; auto). auto.
Qed.
Lemma keeps_like : forall h h' g, keeps h h' -> hs_table g = hs_table h' -> hs_heap g = hs_heap h' -> keeps h g.
Proof. intros h h' g [A B] T H. split; [congruence|]. now rewrite H. Qed.

Lemma resolve_keeps : forall n r h, keeps h (snd (resolve_pending n r h)).
Proof.
  intros n r h. unfold resolve_pending. destruct (nth_error (hs_heap h) n) as [s|] eqn:N; [|apply keeps_refl].
  destruct (id_key (rs_id r)) as [|c0 k0]; [apply keeps_refl|]. destruct (aget _ _); [|apply keeps_refl]. cbn [snd].
  eapply keeps_like; [apply put_keeps with (n := n) (s := s)|reflexivity|reflexivity]; auto.
Qed.

Lemma fold_keeps : forall hd n calls acc, keeps (snd acc) (snd (fold_left (fun (a : list call * hstate) x =>
      match x with
      | CResolve r =>
          let '(ok, h') := resolve_pending n r (snd a) in
          (fst a ++ (if (negb ok && h_error hd)%bool
                     then [CError (bs "HTTPServer: unexpected response received on streamable endpoint")] else []), h')
      | _ => a
      end) calls acc)).
Proof.
  intros hd n calls. induction calls as [|c cs IH]; intro acc; [apply keeps_refl|]. cbn [fold_left].
  match goal with |- keeps _ (snd (fold_left ?f cs ?z)) => apply keeps_trans with (snd z); [|apply IH] end.
  destruct c; try apply keeps_refl. pose proof (resolve_keeps n r (snd acc)) as K. destruct (resolve_pending n r (snd acc)) as [ok h']. exact K.
Qed.

Lemma endpoint_keeps : forall hd info b n h x calls h', endpoint_route hd info b n h = (x, calls, h') -> keeps h h' /\
  forall hres s, x = Answer hres -> hr_session hres = Some s -> s = match nth_error (hs_heap h') n with Some y => ss_id y | None => [] end.
Proof.
  intros hd info b n h x calls h' E. unfold endpoint_route in E. destruct (route hd b) as [cs out].
  pose proof (fold_keeps hd n cs ([], h)) as K. cbv beta zeta in E. destruct (fold_left _ cs ([], h)) as [extra g]. cbn [snd] in K.
  destruct out as [[b'|]|]; injection E as <- <- <-; (split; [exact K|]); intros hres s; try discriminate; intro Z; injection Z as <-; cbn; congruence.
Qed.

Lemma create_good : forall v d h, find_session (session_name d) h = None -> good h (create_session v d h).
Proof.
  intros v d h F. unfold find_session in F. split.
  - intros N i n G. unfold find_session in G. cbn [create_session hs_table] in G. destruct (list_eq_dec ascii_dec i (session_name d)) as [->|D].
    + rewrite aget_aset_same in G. injection G as <-. split; [apply session_name_some|]. eexists. cbn [create_session hs_heap].
      rewrite nth_error_app2, Nat.sub_diag by lia. split; reflexivity.
    + rewrite aget_aset_other in G by auto. destruct (N i n G) as (N1 & x & N2 & N3). split; [exact N1|]. exists x. cbn [create_session hs_heap].
      rewrite nth_error_app1 by now apply nth_lt in N2. auto.
  - intros e s (n & x & G & H & C). exists n, x. unfold find_session in *. cbn [create_session hs_table hs_heap].
    assert (D : s <> session_name d) by (intros ->; congruence). rewrite aget_aset_other by auto. split; [exact G|].
    rewrite nth_error_app1 by now apply nth_lt in H. auto.
Qed.

Lemma create_welcome : forall e v d h, check_version (en_version e) v = true -> welcome e (create_session v d h) (session_name d).
Proof.
  intros e v d h C. eexists _, _. unfold find_session. cbn [create_session hs_table hs_heap]. rewrite aget_aset_same. split; [reflexivity|].
  rewrite nth_error_app2, Nat.sub_diag by lia. split; [reflexivity|]. cbn [ss_version]. destruct v as [|c0 v]; [|exact C].
  destruct (en_version e) as [|c1 u]; [reflexivity|]. cbn in C. discriminate C.
Qed.

Definition session_ok (e : ends) (h : hstate) (s : bstr) : Prop := s = [] \/ welcome e h s.
Lemma session_ok_good : forall e h h' s, good h h' -> session_ok e h s -> session_ok e h' s.
Proof. intros e h h' s G [->|W]; [now left|right]. now apply G. Qed.

Lemma serve_good : forall lb c verify now draw hd q h x calls h', serve lb c verify now draw hd q h = (x, calls, h') ->
  hq_verb q <> DELETE -> find_session (session_name draw) h = None -> good h h'.
Proof.
  intros lb c verify now draw hd q h x calls h' E V F. unfold serve in E.
  assert (G0 : forall (a : answer) l, (a, l, h) = (x, calls, h') -> good h h') by (intros a l Z; injection Z as _ _ <-; apply good_refl).
  destruct (_ && _ && _)%bool.
  { destruct (check_local _ _ _ _); [eauto|]. destruct (find_session _ h) as [n|]; [|eauto]. destruct (check_version _ _); [|eauto].
    injection E as _ _ <-. apply keeps_good. split; [reflexivity|]. intros n0 y Y. exists y. auto. }
  unfold make_response in E. destruct (check_local _ _ _ _); [eauto|]. destruct (_ || _)%bool; [destruct (hq_verb q); eauto|].
  destruct (_ && _)%bool.
  - unfold handle_endpoint in E. destruct (enforce _ _ _ _); [eauto|]. destruct (hq_verb q) eqn:Ve; [eauto| |now elim V|eauto].
    destruct (deser_request request0 (hq_body q)) as [isreq r]. destruct (_ && _ && _)%bool.
    + apply endpoint_keeps in E as [K _]. eapply good_trans; [|apply keeps_good; exact K]. now apply create_good.
    + destruct (find_session (f_session q) h) as [n|]; [|eauto]. destruct (check_version _ _); [|eauto]. apply endpoint_keeps in E as [K _]. now apply keeps_good.
  - destruct (hq_verb q); try (eauto; fail). destruct (beq _ _).
    + unfold handle_rpc in E. destruct (enforce _ _ _ _); [eauto|]. destruct (deser_request _ _) as [ok r].
      destruct (negb ok); [eauto|]. destruct (route hd (hq_body q)) as [cs out]. destruct out as [[b|]|]; eauto.
    + destruct (beq _ _); [|eauto]. unfold handle_notify in E. destruct (enforce _ _ _ _); [eauto|]. destruct (deser_notification _ _) as [ok r].
      destruct (negb ok); [eauto|]. destruct (route hd (hq_body q)) as [cs out]. destruct out as [b|]; eauto.
Qed.

Lemma enforce_session : forall c verify now q r, enforce c verify now q = inl r -> hr_session r = None.
Proof.
  intros c verify now q r. unfold enforce. destruct (negb _); [discriminate|].
  repeat match goal with |- context [match ?z with _ => _ end] => destruct z end; intro H; try discriminate H; injection H as <-; reflexivity.
Qed.

Lemma serve_session : forall e lb c verify now draw hd q h hres calls h' s, serve lb c verify now draw hd q h = (Answer hres, calls, h') ->
  hr_session hres = Some s -> named h -> session_ok e h (f_session q) -> find_session (session_name draw) h = None ->
  (forall r, opens q r -> check_version (en_version e) (asked_version r) = true) -> session_ok e h' s.
Proof.
  intros e lb c verify now draw hd q h hres calls h' s E S N O F A. unfold serve in E.
  assert (G0 : forall a b l g, (Answer (plain a b), l, g) = (Answer hres, calls, h') -> session_ok e h' s) by (intros a b l g Z; injection Z as <- _ _; discriminate S).
  assert (G1 : forall r l, (Answer r, l, h) = (Answer hres, calls, h') -> enforce c verify now q = inl r -> session_ok e h' s).
  { intros r l Z X. injection Z as <- _ _. apply enforce_session in X. congruence. }
  destruct (_ && _ && _)%bool.
  { destruct (check_local _ _ _ _); [eauto|]. destruct (find_session _ h) as [n|]; [|eauto]. destruct (check_version _ _); [discriminate E|eauto]. }
  unfold make_response in E. destruct (check_local _ _ _ _); [eauto|]. destruct (_ || _)%bool; [destruct (hq_verb q); eauto|].
  destruct (_ && _)%bool.
  - unfold handle_endpoint in E. destruct (enforce c verify now q) as [r0|info] eqn:En; [eauto|]. destruct (hq_verb q) eqn:Ve; [eauto| | |eauto].
    2: { destruct (f_session q); eauto. }
    destruct (deser_request request0 (hq_body q)) as [isreq r] eqn:D.
    destruct (isreq && beq (rq_method r) (bs "initialize") && match f_session q with [] => true | _ => false end)%bool eqn:B.
    + apply endpoint_keeps in E as [K X]. specialize (X hres s eq_refl S). apply andb_prop in B as [B B3]. apply andb_prop in B as [B1 B2].
      apply beq_eq in B2. destruct isreq; [|discriminate B1]. assert (B4 : f_session q = []) by (destruct (f_session q); [reflexivity|discriminate B3]).
      destruct K as [K1 K2]. cbn [create_session hs_heap] in K2. edestruct K2 as (y & Y1 & Y2 & _).
      { rewrite nth_error_app2, Nat.sub_diag by apply Nat.le_refl. reflexivity. }
      rewrite Y1 in X. subst s. rewrite Y2. right. cbn [ss_id].
      apply (keeps_good (create_session (asked_version r) draw h)); [split; assumption|]. apply create_welcome. apply A. repeat split; auto.
    + destruct (find_session (f_session q) h) as [n|] eqn:Fi; [|eauto]. destruct (check_version _ _); [|eauto]. apply endpoint_keeps in E as [K X].
      specialize (X hres s eq_refl S). destruct (N _ _ Fi) as (N1 & y & N2 & N3). destruct (proj2 K n y N2) as (z & Z1 & Z2 & _). rewrite Z1 in X. subst s. rewrite Z2, N3.
      apply session_ok_good with h; [now apply keeps_good|exact O].
  - destruct (hq_verb q); try (eauto; fail). destruct (beq _ _).
    + unfold handle_rpc in E. destruct (enforce c verify now q) eqn:En; [eauto|]. destruct (deser_request _ _) as [ok r].
      destruct (negb ok); [eauto|]. destruct (route hd (hq_body q)) as [cs out]. destruct out as [[b|]|]; try discriminate E; eauto.
    + destruct (beq _ _); [|eauto]. unfold handle_notify in E. destruct (enforce c verify now q) eqn:En; [eauto|]. destruct (deser_notification _ _) as [ok r].
      destruct (negb ok); [eauto|]. destruct (route hd (hq_body q)) as [cs out]. destruct out as [b|]; try discriminate E; eauto.
Qed.

Lemma hstep_good : forall h o, (forall v d, o = OCreate v d -> find_session (session_name d) h = None) -> (forall i, o <> OUnlink i) -> o <> OStop -> good h (hstep h o).
Proof.
  intros h o A B C. destruct o as [v d|i|n|n p|n k|n r|n|k|k ok|]; cbn [hstep].
  - apply create_good. eauto.
  - now elim (B i).
  - apply keeps_good. unfold close_session. destruct (nth_error (hs_heap h) n) as [s|] eqn:N; [|apply keeps_refl].
    eapply keeps_like; [apply put_keeps with (n := n) (s := s)|reflexivity|reflexivity]; auto.
  - apply keeps_good. unfold queue_outbound. destruct (nth_error (hs_heap h) n) as [s|] eqn:N; [|apply keeps_refl]. apply put_keeps with s; auto.
  - apply keeps_good. unfold pend_request. destruct (nth_error (hs_heap h) n) as [s|] eqn:N; [|apply keeps_refl].
    eapply keeps_like; [apply put_keeps with (n := n) (s := s)|reflexivity|reflexivity]; auto.
  - apply keeps_good, resolve_keeps.
  - apply keeps_good. eapply keeps_like; [apply keeps_refl|reflexivity|reflexivity].
  - apply keeps_good. unfold stream_take. destruct (nth_error (hs_streams h) k) as [m|]; [|apply keeps_refl].
    destruct (sm_alive m); [|apply keeps_refl]. destruct (sm_held m); [apply keeps_refl|]. destruct (nth_error (hs_heap h) (sm_session m)) as [s|] eqn:N; [|apply keeps_refl].
    destruct (ss_closed s) eqn:Cl; [eapply keeps_like; [apply keeps_refl|reflexivity|reflexivity]|]. destruct (ss_queue s) as [|x q]; [apply keeps_refl|].
    eapply keeps_like; [apply put_keeps with (n := sm_session m) (s := s)|reflexivity|reflexivity]; auto.
  - apply keeps_good. unfold stream_write. destruct (nth_error (hs_streams h) k) as [m|]; [|apply keeps_refl].
    destruct (sm_alive m); [|apply keeps_refl]. destruct (sm_held m); [|apply keeps_refl]. destruct ok; (eapply keeps_like; [apply keeps_refl|reflexivity|reflexivity]).
  - now elim C.
Qed.

(** ** The client's sessions are known to the server *)
Definition air_ok (e : ends) (h : hstate) (a : air) : Prop :=
  session_ok e h (f_session (ar_req a)) /\ (hq_verb (ar_req a) = POST) /\
  forall ex, ar_back a = Some ex -> session_ok e h (ex_session (ex_headers ex)).
Record linv (e : ends) (w : web) : Prop := {
  li_named : named (wb_srv w);
  li_session : session_ok e (wb_srv w) (hc_session (client e w));
  li_air : Forall (air_ok e (wb_srv w)) (wb_air w)
}.

Lemma air_ok_good : forall e h h' a, good h h' -> air_ok e h a -> air_ok e h' a.
Proof. intros e h h' a G (A & B & C). split; [now apply session_ok_good with h|]. split; [exact B|]. intros ex X. apply session_ok_good with h; auto. Qed.

Lemma own_session : forall c h a, own_step a = true -> hc_session (hcstep c h a) = hc_session h \/ hc_session (hcstep c h a) = [].
Proof.
  intros c h a O. unfold hcstep. destruct (hc_crashed h); [now left|]. destruct a; try discriminate O; try (left; reflexivity); try (right; reflexivity).
  - left. destruct (hc_thread h); reflexivity.
  - left. unfold hc_begin. destruct (hc_connected h); [|reflexivity]. destruct (rq_id r) as [[|c0 s]| |]; reflexivity.
  - left. destruct (take_nth n (hc_entering h)) as [[r rest]|]; reflexivity.
  - left. destruct (hc_connected h); reflexivity.
  - left. destruct (hc_session h) eqn:E; [now rewrite E|]. destruct (_ && _ && _)%bool; [reflexivity|now rewrite E].
Qed.

Lemma stream_values : forall hs old, stream_session hs old = last (session_values hs) old.
Proof.
  intro hs. unfold stream_session, session_values. change SESSION_HEADER with (bs "Mcp-Session-Id").
  induction hs as [|[k v] hs IH]; intro old; [reflexivity|]. cbn [fold_left fst snd filter]. rewrite IH.
  destruct (beq k (bs "Mcp-Session-Id")); [|reflexivity]. cbn [map snd]. 
  generalize (map snd (filter (fun h => beq (fst h) (bs "Mcp-Session-Id")) hs)) as l. intro l. revert v old. induction l as [|x l IHl]; intros v old; [reflexivity|].
  cbn [last]. destruct l; [reflexivity|]. apply (IHl v old).
Qed.

Lemma last_in : forall (l : list bstr) d, last l d = d \/ In (last l d) l.
Proof. induction l as [|x l IH]; intro d; [now left|]. cbn [last]. destruct l as [|y l]; [right; now left|]. right. right. destruct (IH d) as [K|K]; [|exact K].
  assert (forall (z : bstr) m e, In (last (z :: m) e) (z :: m)) as L by (clear; intros z m; revert z; induction m as [|a m IH]; intros z e; [now left|right; apply IH]). apply L. Qed.

Lemma ended_session : forall c h n ex hd, hc_session (hcstep c h (TDone n ex hd)) = hc_session h \/ hc_session (hcstep c h (TDone n ex hd)) = ex_session (ex_headers ex).
Proof.
  intros c h n ex hd. unfold hcstep. destruct (hc_crashed h); [now left|]. destruct (_ && _)%bool; [|now left]. destruct (take_nth n (hc_flight h)) as [[p rest]|]; [|now left].
  unfold hc_end. set (h0 := hc_set_posts (hc_queue h) rest h).
  assert (C : hc_session (capture (ex_headers ex) h0) = hc_session h \/ hc_session (capture (ex_headers ex) h0) = ex_session (ex_headers ex)).
  { unfold capture. cbn [hc_set_session hc_session]. destruct (ex_session (ex_headers ex)); [now left|now right]. }
  destruct (fst p) as [k| |]; try exact C. destruct (ex_body ex) as [|c0 b]; [exact C|].
  match goal with |- context [incoming true hd k ?m ?y] => destruct (incoming_effect true hd k m y) as ([Z1 Z2 Z3 Z4 Z5 Z6 Z7 Z8 Z9 Z10 Z11 Z12] & _) end.
  rewrite Z6. exact C.
Qed.

Lemma event_session : forall c h t hd, hc_session (hcstep c h (TEvent t hd)) = hc_session h.
Proof.
  intros c h t hd. unfold hcstep. destruct (hc_crashed h); [reflexivity|]. destruct (_ && _)%bool; [|reflexivity].
  match goal with |- context [incoming false hd ?k ?m ?y] => destruct (incoming_effect false hd k m y) as ([Z1 Z2 Z3 Z4 Z5 Z6 Z7 Z8 Z9 Z10 Z11 Z12] & _) end. exact Z6.
Qed.

Lemma posted_session : forall c h n, hc_session (hcstep c h (TPost n)) = hc_session h.
Proof.
  intros c h n. unfold hcstep. destruct (hc_crashed h); [reflexivity|]. destruct (_ && _)%bool; [|reflexivity]. destruct (take_nth n (hc_queue h)) as [[p rest]|]; reflexivity.
Qed.

Lemma take_forall : forall (A : Type) (P : A -> Prop) n l x r, take_nth n l = Some (x, r) -> Forall P l -> P x /\ Forall P r.
Proof.
  intros A P n. induction n as [|n IH]; intros [|y l] x r T F; try discriminate T; cbn in T; inversion F; subst.
  - injection T as <- <-. auto.
  - destruct (take_nth n l) as [[z s]|] eqn:E; [|discriminate T]. injection T as <- <-. destruct (IH l z s E H2). auto.
Qed.

Lemma set_forall : forall (A : Type) (P : A -> Prop) n (l : list A) x, Forall P l -> P x -> Forall P (set_nth n x l).
Proof.
  intros A P n l x F H. unfold set_nth. apply Forall_app. split; [|constructor; [exact H|]].
  - rewrite Forall_forall in *. intros y Y. apply F. rewrite <- (firstn_skipn n l). apply in_or_app. now left. 
  - rewrite Forall_forall in *. intros y Y. apply F. rewrite <- (firstn_skipn (S n) l). apply in_or_app. now right.
Qed.

Lemma linv_step : forall e w a, lasting e w a -> linv e w -> linv e (wstep e w a).
Proof.
  intros e w a L I. pose proof I as [I1 I2 I3]. destruct a as [a|m|m now draw hd|m|m hd|q now draw hd|o|hs|m hd]; cbn [wstep].
  - destruct (own_step a) eqn:O; [|exact I]. constructor; [exact I1| |exact I3]. rewrite client_act. change (wb_srv (act a w)) with (wb_srv w).
    destruct (own_session (en_client e) (client e w) a O) as [-> | ->]; [exact I2|now left].
  - destruct (_ && _ && _)%bool; [|exact I]. destruct (take_nth m (hc_queue (client e w))) as [[p rest]|] eqn:T; [|exact I]. constructor; [exact I1| |].
    + rewrite client_act, client_put_air, posted_session. exact I2.
    + change (Forall (air_ok e (wb_srv w)) (wb_air w ++ [air_of e (client e w) p])). apply Forall_app. split; [exact I3|]. constructor; [|apply Forall_nil].
      split; [|split; [reflexivity|discriminate]]. unfold air_of. cbn [ar_req].
      destruct (f_post e (post_path (en_client e) (fst p)) (some_text (streamable (en_client e)) (hc_session (client e w)))
        (some_text (streamable (en_client e)) (hc_version (client e w))) (snd p)) as (_ & _ & _ & F4 & _). cbn zeta in F4. rewrite F4, some_text_value.
      destruct (streamable (en_client e)); [exact I2|now left].
  - destruct L as [L1 L2]. destruct (nth_error (wb_air w) m) as [y|] eqn:M; [|exact I]. destruct (ar_back y) eqn:By; [exact I|].
    pose proof I3 as I3'. rewrite Forall_forall in I3'. destruct (I3' y (nth_error_In _ _ M)) as (Y1 & Y2 & _).
    destruct (serve _ _ _ _ _ _ _ _) as [[z calls] h] eqn:S.
    assert (G : good (wb_srv w) h) by (eapply serve_good; [exact S|rewrite Y2; discriminate|exact L1]).
    constructor.
    + apply G. exact I1.
    + change (session_ok e h (hc_session (client e w))). now apply session_ok_good with (wb_srv w).
    + change (Forall (air_ok e h) (set_nth m {| ar_purpose := ar_purpose y; ar_req := ar_req y; ar_back := Some (exchange_of z) |} (wb_air w))).
      apply set_forall; [eapply Forall_impl; [|exact I3]; intros b; now apply air_ok_good|]. split; [now apply session_ok_good with (wb_srv w)|]. split; [exact Y2|].
      cbn [ar_back]. intros ex X. injection X as <-. destruct z as [hres| |n]; try (now left). cbn [exchange_of ex_headers].
      destruct (hr_session hres) as [s|] eqn:H; [|now left]. change (ex_session [(bs "Mcp-Session-Id", s)]) with s.
      eapply serve_session; [exact S|exact H|exact I1|exact Y1|exact L1|]. intros r. apply L2. reflexivity.
  - destruct (nth_error (wb_air w) m) as [y|] eqn:M; [|exact I]. constructor; [exact I1|exact I2|].
    change (Forall (air_ok e (wb_srv w)) (set_nth m {| ar_purpose := ar_purpose y; ar_req := ar_req y; ar_back := Some no_exchange |} (wb_air w))).
    apply set_forall; [exact I3|]. rewrite Forall_forall in I3. destruct (I3 y (nth_error_In _ _ M)) as (Y1 & Y2 & _). split; [exact Y1|]. split; [exact Y2|].
    cbn [ar_back]. intros ex X. injection X as <-. now left.
  - destruct (_ && _ && _)%bool; [|exact I]. destruct (take_nth m (wb_air w)) as [[y rest]|] eqn:T; [|exact I]. destruct (ar_back y) as [ex|] eqn:B; [|exact I].
    destruct (take_forall _ _ _ _ _ _ T I3) as [(Y1 & Y2 & Y3) F]. constructor; [exact I1| |exact F]. rewrite client_act, client_put_air.
    change (wb_srv (act (TDone m ex hd) (put_air rest w))) with (wb_srv w).
    destruct (ended_session (en_client e) (client e w) m ex hd) as [-> | ->]; [exact I2|auto].
  - destruct L as [L1 L2]. destruct (serve _ _ _ _ _ _ _ _) as [[z calls] h] eqn:S. assert (G : good (wb_srv w) h) by (eapply serve_good; eauto).
    constructor; [apply G; exact I1|change (session_ok e h (hc_session (client e w))); now apply session_ok_good with (wb_srv w)|].
    change (Forall (air_ok e h) (wb_air w)). eapply Forall_impl; [|exact I3]. intros b. now apply air_ok_good.
  - assert (G : good (wb_srv w) (hstep (wb_srv w) o)).
    { apply hstep_good; [intros v d ->; exact L|intros i ->; exact L|intros ->; exact L]. }
    constructor; [apply G; exact I1|change (session_ok e (hstep (wb_srv w) o) (hc_session (client e w))); now apply session_ok_good with (wb_srv w)|].
    change (Forall (air_ok e (hstep (wb_srv w) o)) (wb_air w)). eapply Forall_impl; [|exact I3]. intros b. now apply air_ok_good.
  - constructor; [exact I1| |exact I3]. rewrite client_act. change (wb_srv (act (TStream hs) w)) with (wb_srv w). unfold hcstep. destruct (hc_crashed _); [exact I2|].
    destruct (_ && _)%bool; [|exact I2]. cbn [hc_set_session hc_session]. rewrite stream_values. destruct (last_in (session_values hs) (hc_session (client e w))) as [-> |K]; [exact I2|].
    right. now apply L.
  - constructor; [exact I1| |exact I3]. rewrite client_act, event_session. exact I2.
Qed.

Lemma lasting_snoc : forall e es w a, lasting_run e w (es ++ [a]) <-> lasting_run e w es /\ lasting e (wgo e w es) a.
Proof.
  intros e es. induction es as [|b es IH]; intros w a; cbn [lasting_run app wgo fold_left]; [tauto|]. fold (wgo e (wstep e w b) es). rewrite IH. tauto.
Qed.
Lemma lasting_app : forall e es w fs, lasting_run e w (es ++ fs) -> lasting_run e w es.
Proof. intros e es. induction es as [|b es IH]; intros w fs L; cbn in *; [exact I|]. destruct L. split; eauto. Qed.

Lemma linv_run : forall e es, lasting_run e web0 es -> linv e (wrun e es).
Proof.
  intros e es. induction es as [|a es IH] using rev_ind; intro L.
  - constructor; [intros i n H; discriminate H|now left|constructor].
  - apply lasting_snoc in L as [L1 L2]. rewrite wrun_snoc. apply linv_step; [exact L2|now apply IH].
Qed.

(** A request's POST in a history where sessions last is one the server will accept. *)
Lemma lasting_acceptable : forall e es n r q, let w := wrun e es in lasting_run e web0 es -> same_endpoint e -> under_way w n r q ->
  f_session q <> [] \/ rq_method r = bs "initialize" -> acceptable e (wb_srv w) r q.
Proof.
  intros e es n r q w L E U F. right. split; [exact E|]. pose proof (li_air _ _ (linv_run e es L)) as A. rewrite Forall_forall in A.
  destruct (A _ (nth_error_In _ _ U)) as ([A1|A1] & _); cbn [ar_req] in A1; [|now left]. destruct F as [F|F]; [now elim F|]. right. auto.
Qed.

(** A POST sent while the client has a session names it. *)
Lemma post_names : forall e es n, let w := wrun e es in same_endpoint e -> running (client e w) -> n < length (hc_queue (client e w)) ->
  exists a, wb_air (wstep e w (WPost n)) = wb_air w ++ [a] /\ f_session (ar_req a) = hc_session (client e w) /\ ar_back a = None /\
    nth_error (hc_queue (client e w)) n = Some (flown a).
Proof.
  intros e es n w (E & _) (R1 & R2 & R3) L. cbn [wstep]. rewrite R1, R2, R3. cbn [andb negb].
  destruct (nth_error (hc_queue (client e w)) n) as [p|] eqn:N; [|apply nth_error_None in N; lia].
  destruct (nth_take _ _ _ _ N) as (rest & ->). exists (air_of e (client e w) p). split; [reflexivity|].
  destruct (f_post e (post_path (en_client e) (fst p)) (some_text (streamable (en_client e)) (hc_session (client e w)))
        (some_text (streamable (en_client e)) (hc_version (client e w))) (snd p)) as (_ & _ & _ & F4 & _). cbn zeta in F4.
  split; [|split; [reflexivity|]].
  - unfold air_of. cbn [ar_req]. rewrite F4, some_text_value. unfold streamable. destruct (cf_endpoint (en_client e)); [now elim E|reflexivity].
  - destruct p as [pu b]. reflexivity.
Qed.
