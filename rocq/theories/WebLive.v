(** What follows for an HTTP client joined to an HTTP server: answers, their number, and sessions. *)
From Coq Require Import Ascii String List Permutation Arith NArith ZArith Bool Lia.
From Verif Require Import StrModel StrProofs DoubleModel JsonModel JsonSpec JsonProofs RpcModel RpcSpec RpcProofs RouterModel RouterProofs MapModel MapProofs MemModel
  PendModel PendProofs AuthModel WwwModel GuardModel WireSpec HttpModel HttpProofs HcliModel HcliSpec HcliProofs WebModel WebSpec WebProofs WebInv.
Import ListNotations.
Local Open Scope nat_scope.

(** ** Ids of registered requests are not empty *)
Lemma reg_keys_nonempty : forall c v vs t r, In (t, r) (hc_reg (hcrun c (hcli0 v) vs)) -> id_key (rq_id r) <> [].
Proof.
  intros c v vs. induction vs as [|a vs IH] using rev_ind; intros t r H; [easy|].
  rewrite hcrun_snoc in H. pose proof (hk_entering _ (hckeys_reachable c v vs)) as K. set (h := hcrun c (hcli0 v) vs) in *.
  destruct (step_does c h a) as [T R E M|r0 A C T R E M|r0 Hr T R E M|k b ex Hk B T R E M|k b ex Hk T R E M|m T R E M|A T R E M];
    rewrite R in H; eauto.
  apply in_app_or in H as [H|[H|[]]]; [eauto|]. injection H as _ <-. rewrite Forall_forall in K. now apply K.
Qed.

(** ** Every answer is the server's, for that request *)
Lemma web_answer : forall e es t o, let w := wrun e es in refusals_plain e -> Forall proper es -> NoDup (hc_keys (client e w)) ->
  In (t, o) (pt_done (hc_tab (client e w))) -> exists resp, o = Some resp /\
  ((exists r, In (t, r) (hc_reg (client e w)) /\ (ran_with w r resp \/ own_error r resp)) \/
   (exists r, ~ In t (map fst (hc_reg (client e w))) /\ resp = gave (rq_id r) (bs "Transport not connected"))).
Proof.
  intros e es t o w RP P N H. pose proof (inv_run e es RP P) as I. fold w in I. unfold inv, client in *.
  destruct (hc_for_cause _ _ _ _ _ N H) as (resp & -> & C). exists resp. split; [reflexivity|].
  destruct C as [(r & C1 & C2)|(r & vs1 & vs2 & C1 & _ & _ & _ & C2)]; [|right; now exists r].
  left. exists r. split; [exact C1|]. unfold own_error. destruct C2 as [(C2 & m & C3 & C4)|[(C2 & _)|[(C2 & _)|(C2 & _)]]].
  - left. destruct (wi_heard _ _ _ _ I m resp C3 C4) as [Z|(t' & r' & K1 & K2 & K3 & _)].
    + exfalso. apply (reg_keys_nonempty _ _ _ _ _ C1). congruence.
    + assert (K : id_key (rq_id r') = id_key (rq_id r)) by congruence. destruct (nodup_key _ _ _ _ _ N K1 C1 K) as [_ ->]. exact K3.
  - right. eexists. split; [left; reflexivity|exact C2].
  - right. eexists. split; [right; left; reflexivity|exact C2].
  - right. eexists. split; [right; right; left; reflexivity|exact C2].
Qed.

(** ** The server runs its handler at most once for a request *)
Lemma ran_reqs : forall w, ran_requests w = reqs (map snd (wb_ran w)).
Proof.
  intro w. unfold ran_requests, reqs. induction (wb_ran w) as [|x l IH]; [reflexivity|]. cbn [flat_map map]. now rewrite IH.
Qed.

Lemma web_once : forall e es, let w := wrun e es in refusals_plain e -> Forall proper es -> NoDup (hc_keys (client e w)) ->
  NoDup (map (fun r => id_key (rq_id r)) (ran_requests w)) /\
  forall r, In r (ran_requests w) -> exists t, In (t, r) (hc_reg (client e w)).
Proof.
  intros e es w RP P N. pose proof (inv_run e es RP P) as I. fold w in I. unfold inv in I. rewrite ran_reqs. split.
  - apply (NoDup_count_occ kdec). intro k. pose proof (wi_count _ _ _ _ I k) as C. unfold cnt, rkeys in C.
    assert (L : count_occ kdec (hc_keys (client e w)) k <= 1) by (apply (NoDup_count_occ kdec); exact N). lia.
  - apply (wi_ran _ _ _ _ I).
Qed.

(** ** A POST that the server accepts *)
Lemma f_post : forall e path s v b, let q := post_of e path s v b in
  f_host q = en_host e /\ f_origin q = [] /\ f_auth q = en_auth e /\
  f_session q = match s with Some x => x | None => [] end /\ f_version q = match v with Some x => x | None => [] end.
Proof.
  intros e path s v b. cbn zeta. unfold f_host, f_origin, f_auth, f_session, f_version, field, post_of. cbn [hq_fields].
  destruct s as [s|]; destruct v as [v|]; destruct (en_auth e) as [|a0 a]; repeat split; reflexivity.
Qed.

Lemma enforce_passes : forall e now path s v b, lets_in e -> exists info, enforce (en_server e) (en_verify e) now (post_of e path s v b) = inr info.
Proof.
  intros e now path s v b [_ A]. unfold enforce. destruct (f_post e path s v b) as (_ & _ & -> & _).
  destruct A as [->|A]; [cbn; eauto|]. destruct (hc_auth (en_server e)); cbn [negb]; [|eauto]. rewrite A. eauto.
Qed.

Lemma some_text_value : forall b s, match some_text b s with Some x => x | None => [] end = if b then s else [].
Proof. intros [|] [|c s]; reflexivity. Qed.

Lemma serve_accepts : forall e h r now draw hd f q s, lets_in e -> wire_ok (WRequest r) -> h_request hd = Some f ->
  q = post_of e (post_path (en_client e) (PuRequest (id_key (rq_id r)))) (some_text (streamable (en_client e)) s) (some_text (streamable (en_client e)) (en_version e)) (ser_request r) ->
  acceptable e h r q ->
  exists hres calls h', serve (en_loopback e) (en_server e) (en_verify e) now draw hd q h = (Answer hres, calls, h') /\
    hr_body hres = ser_response (reply (rq_id r) (f r)) /\ In (CRequest r) (map snd calls) /\
    (same_endpoint e -> rq_method r = bs "initialize" -> f_session q = [] -> hr_session hres = Some (session_name draw) /\ h' = create_session (asked_version r) draw h).
Proof.
  intros e h r now draw hd f q s L W F Q A.
  assert (R : route hd (ser_request r) = ([CRequest r], RReturn (Some (ser_response (reply (rq_id r) (f r)))))).
  { destruct W as (W1 & W2 & W3 & W4 & W5). now apply route_request. }
  assert (DR : deser_request request0 (ser_request r) = (true, r)).
  { destruct W as (W1 & W2 & W3 & W4 & W5). apply request_roundtrip; auto. apply W4. }
  pose proof (f_post e (post_path (en_client e) (PuRequest (id_key (rq_id r)))) (some_text (streamable (en_client e)) s) (some_text (streamable (en_client e)) (en_version e)) (ser_request r)) as FP.
  destruct (enforce_passes e now (post_path (en_client e) (PuRequest (id_key (rq_id r)))) (some_text (streamable (en_client e)) s) (some_text (streamable (en_client e)) (en_version e)) (ser_request r) L) as (info & EN).
  cbn zeta in FP. rewrite <- Q in FP, EN. destruct FP as (F1 & F2 & F3 & F4 & F5). rewrite some_text_value in F4, F5.
  assert (V : hq_verb q = POST) by now rewrite Q. assert (B : hq_body q = ser_request r) by now rewrite Q.
  assert (T : hq_target q = request_path (en_client e)) by now rewrite Q.
  unfold serve. rewrite V, andb_false_r. cbn [andb]. unfold make_response. rewrite F1, F2, (proj1 L), T, V.
  destruct A as [(A1 & A2 & A3 & A4 & A5)|[(A1 & A2 & A3 & A4) A5]].
  - (* no endpoint *)
    assert (RP : request_path (en_client e) = cf_rpc (en_client e)) by (unfold request_path, streamable; now rewrite A1). rewrite RP.
    destruct (beq (cf_rpc (en_client e)) WELL_KNOWN) eqn:X1; [apply beq_eq in X1; now elim A4|].
    destruct (beq (cf_rpc (en_client e)) (well_known_base (en_server e))) eqn:X2; [apply beq_eq in X2; now elim A5|]. cbn [orb].
    match goal with |- context [if ?b then handle_endpoint _ _ _ _ _ _ _ else _] => assert (X3 : b = false) end.
    { destruct (hc_endpoint (en_server e)) as [|c0 ep] eqn:Ep; [reflexivity|]. cbn [andb].
      destruct (beq (cf_rpc (en_client e)) (c0 :: ep)) eqn:X3; [apply beq_eq in X3; exfalso; now apply A3|reflexivity]. }
    rewrite X3, A2, beq_refl. unfold handle_rpc. rewrite EN, B, DR. cbn [negb]. rewrite R.
    do 3 eexists. split; [reflexivity|]. split; [reflexivity|]. split; [now left|]. intros (K & _). now elim K.
  - assert (ST : streamable (en_client e) = true) by (unfold streamable; destruct (cf_endpoint (en_client e)); [now elim A1|reflexivity]).
    assert (RP : request_path (en_client e) = cf_endpoint (en_client e)) by (unfold request_path; now rewrite ST). rewrite RP.
    destruct (beq (cf_endpoint (en_client e)) WELL_KNOWN) eqn:X1; [apply beq_eq in X1; now elim A3|].
    destruct (beq (cf_endpoint (en_client e)) (well_known_base (en_server e))) eqn:X2; [apply beq_eq in X2; now elim A4|]. cbn [orb].
    rewrite <- A2, beq_refl. destruct (cf_endpoint (en_client e)) as [|c0 ep] eqn:Ep; [now elim A1|]. cbn [andb].
    unfold handle_endpoint. rewrite EN, V, B, DR. cbn [andb].
    assert (ER : forall n h0, exists hres calls, endpoint_route hd info (ser_request r) n h0 = (Answer hres, calls, h0) /\
      hr_body hres = ser_response (reply (rq_id r) (f r)) /\ In (CRequest r) (map snd calls) /\
      hr_session hres = Some (match nth_error (hs_heap h0) n with Some s => ss_id s | None => [] end)).
    { intros n h0. unfold endpoint_route. rewrite R. cbn [fold_left user_calls filter app]. do 2 eexists. split; [reflexivity|].
      split; [reflexivity|]. split; [now left|reflexivity]. }
    destruct (beq (rq_method r) (bs "initialize") && match f_session q with [] => true | _ => false end)%bool eqn:X3.
    + destruct (ER (length (hs_heap h)) (create_session (asked_version r) draw h)) as (hres & calls & E1 & E2 & E3 & E4).
      exists hres, calls, (create_session (asked_version r) draw h). split; [exact E1|]. split; [exact E2|]. split; [exact E3|].
      intros _ _ _. split; [|reflexivity]. rewrite E4. cbn [create_session hs_heap]. rewrite nth_error_app2, Nat.sub_diag by lia. reflexivity.
    + assert (NI : ~ (rq_method r = bs "initialize" /\ f_session q = [])).
      { intros [K1 K2]. rewrite K1, K2, beq_refl in X3. discriminate X3. }
      destruct A5 as [(n & x & A5 & A6 & A7)|A5]; [|now elim NI]. rewrite A5, A6.
      rewrite F5, ST, A7. destruct (ER n h) as (hres & calls & E1 & E2 & E3 & E4).
      exists hres, calls, h. split; [exact E1|]. split; [exact E2|]. split; [exact E3|]. intros _ K1 K2. now elim NI.
Qed.

(** ** A POST that is left alone stays as it is *)
Lemma take_nth_later : forall (A : Type) m n (l : list A) x r, take_nth m l = Some (x, r) -> n < m -> nth_error r n = nth_error l n.
Proof.
  intros A m. induction m as [|m IH]; intros n [|y l] x r T L; try discriminate T; [lia|]. cbn in T.
  destruct (take_nth m l) as [[z s]|] eqn:E; [|discriminate T]. injection T as <- <-. destruct n as [|n]; [reflexivity|]. cbn. apply (IH n l z s E). lia.
Qed.

Lemma set_nth_other : forall (A : Type) m n (l : list A) a b, nth_error l m = Some a -> m <> n -> nth_error (set_nth m b l) n = nth_error l n.
Proof.
  intros A m n l a b H N. apply nth_set_other; [now apply nth_lt in H|congruence].
Qed.

Lemma spared : forall e w a n x ex, spares n a -> nth_error (wb_air w) n = Some x -> ar_back x = Some ex ->
  nth_error (wb_air (wstep e w a)) n = Some x.
Proof.
  intros e w a n x ex S N B. destruct a as [a|m|m now draw hd|m|m hd|q now draw hd|o|hs|m hd]; cbn [wstep].
  - destruct (own_step a); exact N.
  - destruct (_ && _ && _)%bool; [|exact N]. destruct (take_nth m (hc_queue (client e w))) as [[p rest]|]; [|exact N].
    cbn. rewrite nth_error_app1 by (now apply nth_lt in N). exact N.
  - destruct (nth_error (wb_air w) m) as [y|] eqn:M; [|exact N]. destruct (ar_back y) eqn:By; [exact N|].
    destruct (serve _ _ _ _ _ _ _ _) as [[z calls] h]. cbn. rewrite (set_nth_other _ m n _ y); auto. intros ->. congruence.
  - destruct (nth_error (wb_air w) m) as [y|] eqn:M; [|exact N]. cbn. cbn [spares] in S. rewrite (set_nth_other _ m n _ y); auto.
  - destruct (_ && _ && _)%bool; [|exact N]. destruct (take_nth m (wb_air w)) as [[y rest]|] eqn:T; [|exact N]. destruct (ar_back y); [|exact N].
    cbn. cbn [spares] in S. rewrite (take_nth_later _ _ _ _ _ _ T S). exact N.
  - destruct (serve _ _ _ _ _ _ _ _) as [[z calls] h]. exact N.
  - exact N.
  - exact N.
  - exact N.
Qed.

Definition wgo (e : ends) (w : web) (es : list wact) : web := fold_left (wstep e) es w.
Lemma wrun_app : forall e a b, wrun e (a ++ b) = wgo e (wrun e a) b.
Proof. intros. unfold wrun, wgo. apply fold_left_app. Qed.

Lemma spared_run : forall e es w n x ex, Forall (spares n) es -> nth_error (wb_air w) n = Some x -> ar_back x = Some ex ->
  nth_error (wb_air (wgo e w es)) n = Some x.
Proof.
  intros e es. induction es as [|a es IH]; intros w n x ex F N B; [exact N|]. inversion F; subst. cbn [wgo fold_left]. fold (wgo e (wstep e w a) es).
  apply IH with ex; auto. now apply spared with ex.
Qed.

Lemma ran_grows : forall e es w x, In x (wb_ran w) -> In x (wb_ran (wgo e w es)).
Proof.
  intros e es. induction es as [|a es IH]; intros w x H; [exact H|]. cbn [wgo fold_left]. fold (wgo e (wstep e w a) es). apply IH.
  destruct a as [a|m|m now draw hd|m|m hd|q now draw hd|o|hs|m hd]; cbn [wstep].
  - destruct (own_step a); exact H.
  - destruct (_ && _ && _)%bool; [|exact H]. destruct (take_nth m (hc_queue (client e w))) as [[p rest]|]; exact H.
  - destruct (nth_error (wb_air w) m) as [y|] eqn:M; [|exact H]. destruct (ar_back y) eqn:By; [exact H|].
    destruct (serve _ _ _ _ _ _ _ _) as [[z calls] h]. cbn. apply in_or_app. now left.
  - destruct (nth_error (wb_air w) m); exact H.
  - destruct (_ && _ && _)%bool; [|exact H]. destruct (take_nth m (wb_air w)) as [[y rest]|]; [|exact H]. destruct (ar_back y); exact H.
  - destruct (serve _ _ _ _ _ _ _ _) as [[z calls] h]. cbn. now rewrite app_nil_r.
  - cbn. now rewrite app_nil_r.
  - exact H.
  - exact H.
Qed.

(** ** Close happens only when the application closes *)
Lemma closed_asked : forall e es, In TClosed (wb_acts (wrun e es)) -> In (WClient TClosed) es.
Proof.
  intros e es. induction es as [|a es IH] using rev_ind; [easy|]. rewrite wrun_snoc. intro H. apply in_or_app.
  assert (X : In TClosed (wb_acts (wrun e es)) \/ a = WClient TClosed); [|destruct X as [X | ->]; [left; auto|right; now left]].
  set (w := wrun e es) in *. destruct a as [a|m|m now draw hd|m|m hd|q now draw hd|o|hs|m hd]; cbn [wstep] in H.
  - destruct (own_step a); [|now left]. cbn in H. apply in_app_or in H as [H|[H|[]]]; [now left|right; congruence].
  - left. destruct (_ && _ && _)%bool; [|exact H]. destruct (take_nth m (hc_queue (client e w))) as [[p rest]|]; [|exact H]. cbn in H.
    apply in_app_or in H as [H|[H|[]]]; [exact H|discriminate H].
  - left. destruct (nth_error (wb_air w) m) as [y|] eqn:M; [|exact H]. destruct (ar_back y) eqn:By; [exact H|].
    destruct (serve _ _ _ _ _ _ _ _) as [[z calls] h]. exact H.
  - left. destruct (nth_error (wb_air w) m); exact H.
  - left. destruct (_ && _ && _)%bool; [|exact H]. destruct (take_nth m (wb_air w)) as [[y rest]|]; [|exact H]. destruct (ar_back y); [|exact H].
    cbn in H. apply in_app_or in H as [H|[H|[]]]; [exact H|discriminate H].
  - left. destruct (serve _ _ _ _ _ _ _ _) as [[z calls] h]. exact H.
  - left. exact H.
  - left. cbn in H. apply in_app_or in H as [H|[H|[]]]; [exact H|discriminate H].
  - left. cbn in H. apply in_app_or in H as [H|[H|[]]]; [exact H|discriminate H].
Qed.

(** ** A request whose POST is under way is still waiting *)
Lemma cnt_in : forall k l, In k l -> 1 <= cnt k l.
Proof. intros k l H. apply (count_occ_In kdec) in H. unfold cnt. lia. Qed.

Lemma still_waiting : forall e es n a t r, let w := wrun e es in refusals_plain e -> Forall proper es -> NoDup (hc_keys (client e w)) ->
  ~ In (WClient TClosed) es -> nth_error (wb_air w) n = Some a -> ar_purpose a = PuRequest (id_key (rq_id r)) -> In (t, r) (hc_reg (client e w)) ->
  In (id_key (rq_id r), t) (pt_pend (hc_tab (client e w))).
Proof.
  intros e es n a t r w RP P N NC A Pu R. pose proof (inv_run e es RP P) as I. fold w in I. unfold inv in I.
  pose proof (hcinv_reachable (en_client e) (en_version e) (wb_acts w)) as HI. fold (client e w) in HI.
  destruct (pt_pending_or_done _ _ _ (hci_tab _ HI) (hci_reg _ HI t r R)) as [K|(o & K)]; [exact K|]. exfalso.
  assert (FL : In (id_key (rq_id r)) (pkeys (hc_flight (client e w)))).
  { rewrite <- (wi_air _ _ _ _ I). apply in_flat_map. exists (flown a). split; [apply in_map; now apply nth_error_In in A|]. unfold flown. cbn. rewrite Pu. now left. }
  assert (NE : ~ In (id_key (rq_id r)) (map fst (hc_ended (client e w)))).
  { intro K2. apply cnt_in in FL, K2. pose proof (wi_ended _ _ _ _ I (id_key (rq_id r))) as C.
    assert (L : cnt (id_key (rq_id r)) (hc_keys (client e w)) <= 1) by (apply (NoDup_count_occ kdec); exact N). clear - FL K2 C L. lia. }
  destruct (hc_for_cause _ _ _ _ _ N K) as (resp & -> & C).
  destruct C as [(r' & C1 & C2)|(r' & vs1 & vs2 & _ & _ & _ & _ & C2)].
  - fold (client e w) in C1, C2.
    assert (r' = r) as ->.
    { (* tickets are distinct *)
      pose proof (hci_reg _ HI t r' C1) as Q1. pose proof (hci_reg _ HI t r R) as Q2.
      assert (ND : NoDup (map fst (pt_keys (hc_tab (client e w))))) by (rewrite (pi_issued _ (hci_tab _ HI)); apply seq_NoDup).
      assert (EQ : id_key (rq_id r') = id_key (rq_id r)).
      { revert ND Q1 Q2. generalize (pt_keys (hc_tab (client e w))) as l. induction l as [|[t0 k0] l IH]; intros ND Q1 Q2; [easy|].
        cbn in ND. inversion ND as [|? ? D1 D2]; subst. destruct Q1 as [Q1|Q1]; destruct Q2 as [Q2|Q2].
        - congruence.
        - injection Q1 as -> ->. elim D1. now apply (in_map fst) in Q2.
        - injection Q2 as -> ->. elim D1. now apply (in_map fst) in Q1.
        - now apply IH. }
      now destruct (nodup_key _ _ _ _ _ N C1 R EQ). }
    destruct C2 as [(C2 & m & C3 & C4)|[(_ & ex & C2 & _)|[(_ & ex & q & C2 & _)|(_ & C2)]]].
    + destruct (wi_heard _ _ _ _ I m resp C3 C4) as [Z|(t' & r' & K1 & K2 & K3 & K4)].
      * apply (reg_keys_nonempty _ _ _ _ _ R). congruence.
      * apply NE. now rewrite <- C2.
    + apply NE. now apply (in_map fst) in C2.
    + apply NE. now apply (in_map fst) in C2.
    + apply NC. now apply closed_asked in C2.
  - apply C2. now apply (in_map fst) in R.
Qed.

(** ** Served and delivered *)
Lemma under_way_form : forall e es n r q, let w := wrun e es in refusals_plain e -> Forall proper es -> NoDup (hc_keys (client e w)) ->
  under_way w n r q -> (exists t, In (t, r) (hc_reg (client e w))) ->
  wire_ok (WRequest r) /\ exists s, q = post_of e (post_path (en_client e) (PuRequest (id_key (rq_id r)))) (some_text (streamable (en_client e)) s)
    (some_text (streamable (en_client e)) (en_version e)) (ser_request r).
Proof.
  intros e es n r q w RP P N U (t & R). pose proof (inv_run e es RP P) as I. fold w in I. unfold inv in I. unfold under_way in U.
  pose proof (wi_posts _ _ _ _ I) as PO. apply Forall_app in PO as [_ PO]. rewrite <- (wi_air _ _ _ _ I) in PO. rewrite Forall_forall in PO.
  specialize (PO _ (in_map flown _ _ (nth_error_In _ _ U))). unfold post_ok, flown in PO. cbn in PO.
  destruct PO as (t' & r' & K1 & K2 & K3 & K4). destruct (nodup_key _ _ _ _ _ N K1 R (eq_sym K2)) as [_ ->]. split; [exact K4|].
  pose proof (wi_form _ _ _ _ I) as FO. rewrite Forall_forall in FO. destruct (FO _ (nth_error_In _ _ U)) as (s & FO2). cbn in FO2.
  exists s. rewrite FO2 at 1. now rewrite K3.
Qed.

Lemma reg_grows_run : forall e es w x, In x (hc_reg (client e w)) -> In x (hc_reg (client e (wgo e w es))).
Proof.
  intros e es. induction es as [|a es IH]; intros w x H; [exact H|]. cbn [wgo fold_left]. fold (wgo e (wstep e w a) es). apply IH.
  assert (S : forall b, In x (hc_reg (hcstep (en_client e) (client e w) b))).
  { intro b. destruct (step_grows (en_client e) (client e w) b) as ((y & ->) & _). apply in_or_app. now left. }
  destruct a as [a|m|m now draw hd|m|m hd|q now draw hd|o|hs|m hd]; cbn [wstep].
  - destruct (own_step a); [|exact H]. rewrite client_act. apply S.
  - destruct (_ && _ && _)%bool; [|exact H]. destruct (take_nth m (hc_queue (client e w))) as [[p rest]|]; [|exact H]. rewrite client_act, client_put_air. apply S.
  - destruct (nth_error (wb_air w) m) as [y|] eqn:M; [|exact H]. destruct (ar_back y) eqn:By; [exact H|].
    destruct (serve _ _ _ _ _ _ _ _) as [[z calls] h]. exact H.
  - destruct (nth_error (wb_air w) m); exact H.
  - destruct (_ && _ && _)%bool; [|exact H]. destruct (take_nth m (wb_air w)) as [[y rest]|]; [|exact H]. destruct (ar_back y); [|exact H].
    rewrite client_act, client_put_air. apply S.
  - destruct (serve _ _ _ _ _ _ _ _) as [[z calls] h]. exact H.
  - exact H.
  - rewrite client_act. apply S.
  - rewrite client_act. apply S.
Qed.

Lemma done_step : forall e w n a ex hd, running (client e w) -> nth_error (wb_air w) n = Some a -> ar_back a = Some ex ->
  client e (wstep e w (WDone n hd)) = hcstep (en_client e) (client e w) (TDone n ex hd).
Proof.
  intros e w n a ex hd (R1 & R2 & R3) N B. cbn [wstep]. rewrite R1, R2, R3. cbn [andb negb].
  destruct (nth_take _ _ _ _ N) as (rest & ->). rewrite B. rewrite client_act, client_put_air. reflexivity.
Qed.

Lemma nodup_prefix : forall (A : Type) (a b : list A), NoDup (a ++ b) -> NoDup a.
Proof. intros A a b H. induction a as [|x a IH]; [constructor|]. inversion H; subst. constructor; [intro K; apply H2; apply in_or_app; now left|auto]. Qed.

Lemma reg_prefix : forall e es w, exists y, hc_reg (client e (wgo e w es)) = hc_reg (client e w) ++ y.
Proof.
  intros e es. induction es as [|a es IH]; intros w; [exists []; cbn; now rewrite app_nil_r|]. cbn [wgo fold_left]. fold (wgo e (wstep e w a) es).
  destruct (IH (wstep e w a)) as (y & ->).
  assert (S : exists z, hc_reg (client e (wstep e w a)) = hc_reg (client e w) ++ z); [|destruct S as (z & ->); exists (z ++ y); now rewrite app_assoc].
  assert (S : forall b, exists z, hc_reg (hcstep (en_client e) (client e w) b) = hc_reg (client e w) ++ z).
  { intro b. destruct (step_grows (en_client e) (client e w) b) as (Y & _). exact Y. }
  assert (Z : exists z, hc_reg (client e w) = hc_reg (client e w) ++ z) by (exists []; now rewrite app_nil_r).
  destruct a as [a|m|m now draw hd|m|m hd|q now draw hd|o|hs|m hd]; cbn [wstep].
  - destruct (own_step a); [|exact Z]. rewrite client_act. apply S.
  - destruct (_ && _ && _)%bool; [|exact Z]. destruct (take_nth m (hc_queue (client e w))) as [[p rest]|]; [|exact Z]. rewrite client_act, client_put_air. apply S.
  - destruct (nth_error (wb_air w) m) as [y0|] eqn:M; [|exact Z]. destruct (ar_back y0) eqn:By; [exact Z|].
    destruct (serve _ _ _ _ _ _ _ _) as [[z calls] h]. exact Z.
  - destruct (nth_error (wb_air w) m); exact Z.
  - destruct (_ && _ && _)%bool; [|exact Z]. destruct (take_nth m (wb_air w)) as [[y0 rest]|]; [|exact Z]. destruct (ar_back y0); [|exact Z].
    rewrite client_act, client_put_air. apply S.
  - destruct (serve _ _ _ _ _ _ _ _) as [[z calls] h]. exact Z.
  - exact Z.
  - rewrite client_act. apply S.
  - rewrite client_act. apply S.
Qed.

Lemma captured_session : forall s h, s <> [] -> hc_session (capture [(bs "Mcp-Session-Id", s)] h) = s.
Proof. intros [|c s] h H; [now elim H|reflexivity]. Qed.
Lemma delivered_session : forall k m h, hc_session (deliver_error k m h) = hc_session h.
Proof. reflexivity. Qed.
Lemma session_name_some : forall d, session_name d <> [].
Proof. intros d H. apply (f_equal (@length ascii)) in H. unfold session_name in H. rewrite app_length in H. discriminate H. Qed.

(** The server accepts and handles the POST of r, which is then left alone until it ends. *)
Lemma web_answered : forall e es1 es2 n now draw hd hc f t r q,
  let w1 := wrun e es1 in
  let es := es1 ++ WServe n now draw hd :: es2 in
  let w2 := wrun e es in
  refusals_plain e -> lets_in e -> Forall proper es -> NoDup (hc_keys (client e w2)) -> ~ In (WClient TClosed) es ->
  In (t, r) (hc_reg (client e w1)) -> under_way w1 n r q -> acceptable e (wb_srv w1) r q -> h_request hd = Some f ->
  Forall (spares n) es2 -> running (client e w2) ->
  In (t, Some (reply (rq_id r) (f r))) (pt_done (hc_tab (client e (wstep e w2 (WDone n hc))))) /\ In (hd, CRequest r) (wb_ran w2) /\
  (same_endpoint e -> rq_method r = bs "initialize" -> f_session q = [] -> hc_session (client e (wstep e w2 (WDone n hc))) = session_name draw).
Proof.
  intros e es1 es2 n now draw hd hc f t r q w1 es w2 RP L P N NC R U A F S Ru.
  pose proof P as PP. unfold es in PP. apply Forall_app in PP as [P1 P2]. inversion P2 as [|? ? P3 P4]; subst. destruct P3 as [_ P3].
  assert (W2 : w2 = wgo e (wstep e w1 (WServe n now draw hd)) es2) by (unfold w2, es, w1; now rewrite wrun_app).
  assert (N1 : NoDup (hc_keys (client e w1))).
  { rewrite W2 in N. destruct (reg_prefix e (WServe n now draw hd :: es2) w1) as (y & E). cbn [wgo fold_left] in E.
    unfold hc_keys in *. unfold wgo in N. rewrite E, map_app in N. now apply nodup_prefix in N. }
  destruct (under_way_form e es1 n r q RP P1 N1 U ltac:(now exists t)) as (W & s & Q).
  destruct (serve_accepts e (wb_srv w1) r now draw hd f q s L W F Q A) as (hres & calls & h' & E1 & E2 & E3 & E4).
  set (a := {| ar_purpose := PuRequest (id_key (rq_id r)); ar_req := q; ar_back := Some (exchange_of (Answer hres)) |}).
  assert (S1 : wstep e w1 (WServe n now draw hd) = put_srv h' (map (fun c => (hd, snd c)) calls) (put_air (set_nth n a (wb_air w1)) w1)).
  { cbn [wstep]. unfold under_way in U. rewrite U. cbn [ar_back ar_req ar_purpose]. rewrite E1. reflexivity. }
  assert (A1 : nth_error (wb_air (wstep e w1 (WServe n now draw hd))) n = Some a).
  { rewrite S1. cbn. apply nth_set_same. unfold under_way in U. now apply nth_lt in U. }
  assert (A2 : nth_error (wb_air w2) n = Some a) by (rewrite W2; now apply spared_run with (exchange_of (Answer hres))).
  assert (R2 : In (t, r) (hc_reg (client e w2))).
  { rewrite W2. apply reg_grows_run. rewrite S1. exact R. }
  pose proof (still_waiting e es n a t r RP P N NC A2 eq_refl R2) as Pe. fold w2 in Pe.
  assert (Re : is_response (hr_body hres) (reply (rq_id r) (f r))).
  { eapply wire_response; [|exact E2]. eapply P3; [exact W|]. now apply reply_answers. }
  assert (Ei : rs_id (reply (rq_id r) (f r)) = rq_id r) by (destruct (f r); reflexivity).
  rewrite (done_step e w2 n a (exchange_of (Answer hres)) hc Ru A2 eq_refl).
  assert (Fl : nth_error (hc_flight (client e w2)) n = Some (PuRequest (id_key (rq_id r)), ser_request r)).
  { pose proof (inv_run e es RP P) as I. fold w2 in I. rewrite <- (wi_air _ _ _ _ I). rewrite (map_nth_error flown n _ A2). unfold flown, a. cbn. now rewrite Q. }
  split; [|split].
  - eapply hc_own_answer; [apply Ru|exact Re|rewrite Ei; exact Pe|].
    left. exists n, (exchange_of (Answer hres)), hc, (id_key (rq_id r)), (ser_request r). split; [reflexivity|]. split; [exact Ru|]. split; [exact Fl|reflexivity].
  - rewrite W2. apply ran_grows. rewrite S1. cbn. apply in_or_app. right. apply in_map_iff in E3 as ([i c] & C1 & C2). cbn in C1. subst c.
    apply in_map_iff. exists (i, CRequest r). auto.
  - intros K1 K2 K3. destruct (E4 K1 K2 K3) as [E5 _]. destruct Ru as (Ru1 & Ru2 & Ru3). unfold hcstep. rewrite Ru1, Ru2, Ru3. cbn [andb negb].
    destruct (nth_take _ _ _ _ Fl) as (rest & ->). cbn [fst]. unfold hc_end. cbn [exchange_of ex_headers ex_body]. rewrite E5.
    destruct (hr_body hres) as [|c0 b0].
    + rewrite delivered_session. apply (captured_session (session_name draw)). apply session_name_some.
    + match goal with |- context [incoming true hc ?k ?m ?y] => destruct (incoming_effect true hc k m y) as ([Z1 Z2 Z3 Z4 Z5 Z6 Z7 Z8 Z9 Z10 Z11 Z12] & _) end.
      rewrite Z6. apply (captured_session (session_name draw)). apply session_name_some.
Qed.
