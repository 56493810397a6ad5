(** Proofs about the sessions that clients open. *)
From Coq Require Import Ascii String List Arith NArith ZArith Bool Lia.
From Verif Require Import StrModel StrProofs DoubleModel JsonModel JsonSpec RpcModel RpcSpec RpcProofs RouterModel RouterProofs RouterProps MapModel MapProofs MemModel
  AuthModel AuthSpec AuthProofs WwwModel GuardModel GuardSpec GuardProofs HttpModel HttpSpec HttpProofs RefuseSpec RefuseProofs OpenSpec.
Import ListNotations.
Local Open Scope nat_scope.

Lemma asked_session : forall r v, session_of r v -> match asked_version r with [] => PROTO | _ => asked_version r end = v.
Proof.
  intros r v [[N (o & P & G)]|[-> K]]; unfold asked_version.
  - rewrite P, G. destruct v; [contradiction|reflexivity].
  - destruct (rq_params r) as [[]|] eqn:P; try reflexivity.
    match goal with |- context[aget ?k ?l] => destruct (aget k l) as [[]|] eqn:G end; try reflexivity.
    match goal with |- match ?s with _ => _ end = _ => assert (s = []) as -> by (apply K; eexists; split; [exact P|exact G]) end. reflexivity.
Qed.

Lemma session_of_ex : forall r, exists v, session_of r v.
Proof.
  intro r. assert (E : (exists v, v <> [] /\ names_version r v) \/ forall w, names_version r w -> w = []).
  { unfold names_version. destruct (rq_params r) as [j|]; [|right; intros w (o & E & _); discriminate].
    destruct j as [| | | | | |members]; try (right; intros w (o & E & _); discriminate).
    destruct (aget (bs "protocolVersion") members) as [j|] eqn:G.
    - destruct j; try (right; intros w (o & E & G2); injection E as <-; rewrite G in G2; discriminate).
      rename s into w0. destruct w0 as [|c w0].
      + right. intros w (o & E & G2). injection E as <-. rewrite G in G2. now injection G2 as <-.
      + left. exists (c :: w0). split; [discriminate|]. exists members. auto.
    - right. intros w (o & E & G2). injection E as <-. rewrite G in G2. discriminate. }
  destruct E as [(v & N & K)|K]; [exists v; left; auto|exists (bs "2025-11-25"); right; auto].
Qed.

Lemma fits_check : forall q v, fits q v -> check_version (f_version q) v = true.
Proof. intros q v H. apply check_version_iff. destruct H as [H|[H|(H & [K|[K|[]]])]]; auto. Qed.
Lemma unfit_check : forall q v, ~ fits q v -> check_version (f_version q) v = false.
Proof.
  intros q v H. destruct (check_version (f_version q) v) eqn:E; [|reflexivity]. exfalso. apply H.
  apply check_version_iff in E as [E|[E|(E & [F|F])]]; [now left|right; now left| |]; right; right; (split; [exact E|]).
  - now left.
  - right. now left.
Qed.

Lemma reach_serve : forall loopback c verify now draw hd q h, reaches loopback c verify now q ->
  exists info, enforce c verify now q = inr info /\
  serve loopback c verify now draw hd q h =
    (let '(isreq, r) := deser_request request0 (hq_body q) in
        if (isreq && beq (rq_method r) (bs "initialize") && match f_session q with [] => true | _ => false end)%bool then
          endpoint_route hd info (hq_body q) (length (hs_heap h)) (create_session (asked_version r) draw h)
        else
          match find_session (f_session q) h with
          | None => (Answer (plain 400 (bs "{""error"":""Missing or invalid session""}")), [], h)
          | Some n =>
              let v := match nth_error (hs_heap h) n with Some s => ss_version s | None => PROTO end in
              if check_version (f_version q) v then endpoint_route hd info (hq_body q) n h
              else (Answer (plain 400 (bs "{""error"":""Unsupported protocol version""}")), [], h)
          end).
Proof.
  intros loopback c verify now draw hd q h (L & E & M & I & V). destruct (let_in_enforce _ _ _ _ I) as [info EN]. exists info. split; [exact EN|].
  rewrite serve_not_stream by (intros (_ & G & _); congruence). unfold make_response. rewrite L, not_meta, is_end by assumption.
  unfold handle_endpoint. now rewrite EN, V.
Qed.

Lemma route_given : forall hd f r info n h, h_request hd = Some f -> well r ->
  endpoint_route hd info (ser_request r) n h =
    (Answer {| hr_status := 200; hr_challenge := None; hr_session := Some (match nth_error (hs_heap h) n with Some s => ss_id s | None => [] end);
               hr_body := ser_response (given r (f r)) |}, [(info, CRequest r)], h).
Proof.
  intros hd f r info n h F (W1 & W2 & W3 & W4 & W5). unfold endpoint_route.
  rewrite (C14_request hd f r F W1 W2 W3 W4 W5). cbn [fold_left]. unfold given. destruct (f r); reflexivity.
Qed.

Lemma opened : forall loopback c verify now draw hd f q h r v,
  reaches loopback c verify now q -> f_session q = [] -> hq_body q = ser_request r -> well r -> rq_method r = bs "initialize" ->
  h_request hd = Some f -> session_of r v ->
  exists info a h' name, serve loopback c verify now draw hd q h = (Answer a, [(info, CRequest r)], h') /\
    hr_status a = 200%N /\ hr_session a = Some name /\ hr_body a = ser_response (given r (f r)) /\ name <> [] /\
    session_at h' name (length (hs_heap h)) v /\ hs_active h' = name /\ hs_done h' = hs_done h /\
    (forall n s, nth_error (hs_heap h) n = Some s -> nth_error (hs_heap h') n = Some s) /\
    (forall i, i <> name -> find_session i h' = find_session i h).
Proof.
  intros loopback c verify now draw hd f q h r v R S B W M F V.
  destruct (reach_serve loopback c verify now draw hd q h R) as (info & _ & E). rewrite B in E.
  assert (deser_request request0 (ser_request r) = (true, r)) as D.
  { destruct W as (W1 & W2 & W3 & W4 & W5). apply request_roundtrip; try assumption. intro Q. now apply W4 in Q. }
  rewrite D, M, S, beq_refl in E. cbn [andb] in E. rewrite (route_given hd f r) in E by assumption.
  assert (exists s, nth_error (hs_heap (create_session (asked_version r) draw h)) (length (hs_heap h)) = Some s /\ ss_id s = session_name draw /\ ss_version s = v) as (s & N & I & X).
  { eexists. cbn [create_session hs_heap]. rewrite nth_error_app2 by lia. rewrite Nat.sub_diag. cbn [nth_error]. split; [reflexivity|]. split; [reflexivity|].
    cbn [ss_version]. now apply asked_session. }
  rewrite N, I in E. exists info. eexists. eexists. exists (session_name draw). split; [exact E|]. cbn [hr_status hr_session hr_body].
  refine (conj eq_refl (conj eq_refl (conj eq_refl (conj _ (conj _ (conj eq_refl (conj eq_refl (conj _ _)))))))).
  - discriminate.
  - split; [apply aget_aset_same|]. eauto.
  - intros n s1 N1. cbn [create_session hs_heap]. rewrite nth_error_app1; [exact N1|]. apply nth_error_Some. congruence.
  - intros i NI. unfold find_session. cbn [create_session hs_table]. now apply aget_aset_other.
Qed.

Lemma used : forall loopback c verify now draw hd f q h r n v,
  reaches loopback c verify now q -> session_at h (f_session q) n v -> f_session q <> [] -> fits q v -> hq_body q = ser_request r -> well r ->
  h_request hd = Some f ->
  exists info a, serve loopback c verify now draw hd q h = (Answer a, [(info, CRequest r)], h) /\
    hr_status a = 200%N /\ hr_session a = Some (f_session q) /\ hr_body a = ser_response (given r (f r)).
Proof.
  intros loopback c verify now draw hd f q h r n v R (T & s & N & I & V) NE FT B W F.
  destruct (reach_serve loopback c verify now draw hd q h R) as (info & _ & E). rewrite B in E.
  destruct (deser_request request0 (ser_request r)) as [ok r0] in E.
  destruct (f_session q) as [|x y] eqn:Q; [contradiction|]. rewrite andb_false_r in E. rewrite T, N in E. cbv zeta in E. rewrite V, (fits_check q v FT) in E.
  rewrite (route_given hd f r) in E by assumption. rewrite N, I in E. exists info. eexists. split; [exact E|]. auto.
Qed.

Lemma unfit : forall loopback c verify now draw hd q h n v,
  reaches loopback c verify now q -> session_at h (f_session q) n v -> f_session q <> [] -> ~ fits q v ->
  serve loopback c verify now draw hd q h = (Answer (plain 400 (bs "{""error"":""Unsupported protocol version""}")), [], h).
Proof.
  intros loopback c verify now draw hd q h n v R (T & s & N & I & V) NE FT.
  destruct (reach_serve loopback c verify now draw hd q h R) as (info & _ & E).
  destruct (deser_request request0 (hq_body q)) as [ok r0] in E.
  destruct (f_session q) as [|x y] eqn:Q; [contradiction|]. rewrite andb_false_r in E. rewrite T, N in E. cbv zeta in E. now rewrite V, (unfit_check q v FT) in E.
Qed.

Lemma response_in : forall loopback c verify now draw hd q h r n v s,
  reaches loopback c verify now q -> session_at h (f_session q) n v -> f_session q <> [] -> fits q v -> hq_body q = ser_response r -> well_response r ->
  nth_error (hs_heap h) n = Some s ->
  exists info, enforce c verify now q = inr info /\
  serve loopback c verify now draw hd q h =
    (let '(ok, h') := resolve_pending n r h in
     (Answer {| hr_status := 202; hr_challenge := None;
                hr_session := Some (match nth_error (hs_heap h') n with Some s => ss_id s | None => [] end); hr_body := [] |},
      tagged info (if (negb ok && h_error hd)%bool then [CError (bs "HTTPServer: unexpected response received on streamable endpoint")] else []), h')).
Proof.
  intros loopback c verify now draw hd q h r n v s R (T & s0 & N & I & V) NE FT B (W1 & W2 & W3 & W4 & W5) N2.
  destruct (reach_serve loopback c verify now draw hd q h R) as (info & EN & E). rewrite B in E.
  destruct (deser_request request0 (ser_response r)) as [ok r0] in E.
  destruct (f_session q) as [|x y] eqn:Q; [contradiction|]. rewrite andb_false_r in E. rewrite T, N in E. cbv zeta in E. rewrite V, (fits_check q v FT) in E.
  exists info. split; [exact EN|]. rewrite E. unfold endpoint_route. rewrite (C14_response hd r W1 W2 W3 W4 W5). cbn [fold_left fst snd List.app].
  destruct (resolve_pending n r h) as [b h']. reflexivity.
Qed.

Lemma awaited : forall loopback c verify now draw hd q h r n v s t,
  reaches loopback c verify now q -> session_at h (f_session q) n v -> f_session q <> [] -> fits q v -> hq_body q = ser_response r -> well_response r ->
  nth_error (hs_heap h) n = Some s -> id_key (rs_id r) <> [] -> aget (id_key (rs_id r)) (ss_pending s) = Some t ->
  exists a h', serve loopback c verify now draw hd q h = (Answer a, [], h') /\
    hr_status a = 202%N /\ hr_body a = [] /\ hr_session a = Some (f_session q) /\ hs_done h' = hs_done h ++ [(t, Some r)].
Proof.
  intros loopback c verify now draw hd q h r n v s t R SA NE FT B W N K G.
  destruct (response_in loopback c verify now draw hd q h r n v s R SA NE FT B W N) as (info & _ & E).
  destruct SA as (T & s0 & N0 & I & V). assert (s0 = s) as -> by congruence.
  unfold resolve_pending in E. rewrite N in E. destruct (id_key (rs_id r)) as [|k0 k] eqn:KK; [contradiction|]. rewrite G in E.
  cbn [negb andb tagged map] in E. eexists. eexists. split; [exact E|]. cbn [hr_status hr_body hr_session hs_heap put_session hs_done].
  rewrite nth_set_same by (apply nth_error_Some; congruence). cbn [ss_id]. rewrite I. auto.
Qed.

Lemma unawaited : forall loopback c verify now draw hd q h r n v s,
  reaches loopback c verify now q -> session_at h (f_session q) n v -> f_session q <> [] -> fits q v -> hq_body q = ser_response r -> well_response r ->
  nth_error (hs_heap h) n = Some s -> (id_key (rs_id r) = [] \/ ~ In (id_key (rs_id r)) (map fst (ss_pending s))) ->
  exists info a, serve loopback c verify now draw hd q h =
      (Answer a, if h_error hd then [(info, CError (bs "HTTPServer: unexpected response received on streamable endpoint"))] else [], h) /\
    hr_status a = 202%N /\ hr_body a = [] /\ hr_session a = Some (f_session q).
Proof.
  intros loopback c verify now draw hd q h r n v s R SA NE FT B W N K.
  destruct (response_in loopback c verify now draw hd q h r n v s R SA NE FT B W N) as (info & _ & E).
  destruct SA as (T & s0 & N0 & I & V). assert (s0 = s) as -> by congruence.
  assert (resolve_pending n r h = (false, h)) as P.
  { unfold resolve_pending. rewrite N. destruct (id_key (rs_id r)) as [|k0 k] eqn:KK; [reflexivity|]. destruct K as [K|K]; [discriminate|].
    apply aget_none in K. now rewrite K. }
  rewrite P in E. cbn [negb andb] in E. rewrite N, I in E. exists info. eexists. split.
  - rewrite E. destruct (h_error hd); reflexivity.
  - auto.
Qed.

Lemma metadata_served : forall loopback c verify now draw hd q h,
  check_local loopback (hc_address c) (f_host q) (f_origin q) = None -> asks_metadata c q -> hq_verb q = GET -> ~ at_stream c q ->
  serve loopback c verify now draw hd q h = (Answer (plain 200 (metadata_json (hc_bearer c))), [], h).
Proof.
  intros loopback c verify now draw hd q h L M V S. rewrite serve_not_stream by exact S. unfold make_response. now rewrite L, is_meta, V.
Qed.
