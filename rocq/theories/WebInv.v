(** The invariant of an HTTP client joined to an HTTP server. *)
From Coq Require Import Ascii String List Permutation Arith NArith ZArith Bool Lia.
From Verif Require Import StrModel StrProofs DoubleModel JsonModel JsonSpec JsonProofs RpcModel RpcSpec RpcProofs RouterModel RouterProofs MapModel MapProofs MemModel
  PendModel PendProofs AuthModel WwwModel GuardModel WireSpec HttpModel HttpProofs HcliModel HcliSpec HcliProofs WebModel WebSpec WebProofs.
Import ListNotations.
Local Open Scope nat_scope.

Ltac hcs := cbn [hc_flight hc_version hc_entering hc_queue hc_reg hc_heard hc_ended hc_send hc_set_session hc_set_posts capture hc_session].

Definition kdec : forall x y : bstr, {x = y} + {x <> y} := list_eq_dec ascii_dec.
Definition cnt (k : bstr) (l : list bstr) : nat := count_occ kdec l k.
Lemma cnt_app : forall k a b, cnt k (a ++ b) = cnt k a + cnt k b.
Proof. intros. apply count_occ_app. Qed.
Lemma cnt_perm : forall k a b, Permutation a b -> cnt k a = cnt k b.
Proof. intros k a b H. apply (Permutation_count_occ kdec). exact H. Qed.
Lemma cnt_one : forall k, cnt k [k] = 1.
Proof. intro k. cbn. destruct (kdec k k); [reflexivity|congruence]. Qed.

Definition pkey (p : purpose) : list bstr := match p with PuRequest k => [k] | _ => [] end.
Definition pkeys (l : list (purpose * bstr)) : list bstr := flat_map (fun p => pkey (fst p)) l.
Definition fresh (a : air) : list bstr := match ar_back a with None => pkey (ar_purpose a) | Some _ => [] end.
Definition okeys (l : list air) : list bstr := flat_map fresh l.
Definition rkeys (l : list (handlers * call)) : list bstr := map (fun r => id_key (rq_id r)) (reqs (map snd l)).

Lemma pkeys_app : forall a b, pkeys (a ++ b) = pkeys a ++ pkeys b.
Proof. intros. apply flat_map_app. Qed.
Lemma okeys_app : forall a b, okeys (a ++ b) = okeys a ++ okeys b.
Proof. intros. apply flat_map_app. Qed.
Lemma rkeys_app : forall a b, rkeys (a ++ b) = rkeys a ++ rkeys b.
Proof. intros. unfold rkeys. now rewrite map_app, reqs_app, map_app. Qed.

Definition flown (a : air) : purpose * bstr := (ar_purpose a, hq_body (ar_req a)).
Definition rw (ran : list (handlers * call)) (r : request) (q : response) : Prop :=
  exists hd, In (hd, CRequest r) ran /\ h_request hd <> None /\ answers hd r q.

Definition post_ok (reg : list (nat * request)) (p : purpose * bstr) : Prop :=
  match fst p with
  | PuRequest k => exists t r, In (t, r) reg /\ k = id_key (rq_id r) /\ snd p = ser_request r /\ wire_ok (WRequest r)
  | _ => exists m, wire_ok m /\ (forall r, m <> WRequest r) /\ snd p = wire_text m
  end.

Definition form (e : ends) (a : air) : Prop :=
  exists s, ar_req a = post_of e (post_path (en_client e) (ar_purpose a)) (some_text (streamable (en_client e)) s)
    (some_text (streamable (en_client e)) (en_version e)) (hq_body (ar_req a)).

Definition back_ok (reg : list (nat * request)) (ran : list (handlers * call)) (a : air) : Prop :=
  forall k ex, ar_purpose a = PuRequest k -> ar_back a = Some ex ->
  (forall q, ~ is_request (ex_body ex) q) /\
  forall q, is_response (ex_body ex) q -> id_key (rs_id q) = [] \/
    (id_key (rs_id q) = k /\ exists t r, In (t, r) reg /\ id_key (rq_id r) = k /\ rw ran r q).

Record winv (e : ends) (h : hcli) (airs : list air) (ran : list (handlers * call)) : Prop := {
  wi_air : map flown airs = hc_flight h;
  wi_version : hc_version h = en_version e;
  wi_form : Forall (form e) airs;
  wi_enter : Forall (fun r => wire_ok (WRequest r)) (hc_entering h);
  wi_posts : Forall (post_ok (hc_reg h)) (hc_queue h ++ hc_flight h);
  wi_back : Forall (back_ok (hc_reg h) ran) airs;
  wi_heard : forall m q, In m (hc_heard h) -> is_response m q -> id_key (rs_id q) = [] \/
    exists t r, In (t, r) (hc_reg h) /\ id_key (rq_id r) = id_key (rs_id q) /\ rw ran r q /\ In (id_key (rs_id q)) (map fst (hc_ended h));
  wi_count : forall k, cnt k (rkeys ran) + cnt k (okeys airs) + cnt k (pkeys (hc_queue h)) <= cnt k (hc_keys h);
  wi_ended : forall k, cnt k (map fst (hc_ended h)) + cnt k (pkeys (hc_flight h)) + cnt k (pkeys (hc_queue h)) <= cnt k (hc_keys h);
  wi_ran : forall r, In r (reqs (map snd ran)) -> exists t, In (t, r) (hc_reg h)
}.

Lemma winv0 : forall e, winv e (client e web0) (wb_air web0) (wb_ran web0).
Proof. intro e. constructor; cbn; auto; try constructor; intros; try easy; lia. Qed.

Lemma post_ok_grows : forall reg x p, post_ok reg p -> post_ok (reg ++ x) p.
Proof.
  intros reg x p H. unfold post_ok in *. destruct (fst p); auto. destruct H as (t & r & H & H2). exists t, r. split; [apply in_or_app; now left|exact H2].
Qed.

Lemma rw_grows : forall ran y r q, rw ran r q -> rw (ran ++ y) r q.
Proof. intros ran y r q (hd & H & H2). exists hd. split; [apply in_or_app; now left|exact H2]. Qed.

Lemma back_ok_grows : forall reg x ran y a, back_ok reg ran a -> back_ok (reg ++ x) (ran ++ y) a.
Proof.
  intros reg x ran y a H k ex K B. destruct (H k ex K B) as [H1 H2]. split; [exact H1|]. intros q Q.
  destruct (H2 q Q) as [H3|(H3 & t & r & H4 & H5 & H6)]; [now left|right]. split; [exact H3|]. exists t, r.
  split; [apply in_or_app; now left|]. split; [exact H5|]. now apply rw_grows.
Qed.

(** Steps of the client alone: it may enter requests, queue POSTs and hear texts that are no
    responses. *)
Lemma winv_client : forall e h g airs ran x y z, winv e h airs ran ->
  hc_flight g = hc_flight h -> hc_version g = hc_version h -> hc_ended g = hc_ended h ->
  Forall (fun r => wire_ok (WRequest r)) (hc_entering g) ->
  hc_reg g = hc_reg h ++ x -> hc_queue g = hc_queue h ++ y -> hc_heard g = hc_heard h ++ z ->
  Forall (post_ok (hc_reg g)) y -> Forall (fun m => forall q, ~ is_response m q) z ->
  (forall k, cnt k (pkeys y) = cnt k (map (fun tr => id_key (rq_id (snd tr))) x)) ->
  winv e g airs ran.
Proof.
  intros e h g airs ran x y z [A V F E P B H C D RA] Fl Ve En Ent R Q Z Py Pz Ck. constructor.
  - now rewrite Fl.
  - now rewrite Ve.
  - exact F.
  - exact Ent.
  - rewrite Fl, Q, <- app_assoc. apply Forall_app in P as [P1 P2]. apply Forall_app. split.
    + rewrite R. eapply Forall_impl; [|exact P1]. intros p. apply post_ok_grows.
    + apply Forall_app. split; [exact Py|]. rewrite R. eapply Forall_impl; [|exact P2]. intros p. apply post_ok_grows.
  - rewrite R. eapply Forall_impl; [|exact B]. intros a Ha. rewrite <- (app_nil_r ran). now apply back_ok_grows.
  - intros m q I Re. rewrite Z in I. apply in_app_or in I as [I|I].
    + destruct (H m q I Re) as [K|(t & r & K1 & K2 & K3 & K4)]; [now left|right]. exists t, r. rewrite R, En.
      split; [apply in_or_app; now left|auto].
    + rewrite Forall_forall in Pz. now elim (Pz m I q).
  - intro k. specialize (C k). specialize (Ck k). unfold hc_keys in *. rewrite R, Q, pkeys_app, map_app, !cnt_app. lia.
  - intro k. specialize (D k). specialize (Ck k). unfold hc_keys in *. rewrite R, Q, Fl, En, pkeys_app, map_app, !cnt_app. lia.
  - intros r K. destruct (RA r K) as (t & K2). exists t. rewrite R. apply in_or_app. now left.
Qed.

Lemma winv_same : forall e h g airs ran, winv e h airs ran ->
  hc_flight g = hc_flight h -> hc_version g = hc_version h -> hc_ended g = hc_ended h -> hc_entering g = hc_entering h ->
  hc_reg g = hc_reg h -> hc_queue g = hc_queue h -> hc_heard g = hc_heard h -> winv e g airs ran.
Proof.
  intros e h g airs ran W Fl Ve En Ent R Q Z. apply (winv_client e h g airs ran [] [] []); rewrite ?app_nil_r; auto.
  rewrite Ent. apply (wi_enter _ _ _ _ W).
Qed.

Lemma auto_id_ok : forall n, id_ok (IdStr (bs "http-req-" ++ print_N n)) /\ forall s, IdStr (bs "http-req-" ++ print_N n) = IdStr s -> JsonSpec.plain s.
Proof.
  intro n. assert (D : JsonSpec.plain (bs "http-req-" ++ print_N n)).
  { assert (K : forall c, In c (print_N n) -> is_digit c = true) by (apply forallb_forall; apply (print_N_spec n)).
    split; intro I; apply in_app_iff in I; destruct I as [I|I];
      try (cbn in I; decompose [or] I; try contradiction; discriminate); apply K in I; discriminate. }
  split; [apply D|intros s E; injection E as <-; exact D].
Qed.

Lemma winv_own : forall e h a airs ran, winv e h airs ran -> own_step a = true -> proper (WClient a) -> winv e (hcstep (en_client e) h a) airs ran.
Proof.
  intros e h a airs ran W O P. unfold hcstep. destruct (hc_crashed h); [exact W|].
  destruct a as [|r|n|nt|n|n ex hd|hs|text hd| | | | |]; try discriminate O; try (apply (winv_same e h); auto; fail).
  - destruct (hc_thread h); apply (winv_same e h); auto.
  - unfold hc_begin. destruct (hc_connected h); [|apply (winv_same e h); auto].
    cbn [proper] in P. pose proof (wi_enter _ _ _ _ W) as EN.
    assert (X : forall n r0, wire_ok (WRequest r0) -> winv e (hc_set_calls n (hc_entering h ++ [r0]) (hc_reg h) h) airs ran).
    { intros n r0 K. apply (winv_client e h _ airs ran [] [] []); cbn; rewrite ?app_nil_r; auto. apply Forall_app. split; [exact EN|now constructor]. }
    assert (Y : forall n, wire_ok (WRequest {| rq_id := IdStr (bs "http-req-" ++ print_N n); rq_method := rq_method r; rq_params := rq_params r |})).
    { intro n. destruct P as (P1 & P2 & P3). destruct (auto_id_ok n). split; [assumption|]. split; [assumption|exact P3]. }
    destruct (rq_id r) as [[|c0 s]|z|]; apply X; auto.
  - destruct (take_nth n (hc_entering h)) as [[r rest]|] eqn:T; [|exact W].
    pose proof (take_nth_forall _ _ _ _ _ _ T (wi_enter _ _ _ _ W)) as [T1 T2].
    apply (winv_client e h _ airs ran [(pt_next (hc_tab h), r)] [(PuRequest (id_key (rq_id r)), ser_request r)] []); cbn; rewrite ?app_nil_r; auto.
    constructor; [|constructor]. exists (pt_next (hc_tab h)), r. split; [apply in_or_app; right; now left|]. auto.
  - destruct (hc_connected h); [|exact W].
    apply (winv_client e h _ airs ran [] [(PuNotify, ser_notification nt)] []); cbn; rewrite ?app_nil_r; auto; [apply (wi_enter _ _ _ _ W)|].
    constructor; [|constructor]. exists (WNotification nt). split; [exact P|]. split; [discriminate|reflexivity].
  - destruct (hc_session h); [exact W|]. destruct (_ && _)%bool; [|exact W]. apply (winv_same e h); auto.
Qed.

Lemma replies_ok : forall e h airs ran hd m, winv e h airs ran -> wire_ok m -> (forall r, m <> WResponse r) -> answers_well hd ->
  Forall (post_ok (hc_reg h)) (replies_to hd (wire_text m)) /\ pkeys (replies_to hd (wire_text m)) = [].
Proof.
  intros e h airs ran hd m W M N A. unfold replies_to. destruct (route (wrap_handlers hd) (wire_text m)) as [cs out] eqn:R.
  destruct out as [[t|]|]; [|split; [apply Forall_nil|reflexivity]|split; [apply Forall_nil|reflexivity]]. split; [|reflexivity].
  constructor; [|constructor]. cbn [post_ok fst snd]. destruct m as [r|r|n]; [|now elim (N r)|].
  - cbn [wire_text] in R. pose proof M as (M1 & M2 & M3 & M4 & M5).
    destruct (h_request (wrap_handlers hd)) as [f|] eqn:F; [|discriminate F]. rewrite (route_request _ f r F) in R by auto. injection R as <- <-.
    exists (WResponse (reply (rq_id r) (f r))). split; [|split; [discriminate|reflexivity]].
    apply (A r); [exact M|]. cbn in F. unfold answers. destruct (h_request hd) as [f0|]; injection F as <-; [destruct (f0 r); cbn; auto|reflexivity].
  - exfalso. cbn [wire_text] in R. destruct M as (M1 & M2 & M3). rewrite (route_notif _ n) in R by auto.
    destruct (h_notification (wrap_handlers hd)) as [f|]; [|discriminate R]. destruct (f n); discriminate R.
Qed.

Lemma event_no_response : forall m q, wire_ok m -> (forall r, m <> WResponse r) -> ~ is_response (wire_text m) q.
Proof.
  intros m q M N H. specialize (H demo_hd). destruct m as [r|r|n]; [|now elim (N r)|]; cbn [wire_text] in H.
  - destruct M as (M1 & M2 & M3 & M4 & M5). erewrite route_request in H by (try reflexivity; auto). discriminate H.
  - destruct M as (M1 & M2 & M3). rewrite (route_notif _ n) in H by auto. discriminate H.
Qed.

Lemma winv_event : forall e h m hd airs ran, winv e h airs ran -> proper (WEvent m hd) ->
  winv e (hcstep (en_client e) h (TEvent (wire_text m) hd)) airs ran.
Proof.
  intros e h m hd airs ran W (M & N & A). unfold hcstep. destruct (hc_crashed h); [exact W|].
  destruct (hc_connected h && hc_sse h)%bool; [|exact W].
  destruct (incoming_effect false hd [] (wire_text m) h) as ([S1 S2 S3 S4 S5 S6 sh_version0 sh_entering0 sh_flight0 sh_reg0 sh_ended0 S12] & _ & He & _ & Q & _).
  destruct (replies_ok e h airs ran hd m W M N A) as [R1 R2].
  apply (winv_client e h _ airs ran [] (replies_to hd (wire_text m)) [wire_text m]); rewrite ?app_nil_r; auto.
  - rewrite sh_entering0. apply (wi_enter _ _ _ _ W).
  - now rewrite sh_reg0.
  - constructor; [|constructor]. intro q. now apply event_no_response.
  - intro k. now rewrite R2.
Qed.

Lemma take_map : forall (A B : Type) (f : A -> B) n l x r, take_nth n l = Some (x, r) -> take_nth n (map f l) = Some (f x, map f r).
Proof.
  intros A B f n. induction n as [|n IH]; intros [|y l] x r H; try discriminate H; cbn in *.
  - now injection H as <- <-.
  - destruct (take_nth n l) as [[z s]|] eqn:E; [|discriminate H]. injection H as <- <-. now rewrite (IH l z s E).
Qed.

Lemma pkeys_take : forall k n l p r, take_nth n l = Some (p, r) -> cnt k (pkeys l) = cnt k (pkey (fst p)) + cnt k (pkeys r).
Proof.
  intros k n l p r T. rewrite <- cnt_app. apply cnt_perm. change (pkey (fst p) ++ pkeys r) with (pkeys (p :: r)).
  apply Permutation_flat_map. now apply take_nth_perm in T.
Qed.

Lemma winv_post : forall e h n p rest airs ran, winv e h airs ran -> hc_crashed h = false -> hc_thread h = true -> hc_stopped h = false ->
  take_nth n (hc_queue h) = Some (p, rest) -> winv e (hcstep (en_client e) h (TPost n)) (airs ++ [air_of e h p]) ran.
Proof.
  intros e h n p rest airs ran [A V F E P B H C D RA] Cr Th St T. unfold hcstep. rewrite Cr, Th, St, T. cbn [andb negb].
  constructor; hcs; auto.
  - rewrite map_app, A. destruct p. reflexivity.
  - apply Forall_app. split; [exact F|]. constructor; [|constructor]. exists (hc_session h). cbn. now rewrite V.
  - apply Forall_app in P as [P1 P2]. destruct (take_nth_forall _ _ _ _ _ _ T P1) as [T1 T2].
    apply Forall_app. split; [exact T2|]. apply Forall_app. split; [exact P2|now constructor].
  - apply Forall_app. split; [exact B|]. constructor; [|constructor]. intros k ex _ K. discriminate K.
  - intro k. specialize (C k). rewrite (pkeys_take k _ _ _ _ T) in C. rewrite okeys_app, cnt_app. unfold hc_keys in *. hcs.
    change (okeys [air_of e h p]) with (pkey (fst p) ++ []). rewrite app_nil_r. lia.
  - intro k. specialize (D k). rewrite (pkeys_take k _ _ _ _ T) in D. rewrite pkeys_app, cnt_app. unfold hc_keys in *. hcs.
    change (pkeys [p]) with (pkey (fst p) ++ []). rewrite app_nil_r. lia.
Qed.

(** A change of what a POST under way will bring back. *)
Lemma set_nth_split : forall (A : Type) n (l : list A) a b, nth_error l n = Some a ->
  exists l1 l2, l = l1 ++ a :: l2 /\ length l1 = n /\ set_nth n b l = l1 ++ b :: l2.
Proof.
  intros A n l a b H. destruct (nth_error_split l n H) as (l1 & l2 & -> & L). exists l1, l2. split; [reflexivity|]. split; [exact L|].
  unfold set_nth. subst n. rewrite firstn_app, firstn_all, Nat.sub_diag, firstn_O, app_nil_r. f_equal. f_equal.
  rewrite skipn_app, skipn_all2 by lia. replace (S (length l1) - length l1) with 1 by lia. reflexivity.
Qed.

Lemma winv_back : forall e h airs ran n a ex new, winv e h airs ran -> nth_error airs n = Some a ->
  (forall k, cnt k (rkeys new) <= cnt k (fresh a)) -> (forall r, In r (reqs (map snd new)) -> exists t, In (t, r) (hc_reg h)) ->
  back_ok (hc_reg h) (ran ++ new) {| ar_purpose := ar_purpose a; ar_req := ar_req a; ar_back := Some ex |} ->
  winv e h (set_nth n {| ar_purpose := ar_purpose a; ar_req := ar_req a; ar_back := Some ex |} airs) (ran ++ new).
Proof.
  intros e h airs ran n a ex new [A V F E P B H C D RA] N K Kr Bk.
  destruct (set_nth_split _ n airs a {| ar_purpose := ar_purpose a; ar_req := ar_req a; ar_back := Some ex |} N) as (l1 & l2 & -> & _ & ->).
  apply Forall_app in F as [F1 F2]. inversion F2 as [|? ? F3 F4]; subst. apply Forall_app in B as [B1 B2]. inversion B2 as [|? ? B3 B4]; subst.
  constructor; auto.
  - rewrite map_app in *. exact A.
  - apply Forall_app. split; [exact F1|]. constructor; [exact F3|exact F4].
  - apply Forall_app. split; [|constructor; [exact Bk|]]; (eapply Forall_impl; [|eassumption]); intros x X; rewrite <- (app_nil_r (hc_reg h)); now apply back_ok_grows.
  - intros m q I R. destruct (H m q I R) as [X|(t & r & X1 & X2 & X3 & X4)]; [now left|right]. exists t, r. split; [exact X1|].
    split; [exact X2|]. split; [now apply rw_grows|exact X4].
  - intro k. specialize (C k). specialize (K k). rewrite okeys_app in *. rewrite rkeys_app, !cnt_app in *.
    change (okeys (a :: l2)) with (fresh a ++ okeys l2) in C. rewrite cnt_app in C.
    change (okeys ({| ar_purpose := ar_purpose a; ar_req := ar_req a; ar_back := Some ex |} :: l2)) with (okeys l2). lia.
  - intros r I. rewrite map_app, reqs_app in I. apply in_app_or in I as [I|I]; auto.
Qed.

Lemma back_nothing : forall reg ran p q, back_ok reg ran {| ar_purpose := p; ar_req := q; ar_back := Some no_exchange |}.
Proof.
  intros reg ran p q k ex _ B. injection B as <-. cbn. destruct safe_nil as [S1 S2]. split; [exact S1|]. intros x X. left. now apply S2.
Qed.

(** The server handles a POST. *)
Lemma winv_serve : forall e h airs ran n a now draw hd x calls s s', winv e h airs ran -> refusals_plain e ->
  h_request hd <> None -> answers_well hd -> nth_error airs n = Some a -> ar_back a = None ->
  serve (en_loopback e) (en_server e) (en_verify e) now draw hd (ar_req a) s = (x, calls, s') ->
  winv e h (set_nth n {| ar_purpose := ar_purpose a; ar_req := ar_req a; ar_back := Some (exchange_of x) |} airs)
    (ran ++ map (fun c => (hd, snd c)) calls).
Proof.
  intros e h airs ran n a now draw hd x calls s s' W RP Hr Aw N Bk S.
  assert (PO : post_ok (hc_reg h) (flown a)).
  { pose proof (wi_posts _ _ _ _ W) as P. apply Forall_app in P as [_ P]. rewrite <- (wi_air _ _ _ _ W) in P.
    rewrite Forall_forall in P. apply P. apply in_map. now apply nth_error_In in N. }
  assert (FO : form e a).
  { pose proof (wi_form _ _ _ _ W) as P. rewrite Forall_forall in P. apply P. now apply nth_error_In in N. }
  assert (MS : map snd (map (fun c : option token_info * call => (hd, snd c)) calls) = map snd calls) by (rewrite map_map; reflexivity).
  apply winv_back; auto.
  - intro k. unfold rkeys. rewrite MS. unfold fresh. rewrite Bk.
    destruct (serve_reqs _ _ _ _ _ _ _ _ _ S) as [-> | ->]; [cbn; lia|].
    unfold post_ok, flown in PO. cbn [fst snd] in PO. destruct (ar_purpose a) as [k0| |].
    + destruct PO as (t & r & _ & -> & -> & M). destruct M as (M1 & M2 & M3 & M4 & M5).
      destruct (h_request hd) as [f|] eqn:Hf; [|now elim Hr]. rewrite (route_request hd f r) by auto. apply Nat.le_refl.
    + destruct PO as (m & M1 & M2 & ->). rewrite route_requests by auto. cbn. lia.
    + destruct PO as (m & M1 & M2 & ->). rewrite route_requests by auto. cbn. lia.
  - intros r I. rewrite MS in I. destruct (serve_reqs _ _ _ _ _ _ _ _ _ S) as [Q|Q]; rewrite Q in I; [easy|].
    unfold post_ok, flown in PO. cbn [fst snd] in PO. destruct (ar_purpose a) as [k0| |].
    + destruct PO as (t & r0 & K0 & -> & K1 & M). rewrite K1 in I. destruct M as (M1 & M2 & M3 & M4 & M5).
      destruct (h_request hd) as [f|] eqn:Hf; [|now elim Hr]. rewrite (route_request hd f r0) in I by auto. destruct I as [<-|[]]. now exists t.
    + destruct PO as (m & M1 & M2 & K1). rewrite K1, route_requests in I by auto. easy.
    + destruct PO as (m & M1 & M2 & K1). rewrite K1, route_requests in I by auto. easy.
  - intros k ex K B. cbn [ar_purpose ar_back] in K, B. injection B as <-.
    unfold post_ok, flown in PO. cbn [fst snd] in PO. rewrite K in PO. destruct PO as (t & r & I & -> & Bd & M).
    destruct FO as (ss & FO). rewrite Bd in FO. rewrite FO in S.
    destruct (h_request hd) as [f|] eqn:Hf; [|now elim Hr].
    destruct (serve_body _ _ _ _ r _ _ hd f _ _ _ _ M RP Hf S) as [[S1 S2]|[S1 S2]].
    + split; [exact S1|]. intros q Q. left. now apply S2.
    + assert (AN : answers hd r (reply (rq_id r) (f r))) by now apply reply_answers.
      assert (Re : is_response (ex_body (exchange_of x)) (reply (rq_id r) (f r))) by (eapply wire_response; [eapply Aw; eassumption|exact S1]).
      split; [intro q; eapply response_not_request; exact Re|]. intros q Q. right. rewrite (response_unique _ _ _ Q Re).
      assert (Ei : rs_id (reply (rq_id r) (f r)) = rq_id r) by (destruct (f r); reflexivity). rewrite Ei. split; [reflexivity|].
      exists t, r. split; [exact I|]. split; [reflexivity|]. exists hd. split; [|split; [congruence|exact AN]].
      apply in_or_app. right. apply in_map_iff in S2 as ([i c] & C1 & C2). cbn in C1. subst c. apply in_map_iff. exists (i, CRequest r). auto.
Qed.

(** A POST ends at the client. *)
Lemma winv_done : forall e h airs ran n a ex hd rest, winv e h airs ran -> answers_well hd -> hc_crashed h = false -> hc_thread h = true -> hc_stopped h = false ->
  take_nth n airs = Some (a, rest) -> ar_back a = Some ex -> winv e (hcstep (en_client e) h (TDone n ex hd)) rest ran.
Proof.
  intros e h airs ran n a ex hd rest [A V F E P B H C D RA] Aw Cr Th St T Bk.
  pose proof (take_map _ _ flown _ _ _ _ T) as Tf. rewrite A in Tf.
  destruct (take_nth_forall _ _ _ _ _ _ T F) as [_ F2]. destruct (take_nth_forall _ _ _ _ _ _ T B) as [B1 B2].
  apply Forall_app in P as [P1 P2]. destruct (take_nth_forall _ _ _ _ _ _ Tf P2) as [P3 P4].
  assert (CO : forall k, cnt k (okeys rest) <= cnt k (okeys airs)).
  { intro k. pose proof (take_nth_perm _ _ _ _ _ T) as PM. rewrite (cnt_perm k (okeys airs) (okeys (a :: rest))) by (apply Permutation_flat_map; exact PM).
    change (okeys (a :: rest)) with (fresh a ++ okeys rest). rewrite cnt_app. lia. }
  unfold hcstep. rewrite Cr, Th, St, Tf. cbn [andb negb fst flown].
  unfold hc_end. destruct (ar_purpose a) as [k0| |] eqn:Pu.
  - (* the POST of a request *)
    assert (G : forall g z, same_hc (hc_set_heard (hc_ended h ++ [(k0, ex)]) (hc_heard h) (hc_calls h) (capture (ex_headers ex) (hc_set_posts (hc_queue h) (map flown rest) h))) g ->
      hc_heard g = hc_heard h ++ z -> (z = [] \/ z = [ex_body ex]) -> hc_queue g = hc_queue h -> winv e g rest ran).
    { intros g z [S1 S2 S3 S4 S5 S6 sh_version0 sh_entering0 sh_flight0 sh_reg0 sh_ended0 S12] Hz Zc Hq. cbn in sh_version0, sh_entering0, sh_flight0, sh_reg0, sh_ended0. constructor; auto.
      - now rewrite sh_version0.
      - now rewrite sh_entering0.
      - rewrite Hq, sh_flight0, sh_reg0. apply Forall_app. split; [exact P1|exact P4].
      - now rewrite sh_reg0.
      - intros m q I R. rewrite Hz in I. rewrite sh_reg0, sh_ended0, map_app. apply in_app_or in I as [I|I].
        + destruct (H m q I R) as [X|(t & r & X1 & X2 & X3 & X4)]; [now left|right]. exists t, r. split; [exact X1|]. split; [exact X2|]. split; [exact X3|].
          apply in_or_app. now left.
        + destruct Zc as [-> | ->]; [easy|]. destruct I as [<-|[]]. destruct (B1 k0 ex Pu Bk) as [_ B3].
          destruct (B3 q R) as [X|(X & t & r & X1 & X2 & X3)]; [now left|right]. exists t, r. split; [exact X1|]. split; [congruence|]. split; [exact X3|].
          apply in_or_app. right. left. cbn. congruence.
      - intro k. specialize (C k). specialize (CO k). unfold hc_keys in *. rewrite Hq, sh_reg0. clear - C CO. lia.
      - intro k. specialize (D k). unfold hc_keys in *. rewrite Hq, sh_reg0, sh_flight0, sh_ended0, map_app, cnt_app.
        rewrite (pkeys_take k _ _ _ _ Tf) in D. cbn [fst flown] in D. rewrite Pu in D. cbn [pkey] in D. cbn [map fst]. clear - D. lia.
      - now rewrite sh_reg0. }
    destruct (ex_body ex) as [|c0 b0] eqn:Eb.
    + apply (G _ []); cbn; rewrite ?app_nil_r; auto. constructor; reflexivity.
    + rewrite <- Eb in *. clear c0 b0 Eb.
      match goal with |- context [incoming true hd k0 ?m ?y] => destruct (incoming_effect true hd k0 m y) as (Sh & _ & A1 & _ & A2 & _) end.
      apply (G _ [ex_body ex]); auto. rewrite A2. destruct (B1 k0 ex Pu Bk) as [B3 _].
      assert (NR : replies_to hd (ex_body ex) = []); [|rewrite NR; apply app_nil_r].
      unfold replies_to. destruct (route_kinds (ex_body ex)) as [(r & _ & _ & Y)|[(r & Y & _)|(Y & _)]].
      * now rewrite Y.
      * now elim (B3 r).
      * rewrite Y. unfold route_notification. destruct (deser_notification notification0 (ex_body ex)) as [[|] nn].
        -- destruct (h_notification (wrap_handlers hd)) as [f|]; [|reflexivity]. destruct (f nn); reflexivity.
        -- destruct (h_error (wrap_handlers hd)); reflexivity.
  - constructor; hcs; auto.
    + apply Forall_app. split; [exact P1|exact P4].
    + intro k. specialize (C k). specialize (CO k). unfold hc_keys in *. hcs. lia.
    + intro k. specialize (D k). rewrite (pkeys_take k _ _ _ _ Tf) in D.
      assert (G : cnt k (map fst (hc_ended h)) + cnt k (pkeys (map flown rest)) + cnt k (pkeys (hc_queue h)) <= cnt k (hc_keys h))
        by (eapply Nat.le_trans; [|exact D]; apply Nat.add_le_mono_r, Nat.add_le_mono_l, Nat.le_add_l). exact G.
  - constructor; hcs; auto.
    + apply Forall_app. split; [exact P1|exact P4].
    + intro k. specialize (C k). specialize (CO k). unfold hc_keys in *. hcs. lia.
    + intro k. specialize (D k). rewrite (pkeys_take k _ _ _ _ Tf) in D.
      assert (G : cnt k (map fst (hc_ended h)) + cnt k (pkeys (map flown rest)) + cnt k (pkeys (hc_queue h)) <= cnt k (hc_keys h))
        by (eapply Nat.le_trans; [|exact D]; apply Nat.add_le_mono_r, Nat.add_le_mono_l, Nat.le_add_l). exact G.
Qed.

Definition inv (e : ends) (w : web) : Prop := winv e (client e w) (wb_air w) (wb_ran w).

Lemma client_act : forall e a w, client e (act a w) = hcstep (en_client e) (client e w) a.
Proof. intros e a w. unfold client. cbn [act wb_acts]. apply hcrun_snoc. Qed.
Lemma client_put_air : forall e l w, client e (put_air l w) = client e w.
Proof. reflexivity. Qed.
Lemma client_put_srv : forall e h r w, client e (put_srv h r w) = client e w.
Proof. reflexivity. Qed.

Lemma inv_step : forall e w a, refusals_plain e -> proper a -> inv e w -> inv e (wstep e w a).
Proof.
  intros e w a RP P W. unfold inv in *. destruct a as [a|n|n now draw hd|n|n hd|q now draw hd|o|hs|m hd]; cbn [wstep].
  - destruct (own_step a) eqn:O; [|exact W]. rewrite client_act. now apply winv_own.
  - destruct (hc_thread (client e w) && negb (hc_stopped (client e w)) && negb (hc_crashed (client e w)))%bool eqn:G; [|exact W].
    apply andb_true_iff in G as [G G3]. apply andb_true_iff in G as [G1 G2]. apply negb_true_iff in G2, G3.
    destruct (take_nth n (hc_queue (client e w))) as [[p rest]|] eqn:T; [|exact W].
    rewrite client_act, client_put_air. cbn [wb_air wb_ran act put_air]. now apply winv_post with rest.
  - destruct (nth_error (wb_air w) n) as [a|] eqn:N; [|exact W]. destruct (ar_back a) eqn:B; [exact W|].
    destruct (serve _ _ _ _ _ _ _ _) as [[x calls] h] eqn:S. destruct P as [P1 P2].
    rewrite client_put_srv, client_put_air. cbn [wb_air wb_ran put_srv put_air]. eapply winv_serve; eassumption.
  - destruct (nth_error (wb_air w) n) as [a|] eqn:N; [|exact W].
    rewrite client_put_air. cbn [wb_air wb_ran put_air]. rewrite <- (app_nil_r (wb_ran w)). apply winv_back; auto; [cbn; lia|easy|]. apply back_nothing.
  - destruct (hc_thread (client e w) && negb (hc_stopped (client e w)) && negb (hc_crashed (client e w)))%bool eqn:G; [|exact W].
    apply andb_true_iff in G as [G G3]. apply andb_true_iff in G as [G1 G2]. apply negb_true_iff in G2, G3.
    destruct (take_nth n (wb_air w)) as [[a rest]|] eqn:T; [|exact W]. destruct (ar_back a) as [ex|] eqn:B; [|exact W].
    rewrite client_act, client_put_air. cbn [wb_air wb_ran act put_air]. eapply winv_done; eassumption.
  - destruct (serve _ _ _ _ _ _ _ _) as [[x calls] h] eqn:S. rewrite client_put_srv. cbn [wb_air wb_ran put_srv]. now rewrite app_nil_r.
  - rewrite client_put_srv. cbn [wb_air wb_ran put_srv]. now rewrite app_nil_r.
  - rewrite client_act. cbn [wb_air wb_ran act]. unfold hcstep. destruct (hc_crashed (client e w)); [exact W|].
    destruct (_ && _)%bool; [|exact W]. eapply winv_same; [exact W|..]; reflexivity.
  - rewrite client_act. cbn [wb_air wb_ran act]. now apply winv_event.
Qed.

Lemma wrun_snoc : forall e es a, wrun e (es ++ [a]) = wstep e (wrun e es) a.
Proof. intros. unfold wrun. now rewrite fold_left_app. Qed.

Lemma inv_run : forall e es, refusals_plain e -> Forall proper es -> inv e (wrun e es).
Proof.
  intros e es RP. induction es as [|a es IH] using rev_ind; intro P; [apply winv0|]. apply Forall_app in P as [P1 P2]. inversion P2; subst.
  rewrite wrun_snoc. apply inv_step; auto.
Qed.
