(** Proofs about refused HTTP requests. *)
From Coq Require Import Ascii String List Arith NArith ZArith Bool Lia.
From Verif Require Import StrModel StrProofs DoubleModel JsonModel RpcModel RouterModel MapModel MemModel AuthModel AuthSpec AuthProofs WwwModel
  GuardModel GuardSpec GuardProofs HttpModel HttpSpec HttpProofs RefuseSpec.
Import ListNotations.
Local Open Scope nat_scope.

Lemma let_in_enforce : forall c verify now q, let_in c verify now q -> exists i, enforce c verify now q = inr i.
Proof.
  intros c verify now q H. destruct (enforce c verify now q) as [r|i] eqn:E; [|eauto]. exfalso.
  unfold enforce in E. destruct H as [H|[i H]].
  - rewrite H in E. discriminate.
  - destruct (hc_auth c); [|discriminate]. cbn [negb] in E.
    destruct (br_ok (check_bearer (f_auth q) verify (hc_bearer c) now)) eqn:B; [discriminate|].
    apply admitted_iff in H as [H _]. congruence.
Qed.

Lemma beq_false : forall a b, a <> b -> beq a b = false.
Proof. intros a b H. now apply beq_neq. Qed.

Lemma last_slash : forall s : bstr, ~ In SLASH s \/ exists a b, s = a ++ SLASH :: b /\ ~ In SLASH b.
Proof.
  induction s as [|c s IH]; [left; intros []|]. destruct IH as [N|(a & b & -> & N)].
  - destruct (ascii_dec c SLASH) as [->|D]; [right; now exists [], s|]. left. intros [->|H]; contradiction.
  - right. now exists (c :: a), b.
Qed.

Lemma metadata_iff : forall c q, asks_metadata c q <-> hq_target q = WELL_KNOWN \/ hq_target q = well_known_base c.
Proof.
  intros c q. unfold asks_metadata, well_known_base. cbv zeta.
  change (bs "/.well-known/oauth-protected-resource") with WELL_KNOWN.
  generalize (match hc_endpoint c with [] => hc_rpc c | e => e end). intro path.
  assert (K : forall a b, ~ In SLASH b -> match rfind_char SLASH (a ++ SLASH :: b) with Some (S k) => firstn (S k) (a ++ SLASH :: b) | _ => [] end = a).
  { intros a b N. rewrite (rfind_app SLASH a b N). destruct a as [|x a]; [reflexivity|].
    change (length (x :: a)) with (S (length a)). cbn iota. change (S (length a)) with (length (x :: a)).
    rewrite firstn_app, Nat.sub_diag, firstn_all. cbn [firstn]. apply app_nil_r. }
  split; (intros [H|H]; [now left|]).
  - right. destruct H as (a & b & -> & N & ->). now rewrite K.
  - destruct (last_slash path) as [N|(a & b & -> & N)].
    + left. rewrite (rfind_none SLASH path N), app_nil_r in H. exact H.
    + right. exists a, b. rewrite K in H by exact N. auto.
Qed.

Lemma not_meta : forall c q, ~ asks_metadata c q -> (beq (hq_target q) WELL_KNOWN || beq (hq_target q) (well_known_base c))%bool = false.
Proof.
  intros c q H. rewrite metadata_iff in H. rewrite !beq_false; [reflexivity|intro E; apply H; now right|intro E; apply H; now left].
Qed.
Lemma is_meta : forall c q, asks_metadata c q -> (beq (hq_target q) WELL_KNOWN || beq (hq_target q) (well_known_base c))%bool = true.
Proof. intros c q H. apply metadata_iff in H. destruct H as [-> | ->]; rewrite beq_refl; [reflexivity|apply orb_true_r]. Qed.
Lemma not_end : forall c q, ~ at_endpoint c q ->
  (match hc_endpoint c with [] => false | _ => true end && beq (hq_target q) (hc_endpoint c))%bool = false.
Proof.
  intros c q H. unfold at_endpoint in H. destruct (hc_endpoint c) eqn:E; [reflexivity|]. cbn [andb].
  apply beq_false. intro X. apply H. now split.
Qed.
Lemma is_end : forall c q, at_endpoint c q ->
  (match hc_endpoint c with [] => false | _ => true end && beq (hq_target q) (hc_endpoint c))%bool = true.
Proof. intros c q [N ->]. destruct (hc_endpoint c); [contradiction|]. cbn [andb]. apply beq_refl. Qed.

Lemma refuse_make : forall loopback c verify now draw hd q h st body,
  check_local loopback (hc_address c) (f_host q) (f_origin q) = None -> refused c verify now q h st body ->
  make_response loopback c verify now draw hd q h = (Answer (plain st body), [], h).
Proof.
  intros loopback c verify now draw hd q h st body L R. unfold make_response. rewrite L.
  destruct R as [M V|M E V|M E V T1 T2|M E V T I D|M E V T0 T I D|M E I V1 V2|M E I V F|M E I V F O].
  - rewrite is_meta by exact M. destruct (hq_verb q); try contradiction; reflexivity.
  - rewrite not_meta, not_end by assumption. destruct (hq_verb q); try contradiction; reflexivity.
  - rewrite not_meta, not_end, V by assumption. now rewrite !beq_false by assumption.
  - rewrite not_meta, not_end, V, T by assumption. rewrite beq_refl. unfold handle_rpc.
    destruct (let_in_enforce _ _ _ _ I) as [i ->]. destruct (deser_request request0 (hq_body q)) as [[] r]; [discriminate|].
    cbn [negb]. replace PARSE_ERROR with NO_REQUEST by (vm_compute; reflexivity). reflexivity.
  - rewrite not_meta, not_end, V by assumption. rewrite (beq_false _ _ T0), T, beq_refl. unfold handle_notify.
    destruct (let_in_enforce _ _ _ _ I) as [i ->]. destruct (deser_notification notification0 (hq_body q)) as [[] r]; [discriminate|].
    cbn [negb]. match goal with |- (Answer (plain 200 ?x), _, _) = _ => replace x with NO_NOTIFICATION by (vm_compute; reflexivity) end. reflexivity.
  - rewrite not_meta, is_end by assumption. unfold handle_endpoint. destruct (let_in_enforce _ _ _ _ I) as [i ->].
    destruct (hq_verb q); try contradiction; reflexivity.
  - rewrite not_meta, is_end by assumption. unfold handle_endpoint. destruct (let_in_enforce _ _ _ _ I) as [i ->]. now rewrite V, F.
  - rewrite not_meta, is_end by assumption. unfold handle_endpoint. destruct (let_in_enforce _ _ _ _ I) as [i ->]. rewrite V, F.
    destruct (deser_request request0 (hq_body q)) as [ok r]. cbn [fst snd] in O.
    replace (ok && beq (rq_method r) (bs "initialize") && match f_session q with [] => true | _ => false end)%bool with false; [reflexivity|].
    symmetry. destruct O as [O|[->|O]].
    + destruct (f_session q); [contradiction|]. apply andb_false_r.
    + reflexivity.
    + rewrite (beq_false _ _ O). now rewrite andb_false_r.
Qed.

Lemma refuse_serve : forall loopback c verify now draw hd q h st body,
  check_local loopback (hc_address c) (f_host q) (f_origin q) = None -> ~ at_stream c q -> refused c verify now q h st body ->
  serve loopback c verify now draw hd q h = (Answer (plain st body), [], h).
Proof. intros. rewrite serve_not_stream by assumption. now apply refuse_make. Qed.

Lemma route_ok : forall hd info body n h r calls h', endpoint_route hd info body n h = (Answer r, calls, h') -> (hr_status r < 400)%N.
Proof.
  intros hd info body n h r calls h'. unfold endpoint_route. destruct (route hd body) as [cs out].
  destruct (fold_left _ cs ([], h)) as [extra h1]. destruct out as [[b|]|]; intro E; try discriminate; injection E as <- _ _; reflexivity.
Qed.

Lemma no_effect : forall loopback c verify now draw hd q h r calls h',
  serve loopback c verify now draw hd q h = (Answer r, calls, h') -> (400 <= hr_status r)%N ->
  calls = [] /\ h' = h /\ hr_session r = None.
Proof.
  assert (forall (x r : hres) (calls : list (option token_info * call)) (h h' : hstate),
    (Answer x, [], h) = (Answer r, calls, h') -> hr_session x = None -> calls = [] /\ h' = h /\ hr_session r = None) as K.
  { intros x r calls h h' E S. injection E as -> <- <-. auto. }
  intros loopback c verify now draw hd q h r calls h' H B. unfold serve in H.
  destruct (_ && _ && _)%bool in H.
  { destruct (check_local _ _ _ _); [now apply K in H|]. destruct (find_session (f_session q) h) as [n|]; [|now apply K in H].
    destruct (check_version _ _); [discriminate|now apply K in H]. }
  unfold make_response in H. destruct (check_local _ _ _ _); [now apply K in H|].
  destruct (_ || _)%bool in H.
  { destruct (hq_verb q); now apply K in H. }
  assert (forall x, enforce c verify now q = inl x -> hr_session x = None) as EN.
  { intros x. unfold enforce. destruct (negb (hc_auth c)); [discriminate|]. destruct (br_ok _); [discriminate|]. now intros [= <-]. }
  destruct (_ && _)%bool in H.
  - unfold handle_endpoint in H. destruct (enforce c verify now q) as [x|i]; [apply K in H; auto|].
    destruct (hq_verb q); try now apply K in H.
    + destruct (deser_request request0 (hq_body q)) as [ok rq]. destruct (_ && _ && _)%bool in H.
      * apply route_ok in H. lia.
      * destruct (find_session (f_session q) h) as [n|]; [|now apply K in H].
        destruct (check_version _ _); [apply route_ok in H; lia|now apply K in H].
    + destruct (f_session q); [now apply K in H|]. injection H as <- _ _. cbn in B. lia.
  - destruct (hq_verb q); try now apply K in H.
    destruct (beq (hq_target q) (hc_rpc c)); [|destruct (beq (hq_target q) (hc_notify c)); [|now apply K in H]].
    + unfold handle_rpc in H. destruct (enforce c verify now q) as [x|i]; [apply K in H; auto|].
      destruct (deser_request request0 (hq_body q)) as [ok rq]. destruct (negb ok); [now apply K in H|].
      destruct (route hd (hq_body q)) as [cs out]. destruct out as [[b|]|]; try discriminate; injection H as <- _ _; cbn in B; lia.
    + unfold handle_notify in H. destruct (enforce c verify now q) as [x|i]; [apply K in H; auto|].
      destruct (deser_notification notification0 (hq_body q)) as [ok rq]. destruct (negb ok); [now apply K in H|].
      destruct (route hd (hq_body q)) as [cs out]. destruct out; try discriminate; injection H as <- _ _; cbn in B; lia.
Qed.
