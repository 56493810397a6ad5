From Coq Require Import Ascii String List Sorted Arith NArith ZArith Bool Lia.
From Verif Require Import StrModel StrProofs DoubleModel JsonModel RpcModel RouterModel MapModel MapProofs MemModel
  AuthModel AuthSpec AuthProofs WwwModel GuardModel GuardSpec GuardProofs HttpModel HttpSpec.
Import ListNotations.
Local Open Scope nat_scope.

(** Lists *)

Lemma set_nth_length : forall A n (x : A) l, n < length l -> length (set_nth n x l) = length l.
Proof. intros A n x l H. unfold set_nth. rewrite app_length, firstn_length. cbn [length]. rewrite skipn_length. lia. Qed.

Lemma nth_set_same : forall A n (x : A) l, n < length l -> nth_error (set_nth n x l) n = Some x.
Proof.
  intros A n x l H. unfold set_nth. rewrite nth_error_app2; rewrite firstn_length; [|lia].
  replace (n - Nat.min n (length l)) with 0 by lia. reflexivity.
Qed.

Lemma nth_set_other : forall A n m (x : A) l, n < length l -> m <> n -> nth_error (set_nth n x l) m = nth_error l m.
Proof.
  intros A n m x l H N. unfold set_nth. destruct (lt_dec m n) as [L|L].
  - rewrite nth_error_app1 by (rewrite firstn_length; lia).
    rewrite <- (firstn_skipn n l) at 2. rewrite nth_error_app1 by (rewrite firstn_length; lia). reflexivity.
  - rewrite nth_error_app2; rewrite firstn_length; [|lia].
    replace (m - Nat.min n (length l)) with (S (m - S n)) by lia. cbn [nth_error].
    rewrite <- (firstn_skipn (S n) l) at 2. rewrite nth_error_app2; rewrite firstn_length; [|lia].
    f_equal. lia.
Qed.

Lemma nth_lt : forall A n (l : list A) x, nth_error l n = Some x -> n < length l.
Proof. intros A n l x H. apply nth_error_Some. congruence. Qed.

(** Authentication *)

Lemma enforce_refuses : forall c verify now q, hc_auth c = true -> unadmitted c verify now q ->
  exists r, enforce c verify now q = inl r /\ (hr_status r = 401%N \/ hr_status r = 403%N) /\
    hr_session r = None.
Proof.
  intros c verify now q A U. unfold enforce. rewrite A. cbn [negb].
  destruct (br_ok (check_bearer (f_auth q) verify (hc_bearer c) now)) eqn:E.
  - exfalso. destruct (br_info (check_bearer (f_auth q) verify (hc_bearer c) now)) as [i|] eqn:I.
    + apply (U i). apply admitted_iff. now split.
    + destruct (check_ends (f_auth q) verify (hc_bearer c) now) as
        [r N ->|r t err C V ->|r t j C V S ->|r t j C V S Z0 ->|r t j C V S Z0 L ->|r t j C V S Z0 L ->];
        cbn in E, I; discriminate.
  - eexists. split; [reflexivity|]. cbn. split; [|reflexivity].
    destruct (N.eqb _ 403); auto.
Qed.

Lemma enforce_admits : forall c verify now q info, enforce c verify now q = inr info ->
  (hc_auth c = false /\ info = None) \/
  (hc_auth c = true /\ exists i, info = Some i /\ admitted (f_auth q) verify (hc_bearer c) now i).
Proof.
  intros c verify now q info H. unfold enforce in H. destruct (hc_auth c); cbn [negb] in H.
  2:{ left. split; [reflexivity | congruence]. }
  right. split; [reflexivity|].
  destruct (br_ok (check_bearer (f_auth q) verify (hc_bearer c) now)) eqn:E; [|discriminate].
  injection H as H. destruct info as [i|].
  - exists i. split; [reflexivity|]. apply admitted_iff. now split.
  - exfalso. destruct (check_ends (f_auth q) verify (hc_bearer c) now) as
      [r N ->|r t err C V ->|r t j C V S ->|r t j C V S Z0 ->|r t j C V S Z0 L ->|r t j C V S Z0 L ->];
      cbn in E, H; discriminate.
Qed.

Definition harmless (h : hstate) (x : handled_by) : Prop :=
  exists r, x = (Answer r, [], h) /\ hr_session r = None.

Lemma harmless_plain : forall s b h, harmless h (Answer (plain s b), [], h).
Proof. intros. exists (plain s b). now split. Qed.

Lemma make_unadmitted : forall loopback c verify now draw hd q h,
  hc_auth c = true -> unadmitted c verify now q -> harmless h (make_response loopback c verify now draw hd q h).
Proof.
  intros loopback c verify now draw hd q h A U.
  destruct (enforce_refuses c verify now q A U) as (r & E & S & N).
  assert (R : harmless h (Answer r, [], h)) by (exists r; now split).
  unfold make_response. destruct (check_local _ _ _ _) as [body|]; [apply harmless_plain|].
  destruct (beq (hq_target q) WELL_KNOWN || beq (hq_target q) (well_known_base c))%bool.
  { destruct (hq_verb q); apply harmless_plain. }
  destruct (_ && beq (hq_target q) (hc_endpoint c))%bool.
  { unfold handle_endpoint. now rewrite E. }
  destruct (hq_verb q); try apply harmless_plain.
  destruct (beq (hq_target q) (hc_rpc c)); [unfold handle_rpc; now rewrite E|].
  destruct (beq (hq_target q) (hc_notify c)); [unfold handle_notify; now rewrite E|].
  apply harmless_plain.
Qed.

Lemma serve_not_stream : forall loopback c verify now draw hd q h, ~ asks_stream c q ->
  serve loopback c verify now draw hd q h = make_response loopback c verify now draw hd q h.
Proof.
  intros loopback c verify now draw hd q h N. unfold serve.
  destruct (_ && _ && _)%bool eqn:E; [|reflexivity]. exfalso. apply N.
  apply andb_true_iff in E as [E E3]. apply andb_true_iff in E as [E1 E2].
  split; [destruct (hc_endpoint c); [discriminate E1 | discriminate]|].
  split; [destruct (hq_verb q); try discriminate E2; reflexivity | now apply beq_eq].
Qed.

Lemma serve_stream : forall loopback c verify now draw hd q h, asks_stream c q ->
  serve loopback c verify now draw hd q h =
    match check_local loopback (hc_address c) (f_host q) (f_origin q) with
    | Some body => (Answer (plain 403 body), [], h)
    | None =>
      match find_session (f_session q) h with
      | None => (Answer (plain 400 (bs "{""error"":""Missing or invalid session""}")), [], h)
      | Some n =>
          let v := match nth_error (hs_heap h) n with Some s => ss_version s | None => PROTO end in
          if check_version (f_version q) v then (Streaming n, [], open_stream n h)
          else (Answer (plain 400 (bs "{""error"":""Unsupported protocol version""}")), [], h)
      end
    end.
Proof.
  intros loopback c verify now draw hd q h (A & B & C). unfold serve. rewrite B, C, beq_refl.
  destruct (hc_endpoint c); [congruence | reflexivity].
Qed.

(** Token info during calls *)

Lemma tagged_in : forall i l t x, In (t, x) (tagged i l) -> t = i.
Proof. intros i l t x H. apply in_map_iff in H as (y & E & _). congruence. Qed.

Lemma endpoint_route_tags : forall hd info body n h a calls h', endpoint_route hd info body n h = (a, calls, h') ->
  forall t x, In (t, x) calls -> t = info.
Proof.
  intros hd info body n h a calls h' H t x I. unfold endpoint_route in H.
  destruct (route hd body) as [cs out]. destruct (fold_left _ cs ([], h)) as [ex hh].
  destruct out as [[b|]|]; injection H as <- <- <-; now apply tagged_in in I.
Qed.

Lemma make_tags : forall loopback c verify now draw hd q h a calls h',
  make_response loopback c verify now draw hd q h = (a, calls, h') ->
  forall t x, In (t, x) calls -> enforce c verify now q = inr t.
Proof.
  intros loopback c verify now draw hd q h a calls h' H t x I. unfold make_response in H.
  destruct (check_local _ _ _ _) as [body|]; [injection H as <- <- <-; destruct I|].
  destruct (beq (hq_target q) WELL_KNOWN || beq (hq_target q) (well_known_base c))%bool.
  { destruct (hq_verb q); injection H as <- <- <-; destruct I. }
  destruct (_ && beq (hq_target q) (hc_endpoint c))%bool.
  { unfold handle_endpoint in H. destruct (enforce c verify now q) as [r|info] eqn:E; [injection H as <- <- <-; destruct I|].
    f_equal. symmetry. destruct (hq_verb q).
    - injection H as <- <- <-; destruct I.
    - destruct (deser_request request0 (hq_body q)) as [isreq r]. destruct (_ && _ && _)%bool.
      + exact (endpoint_route_tags _ _ _ _ _ _ _ _ H t x I).
      + destruct (find_session (f_session q) h) as [n|]; [|injection H as <- <- <-; destruct I].
        destruct (check_version _ _); [exact (endpoint_route_tags _ _ _ _ _ _ _ _ H t x I) | injection H as <- <- <-; destruct I].
    - destruct (f_session q); injection H as <- <- <-; destruct I.
    - injection H as <- <- <-; destruct I. }
  destruct (hq_verb q); try (injection H as <- <- <-; destruct I; fail).
  destruct (beq (hq_target q) (hc_rpc c)).
  { unfold handle_rpc in H. destruct (enforce c verify now q) as [r|info] eqn:E; [injection H as <- <- <-; destruct I|].
    f_equal. symmetry. destruct (deser_request request0 (hq_body q)) as [ok rpc]. destruct ok; cbn [negb] in H; [|injection H as <- <- <-; destruct I].
    destruct (route hd (hq_body q)) as [cs [[b|]|]]; injection H as <- <- <-; now apply tagged_in in I. }
  destruct (beq (hq_target q) (hc_notify c)).
  { unfold handle_notify in H. destruct (enforce c verify now q) as [r|info] eqn:E; [injection H as <- <- <-; destruct I|].
    f_equal. symmetry. destruct (deser_notification notification0 (hq_body q)) as [ok rpc]. destruct ok; cbn [negb] in H; [|injection H as <- <- <-; destruct I].
    destruct (route hd (hq_body q)) as [cs [b|]]; injection H as <- <- <-; now apply tagged_in in I. }
  injection H as <- <- <-; destruct I.
Qed.

Lemma serve_tags : forall loopback c verify now draw hd q h a calls h',
  serve loopback c verify now draw hd q h = (a, calls, h') ->
  forall t x, In (t, x) calls -> enforce c verify now q = inr t.
Proof.
  intros loopback c verify now draw hd q h a calls h' H t x I. unfold serve in H.
  destruct (_ && _ && _)%bool; [|exact (make_tags _ _ _ _ _ _ _ _ _ _ _ H t x I)].
  destruct (check_local _ _ _ _); [injection H as <- <- <-; destruct I|].
  destruct (find_session _ _); [|injection H as <- <- <-; destruct I].
  destruct (check_version _ _); injection H as <- <- <-; destruct I.
Qed.

(** The guard *)

Lemma serve_guard : forall loopback c verify now draw hd q h,
  serve loopback c verify now draw hd q h =
  match check_local loopback (hc_address c) (f_host q) (f_origin q) with
  | Some body => (Answer (plain 403 body), [], h)
  | None => serve (fun _ => false) (bound_to [] c) verify now draw hd q h
  end.
Proof.
  intros loopback c verify now draw hd q h. unfold serve, make_response.
  assert (K : check_local (fun _ => false) (hc_address (bound_to [] c)) (f_host q) (f_origin q) = None) by reflexivity.
  rewrite K. change (stream_path (bound_to [] c)) with (stream_path c).
  change (hc_endpoint (bound_to [] c)) with (hc_endpoint c).
  change (well_known_base (bound_to [] c)) with (well_known_base c).
  destruct (check_local loopback _ _ _); [destruct (_ && _ && _)%bool; reflexivity | reflexivity].
Qed.

(** Protocol versions *)

Lemma field_without_same : forall n q, field n (without n q) = [].
Proof.
  intros n q. unfold field, without. cbn. induction (hq_fields q) as [|f l IH]; [reflexivity|].
  cbn. destruct (beq (lower (fst f)) n) eqn:E; cbn; [exact IH|]. now rewrite E.
Qed.

Lemma field_without_other : forall n m q, m <> n -> field m (without n q) = field m q.
Proof.
  intros n m q N. unfold field, without. cbn. induction (hq_fields q) as [|f l IH]; [reflexivity|].
  cbn. destruct (beq (lower (fst f)) n) eqn:E; cbn.
  - apply beq_eq in E. destruct (beq (lower (fst f)) m) eqn:F; [apply beq_eq in F; congruence | exact IH].
  - destruct (beq (lower (fst f)) m) eqn:F; [reflexivity | exact IH].
Qed.

Definition VER : bstr := bs "mcp-protocol-version".

Lemma f_without : forall q, f_host (without VER q) = f_host q /\ f_origin (without VER q) = f_origin q /\
  f_auth (without VER q) = f_auth q /\ f_session (without VER q) = f_session q /\ f_version (without VER q) = [].
Proof.
  intros q. unfold f_host, f_origin, f_auth, f_session, f_version.
  rewrite !(field_without_other VER) by discriminate. fold VER. rewrite field_without_same. repeat split.
Qed.

Lemma enforce_without : forall c verify now q, enforce c verify now (without VER q) = enforce c verify now q.
Proof. intros. unfold enforce. destruct (f_without q) as (_ & _ & -> & _). reflexivity. Qed.

Definition session_version (q : hreq) (h : hstate) (v : bstr) : Prop :=
  exists n s, find_session (f_session q) h = Some n /\ nth_error (hs_heap h) n = Some s /\ ss_version s = v.

Lemma make_version_ok : forall loopback c verify now draw hd q h v,
  session_version q h v -> check_version (f_version q) v = true ->
  make_response loopback c verify now draw hd q h = make_response loopback c verify now draw hd (without VER q) h.
Proof.
  intros loopback c verify now draw hd q h v (n & s & F & N & V) K. unfold make_response.
  destruct (f_without q) as (-> & -> & HA & HS & HV).
  change (hq_target (without VER q)) with (hq_target q). change (hq_verb (without VER q)) with (hq_verb q).
  destruct (check_local _ _ _ _); [reflexivity|].
  destruct (_ || _)%bool; [reflexivity|].
  assert (E1 : handle_endpoint c verify now draw hd q h = handle_endpoint c verify now draw hd (without VER q) h).
  { unfold handle_endpoint. rewrite enforce_without. change (hq_verb (without VER q)) with (hq_verb q).
    change (hq_body (without VER q)) with (hq_body q). rewrite HS, HV, F, N, V. cbv zeta. rewrite K. reflexivity. }
  assert (E2 : handle_rpc c verify now hd q h = handle_rpc c verify now hd (without VER q) h).
  { unfold handle_rpc. rewrite enforce_without. reflexivity. }
  assert (E3 : handle_notify c verify now hd q h = handle_notify c verify now hd (without VER q) h).
  { unfold handle_notify. rewrite enforce_without. reflexivity. }
  now rewrite E1, E2, E3.
Qed.

Lemma serve_version_ok : forall loopback c verify now draw hd q h v,
  session_version q h v -> check_version (f_version q) v = true ->
  serve loopback c verify now draw hd q h = serve loopback c verify now draw hd (without VER q) h.
Proof.
  intros loopback c verify now draw hd q h v SV K. unfold serve.
  change (hq_target (without VER q)) with (hq_target q). change (hq_verb (without VER q)) with (hq_verb q).
  rewrite <- (make_version_ok loopback c verify now draw hd q h v SV K).
  destruct (f_without q) as (-> & -> & HA & -> & ->). destruct SV as (n & s & F & N & V).
  rewrite F, N, V. cbv zeta. rewrite K. reflexivity.
Qed.

Lemma serve_version_bad_stream : forall loopback c verify now draw hd q h v,
  asks_stream c q -> session_version q h v -> check_version (f_version q) v = false ->
  check_local loopback (hc_address c) (f_host q) (f_origin q) = None ->
  serve loopback c verify now draw hd q h = (Answer (plain 400 (bs "{""error"":""Unsupported protocol version""}")), [], h).
Proof.
  intros loopback c verify now draw hd q h v A (n & s & F & N & V) K L.
  rewrite (serve_stream _ _ _ _ _ _ _ _ A), L, F, N, V. cbv zeta. rewrite K. reflexivity.
Qed.

Lemma serve_version_bad_post : forall loopback c verify now draw hd q h v,
  hq_verb q = POST -> hc_endpoint c <> [] -> hq_target q = hc_endpoint c ->
  hc_endpoint c <> WELL_KNOWN -> hc_endpoint c <> well_known_base c -> f_session q <> [] ->
  session_version q h v -> check_version (f_version q) v = false ->
  check_local loopback (hc_address c) (f_host q) (f_origin q) = None ->
  (hc_auth c = false \/ exists i, admitted (f_auth q) verify (hc_bearer c) now i) ->
  serve loopback c verify now draw hd q h = (Answer (plain 400 (bs "{""error"":""Unsupported protocol version""}")), [], h).
Proof.
  intros loopback c verify now draw hd q h v P E T W1 W2 NS (n & s & F & N & V) K L A.
  rewrite serve_not_stream by (intros (_ & Q & _); congruence). unfold make_response. rewrite L, T.
  assert (B1 : beq (hc_endpoint c) WELL_KNOWN = false) by (apply beq_neq; exact W1).
  assert (B2 : beq (hc_endpoint c) (well_known_base c) = false) by (apply beq_neq; exact W2).
  rewrite B1, B2, beq_refl. cbn [orb]. destruct (hc_endpoint c) as [|e0 e1]; [congruence|]. cbn [andb].
  unfold handle_endpoint.
  assert (X : exists info, enforce c verify now q = inr info).
  { unfold enforce. destruct A as [->|(i & A)]; [eexists; reflexivity|].
    destruct (hc_auth c); cbn [negb]; [|eexists; reflexivity].
    apply admitted_iff in A as [-> _]. eexists; reflexivity. }
  destruct X as (info & ->). rewrite P. destruct (deser_request request0 (hq_body q)) as [isreq r].
  destruct (f_session q) as [|s0 s1] eqn:FS; [congruence|]. rewrite andb_false_r. rewrite F, N, V. cbv zeta. rewrite K. reflexivity.
Qed.
