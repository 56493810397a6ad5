From Coq Require Import Ascii String List Permutation Arith NArith ZArith Bool Lia ZifyBool ZifyNat ZifyN.
From Verif Require Import StrModel StrProofs DoubleModel JsonModel RpcModel OauthModel DiscoModel DiscoSpec DiscoProofs ConfModel DialModel DialSpec.
Import ListNotations.
Local Open Scope nat_scope.

Lemma handshake_iff c p : handshake c p = true ->
  (ck_min c <= pe_version p <= ck_max c)%N /\
  (ck_verify c = true -> (exists r, In r (ck_roots c) /\ pe_vouched p r = true) /\ (forall n, ck_name c = Some n -> In n (pe_names p))).
Proof.
  unfold handshake. intros H. apply andb_true_iff in H. destruct H as [H H3]. apply andb_true_iff in H. destruct H as [H1 H2].
  split; [lia|]. intros V. rewrite V in H3. cbn in H3. apply andb_true_iff in H3. destruct H3 as [H3 H4].
  split; [apply existsb_exists in H3; destruct H3 as (r & A & B); eauto|].
  intros n E. rewrite E in H4. apply existsb_exists in H4. destruct H4 as (x & A & B). apply beq_eq in B. now subst.
Qed.

Lemma http_roots_trusted ld o r : In r (fst (http_roots ld o)) -> trusts o r.
Proof.
  unfold http_roots, trusts. destruct (ho_cafile o) as [|a f]; destruct (ho_capath o) as [|b d]; cbn [fst].
  - destruct (ld RSystem); cbn; intuition congruence.
  - destruct (ld (RDir _)); [|intros []]. intros [<-|[]]; right; split; congruence.
  - destruct (ld (RFile _)); [|intros []]. intros [<-|[]]; left; split; congruence.
  - destruct (ld (RFile _)); [|intros []]. destruct (ld (RDir _)); cbn; intros [<-|H]; [left; split; congruence| |left; split; congruence|destruct H].
    destruct H as [<-|[]]. right; split; congruence.
Qed.
Lemma http_roots_all ld o r : loadable ld o -> trusts o r -> snd (http_roots ld o) = true /\ In r (fst (http_roots ld o)).
Proof.
  unfold loadable, http_roots, trusts. intros H T.
  destruct (ho_cafile o) as [|a f] eqn:F; destruct (ho_capath o) as [|b d] eqn:D.
  - rewrite (H RSystem eq_refl). subst r. cbn. auto.
  - assert (X : ld (RDir (b :: d)) = true) by (apply H; right; split; congruence). rewrite X. cbn.
    destruct T as [[T _]|[_ ->]]; [congruence|auto].
  - assert (X : ld (RFile (a :: f)) = true) by (apply H; left; split; congruence). rewrite X. cbn.
    destruct T as [[_ ->]|[T _]]; [auto|congruence].
  - assert (X : ld (RFile (a :: f)) = true) by (apply H; left; split; congruence).
    assert (Y : ld (RDir (b :: d)) = true) by (apply H; right; split; congruence). rewrite X, Y. cbn.
    destruct T as [[_ ->]|[_ ->]]; auto.
Qed.
Lemma http_roots_closed ld o : ho_cafile o <> [] \/ ho_capath o <> [] -> (exists r, trusts o r /\ ld r = false) -> snd (http_roots ld o) = false.
Proof.
  unfold http_roots, trusts. intros G (r & T & L).
  destruct (ho_cafile o) as [|a f] eqn:F; destruct (ho_capath o) as [|b d] eqn:D.
  - destruct G; congruence.
  - destruct T as [[T _]|[_ ->]]; [congruence|]. now rewrite L.
  - destruct T as [[_ ->]|[T _]]; [|congruence]. now rewrite L.
  - destruct T as [[_ ->]|[_ ->]]; [now rewrite L|]. destruct (ld (RFile _)); [now rewrite L|reflexivity].
Qed.

Lemma dials_to ld o t d : http_dials ld o t d ->
  dl_host d = ho_host o /\ dl_port d = ho_port o /\ dl_tls d = http_tls ld o /\ dl_header d = http_header o /\ dl_secret d = http_secret o t.
Proof.
  unfold http_dials, post_dial. cbv zeta. destruct (is_https o && negb _)%bool.
  - intros [H|[H|[H|H]]]; try discriminate. subst d. repeat split.
  - intros [H|[H|[H|H]]]; try (apply (f_equal (fun x => match x with Some y => y | None => d end)) in H); subst d; repeat split.
Qed.

Lemma https_verified ld o t d p : ho_scheme o = bs "https" -> http_dials ld o t d -> reaches d p = true ->
  pe_version p = TLS13 /\ (exists r, trusts o r /\ pe_vouched p r = true) /\ (ho_server o <> [] -> In (ho_server o) (pe_names p)).
Proof.
  intros S D R. destruct (dials_to _ _ _ _ D) as (_ & _ & T & _). unfold reaches in R. rewrite T in R. unfold http_tls, is_https in R.
  rewrite S, beq_refl in R. apply handshake_iff in R. destruct R as [V C]. unfold http_check in V, C. cbn [ck_min ck_max ck_verify ck_roots ck_name] in V, C.
  destruct (C eq_refl) as [(r & A & B) N]. split; [lia|]. split; [exists r; split; [now apply (http_roots_trusted ld)|exact B]|].
  intros X. apply N. unfold nonempty. destruct (ho_server o); [congruence|reflexivity].
Qed.

Lemma secret_iff o t v : http_secret o t = Some v <-> credential o t v.
Proof.
  unfold http_secret, credential, bearer_secret. split.
  - destruct (beq (ho_auth o) (bs "bearer")) eqn:B.
    + apply beq_eq in B. destruct (ho_token o) as [|c r] eqn:E; [discriminate|]. intros [= <-]. exists (c :: r). repeat split; [discriminate|]. left. auto.
    + destruct (beq (ho_auth o) (bs "oauth2")) eqn:O; [|discriminate]. apply beq_eq in O.
      destruct t as [|c r]; [discriminate|]. intros [= <-]. exists (c :: r). repeat split; [discriminate|]. right. auto.
  - intros (x & N & -> & [[A ->]|[A ->]]); rewrite A.
    + rewrite beq_refl. destruct (ho_token o); [congruence|reflexivity].
    + change (beq (bs "oauth2") (bs "bearer")) with false. cbv iota. rewrite beq_refl. destruct t; [congruence|reflexivity].
Qed.

Lemma token_https w ld ca cp form p : web_ok w -> wb_secure w = true -> wb_host w <> [] -> reaches (token_dial ld (web_text w) ca cp form) p = true ->
  pe_version p = TLS13 /\ genuine (wb_host w) (fun r => r = RSystem) p.
Proof.
  intros W S N. unfold token_dial. cbv zeta. rewrite (parse_web w W). unfold reaches. cbn [dl_tls up_scheme up_host]. rewrite S.
  cbv iota. rewrite beq_refl. intros R. apply handshake_iff in R. destruct R as [V C]. unfold token_check in V, C. cbn [ck_min ck_max ck_verify ck_roots ck_name] in V, C.
  destruct (C eq_refl) as [(r & A & B) Nm]. split; [lia|]. split.
  - apply Nm. unfold nonempty. destruct (wb_host w); [congruence|reflexivity].
  - destruct (ld RSystem); [|destruct A]. destruct A as [<-|[]]. eauto.
Qed.
Lemma disco_https w ld sn ca cp p : web_ok w -> wb_secure w = true -> wb_host w <> [] -> reaches (disco_dial ld (web_text w) sn ca cp) p = true ->
  (TLS12 <= pe_version p <= TLS13)%N /\
  genuine (match sn with [] => wb_host w | _ => sn end) (fun r => r = RSystem \/ (ca <> [] /\ r = RFile ca) \/ (cp <> [] /\ r = RDir cp)) p.
Proof.
  intros W S N. unfold disco_dial. cbv zeta. rewrite (parse_web w W). unfold reaches. cbn [dl_tls up_scheme up_host]. rewrite S.
  cbv iota. rewrite beq_refl. intros R. apply handshake_iff in R. destruct R as [V C]. cbn [ck_min ck_max ck_verify ck_roots ck_name] in V, C.
  destruct (C eq_refl) as [(r & A & B) Nm]. split; [lia|]. split.
  - apply Nm. unfold nonempty. destruct sn; [destruct (wb_host w); [congruence|reflexivity]|reflexivity].
  - exists r. split; [|exact B]. unfold disco_roots in A. apply in_app_or in A. destruct A as [A|A]; [destruct (ld RSystem); cbn in A; intuition congruence|].
    apply in_app_or in A. destruct A as [A|A].
    + destruct ca as [|c ca]; [destruct A|]. destruct (ld (RFile _)); [|destruct A]. destruct A as [<-|[]]. right; left. split; congruence.
    + destruct cp as [|c cp]; [destruct A|]. destruct (ld (RDir _)); [|destruct A]. destruct A as [<-|[]]. right; right. split; congruence.
Qed.
