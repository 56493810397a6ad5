(** C126 to C128: whom the HTTP client's secrets reach. *)
From Coq Require Import Ascii String List Permutation Arith NArith ZArith Bool Lia ZifyBool ZifyNat ZifyN.
From Verif Require Import StrModel StrProofs DoubleModel JsonModel RpcModel OauthModel GuardModel DiscoModel DiscoSpec DiscoProofs ConfModel DialModel DialSpec DialProofs.
Import ListNotations.
Local Open Scope nat_scope.

(** C126. With scheme https, whoever reads a POST, a DELETE or the request for the event stream
    speaks TLS 1.3 and has a certificate issued under the authorities the options name, the
    system's only if they name none, and for the server name the options give. Missing: with no
    server name given the name in the certificate is not looked at, refuted below. *)
Theorem C126_https_partial : forall ld o token d p,
  ho_scheme o = bs "https" -> ho_server o <> [] -> http_dials ld o token d -> reaches d p = true ->
  pe_version p = TLS13 /\ genuine (ho_server o) (trusts o) p.
Proof.
  intros ld o token d p S N D R. destruct (https_verified _ _ _ _ _ S D R) as (V & A & B).
  split; [exact V|]. split; [now apply B|exact A].
Qed.
Print Assumptions C126_https_partial.
(** C126. Without a server name, all but the name. *)
Theorem C126_issuer : forall ld o token d p,
  ho_scheme o = bs "https" -> http_dials ld o token d -> reaches d p = true ->
  pe_version p = TLS13 /\ exists r, trusts o r /\ pe_vouched p r = true.
Proof. intros ld o token d p S D R. destruct (https_verified _ _ _ _ _ S D R) as (V & A & _). auto. Qed.
Print Assumptions C126_issuer.

(** C126. The server the options describe is not turned away: if their authorities load, a peer
    with TLS 1.3 that is genuine is sent the message. *)
Theorem C126_served : forall ld o token p name,
  loadable ld o -> (ho_server o <> [] -> name = ho_server o) -> genuine name (trusts o) p -> pe_version p = TLS13 ->
  exists d, post_dial ld o (bs "POST") (ho_request_path o) (http_secret o token) = Some d /\ reaches d p = true.
Proof.
  intros ld o token p name L E (N & r & T & V) P. destruct (http_roots_all ld o r L T) as [C I].
  unfold post_dial. rewrite C, andb_false_r. eexists. split; [reflexivity|].
  unfold reaches, http_tls. cbn [dl_tls]. destruct (is_https o); [|reflexivity].
  unfold handshake, http_check. cbn [ck_min ck_max ck_verify ck_roots ck_name]. rewrite P. cbn [negb orb].
  rewrite !N.leb_refl. cbn [andb]. assert (X : existsb (pe_vouched p) (fst (http_roots ld o)) = true) by (apply existsb_exists; eauto).
  rewrite X. cbn [andb]. unfold nonempty. destruct (ho_server o) as [|c s] eqn:F; [reflexivity|].
  apply existsb_exists. exists name. split; [exact N|]. rewrite E by discriminate. apply beq_refl.
Qed.
Print Assumptions C126_served.

(** C126. Authorities that cannot be loaded close the way: no message is posted and no session
    deleted over https. *)
Theorem C126_closed : forall ld o method path secret,
  ho_scheme o = bs "https" -> ho_cafile o <> [] \/ ho_capath o <> [] -> ~ loadable ld o -> post_dial ld o method path secret = None.
Proof.
  intros ld o method path secret S G L. unfold post_dial, is_https. rewrite S, beq_refl, (http_roots_closed ld o G); [reflexivity|].
  destruct (ld (RFile (ho_cafile o))) eqn:F; destruct (ld (RDir (ho_capath o))) eqn:D.
  - exfalso. apply L. unfold loadable, trusts. intros r T. destruct (ho_cafile o); destruct (ho_capath o); intuition congruence.
  - destruct (ho_capath o) as [|c r] eqn:E.
    + exfalso. apply L. unfold loadable, trusts. intros x T. rewrite E in T. destruct (ho_cafile o); intuition congruence.
    + exists (RDir (c :: r)). split; [|exact D]. unfold trusts. rewrite E. destruct (ho_cafile o); right; split; congruence.
  - destruct (ho_cafile o) as [|c r] eqn:E.
    + exfalso. apply L. unfold loadable, trusts. intros x T. rewrite E in T. destruct (ho_capath o); intuition congruence.
    + exists (RFile (c :: r)). split; [|exact F]. unfold trusts. rewrite E. left; split; congruence.
  - destruct (ho_cafile o) as [|c r] eqn:E.
    + destruct (ho_capath o) as [|c r] eqn:E2; [destruct G; congruence|].
      exists (RDir (c :: r)). split; [|exact D]. unfold trusts. rewrite E, E2. right; split; congruence.
    + exists (RFile (c :: r)). split; [|exact F]. unfold trusts. rewrite E. left; split; congruence.
Qed.
Print Assumptions C126_closed.

(** C126. Every connection goes to the host and port the options name and nowhere else, and the
    only credential in it is the one they ask for. *)
Theorem C126_where : forall ld o token d, http_dials ld o token d ->
  dl_host d = ho_host o /\ dl_port d = ho_port o /\ (forall v, dl_secret d = Some v <-> credential o token v).
Proof.
  intros ld o token d D. destruct (dials_to _ _ _ _ D) as (H & P & _ & _ & S). repeat split; auto; intros X.
  - apply secret_iff. congruence.
  - rewrite S. now apply secret_iff.
Qed.
Print Assumptions C126_where.

Definition everywhere : loader := fun _ => true.
Definition own_ca : hopts := http_config (bs "scheme=https;host=api.example;serverName=api.example;caFile=/ca.pem;auth=bearer;token=t0k").
Definition own_server : peer := {| pe_version := TLS13; pe_vouched := root_eqb (RFile (bs "/ca.pem")); pe_names := [bs "api.example"] |}.
Example C126_ex : ho_scheme own_ca = bs "https" /\ ho_server own_ca = bs "api.example" /\ loadable everywhere own_ca /\
  genuine (bs "api.example") (trusts own_ca) own_server /\
  exists d, http_dials everywhere own_ca [] d /\ reaches d own_server = true /\ dl_secret d = Some (bs "Bearer t0k").
Proof.
  split; [reflexivity|]. split; [reflexivity|]. split; [intros r _; reflexivity|]. split.
  - split; [left; reflexivity|]. exists (RFile (bs "/ca.pem")). split; [left; split; [discriminate|reflexivity]|reflexivity].
  - eexists. split; [left; reflexivity|]. split; reflexivity.
Qed.
Example C126_closed_ex : post_dial (fun _ => false) own_ca (bs "POST") (bs "/mcp/rpc") (Some (bs "Bearer t0k")) = None.
Proof. reflexivity. Qed.

(** C126 does not hold: with no server name, which is the default, any certificate the authorities
    issued to anyone will do, and its holder is sent the token. *)
Theorem C126_name_refuted : exists text, ho_scheme (http_config text) = bs "https" /\ ho_host (http_config text) = bs "api.example" /\
  forall names, exists d, http_dials everywhere (http_config text) [] d /\ dl_secret d = Some (bs "Bearer t0k") /\
    reaches d {| pe_version := TLS13; pe_vouched := root_eqb RSystem; pe_names := names |} = true.
Proof.
  exists (bs "scheme=https;host=api.example;auth=bearer;token=t0k"). split; [reflexivity|]. split; [reflexivity|].
  intros names. eexists. split; [left; reflexivity|]. split; reflexivity.
Qed.
Print Assumptions C126_name_refuted.
(** C126 does not hold: any other spelling of https means no TLS at all, and the token goes out in
    the clear. *)
Theorem C126_scheme_refuted : exists text, lower (ho_scheme (http_config text)) = bs "https" /\
  exists d, http_dials everywhere (http_config text) [] d /\ dl_tls d = None /\ dl_secret d = Some (bs "Bearer t0k") /\
    forall p, reaches d p = true.
Proof.
  exists (bs "scheme=HTTPS;host=api.example;serverName=api.example;caFile=/ca.pem;auth=bearer;token=t0k"). split; [reflexivity|].
  eexists. split; [left; reflexivity|]. split; [reflexivity|]. split; [reflexivity|]. intros p. reflexivity.
Qed.
Print Assumptions C126_scheme_refuted.

(** C127. The client's secret, posted to an https token address, is read only by a peer with TLS 1.3
    that is genuine for the address's host; it is posted to the address's host, port and path. The
    authorities are the system's. *)
Theorem C127_token_partial : forall w ld o p d,
  web_ok w -> wb_secure w = true -> wb_host w <> [] -> ho_oauth o = web_text w -> fetch_dial ld o = Some d ->
  dl_host d = wb_host w /\ dl_port d = match wb_port w with Some x => x | None => bs "443" end /\
  dl_target d = match wb_path w with [] => bs "/" | x => x end /\ dl_method d = bs "POST" /\
  (reaches d p = true -> pe_version p = TLS13 /\ genuine (wb_host w) (fun r => r = RSystem) p).
Proof.
  intros w ld o p d W S N U F. unfold fetch_dial in F. destruct (beq (ho_auth o) (bs "oauth2")); [|discriminate].
  apply (f_equal (fun x => match x with Some y => y | None => d end)) in F. subst d. rewrite U.
  assert (P := parse_web w W). unfold default_port in P. rewrite S in P. unfold token_dial at 1 2 3 4. cbv zeta. rewrite P.
  split; [reflexivity|]. split; [reflexivity|]. split; [reflexivity|]. split; [reflexivity|]. now apply token_https.
Qed.
Print Assumptions C127_token_partial.
(** C127. Discovery: genuine for the server name given, or else the address's host, under the
    system's authorities or those given, with TLS 1.2 or 1.3. *)
Theorem C127_discovery : forall w ld server cafile capath p,
  web_ok w -> wb_secure w = true -> wb_host w <> [] -> reaches (disco_dial ld (web_text w) server cafile capath) p = true ->
  (TLS12 <= pe_version p <= TLS13)%N /\
  genuine (match server with [] => wb_host w | _ => server end)
    (fun r => r = RSystem \/ (cafile <> [] /\ r = RFile cafile) \/ (capath <> [] /\ r = RDir capath)) p.
Proof. intros w ld server cafile capath p W S N. now apply disco_https. Qed.
Print Assumptions C127_discovery.
(** What discovery asks: a GET of the address's path, at its host and port, without a secret. *)
Theorem C127_discovery_asks : forall w ld server cafile capath, web_ok w ->
  let d := disco_dial ld (web_text w) server cafile capath in
  dl_method d = bs "GET" /\ dl_host d = wb_host w /\ dl_header d = wb_host w /\
  dl_port d = match wb_port w with Some x => x | None => if wb_secure w then bs "443" else bs "80" end /\
  dl_target d = match wb_path w with [] => bs "/" | x => x end /\ dl_secret d = None /\ (dl_tls d <> None <-> wb_secure w = true).
Proof.
  intros w ld server cafile capath W. cbv zeta. unfold disco_dial. rewrite (parse_web w W). unfold default_port.
  cbn [up_host up_port up_path up_scheme dl_method dl_host dl_header dl_port dl_target dl_secret dl_tls].
  split; [reflexivity|]. split; [reflexivity|]. split; [reflexivity|]. split; [destruct (wb_port w), (wb_secure w); reflexivity|].
  split; [reflexivity|]. split; [reflexivity|]. destruct (wb_secure w); vm_compute; split; congruence.
Qed.
Print Assumptions C127_discovery_asks.

Definition token_web : web := {| wb_secure := true; wb_host := bs "as.example"; wb_port := None; wb_path := bs "/token" |}.
Definition oauth_opts (more : bstr) : hopts :=
  http_config (bs "host=api.example;auth=oauth2;clientId=me;clientSecret=s3;" ++ more).
Example C127_ex : web_ok token_web /\ ho_oauth (oauth_opts (bs "oauthUrl=https://as.example/token")) = web_text token_web /\
  exists d, fetch_dial everywhere (oauth_opts (bs "oauthUrl=https://as.example/token")) = Some d /\
    dl_secret d = Some (bs "grant_type=client_credentials&client_id=me&client_secret=s3") /\
    reaches d {| pe_version := TLS13; pe_vouched := root_eqb RSystem; pe_names := [bs "as.example"] |} = true /\
    reaches d {| pe_version := TLS13; pe_vouched := root_eqb RSystem; pe_names := [bs "evil.example"] |} = false.
Proof.
  split; [|split; [reflexivity|eexists; repeat split]].
  unfold web_ok, token_web. cbn. repeat split; try (intuition discriminate). right. eauto.
Qed.
(** C127 does not hold: the authorities the options name are not those the token address is held to.
    A server only they vouch for is turned away, and one only the system's vouch for is sent the
    secret. *)
Theorem C127_authorities_refuted : exists o d r, trusts o r /\ r <> RSystem /\ ~ trusts o RSystem /\
  loadable everywhere o /\ fetch_dial everywhere o = Some d /\
  reaches d {| pe_version := TLS13; pe_vouched := root_eqb r; pe_names := [bs "as.example"] |} = false /\
  reaches d {| pe_version := TLS13; pe_vouched := root_eqb RSystem; pe_names := [bs "as.example"] |} = true.
Proof.
  exists (oauth_opts (bs "oauthUrl=https://as.example/token;caFile=/ca.pem")). eexists. exists (RFile (bs "/ca.pem")).
  split; [left; split; [discriminate|reflexivity]|]. split; [discriminate|].
  split; [intros [[_ X]|[_ X]]; discriminate|]. split; [intros r _; reflexivity|]. split; [reflexivity|]. split; reflexivity.
Qed.
Print Assumptions C127_authorities_refuted.
(** C127 does not hold: written HTTPS, the token address is sent the secret in the clear. *)
Theorem C127_scheme_refuted : exists o d, lower (ho_oauth o) = bs "https://as.example/token" /\ fetch_dial everywhere o = Some d /\
  dl_tls d = None /\ dl_secret d = Some (bs "grant_type=client_credentials&client_id=me&client_secret=s3").
Proof.
  exists (oauth_opts (bs "oauthUrl=HTTPS://as.example/token")). eexists. split; [reflexivity|]. split; [reflexivity|]. split; reflexivity.
Qed.
Print Assumptions C127_scheme_refuted.

(** C128. The Host header names whom the request is for, when the port is the scheme's default ... *)
Theorem C128_host_partial : forall ld o token d, http_dials ld o token d ->
  ho_port o = (if is_https o then bs "443" else bs "80") -> (ho_server o = [] \/ ho_server o = ho_host o) ->
  dl_header d = host_field (is_https o) (ho_host o) (ho_port o).
Proof.
  intros ld o token d D P S. destruct (dials_to _ _ _ _ D) as (_ & _ & _ & H & _). rewrite H, P. unfold host_field. rewrite beq_refl.
  unfold http_header, http_host, nonempty. destruct (is_https o); [|reflexivity]. destruct S as [-> | ->]; [reflexivity|]. now destruct (ho_host o).
Qed.
Print Assumptions C128_host_partial.
(** ... and never otherwise: the port is left out of every request. *)
Theorem C128_port_refuted : forall ld o token d, http_dials ld o token d -> ho_server o = [] ->
  ho_port o <> (if is_https o then bs "443" else bs "80") -> dl_header d <> host_field (is_https o) (ho_host o) (ho_port o).
Proof.
  intros ld o token d D S P. destruct (dials_to _ _ _ _ D) as (_ & _ & _ & H & _). rewrite H. unfold host_field.
  destruct (beq (ho_port o) (if is_https o then bs "443" else bs "80")) eqn:E; [apply beq_eq in E; congruence|].
  unfold http_header, http_host, nonempty. rewrite S. intros X. apply (f_equal (@length ascii)) in X.
  rewrite !app_length in X. destruct (is_https o); cbn in X; lia.
Qed.
Print Assumptions C128_port_refuted.
(** C128. What is asked for: the paths the options name. *)
Theorem C128_target : forall ld o token d, http_dials ld o token d ->
  (dl_method d = bs "GET" /\ dl_target d = match ho_stream o with [] => ho_endpoint o | s => s end) \/
  (dl_method d = bs "DELETE" /\ dl_target d = match ho_endpoint o with [] => ho_rpc o | e => e end) \/
  (dl_method d = bs "POST" /\ (ho_endpoint o <> [] -> dl_target d = ho_endpoint o) /\
     (ho_endpoint o = [] -> dl_target d = ho_rpc o \/ dl_target d = ho_notify o)).
Proof.
  intros ld o token d. unfold http_dials, post_dial, stream_dial, ho_request_path, ho_notify_path, ho_stream_path, ho_streamable. cbv zeta.
  destruct (is_https o && negb _)%bool.
  - intros [H|[H|[H|H]]]; try discriminate. left. subst d. cbn. split; [reflexivity|]. destruct (ho_stream o); [now destruct (ho_endpoint o)|reflexivity].
  - intros [H|[H|[H|H]]]; try (apply (f_equal (fun x => match x with Some y => y | None => d end)) in H); subst d;
      cbn [dl_method dl_target].
    + right; right. split; [reflexivity|]. destruct (ho_endpoint o); split; congruence || (intros; auto).
    + right; right. split; [reflexivity|]. destruct (ho_endpoint o); split; congruence || (intros; auto).
    + right; left. split; [reflexivity|]. now destruct (ho_endpoint o).
    + left. split; [reflexivity|]. destruct (ho_stream o); [now destruct (ho_endpoint o)|reflexivity].
Qed.
Print Assumptions C128_target.
Example C128_ex : let o := http_config (bs "scheme=http;host=api.example;port=80;endpointPath=/mcp;enableGetStream=1") in
  (exists d, http_dials everywhere o [] d /\ dl_header d = bs "api.example" /\ dl_target d = bs "/mcp") /\ ho_port o = bs "80" /\ is_https o = false.
Proof. cbv zeta. split; [|split; reflexivity]. eexists. split; [left; reflexivity|]. split; reflexivity. Qed.
