(** Whom the HTTP client, the token fetch and the discovery talk to, and what they check first. *)
From Coq Require Import Ascii String List Arith NArith ZArith Bool.
From Verif Require Import StrModel RpcModel OauthModel DiscoModel ConfModel.
Import ListNotations.
Local Open Scope nat_scope.

(** Certificate authorities handed to OpenSSL: set_default_verify_paths, load_verify_file,
    add_verify_path. *)
Inductive root := RSystem | RFile (f : bstr) | RDir (d : bstr).
Definition root_eqb (a b : root) : bool :=
  match a, b with RSystem, RSystem => true | RFile x, RFile y | RDir x, RDir y => beq x y | _, _ => false end.

(** What a TLS client checks: protocol versions (SSL_CTX_set_min_proto_version, _max_), verify_peer,
    the roots, and the name given to SSL_set1_host, if it was called. *)
Record check := { ck_min : N; ck_max : N; ck_verify : bool; ck_roots : list root; ck_name : option bstr }.

(** A connection made: host and port resolved and connected to, TLS or not, then the method, target
    and Host header of the request and whether credentials are in it: the headers of the IAuth
    for the transport, the form with the client's secret for the token fetch. *)
Record dial := {
  dl_host : bstr; dl_port : bstr; dl_tls : option check;
  dl_method : bstr; dl_target : bstr; dl_header : bstr; dl_secret : option bstr
}.

(** A peer on the network: the protocol version it speaks, the roots that vouch for its certificate
    and the names in it. Not in the code: what OpenSSL does with a check. *)
Record peer := { pe_version : N; pe_vouched : root -> bool; pe_names : list bstr }.
Definition handshake (c : check) (p : peer) : bool :=
  (N.leb (ck_min c) (pe_version p) && N.leb (pe_version p) (ck_max c) &&
   (negb (ck_verify c) || (existsb (pe_vouched p) (ck_roots c) &&
      match ck_name c with Some n => existsb (beq n) (pe_names p) | None => true end)))%bool.

(** The request is written, and read by this peer: the peer of a plain connection is not known. *)
Definition reaches (d : dial) (p : peer) : bool := match dl_tls d with Some c => handshake c p | None => true end.

Definition TLS12 : N := 12. Definition TLS13 : N := 13.

(** Does OpenSSL accept a source of roots (or does the call throw)? *)
Definition loader := root -> bool.

(** The context of HTTPTransport::Impl, src/mcp/HTTPTransport.cpp:93-122: the roots, and caInitOk. A
    failing load_verify_file skips add_verify_path. *)
Definition http_roots (ld : loader) (o : hopts) : list root * bool :=
  match ho_cafile o, ho_capath o with
  | [], [] => (if ld RSystem then [RSystem] else [], true)
  | [], d => if ld (RDir d) then ([RDir d], true) else ([], false)
  | f, [] => if ld (RFile f) then ([RFile f], true) else ([], false)
  | f, d => if ld (RFile f) then if ld (RDir d) then ([RFile f; RDir d], true) else ([RFile f], false) else ([], false)
  end.
Definition nonempty (s : bstr) : option bstr := match s with [] => None | _ => Some s end.
Definition http_check (ld : loader) (o : hopts) : check :=
  {| ck_min := TLS13; ck_max := TLS13; ck_verify := true; ck_roots := fst (http_roots ld o); ck_name := nonempty (ho_server o) |}.
Definition is_https (o : hopts) : bool := beq (ho_scheme o) (bs "https").
Definition http_host (o : hopts) : bstr := match nonempty (ho_server o) with Some n => n | None => ho_host o end.
Definition http_tls (ld : loader) (o : hopts) : option check := if is_https o then Some (http_check ld o) else None.
Definition http_header (o : hopts) : bstr := if is_https o then http_host o else ho_host o.

(** requestPath, notifyPath and streamPath, HTTPTransport.cpp:157-174. *)
Definition ho_streamable (o : hopts) : bool := match ho_endpoint o with [] => false | _ => true end.
Definition ho_request_path (o : hopts) : bstr := if ho_streamable o then ho_endpoint o else ho_rpc o.
Definition ho_notify_path (o : hopts) : bstr := if ho_streamable o then ho_endpoint o else ho_notify o.
Definition ho_stream_path (o : hopts) : bstr := match ho_stream o with [] => if ho_streamable o then ho_endpoint o else [] | s => s end.

(** coPostJson, HTTPTransport.cpp:310-377, to a path; coDeleteSession, 379-455. secret: the value of
    the Authorization header, if coEnsureAuthHeader, 297-307, sets one. None: nothing is sent
    because the CA could not be loaded. *)
Definition post_dial (ld : loader) (o : hopts) (method path : bstr) (secret : option bstr) : option dial :=
  if (is_https o && negb (snd (http_roots ld o)))%bool then None
  else Some {| dl_host := ho_host o; dl_port := ho_port o; dl_tls := http_tls ld o; dl_method := method; dl_target := path;
               dl_header := http_header o; dl_secret := secret |}.

(** The two loops of runSseLoop, HTTPTransport.cpp:552-585 and 638-678: caInitOk is not looked at. *)
Definition stream_dial (ld : loader) (o : hopts) (secret : option bstr) : dial :=
  {| dl_host := ho_host o; dl_port := ho_port o; dl_tls := http_tls ld o; dl_method := bs "GET"; dl_target := ho_stream_path o;
     dl_header := http_header o; dl_secret := secret |}.

(** The token of BearerAuth, include/mcp/auth/BearerAuth.hpp:24-27. *)
Definition bearer_secret (token : bstr) : option bstr := match token with [] => None | _ => Some (bs "Bearer " ++ token) end.

(** The auth object chosen by the constructor, HTTPTransport.cpp:124-145, and its headers(): token is
    what the OAuth2 object has cached. *)
Definition http_secret (o : hopts) (token : bstr) : option bstr :=
  if beq (ho_auth o) (bs "bearer") then bearer_secret (ho_token o)
  else if beq (ho_auth o) (bs "oauth2") then bearer_secret token else None.

(** Every connection of a transport with options o: POSTs to the two paths, DELETEs, event streams. *)
Definition http_dials (ld : loader) (o : hopts) (token : bstr) (d : dial) : Prop :=
  let secret := http_secret o token in
  post_dial ld o (bs "POST") (ho_request_path o) secret = Some d \/ post_dial ld o (bs "POST") (ho_notify_path o) secret = Some d \/
  post_dial ld o (bs "DELETE") (ho_request_path o) secret = Some d \/ d = stream_dial ld o secret.

(** coPostFormUrlencoded, src/mcp/auth/OAuthClient.cpp:57-169, as ensureReady calls it
    (OAuth2ClientCredentialsAuth.cpp:119-129): no context is handed over, params.serverName is
    empty, and params.caFile and params.caPath, which it sets, are not read. parseUrl, 25-55, is
    parse_url word for word. *)
Definition token_check (ld : loader) (host : bstr) : check :=
  {| ck_min := TLS13; ck_max := TLS13; ck_verify := true; ck_roots := if ld RSystem then [RSystem] else []; ck_name := nonempty host |}.
Definition token_dial (ld : loader) (url cafile capath form : bstr) : dial :=
  let u := parse_url url in
  {| dl_host := up_host u; dl_port := up_port u;
     dl_tls := if beq (up_scheme u) (bs "https") then Some (token_check ld (up_host u)) else None;
     dl_method := bs "POST"; dl_target := up_path u; dl_header := up_host u; dl_secret := Some form |}.

(** The token fetch of a transport, ensureReady, OAuth2ClientCredentialsAuth.cpp:108-129, when its
    options ask for one. *)
Definition fetch_dial (ld : loader) (o : hopts) : option dial :=
  if beq (ho_auth o) (bs "oauth2")
  then Some (token_dial ld (ho_oauth o) (ho_cafile o) (ho_capath o) (token_form {| oc_id := ho_id o; oc_secret := ho_secret o; oc_scope := ho_scope o; oc_skew := ho_skew o |})) else None.

(** createDefaultSslContext and doHttpsGet, OAuthDiscovery.cpp:206-313; DiscoveryOptions' server name
    and authorities. A source that does not load is only reported. *)
Definition disco_roots (ld : loader) (cafile capath : bstr) : list root :=
  (if ld RSystem then [RSystem] else []) ++
  (match cafile with [] => [] | f => if ld (RFile f) then [RFile f] else [] end) ++
  (match capath with [] => [] | d => if ld (RDir d) then [RDir d] else [] end).
Definition disco_dial (ld : loader) (url server cafile capath : bstr) : dial :=
  let u := parse_url url in
  {| dl_host := up_host u; dl_port := up_port u;
     dl_tls := if beq (up_scheme u) (bs "https")
               then Some {| ck_min := TLS12; ck_max := TLS13; ck_verify := true; ck_roots := disco_roots ld cafile capath;
                            ck_name := nonempty (match server with [] => up_host u | s => s end) |}
               else None;
     dl_method := bs "GET"; dl_target := up_path u; dl_header := up_host u; dl_secret := None |}.
