(** OAuth discovery: src/mcp/auth/OAuthDiscovery.cpp. *)
From Coq Require Import Ascii String List Arith NArith ZArith Bool.
From Verif Require Import StrModel RpcModel OauthModel.
Import ListNotations.
Local Open Scope nat_scope.

(** struct UrlParts, OAuthDiscovery.cpp:34-39. *)
Record url_parts := { up_scheme : bstr; up_host : bstr; up_port : bstr; up_path : bstr }.

Definition SLASH : ascii := chr 47.
Definition is_slash (c : ascii) : bool := Ascii.eqb c SLASH.

(** std::string::find of a separator, with the text before and after it. *)
Definition split_sub (p s : bstr) : option (bstr * bstr) :=
  match find_sub p s with Some i => Some (firstn i s, skipn (i + length p) s) | None => None end.

(** parseUrlParts, OAuthDiscovery.cpp:41-69. *)
Definition parse_url (url : bstr) : url_parts :=
  let '(scheme, rest) := match split_sub (bs "://") url with Some (a, b) => (a, b) | None => (bs "http", url) end in
  let '(host_port, tail) := span (fun c => negb (is_slash c)) rest in
  let path := match tail with [] => bs "/" | _ => tail end in
  match split_sub (bs ":") host_port with
  | None => {| up_scheme := scheme; up_host := host_port; up_port := if beq scheme (bs "https") then bs "443" else bs "80"; up_path := path |}
  | Some (h, p) => {| up_scheme := scheme; up_host := h; up_port := p; up_path := path |}
  end.

(** getOrigin, OAuthDiscovery.cpp:71-78. *)
Definition origin_of (u : url_parts) : bstr :=
  up_scheme u ++ bs "://" ++ up_host u ++
  if ((beq (up_scheme u) (bs "https") && negb (beq (up_port u) (bs "443"))) ||
      (beq (up_scheme u) (bs "http") && negb (beq (up_port u) (bs "80"))))%bool
  then bs ":" ++ up_port u else [].

(** Where a GET goes: coHttpGetWithStatus with doHttpsGet and doHttpGet, OAuthDiscovery.cpp:315-336,
    245-313: over TLS or not, the host and port resolved and connected to, the request target and
    the Host header. *)
Record fetch := { ft_tls : bool; ft_host : bstr; ft_port : bstr; ft_target : bstr; ft_header : bstr }.
Definition fetch_of (url : bstr) : fetch :=
  let u := parse_url url in
  {| ft_tls := beq (up_scheme u) (bs "https"); ft_host := up_host u; ft_port := up_port u; ft_target := up_path u; ft_header := up_host u |}.

(** What an escape adds to the string, OAuthDiscovery.cpp:96-107. *)
Definition unescape (n : ascii) : ascii :=
  if Ascii.eqb n "n" then LF else if Ascii.eqb n "r" then CR else if Ascii.eqb n "t" then TAB else n.

(** parseJsonStringValue after the opening quote, OAuthDiscovery.cpp:91-116: what has been put
    into out, and the rest if the closing quote was found. *)
Fixpoint str_value (s : bstr) : bstr * option bstr :=
  match s with
  | [] => ([], None)
  | c :: r =>
      if Ascii.eqb c BACKSLASH then
        match r with
        | n :: r' => let '(o, q) := str_value r' in (unescape n :: o, q)
        | [] => ([c], None)
        end
      else if Ascii.eqb c QUOTE then ([], Some r)
      else let '(o, q) := str_value r in (c :: o, q)
  end.

(** The text of the value of a member, as all three field readers find it,
    OAuthDiscovery.cpp:121-133, 139-150, 183-194. *)
Definition field_text (json k : bstr) : option bstr :=
  match after (needle k) json with
  | None => None
  | Some r =>
      match drop_while is_ws r with
      | c :: r' => if Ascii.eqb c (chr 58) then Some (drop_while is_ws r') else None
      | [] => None
      end
  end.

(** parseJsonStringField, OAuthDiscovery.cpp:119-135: what out holds afterwards. Its callers
    ignore the result, so an unfinished string counts. *)
Definition disco_string (json k : bstr) : bstr :=
  match field_text json k with
  | Some (c :: r) => if Ascii.eqb c QUOTE then fst (str_value r) else []
  | _ => []
  end.

(** The loop of parseJsonStringArray, OAuthDiscovery.cpp:156-178. Each round that goes on has read
    a string, so the length of the text is fuel enough. *)
Fixpoint str_items (fuel : nat) (s : bstr) : list bstr :=
  match fuel with
  | 0 => []
  | S f =>
      let s := drop_while is_ws s in
      match s with
      | [] => []
      | c :: r =>
          if Ascii.eqb c (chr 93) then []
          else
            let s := if Ascii.eqb c (chr 44) then drop_while is_ws r else s in
            match s with
            | c :: r =>
                if Ascii.eqb c QUOTE then
                  let '(o, q) := str_value r in
                  match q with Some r' => o :: str_items f r' | None => [] end
                else []
            | [] => []
            end
      end
  end.
(** parseJsonStringArray, OAuthDiscovery.cpp:137-180: what out holds afterwards. *)
Definition disco_strings (json k : bstr) : list bstr :=
  match field_text json k with
  | Some (c :: r) => if Ascii.eqb c (chr 91) then str_items (S (length r)) r else []
  | _ => []
  end.
(** parseJsonBoolField, OAuthDiscovery.cpp:182-207; the field is false before. *)
Definition disco_bool (json k : bstr) : bool :=
  match field_text json k with Some r => starts_with (bs "true") r | None => false end.

(** struct ProtectedResourceMetadata and AuthorizationServerMetadata, OAuthDiscovery.hpp:22-46. *)
Record resource_meta := {
  pm_resource : bstr; pm_servers : list bstr; pm_scopes : list bstr; pm_bearer : bstr; pm_docs : bstr
}.
Record server_meta := {
  am_issuer : bstr; am_auth : bstr; am_token : bstr; am_reg : bstr; am_jwks : bstr;
  am_scopes : list bstr; am_responses : list bstr; am_grants : list bstr; am_methods : list bstr; am_cimd : bool
}.
Definition no_resource : resource_meta := {| pm_resource := []; pm_servers := []; pm_scopes := []; pm_bearer := []; pm_docs := [] |}.
Definition no_server : server_meta :=
  {| am_issuer := []; am_auth := []; am_token := []; am_reg := []; am_jwks := []; am_scopes := []; am_responses := []; am_grants := [];
     am_methods := []; am_cimd := false |}.

(** parseProtectedResourceMetadata, OAuthDiscovery.cpp:350-358. *)
Definition parse_resource_meta (j : bstr) : resource_meta * bool :=
  let m := {| pm_resource := disco_string j (bs "resource"); pm_servers := disco_strings j (bs "authorization_servers");
              pm_scopes := disco_strings j (bs "scopes_supported"); pm_bearer := disco_string j (bs "bearer_methods_supported");
              pm_docs := disco_string j (bs "resource_documentation") |} in
  (m, match pm_servers m with [] => false | _ => true end).

(** parseAuthorizationServerMetadata, OAuthDiscovery.cpp:360-373. *)
Definition parse_server_meta (j : bstr) : server_meta * bool :=
  let m := {| am_issuer := disco_string j (bs "issuer"); am_auth := disco_string j (bs "authorization_endpoint");
              am_token := disco_string j (bs "token_endpoint"); am_reg := disco_string j (bs "registration_endpoint");
              am_jwks := disco_string j (bs "jwks_uri"); am_scopes := disco_strings j (bs "scopes_supported");
              am_responses := disco_strings j (bs "response_types_supported"); am_grants := disco_strings j (bs "grant_types_supported");
              am_methods := disco_strings j (bs "token_endpoint_auth_methods_supported");
              am_cimd := disco_bool j (bs "client_id_metadata_document_supported") |} in
  (m, match am_token m with [] => false | _ => true end).

(** while (!path.empty() && path.back() == '/') path.pop_back(), OAuthDiscovery.cpp:380-383, 405-408. *)
Definition strip_slashes (p : bstr) : bstr := rev (drop_while is_slash (rev p)).

(** buildWellKnownResourceMetadataUrls, OAuthDiscovery.cpp:375-398. *)
Definition WK_RESOURCE : bstr := bs "/.well-known/oauth-protected-resource".
Definition WK_OAUTH : bstr := bs "/.well-known/oauth-authorization-server".
Definition WK_OPENID : bstr := bs "/.well-known/openid-configuration".
Definition resource_urls (base : bstr) : list bstr :=
  let u := parse_url base in
  let o := origin_of u in
  let p := strip_slashes (up_path u) in
  (if (negb (beq p []) && negb (beq p (bs "/")))%bool then
     [o ++ WK_RESOURCE ++ match rfind_char SLASH p with Some (S i) => firstn (S i) p | _ => p end]
   else []) ++ [o ++ WK_RESOURCE].

(** buildAuthorizationServerMetadataUrls, OAuthDiscovery.cpp:400-419. *)
Definition server_urls (issuer : bstr) : list bstr :=
  let u := parse_url issuer in
  let o := origin_of u in
  let p := strip_slashes (up_path u) in
  if (negb (beq p []) && negb (beq p (bs "/")))%bool then [o ++ WK_OAUTH ++ p; o ++ WK_OPENID ++ p; o ++ p ++ WK_OPENID]
  else [o ++ WK_OAUTH; o ++ WK_OPENID].

(** The network: what the n-th GET, of this URL, brings; status 0 for a failed connection
    (coHttpGetWithStatus, OAuthDiscovery.cpp:315-336). *)
Definition network := nat -> bstr -> N * bstr.

(** The probing loops, OAuthDiscovery.cpp:443-451 and 467-475: the URLs asked and what is returned
    from inside the loop. *)
Fixpoint probe {M : Type} (parse : bstr -> M * bool) (get : network) (n : nat) (urls : list bstr) : list bstr * option M :=
  match urls with
  | [] => ([], None)
  | u :: r =>
      let '(status, body) := get n u in
      let '(m, ok) := parse body in
      if (N.eqb status 200 && negb (beq body []) && ok)%bool then ([u], Some m)
      else let '(asked, res) := probe parse get (S n) r in (u :: asked, res)
  end.

(** coDiscoverProtectedResourceMetadata, OAuthDiscovery.cpp:421-457; the first request goes through
    coHttpGet, 338-348. *)
Definition discover_resource (get : network) (hint base : bstr) : list bstr * resource_meta :=
  let '(asked, res) :=
    match hint with
    | [] => probe parse_resource_meta get 0 (resource_urls base)
    | _ =>
        let '(status, body) := get 0 hint in
        let '(m, ok) := parse_resource_meta body in
        if (N.leb 200 status && N.ltb status 300 && negb (beq body []) && ok)%bool then ([hint], Some m)
        else let '(asked, res) := probe parse_resource_meta get 1 (resource_urls base) in (hint :: asked, res)
    end in
  (asked, match res with Some m => m | None => no_resource end).

(** coDiscoverAuthorizationServerMetadata, OAuthDiscovery.cpp:459-481. *)
Definition discover_server (get : network) (issuer : bstr) : list bstr * server_meta :=
  let '(asked, res) := probe parse_server_meta get 0 (server_urls issuer) in
  (asked, match res with Some m => m | None => no_server end).
