From Coq Require Import Ascii String List Permutation Arith NArith ZArith Bool Lia.
From Verif Require Import StrModel StrProofs DoubleModel JsonModel JsonSpec RpcModel OauthModel LayoutSpec LayoutProofs DiscoModel DiscoSpec DiscoProofs.
Import ListNotations.
Local Open Scope nat_scope.

(** C92. In any layout, with the six plain escapes, and with no value that mentions a key, each
    field is the member of that name; a list of strings is read up to its first element of another
    type. *)
Theorem C92_resource_partial : forall l d, document l d -> Forall (fun k => unmentioned k l) resource_keys ->
  parse_resource_meta d =
    ({| pm_resource := text_member (bs "resource") l; pm_servers := list_member (bs "authorization_servers") l;
        pm_scopes := list_member (bs "scopes_supported") l; pm_bearer := text_member (bs "bearer_methods_supported") l;
        pm_docs := text_member (bs "resource_documentation") l |},
     match list_member (bs "authorization_servers") l with [] => false | _ => true end).
Proof.
  intros l d D H. unfold resource_keys in H. rewrite Forall_forall in H. unfold parse_resource_meta.
  rewrite !(disco_strings_doc _ l d), !(disco_string_doc _ l d) by (nkeyok || exact D || (apply H; cbn; tauto)). reflexivity.
Qed.
Print Assumptions C92_resource_partial.
Theorem C92_server_partial : forall l d, document l d -> Forall (fun k => unmentioned k l) server_keys ->
  parse_server_meta d =
    ({| am_issuer := text_member (bs "issuer") l; am_auth := text_member (bs "authorization_endpoint") l;
        am_token := text_member (bs "token_endpoint") l; am_reg := text_member (bs "registration_endpoint") l;
        am_jwks := text_member (bs "jwks_uri") l; am_scopes := list_member (bs "scopes_supported") l;
        am_responses := list_member (bs "response_types_supported") l; am_grants := list_member (bs "grant_types_supported") l;
        am_methods := list_member (bs "token_endpoint_auth_methods_supported") l;
        am_cimd := flag_member (bs "client_id_metadata_document_supported") l |},
     match text_member (bs "token_endpoint") l with [] => false | _ => true end).
Proof.
  intros l d D H. unfold server_keys in H. rewrite Forall_forall in H. unfold parse_server_meta.
  rewrite !(disco_strings_doc _ l d), !(disco_string_doc _ l d), !(disco_bool_doc _ l d) by (nkeyok || exact D || (apply H; cbn; tauto)). reflexivity.
Qed.
Print Assumptions C92_server_partial.

(** A layout with line breaks, a slash escaped, and an empty list. *)
Definition meta_ex : list (bstr * json) :=
  [(bs "issuer", JStr (bs "https://as.example/t")); (bs "token_endpoint", JStr (bs "https://as.example/token"));
   (bs "scopes_supported", JArr [JStr (bs "a"); JStr (bs "b c")]); (bs "grant_types_supported", JArr []);
   (bs "client_id_metadata_document_supported", JBool true)].
Definition meta_doc : bstr :=
  bs "{" ++ [LF] ++ bs "  ""issuer"" : ""https:\/\/as.example/t"", ""token_endpoint"":""https://as.example/token"" ," ++ [LF] ++
  bs """scopes_supported"":[ ""a"", ""b c"" ],""grant_types_supported"":[ ],""client_id_metadata_document_supported"": true}" ++ [LF].
Lemma str_text_plain : forall s, ~ In QUOTE s -> ~ In "\"%char s -> str_text s s.
Proof.
  induction s as [|c s IH]; intros A B; [constructor|]. constructor; [intros ->; apply A; now left|intros ->; apply B; now left|].
  apply IH; intro K; [apply A|apply B]; now right.
Qed.
Fixpoint has_sub (p s : bstr) : bool := (starts_with p s || match s with [] => false | _ :: r => has_sub p r end)%bool.
Lemma absent_dec : forall p s, has_sub p s = false -> absent p s.
Proof.
  intros p s. induction s as [|c s IH]; intros H a b E.
  - cbn [has_sub] in H. rewrite orb_false_r in H. symmetry in E. apply app_eq_nil in E as [_ E]. apply app_eq_nil in E as [-> _]. discriminate H.
  - cbn [has_sub] in H. apply orb_false_iff in H as [H1 H2]. destruct a as [|x a].
    + cbn [app] in E. rewrite E, starts_with_app in H1. discriminate H1.
    + cbn [app] in E. injection E as _ E. exact (IH H2 a b E).
Qed.
Ltac blanks := unfold blank; repeat constructor; cbn; tauto.
Ltac noq := cbn; intuition discriminate.
Example meta_ex_doc : document meta_ex meta_doc.
Proof.
  split; [|split; [|split]]; try (apply absent_dec; vm_compute; reflexivity).
  eexists [], _, [LF]. split; [|split; [constructor|split; [blanks|]]].
  2: { apply (w_obj meta_ex [[LF] ++ bs "  ""issuer"" : ""https:\/\/as.example/t"""; bs " ""token_endpoint"":""https://as.example/token"" ";
          [LF] ++ bs """scopes_supported"":[ ""a"", ""b c"" ]"; bs """grant_types_supported"":[ ]"; bs """client_id_metadata_document_supported"": true"]); [discriminate|].
       repeat apply Forall2_cons; [..|constructor].
       - exists [LF; SPACE; SPACE], [SPACE], [SPACE], (bs """https:\/\/as.example/t"""), []. split; [reflexivity|]. do 4 (split; [blanks|]).
         split; [apply JsonProofs.plainb_plain; reflexivity|]. apply (w_str (bs "https://as.example/t") (bs "https:\/\/as.example/t")).
         apply (st_char "h"); [discriminate..|]. apply (st_char "t"); [discriminate..|]. apply (st_char "t"); [discriminate..|]. apply (st_char "p"); [discriminate..|].
         apply (st_char "s"); [discriminate..|]. apply (st_char ":"); [discriminate..|]. apply (st_esc "/"); [constructor|]. apply (st_esc "/"); [constructor|].
         apply str_text_plain; noq.
       - exists [SPACE], [], [], (bs """https://as.example/token"""), [SPACE]. split; [reflexivity|]. do 4 (split; [blanks|]).
         split; [apply JsonProofs.plainb_plain; reflexivity|]. apply (w_str (bs "https://as.example/token") (bs "https://as.example/token")). apply str_text_plain; noq.
       - exists [LF], [], [], (bs "[ ""a"", ""b c"" ]"), []. split; [reflexivity|]. do 4 (split; [blanks|]).
         split; [apply JsonProofs.plainb_plain; reflexivity|]. apply (w_arr _ [bs " ""a"""; bs " ""b c"" "]); [discriminate|]. repeat apply Forall2_cons; [..|constructor].
         + exists [SPACE], (bs """a"""), []. split; [reflexivity|]. do 2 (split; [blanks|]). apply (w_str (bs "a") (bs "a")). apply str_text_plain; noq.
         + exists [SPACE], (bs """b c"""), [SPACE]. split; [reflexivity|]. do 2 (split; [blanks|]). apply (w_str (bs "b c") (bs "b c")). apply str_text_plain; noq.
       - exists [], [], [], (bs "[ ]"), []. split; [reflexivity|]. do 4 (split; [blanks|]). split; [apply JsonProofs.plainb_plain; reflexivity|]. apply (w_arr0 [SPACE]). blanks.
       - exists [], [], [SPACE], (bs "true"), []. split; [reflexivity|]. do 4 (split; [blanks|]). split; [apply JsonProofs.plainb_plain; reflexivity|]. constructor. }
  vm_compute. reflexivity.
Qed.
Example meta_ex_read : am_issuer (fst (parse_server_meta meta_doc)) = bs "https://as.example/t" /\ am_scopes (fst (parse_server_meta meta_doc)) = [bs "a"; bs "b c"].
Proof. vm_compute. auto. Qed.

(** C92 fails for the other escapes of JSON, ... *)
Theorem C92_escape_refuted : exists l d, writes (JObj l) d /\ text_member (bs "token_endpoint") l = bs "https://as/t" /\
  am_token (fst (parse_server_meta d)) = bs "https://asu002ft".
Proof.
  exists [(bs "token_endpoint", JStr (bs "https://as/t"))], (bs "{""token_endpoint"":""https://as\u002ft""}"). split; [|split; vm_compute; reflexivity].
  apply (w_obj _ [bs """token_endpoint"":""https://as\u002ft"""]); [discriminate|]. constructor; [|constructor].
  exists [], [], [], (bs """https://as\u002ft"""), []. split; [reflexivity|]. do 4 (split; [constructor|]). split; [apply JsonProofs.plainb_plain; reflexivity|].
  apply (w_str (bs "https://as/t") (bs "https://as\u002ft")).
  do 10 (apply st_char; [discriminate|discriminate|]). apply (st_u (bs "/") "0" "0" "2" "f" (bs "t") (bs "t")); [repeat constructor; cbn; tauto|].
  apply str_text_plain; noq.
Qed.
Print Assumptions C92_escape_refuted.
(** ... when a value mentions a key, ... *)
Theorem C92_mention_refuted : exists l d, document l d /\ text_member (bs "token_endpoint") l = bs "t" /\ snd (parse_server_meta d) = false.
Proof.
  exists [(bs "issuer", JStr (bs "token_endpoint")); (bs "token_endpoint", JStr (bs "t"))], (bs "{""issuer"":""token_endpoint"",""token_endpoint"":""t""}").
  split; [|split; vm_compute; reflexivity]. split; [|split; [|split]]; try (apply absent_dec; vm_compute; reflexivity).
  exists [], (bs "{""issuer"":""token_endpoint"",""token_endpoint"":""t""}"), []. split; [reflexivity|]. do 2 (split; [constructor|]).
  apply (w_obj _ [bs """issuer"":""token_endpoint"""; bs """token_endpoint"":""t"""]); [discriminate|]. repeat apply Forall2_cons; [..|constructor].
  - exists [], [], [], (bs """token_endpoint"""), []. split; [reflexivity|]. do 4 (split; [constructor|]). split; [apply JsonProofs.plainb_plain; reflexivity|].
    apply (w_str (bs "token_endpoint") (bs "token_endpoint")). apply str_text_plain; noq.
  - exists [], [], [], (bs """t"""), []. split; [reflexivity|]. do 4 (split; [constructor|]). split; [apply JsonProofs.plainb_plain; reflexivity|].
    apply (w_str (bs "t") (bs "t")). apply str_text_plain; noq.
Qed.
Print Assumptions C92_mention_refuted.
(** ... and for bearer_methods_supported, which RFC 9728 makes a list of strings: whatever the
    list, the field stays empty. *)
Theorem C92_bearer_refuted : forall l d a, document l d -> unmentioned (bs "bearer_methods_supported") l ->
  obj_get (bs "bearer_methods_supported") l = Some (JArr a) -> pm_bearer (fst (parse_resource_meta d)) = [].
Proof.
  intros l d a D U G. unfold parse_resource_meta. cbn [fst pm_bearer]. rewrite (disco_string_doc _ l d) by (nkeyok || assumption). unfold text_member. now rewrite G.
Qed.
Print Assumptions C92_bearer_refuted.

(** When a document is cut short, at any byte, the lists read from it are the beginning of the lists of
    the whole document, ... *)
Theorem C92_cut_lists : forall d d', let a := fst (parse_server_meta d) in let b := fst (parse_server_meta (d ++ d')) in
  let x := fst (parse_resource_meta d) in let y := fst (parse_resource_meta (d ++ d')) in
  (exists t, am_scopes b = am_scopes a ++ t) /\ (exists t, am_responses b = am_responses a ++ t) /\ (exists t, am_grants b = am_grants a ++ t) /\
  (exists t, am_methods b = am_methods a ++ t) /\ (exists t, pm_servers y = pm_servers x ++ t) /\ (exists t, pm_scopes y = pm_scopes x ++ t).
Proof. intros d d' a b x y. repeat split; apply strings_cut. Qed.
Print Assumptions C92_cut_lists.
(** ... but a string may be cut too, and an address is then taken for whole. *)
Theorem C92_cut_refuted : exists d d', am_token (fst (parse_server_meta (d ++ d'))) = bs "https://as.example/token" /\
  am_token (fst (parse_server_meta d)) = bs "https://as.ex" /\ snd (parse_server_meta d) = true.
Proof.
  exists (bs "{""issuer"":""https://as.example"",""authorization_endpoint"":""https://as.example/a"",""token_endpoint"":""https://as.ex"), (bs "ample/token""}").
  repeat split; vm_compute; reflexivity.
Qed.
Print Assumptions C92_cut_refuted.
Example C92_cut_ex : am_scopes (fst (parse_server_meta (bs "{""scopes_supported"":[""a"",""b"))) = [bs "a"] /\
  am_scopes (fst (parse_server_meta (bs "{""scopes_supported"":[""a"",""b"" , ""c""]}"))) = [bs "a"; bs "b"; bs "c"].
Proof. split; vm_compute; reflexivity. Qed.

(** C93. The addresses of authorization server metadata are those of RFC 8414 and OpenID Connect
    discovery, in that order. *)
Theorem C93_server : forall w p n, web_ok w -> bare_path p -> wb_path w = p ++ repeat "/"%char n ->
  server_urls (web_text w) = [short_origin w ++ bs "/.well-known/oauth-authorization-server" ++ p;
    short_origin w ++ bs "/.well-known/openid-configuration" ++ p; short_origin w ++ p ++ bs "/.well-known/openid-configuration"].
Proof. exact server_urls_path. Qed.
Print Assumptions C93_server.
Theorem C93_server_root : forall w n, web_ok w -> wb_path w = repeat "/"%char n ->
  server_urls (web_text w) = [short_origin w ++ bs "/.well-known/oauth-authorization-server"; short_origin w ++ bs "/.well-known/openid-configuration"].
Proof. exact server_urls_root. Qed.
Print Assumptions C93_server_root.
(** Those of protected resource metadata are those of RFC 9728 for paths of one segment or none. *)
Theorem C93_resource_partial : forall w s n, web_ok w -> s <> [] -> ~ In "/"%char s -> wb_path w = ("/"%char :: s) ++ repeat "/"%char n ->
  resource_urls (web_text w) = [short_origin w ++ bs "/.well-known/oauth-protected-resource" ++ "/"%char :: s;
    short_origin w ++ bs "/.well-known/oauth-protected-resource"].
Proof. exact resource_urls_one. Qed.
Print Assumptions C93_resource_partial.
Theorem C93_resource_root : forall w n, web_ok w -> wb_path w = repeat "/"%char n ->
  resource_urls (web_text w) = [short_origin w ++ bs "/.well-known/oauth-protected-resource"].
Proof. exact resource_urls_root. Qed.
Print Assumptions C93_resource_root.
(** A longer path loses its last segment, so the address that RFC 9728 names is never asked. *)
Theorem C93_resource_refuted : exists w, web_ok w /\ bare_path (wb_path w) /\
  web_text w = bs "https://api.example/team/mcp" /\
  ~ In (short_origin w ++ bs "/.well-known/oauth-protected-resource" ++ wb_path w) (resource_urls (web_text w)).
Proof.
  exists {| wb_secure := true; wb_host := bs "api.example"; wb_port := None; wb_path := bs "/team/mcp" |}. split; [|split; [|split]].
  - split; [noq|]. split; [noq|]. split; [discriminate|]. right. eexists. reflexivity.
  - split; [discriminate|]. intros r H. apply (f_equal (@rev ascii)) in H. rewrite rev_app_distr in H. discriminate H.
  - reflexivity.
  - vm_compute. intros [H|[H|[]]]; discriminate H.
Qed.
Print Assumptions C93_resource_refuted.
Definition web_ex : web := {| wb_secure := true; wb_host := bs "as.example"; wb_port := Some (bs "8443"); wb_path := bs "/tenant/1/" |}.
Example web_ex_ok : web_ok web_ex /\ bare_path (bs "/tenant/1") /\ wb_path web_ex = bs "/tenant/1" ++ repeat "/"%char 1.
Proof.
  split; [|split].
  - split; [noq|]. split; [noq|]. split; [intros p [= <-]; noq|]. right. eexists. reflexivity.
  - split; [discriminate|]. intros r H. apply (f_equal (@rev ascii)) in H. rewrite rev_app_distr in H. discriminate H.
  - reflexivity.
Qed.

(** C94. An address is fetched from the host and port it names, with its path, over TLS exactly
    when it is an https address. *)
Theorem C94_fetch_partial : forall w, web_ok w ->
  let f := fetch_of (web_text w) in
  ft_tls f = wb_secure w /\ ft_host f = wb_host w /\ ft_port f = match wb_port w with Some p => p | None => default_port w end /\
  ft_target f = match wb_path w with [] => bs "/" | p => p end.
Proof. intros w H. unfold fetch_of. rewrite (parse_web w H). cbn. destruct (wb_secure w); auto. Qed.
Print Assumptions C94_fetch_partial.
(** Schemes are case-insensitive; written in capitals, https is fetched in the clear, ... *)
Theorem C94_scheme_refuted : exists u, lower u = bs "https://as.example/token" /\ ft_tls (fetch_of u) = false /\ ft_port (fetch_of u) = bs "80".
Proof. exists (bs "HTTPS://as.example/token"). vm_compute. auto. Qed.
Print Assumptions C94_scheme_refuted.
(** ... an IPv6 address is cut at its first colon, ... *)
Theorem C94_ipv6_refuted : ft_host (fetch_of (bs "http://[::1]:8080/x")) = bs "[" /\ ft_port (fetch_of (bs "http://[::1]:8080/x")) = bs ":1]:8080".
Proof. vm_compute. auto. Qed.
Print Assumptions C94_ipv6_refuted.
(** ... a query right after the host becomes part of the host, ... *)
Theorem C94_query_refuted : ft_host (fetch_of (bs "https://as.example?x=1")) = bs "as.example?x=1".
Proof. reflexivity. Qed.
Print Assumptions C94_query_refuted.
(** ... and the Host header never names the port. *)
Theorem C94_header_refuted : exists w, web_ok w /\ wb_port w = Some (bs "8443") /\ default_port w <> bs "8443" /\
  ft_header (fetch_of (web_text w)) = wb_host w.
Proof. exists web_ex. split; [apply web_ex_ok|]. split; [reflexivity|]. split; [discriminate|reflexivity]. Qed.
Print Assumptions C94_header_refuted.

(** C95. Authorization server metadata: the addresses are asked one by one, in order, up to the
    first that answers 200 with a document that has a token endpoint; the result is what that
    document says, and empty if none does. *)
Theorem C95_server : forall get issuer,
  let good i u := fst (get i u) = 200%N /\ snd (get i u) <> [] /\ snd (parse_server_meta (snd (get i u))) = true in
  (exists a u b, server_urls issuer = a ++ u :: b /\ good (length a) u /\ (forall i v, nth_error a i = Some v -> ~ good i v) /\
     discover_server get issuer = (a ++ [u], fst (parse_server_meta (snd (get (length a) u))))) \/
  ((forall i v, nth_error (server_urls issuer) i = Some v -> ~ good i v) /\ discover_server get issuer = (server_urls issuer,
     {| am_issuer := []; am_auth := []; am_token := []; am_reg := []; am_jwks := []; am_scopes := []; am_responses := [];
        am_grants := []; am_methods := []; am_cimd := false |})).
Proof.
  intros get issuer good. unfold discover_server. destruct (probe_spec parse_server_meta get (server_urls issuer) 0) as [(a & u & b & E & P & G & N)|(P & N)]; rewrite P.
  - left. exists a, u, b. auto.
  - right. auto.
Qed.
Print Assumptions C95_server.
(** Protected resource metadata: the address from the challenge first, if there is one; there any
    2xx status will do. *)
Theorem C95_resource : forall get hint base,
  let order := (match hint with [] => [] | _ => [hint] end) ++ resource_urls base in
  let good i u := (if Nat.ltb i (length order - length (resource_urls base)) then 200 <= fst (get i u) < 300 else fst (get i u) = 200)%N /\
    snd (get i u) <> [] /\ snd (parse_resource_meta (snd (get i u))) = true in
  (exists a u b, order = a ++ u :: b /\ good (length a) u /\ (forall i v, nth_error a i = Some v -> ~ good i v) /\
     discover_resource get hint base = (a ++ [u], fst (parse_resource_meta (snd (get (length a) u))))) \/
  ((forall i v, nth_error order i = Some v -> ~ good i v) /\ discover_resource get hint base = (order,
     {| pm_resource := []; pm_servers := []; pm_scopes := []; pm_bearer := []; pm_docs := [] |})).
Proof.
  intros get hint base order good. unfold discover_resource. destruct hint as [|c hint].
  - unfold order, good in *. cbn [app]. rewrite Nat.sub_diag.
    destruct (probe_spec parse_resource_meta get (resource_urls base) 0) as [(a & u & b & E & P & G & N)|(P & N)]; rewrite P.
    + left. exists a, u, b. rewrite E. auto.
    + right. auto.
  - set (h := c :: hint) in *.
    assert (L : length order - length (resource_urls base) = 1). { change order with (h :: resource_urls base); generalize (resource_urls base) as q; intro q; cbn [length]. clear. rewrite Nat.sub_succ_l by reflexivity. now rewrite Nat.sub_diag. }
    destruct (get 0 h) as [st body] eqn:G0. destruct (parse_resource_meta body) as [m ok] eqn:P0.
    destruct (N.leb 200 st && N.ltb st 300 && negb (beq body []) && ok)%bool eqn:C.
    + left. exists [], h, (resource_urls base). split; [reflexivity|]. cbn [length app]. rewrite G0. cbn [snd fst]. rewrite P0. cbn [fst]. split; [|split; [intros [|i] v H; discriminate H|reflexivity]].
      unfold good. rewrite L, G0. cbn [length Nat.ltb Nat.leb fst snd]. rewrite P0. cbn [snd]. apply andb_true_iff in C as [C C4]. apply andb_true_iff in C as [C C3]. apply andb_true_iff in C as [C1 C2].
      apply N.leb_le in C1. apply N.ltb_lt in C2. apply negb_true_iff, beq_neq in C3. auto.
    + assert (B : ~ good 0 h).
      { unfold good. rewrite L, G0. cbn [Nat.ltb Nat.leb fst snd]. rewrite P0. cbn [snd]. intros ((A1 & A2) & A3 & A4). apply N.leb_le in A1. apply N.ltb_lt in A2. apply beq_neq in A3.
        rewrite A1, A2, A3, A4 in C. discriminate C. }
      destruct (probe_spec parse_resource_meta get (resource_urls base) 1) as [(a & u & b & E & P & G & N)|(P & N)]; rewrite P.
      * left. exists (h :: a), u, b. split; [unfold order; cbn [app]; now rewrite E|]. split; [unfold good; rewrite L; exact G|]. split; [|reflexivity].
        intros [|i] v H; [injection H as <-; exact B|]. unfold good. rewrite L. exact (N i v H).
      * right. split; [|reflexivity]. intros [|i] v H; [injection H as <-; exact B|]. unfold good. rewrite L. exact (N i v H).
Qed.
Print Assumptions C95_resource.
Definition net_ex : network := fun n u => if Nat.eqb n 1 then (200%N, meta_doc) else (404%N, []).
Example net_ex_found : discover_server net_ex (bs "https://as.example/t") =
  ([bs "https://as.example/.well-known/oauth-authorization-server/t"; bs "https://as.example/.well-known/openid-configuration/t"], fst (parse_server_meta meta_doc)).
Proof. vm_compute. reflexivity. Qed.

(** C96 fails: the issuer in the document is not compared with the issuer asked for (RFC 8414,
    section 3.3), nor the resource with the server asked about (RFC 9728, section 3.3). *)
Theorem C96_issuer_refuted : exists get issuer, am_issuer (snd (discover_server get issuer)) <> issuer /\
  am_issuer (snd (discover_server get issuer)) = bs "https://as.example/t" /\ issuer = bs "https://other.example" /\ am_token (snd (discover_server get issuer)) <> [].
Proof. exists net_ex, (bs "https://other.example"). vm_compute. repeat split; discriminate. Qed.
Print Assumptions C96_issuer_refuted.
Theorem C96_resource_refuted : exists get base, pm_servers (snd (discover_resource get [] base)) <> [] /\
  pm_resource (snd (discover_resource get [] base)) = bs "https://victim.example/" /\ base = bs "https://other.example".
Proof.
  exists (fun _ _ => (200%N, bs "{""resource"":""https://victim.example/"",""authorization_servers"":[""x""]}")), (bs "https://other.example"). vm_compute. repeat split. discriminate.
Qed.
Print Assumptions C96_resource_refuted.
(** What holds: nothing but the issuer's own host is asked. *)
Theorem C96_origin_partial : forall get w u, web_ok w -> In u (fst (discover_server get (web_text w))) ->
  exists r, u = short_origin w ++ "/"%char :: r.
Proof.
  intros get w u H I. assert (J : In u (server_urls (web_text w))).
  { destruct (C95_server get (web_text w)) as [(a & v & b & E & _ & _ & D)|(_ & D)]; rewrite D in I; cbn [fst] in I; [|exact I]. rewrite E.
    apply in_app_or in I as [I|[->|[]]]; apply in_or_app; [now left|right; now left]. }
  unfold server_urls in J. rewrite (origin_web w H) in J.
  destruct (strip_slashes (up_path (parse_url (web_text w)))) as [|c p] eqn:E.
  - destruct J as [<-|[<-|[]]]; eexists; reflexivity.
  - assert (c = "/"%char) as ->.
    { rewrite (parse_web w H) in E. cbn [up_path] in E. destruct H as (_ & _ & _ & Hq).
      assert (exists r, match wb_path w with [] => bs "/" | q => q end = "/"%char :: r) as (r & Er) by (destruct Hq as [-> |(r & ->)]; eexists; reflexivity).
      assert (Pre : forall s, exists t, s = strip_slashes s ++ t).
      { intros s. unfold strip_slashes. destruct (drop_while_suffix is_slash (rev s)) as (x & Ex & _). exists (rev x). rewrite <- rev_app_distr, <- Ex. now rewrite rev_involutive. }
      destruct (Pre (match wb_path w with [] => bs "/" | q => q end)) as (t & Et). rewrite E, Er in Et. cbn [app] in Et. now injection Et as <- _. }
    match type of J with In _ (if ?b then _ else _) => destruct b end; cbn [In] in J.
    + destruct J as [<-|[<-|[<-|[]]]]; eexists; reflexivity.
    + destruct J as [<-|[<-|[]]]; eexists; reflexivity.
Qed.
Print Assumptions C96_origin_partial.
