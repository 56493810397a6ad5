(** The HTTP requests that are refused, and what each is told. *)
From Coq Require Import Ascii String List Arith NArith ZArith Bool.
From Verif Require Import StrModel JsonModel RpcModel RouterModel AuthModel AuthSpec GuardModel HttpModel.
Import ListNotations.
Local Open Scope nat_scope.

(** The paths that tell where to get a token: one for the whole server, and one for the folder
    that its main path is in. *)
Definition asks_metadata (c : hconf) (q : hreq) : Prop :=
  let path := match hc_endpoint c with [] => hc_rpc c | e => e end in
  hq_target q = bs "/.well-known/oauth-protected-resource" \/
  exists folder file, path = folder ++ SLASH :: file /\ ~ In SLASH file /\
    hq_target q = bs "/.well-known/oauth-protected-resource" ++ folder.
(** The path of the sessions, if there is one. *)
Definition at_endpoint (c : hconf) (q : hreq) : Prop := hc_endpoint c <> [] /\ hq_target q = hc_endpoint c.
(** The path of the event stream, asked for with GET. *)
Definition at_stream (c : hconf) (q : hreq) : Prop :=
  hc_endpoint c <> [] /\ hq_verb q = GET /\ hq_target q = stream_path c.
(** The request comes with a token that counts, or none is needed. *)
Definition let_in (c : hconf) (verify : verifier) (now : Z) (q : hreq) : Prop :=
  hc_auth c = false \/ exists i, admitted (f_auth q) verify (hc_bearer c) now i.

(** The answers of JSON-RPC to what is no request and no notification. *)
Definition NO_REQUEST : bstr := bs "{""jsonrpc"":""2.0"",""id"":null,""error"":{""code"":-32700,""message"":""Parse error""}}".
Definition NO_NOTIFICATION : bstr := bs "{""jsonrpc"":""2.0"",""id"":null,""error"":{""code"":-32600,""message"":""Invalid notification""}}".

Inductive refused (c : hconf) (verify : verifier) (now : Z) (q : hreq) (h : hstate) : N -> bstr -> Prop :=
| ref_metadata : asks_metadata c q -> hq_verb q <> GET ->
    refused c verify now q h 405 (bs "{""error"":""GET required""}")
| ref_method : ~ asks_metadata c q -> ~ at_endpoint c q -> hq_verb q <> POST ->
    refused c verify now q h 400 (bs "{""error"":""POST required""}")
| ref_path : ~ asks_metadata c q -> ~ at_endpoint c q -> hq_verb q = POST -> hq_target q <> hc_rpc c -> hq_target q <> hc_notify c ->
    refused c verify now q h 404 (bs "{""error"":""Not found""}")
| ref_request : ~ asks_metadata c q -> ~ at_endpoint c q -> hq_verb q = POST -> hq_target q = hc_rpc c -> let_in c verify now q ->
    fst (deser_request request0 (hq_body q)) = false ->
    refused c verify now q h 200 NO_REQUEST
| ref_notification : ~ asks_metadata c q -> ~ at_endpoint c q -> hq_verb q = POST -> hq_target q <> hc_rpc c -> hq_target q = hc_notify c ->
    let_in c verify now q -> fst (deser_notification notification0 (hq_body q)) = false ->
    refused c verify now q h 200 NO_NOTIFICATION
| ref_endpoint : ~ asks_metadata c q -> at_endpoint c q -> let_in c verify now q -> hq_verb q <> POST -> hq_verb q <> DELETE ->
    refused c verify now q h 405 (bs "{""error"":""POST or DELETE required""}")
| ref_delete : ~ asks_metadata c q -> at_endpoint c q -> let_in c verify now q -> hq_verb q = DELETE -> f_session q = [] ->
    refused c verify now q h 400 (bs "{""error"":""Missing session id""}")
| ref_session : ~ asks_metadata c q -> at_endpoint c q -> let_in c verify now q -> hq_verb q = POST ->
    find_session (f_session q) h = None ->
    (f_session q <> [] \/ fst (deser_request request0 (hq_body q)) = false \/
     rq_method (snd (deser_request request0 (hq_body q))) <> bs "initialize") ->
    refused c verify now q h 400 (bs "{""error"":""Missing or invalid session""}").
