(** The configuration texts of the transport factories. *)
From Coq Require Import Ascii String List Arith NArith ZArith Bool.
From Verif Require Import StrModel GuardModel AuthModel WwwModel WqModel StdioModel.
Import ListNotations.
Local Open Scope nat_scope.

Definition SEMI : ascii := chr 59.
Definition AMP : ascii := chr 38.
Definition QMARK : ascii := chr 63.

(** The text between separators: the loops of HTTPTransport.cpp:1031-1034 and 1117,
    StdioTransport.cpp:1269-1281, SharedMemoryTransport.cpp:483-489 and 512, and std::getline in
    HTTPServer.cpp:1242. The C++ loops do not visit the empty piece after a last separator (nor,
    for stdio, any empty piece); every reader below ignores empty pieces, so they are kept here. *)
Fixpoint pieces (sep : ascii -> bool) (s : bstr) : list bstr :=
  match s with
  | [] => [[]]
  | c :: r =>
      if sep c then [] :: pieces sep r
      else match pieces sep r with
           | p :: ps => (c :: p) :: ps
           | [] => [[c]]
           end
  end.

(** s.find(c), then substr(0, pos) and substr(pos + 1). *)
Definition cut_at (c : ascii) (s : bstr) : option (bstr * bstr) :=
  match find_char c s with
  | Some k => Some (firstn k s, skipn (S k) s)
  | None => None
  end.

(** static_cast<unsigned int>(std::stoul(v)); None: an exception, caught and ignored. unsigned
    long has 64 bits, unsigned int 32. *)
Definition stoul32 (v : bstr) : option N := option_map (fun n => N.modulo n (2 ^ 32)) (stoull v).

Definition or_keep {A : Type} (o : option A) (d : A) : A := match o with Some a => a | None => d end.

Definition named (k : bstr) (x : string) : bool := beq k (bs x).

(** ** HTTP client *)

(** HTTPTransport::Options, HTTPTransport.hpp:56-91. *)
Record hopts := {
  ho_scheme : bstr; ho_host : bstr; ho_port : bstr; ho_endpoint : bstr; ho_stream : bstr;
  ho_rpc : bstr; ho_notify : bstr; ho_server : bstr; ho_cafile : bstr; ho_capath : bstr;
  ho_connect : N; ho_read : N; ho_reconnect : N; ho_get : bool; ho_delete : bool;
  ho_auth : bstr; ho_token : bstr; ho_oauth : bstr; ho_id : bstr; ho_secret : bstr; ho_scope : bstr;
  ho_skew : N
}.

(** The member initialisers, HTTPTransport.hpp:57-91. *)
Definition hopts0 : hopts := {|
  ho_scheme := bs "https"; ho_host := bs "localhost"; ho_port := bs "9443"; ho_endpoint := []; ho_stream := [];
  ho_rpc := bs "/mcp/rpc"; ho_notify := bs "/mcp/notify"; ho_server := []; ho_cafile := []; ho_capath := [];
  ho_connect := 10000%N; ho_read := 30000%N; ho_reconnect := 250%N; ho_get := true; ho_delete := true;
  ho_auth := bs "none"; ho_token := []; ho_oauth := []; ho_id := []; ho_secret := []; ho_scope := [];
  ho_skew := 60%N |}.

(** !(val == "0" || val == "false" || val == "False"), HTTPTransport.cpp:1086, 1089. *)
Definition switch (v : bstr) : bool :=
  negb (beq v (bs "0") || beq v (bs "false") || beq v (bs "False")).

(** One assignment, HTTPTransport.cpp:1041-1113. *)
Definition ho_set (k v : bstr) (o : hopts) : hopts :=
  let '(Build_hopts sc ho po en st rp nt sn cf cp ct rt rd gs dc au tk ou ci cs sp sk) := o in
  let num := stoul32 v in
  if named k "scheme" then Build_hopts v ho po en st rp nt sn cf cp ct rt rd gs dc au tk ou ci cs sp sk
  else if named k "host" then Build_hopts sc v po en st rp nt sn cf cp ct rt rd gs dc au tk ou ci cs sp sk
  else if named k "port" then Build_hopts sc ho v en st rp nt sn cf cp ct rt rd gs dc au tk ou ci cs sp sk
  else if named k "endpointPath" then Build_hopts sc ho po v st rp nt sn cf cp ct rt rd gs dc au tk ou ci cs sp sk
  else if named k "streamPath" then Build_hopts sc ho po en v rp nt sn cf cp ct rt rd gs dc au tk ou ci cs sp sk
  else if named k "rpcPath" then Build_hopts sc ho po en st v nt sn cf cp ct rt rd gs dc au tk ou ci cs sp sk
  else if named k "notifyPath" then Build_hopts sc ho po en st rp v sn cf cp ct rt rd gs dc au tk ou ci cs sp sk
  else if named k "serverName" then Build_hopts sc ho po en st rp nt v cf cp ct rt rd gs dc au tk ou ci cs sp sk
  else if named k "caFile" then Build_hopts sc ho po en st rp nt sn v cp ct rt rd gs dc au tk ou ci cs sp sk
  else if named k "caPath" then Build_hopts sc ho po en st rp nt sn cf v ct rt rd gs dc au tk ou ci cs sp sk
  else if named k "connectTimeoutMs" then
    Build_hopts sc ho po en st rp nt sn cf cp (or_keep num ct) rt rd gs dc au tk ou ci cs sp sk
  else if named k "readTimeoutMs" then
    Build_hopts sc ho po en st rp nt sn cf cp ct (or_keep num rt) rd gs dc au tk ou ci cs sp sk
  else if named k "sseReconnectDelayMs" then
    Build_hopts sc ho po en st rp nt sn cf cp ct rt (or_keep num rd) gs dc au tk ou ci cs sp sk
  else if named k "enableGetStream" then
    Build_hopts sc ho po en st rp nt sn cf cp ct rt rd (switch v) dc au tk ou ci cs sp sk
  else if named k "enableDeleteOnClose" then
    Build_hopts sc ho po en st rp nt sn cf cp ct rt rd gs (switch v) au tk ou ci cs sp sk
  else if named k "auth" then Build_hopts sc ho po en st rp nt sn cf cp ct rt rd gs dc v tk ou ci cs sp sk
  else if (named k "token" || named k "bearerToken")%bool then
    Build_hopts sc ho po en st rp nt sn cf cp ct rt rd gs dc au v ou ci cs sp sk
  else if (named k "oauthUrl" || named k "oauthTokenUrl")%bool then
    Build_hopts sc ho po en st rp nt sn cf cp ct rt rd gs dc au tk v ci cs sp sk
  else if named k "clientId" then Build_hopts sc ho po en st rp nt sn cf cp ct rt rd gs dc au tk ou v cs sp sk
  else if named k "clientSecret" then Build_hopts sc ho po en st rp nt sn cf cp ct rt rd gs dc au tk ou ci v sp sk
  else if named k "scope" then Build_hopts sc ho po en st rp nt sn cf cp ct rt rd gs dc au tk ou ci cs v sk
  else if (named k "tokenRefreshSkewSeconds" || named k "tokenSkew")%bool then
    Build_hopts sc ho po en st rp nt sn cf cp ct rt rd gs dc au tk ou ci cs sp (or_keep num sk)
  else o.

(** One piece, HTTPTransport.cpp:1034-1040; trim is 1018-1027 (spaces and tabs). An empty piece
    has no equals sign. *)
Definition http_piece (o : hopts) (p : bstr) : hopts :=
  match cut_at EQUALS (trim_ht p) with
  | Some (k, v) => ho_set (trim_ht k) (trim_ht v) o
  | None => o
  end.

(** HTTPTransportFactory::CreateTransport, HTTPTransport.cpp:1016-1121: the options of the new
    transport. *)
Definition http_config (config : bstr) : hopts :=
  fold_left http_piece (pieces (fun c => Ascii.eqb c SEMI) config) hopts0.

(** ** Standard input and output *)

(** The settings of a StdioTransport, StdioTransport.cpp:93-102: times in milliseconds as
    std::chrono holds them, sizes in bytes. *)
Record sconf := { sc_timeout : Z; sc_idle : Z; sc_write : Z; sc_queue : N; sc_content : N }.

(** The constructor, StdioTransport.cpp:93-120: env is the value of
    MCP_STDIOTRANSPORT_TIMEOUT_MS, empty when unset. *)
Definition sconf0 (env : bstr) : sconf :=
  {| sc_timeout := match env with
                   | [] => 30000%Z
                   | _ => match stoull env with Some n => to_int64 n | None => 30000%Z end
                   end;
     sc_idle := 0%Z; sc_write := 0%Z; sc_queue := 2097152%N; sc_content := 1048576%N |}.

(** One assignment, StdioTransport.cpp:1285-1310, with the setters 1218-1253. *)
Definition sc_set (k v : bstr) (o : sconf) : sconf :=
  let '(Build_sconf ti id wr qu co) := o in
  match stoull v with
  | None => o
  | Some n =>
      let atleast1 := if N.eqb n 0 then 1%N else n in
      if named k "timeout_ms" then Build_sconf (timeout_of n) id wr qu co
      else if named k "idle_read_timeout_ms" then Build_sconf ti (to_int64 n) wr qu co
      else if named k "write_timeout_ms" then Build_sconf ti id (to_int64 n) qu co
      else if named k "write_queue_max_bytes" then Build_sconf ti id wr atleast1 co
      else if named k "max_content_length" then Build_sconf ti id wr qu atleast1
      else o
  end.

(** One token, StdioTransport.cpp:1281-1284. *)
Definition stdio_piece (o : sconf) (p : bstr) : sconf :=
  match cut_at EQUALS p with
  | Some (k, v) => sc_set k v o
  | None => o
  end.

Definition is_sep (c : ascii) : bool := (Ascii.eqb c SEMI || Ascii.eqb c SPACE || Ascii.eqb c TAB)%bool.

(** StdioTransportFactory::CreateTransport, StdioTransport.cpp:1255-1314. *)
Definition stdio_config (env config : bstr) : sconf :=
  fold_left stdio_piece (pieces is_sep config) (sconf0 env).

(** ** Shared memory *)

(** SharedMemoryTransport::Options, SharedMemoryTransport.hpp:33-38. *)
Record mopts := { mo_channel : bstr; mo_create : bool; mo_size : N; mo_count : N }.

(** parseBool, SharedMemoryTransport.cpp:476-479. *)
Definition yes (v : bstr) : bool :=
  let l := lower v in (beq l (bs "1") || beq l (bs "true") || beq l (bs "yes"))%bool.

(** One assignment, SharedMemoryTransport.cpp:494-510. *)
Definition mo_set (k v : bstr) (o : mopts) : mopts :=
  let '(Build_mopts ch cr sz ct) := o in
  if named k "create" then Build_mopts ch (yes v) sz ct
  else if named k "maxSize" then Build_mopts ch cr (or_keep (stoull v) sz) ct
  else if named k "maxCount" then Build_mopts ch cr sz (or_keep (stoul32 v) ct)
  else o.

Definition shm_piece (o : mopts) (p : bstr) : mopts :=
  match cut_at EQUALS p with
  | Some (k, v) => mo_set k v o
  | None => o
  end.

(** The channel name and the query, SharedMemoryTransport.cpp:516-539, and the default name,
    540-543. *)
Definition shm_config (config : bstr) : mopts :=
  let rest := if starts_with (bs "shm://") config then skipn 6 config else config in
  let (name, query) := or_keep (cut_at QMARK rest) (rest, []) in
  let channel := match name with [] => bs "mcp-shm" | _ => name end in
  fold_left shm_piece (pieces (fun c => Ascii.eqb c AMP) query)
    {| mo_channel := channel; mo_create := false; mo_size := 1048576%N; mo_count := 256%N |}.

(** ** HTTP server *)

(** HTTPServer::Options, HTTPServer.hpp:36-46. *)
Record lopts := {
  lo_scheme : bstr; lo_address : bstr; lo_port : bstr; lo_endpoint : bstr; lo_stream : bstr;
  lo_rpc : bstr; lo_notify : bstr; lo_cert : bstr; lo_key : bstr
}.

(** One query parameter, HTTPServer.cpp:1246-1251. *)
Definition lo_set (k v : bstr) (o : lopts) : lopts :=
  let '(Build_lopts sc ad po en st rp nt ce ke) := o in
  if named k "cert" then Build_lopts sc ad po en st rp nt v ke
  else if named k "key" then Build_lopts sc ad po en st rp nt ce v
  else if (named k "endpointPath" || named k "endpoint")%bool then Build_lopts sc ad po v st rp nt ce ke
  else if (named k "streamPath" || named k "stream")%bool then Build_lopts sc ad po en v rp nt ce ke
  else if (named k "rpcPath" || named k "rpc")%bool then Build_lopts sc ad po en st v nt ce ke
  else if (named k "notifyPath" || named k "notify")%bool then Build_lopts sc ad po en st rp v ce ke
  else o.

(** HTTPServer.cpp:1243-1245. *)
Definition listen_piece (o : lopts) (p : bstr) : lopts :=
  let (k, v) := or_keep (cut_at EQUALS p) (p, []) in lo_set k v o.

Definition ANY : bstr := bs "0.0.0.0".
Definition DPORT : bstr := bs "9443".

(** The address and the port, HTTPServer.cpp:1216-1238; hp is hostPort, trimmed. *)
Definition listen_at (hp : bstr) : bstr * bstr :=
  match hp with
  | [] => (ANY, DPORT)
  | c :: _ =>
      let (a, p) :=
        if Ascii.eqb c LBR then
          match cut_at RBR hp with
          | Some (b, r) =>
              (skipn 1 b, match r with
                          | d :: p => if Ascii.eqb d COLON_ then p else DPORT
                          | [] => DPORT
                          end)
          | None => (ANY, DPORT)
          end
        else
          match rfind_char COLON_ hp with
          | Some k => (firstn k hp, skipn (S k) hp)
          | None => (hp, DPORT)
          end in
      (trim a, match trim p with [] => DPORT | q => q end)
  end.

(** HTTPServerFactory::CreateTransportAcceptor, HTTPServer.cpp:1176-1256. *)
Definition listen_config (config : bstr) : lopts :=
  let cfg := trim config in
  let (scheme, rest) :=
    if starts_with (bs "http://") cfg then (bs "http", skipn 7 cfg)
    else if starts_with (bs "https://") cfg then (bs "https", skipn 8 cfg)
    else (bs "http", cfg) in
  let (hpp, query) := or_keep (cut_at QMARK rest) (rest, []) in
  let hp := trim (match cut_at SLASH hpp with Some (a, _) => a | None => hpp end) in
  let (address, port) := listen_at hp in
  fold_left listen_piece (pieces (fun c => Ascii.eqb c AMP) query)
    {| lo_scheme := scheme; lo_address := address; lo_port := port; lo_endpoint := []; lo_stream := [];
       lo_rpc := bs "/mcp/rpc"; lo_notify := bs "/mcp/notify"; lo_cert := []; lo_key := [] |}.
