(** What the configuration texts mean, without the parsers: a text writes down a list of
    settings, and an option has the value last given to one of its names. *)
From Coq Require Import Ascii String List Arith NArith ZArith Bool.
From Verif Require Import StrModel GuardModel WwwModel WwwSpec GuardSpec StdioModel ConfModel.
Import ListNotations.
Local Open Scope nat_scope.

Definition setting := (bstr * bstr)%type.

(** v is the value last given to one of the names ks. *)
Definition given (ks : list bstr) (l : list setting) (v : bstr) : Prop :=
  exists l1 k l2, l = l1 ++ (k, v) :: l2 /\ In k ks /\ forall k' v', In (k', v') l2 -> ~ In k' ks.

Definition not_given (ks : list bstr) (l : list setting) : Prop :=
  forall k v, In (k, v) l -> ~ In k ks.

(** A decimal numeral: at least one digit, nothing else. *)
Definition numeral (d : bstr) (n : N) : Prop := d <> [] /\ digits d /\ digits_val d = n.

(** Not a number at all: empty, or the first byte is no digit, no sign and no white space. *)
Definition no_number (v : bstr) : Prop :=
  forall c, hd_error v = Some c ->
    is_digit c = false /\ is_space c = false /\ c <> chr 43 /\ c <> chr 45.

(** ** HTTP client *)

(** No blank at either end. *)
Definition edges (v : bstr) : Prop :=
  forall c, hd_error v = Some c \/ hd_error (rev v) = Some c -> c <> SPACE /\ c <> TAB.

Definition http_name (k : bstr) : Prop := edges k /\ ~ In EQUALS k /\ ~ In SEMI k.
Definition http_value (v : bstr) : Prop := edges v /\ ~ In SEMI v.

(** One setting, with blanks anywhere around the name and the value. *)
Definition http_line (k v t : bstr) : Prop :=
  exists w1 w2 w3 w4, blank w1 /\ blank w2 /\ blank w3 /\ blank w4 /\ http_name k /\ http_value v /\
    t = w1 ++ k ++ w2 ++ [EQUALS] ++ w3 ++ v ++ w4.

(** Settings separated by semicolons; empty entries are allowed. *)
Inductive http_text : list setting -> bstr -> Prop :=
| ht_blank : forall w, blank w -> http_text [] w
| ht_skip : forall w l t, blank w -> http_text l t -> http_text l (w ++ [SEMI] ++ t)
| ht_one : forall k v t, http_line k v t -> http_text [(k, v)] t
| ht_cons : forall k v t l u, http_line k v t -> http_text l u -> http_text ((k, v) :: l) (t ++ [SEMI] ++ u).

(** The options that are texts, with their names and defaults (docs/api/transport.md,
    HTTPTransport.hpp). *)
Definition http_strings : list (list bstr * (hopts -> bstr) * bstr) :=
  [ ([bs "scheme"], ho_scheme, bs "https");
    ([bs "host"], ho_host, bs "localhost");
    ([bs "port"], ho_port, bs "9443");
    ([bs "endpointPath"], ho_endpoint, []);
    ([bs "streamPath"], ho_stream, []);
    ([bs "rpcPath"], ho_rpc, bs "/mcp/rpc");
    ([bs "notifyPath"], ho_notify, bs "/mcp/notify");
    ([bs "serverName"], ho_server, []);
    ([bs "caFile"], ho_cafile, []);
    ([bs "caPath"], ho_capath, []);
    ([bs "auth"], ho_auth, bs "none");
    ([bs "bearerToken"; bs "token"], ho_token, []);
    ([bs "oauthUrl"; bs "oauthTokenUrl"], ho_oauth, []);
    ([bs "clientId"], ho_id, []);
    ([bs "clientSecret"], ho_secret, []);
    ([bs "scope"], ho_scope, []) ].

Definition http_numbers : list (list bstr * (hopts -> N) * N) :=
  [ ([bs "connectTimeoutMs"], ho_connect, 10000%N);
    ([bs "readTimeoutMs"], ho_read, 30000%N);
    ([bs "sseReconnectDelayMs"], ho_reconnect, 250%N);
    ([bs "tokenRefreshSkewSeconds"; bs "tokenSkew"], ho_skew, 60%N) ].

Definition http_switches : list (list bstr * (hopts -> bool) * bool) :=
  [ ([bs "enableGetStream"], ho_get, true);
    ([bs "enableDeleteOnClose"], ho_delete, true) ].

(** ** Standard input and output *)

Definition separators (w : bstr) : Prop := forall c, In c w -> In c [SEMI; SPACE; TAB].
Definition word (v : bstr) : Prop := forall c, In c v -> ~ In c [SEMI; SPACE; TAB].

(** name=value words with separators before, between and after them. *)
Inductive stdio_text : list setting -> bstr -> Prop :=
| st_none : forall w, separators w -> stdio_text [] w
| st_last : forall w k v, separators w -> word k -> ~ In EQUALS k -> word v ->
    stdio_text [(k, v)] (w ++ k ++ [EQUALS] ++ v)
| st_more : forall w k v c l t, separators w -> word k -> ~ In EQUALS k -> word v ->
    separators [c] -> stdio_text l t ->
    stdio_text ((k, v) :: l) (w ++ k ++ [EQUALS] ++ v ++ [c] ++ t).

(** The options, with what a number n means for each. *)
Definition stdio_options : list (bstr * (sconf -> Z) * (N -> Z)) :=
  [ (bs "timeout_ms", sc_timeout, fun n => if N.eqb n 0 then int64_max else Z.of_N n);
    (bs "idle_read_timeout_ms", sc_idle, Z.of_N);
    (bs "write_timeout_ms", sc_write, Z.of_N);
    (bs "write_queue_max_bytes", fun o => Z.of_N (sc_queue o), fun n => Z.max 1 (Z.of_N n));
    (bs "max_content_length", fun o => Z.of_N (sc_content o), fun n => Z.max 1 (Z.of_N n)) ].

(** ** Queries *)

Definition query_name (k : bstr) : Prop := ~ In EQUALS k /\ ~ In AMP k.
Definition query_value (v : bstr) : Prop := ~ In AMP v.

(** name=value&name=value... *)
Fixpoint query (l : list setting) : bstr :=
  match l with
  | [] => []
  | [(k, v)] => k ++ [EQUALS] ++ v
  | (k, v) :: r => k ++ [EQUALS] ++ v ++ [AMP] ++ query r
  end.

Definition queryable (l : list setting) : Prop :=
  forall k v, In (k, v) l -> query_name k /\ query_value v.

(** The query part of an address: nothing, or a question mark and the settings. *)
Definition query_part (l : list setting) (t : bstr) : Prop :=
  queryable l /\ (l = [] /\ t = [] \/ t = [QMARK] ++ query l).

(** The texts that switch creation on. *)
Definition affirmative (v : bstr) : Prop := In (lower v) [bs "1"; bs "true"; bs "yes"].

(** ** HTTP server *)

(** A name or IPv4 address to listen on. *)
Definition plain_host (h : bstr) : Prop :=
  h <> [] /\ forall c, In c h -> is_space c = false /\ ~ In c [COLON_; LBR; RBR; SLASH; QMARK].

(** What may stand between the brackets. *)
Definition bracket_host (h : bstr) : Prop :=
  h <> [] /\ forall c, In c h -> is_space c = false /\ ~ In c [LBR; RBR; SLASH; QMARK].

(** Where to listen: address and port, the port 9443 when it is left out or empty. A host called http or https
    needs a port: what follows its colon could be taken for the rest of a scheme. *)
Definition port_or (d : bstr) : bstr := match d with [] => bs "9443" | _ => d end.
Inductive listen_text : bstr -> bstr -> bstr -> Prop :=
| lt_host : forall h, plain_host h -> listen_text h (bs "9443") h
| lt_host_port : forall h d, plain_host h -> digits d -> d <> [] \/ ~ In h [bs "http"; bs "https"] ->
    listen_text h (port_or d) (h ++ [COLON_] ++ d)
| lt_ip6 : forall h, bracket_host h -> listen_text h (bs "9443") ([LBR] ++ h ++ [RBR])
| lt_ip6_port : forall h d, bracket_host h -> digits d ->
    listen_text h (port_or d) ([LBR] ++ h ++ [RBR] ++ [COLON_] ++ d).

(** The scheme in front: http unless the text says https. *)
Inductive scheme_text : bstr -> bstr -> Prop :=
| sch_none : scheme_text (bs "http") []
| sch_http : scheme_text (bs "http") (bs "http://")
| sch_https : scheme_text (bs "https") (bs "https://").

(** A path after the address, which is not used. *)
Definition path_part (t : bstr) : Prop := t = [] \/ exists r, t = SLASH :: r /\ ~ In QMARK r.

Definition listen_strings : list (list bstr * (lopts -> bstr) * bstr) :=
  [ ([bs "cert"], lo_cert, []);
    ([bs "key"], lo_key, []);
    ([bs "endpointPath"; bs "endpoint"], lo_endpoint, []);
    ([bs "streamPath"; bs "stream"], lo_stream, []);
    ([bs "rpcPath"; bs "rpc"], lo_rpc, bs "/mcp/rpc");
    ([bs "notifyPath"; bs "notify"], lo_notify, bs "/mcp/notify") ].
