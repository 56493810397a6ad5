(** What users of an HTTP client and an HTTP server rely on, without the internals of either. *)
From Coq Require Import Ascii String List Arith NArith ZArith Bool.
From Verif Require Import StrModel DoubleModel JsonModel RpcModel RouterModel MapModel MemModel PendModel AuthModel WwwModel GuardModel
  HttpModel HcliModel HcliSpec WireSpec WebModel.
Import ListNotations.
Local Open Scope nat_scope.

(** ** Conditions on the applications *)
(** Every answer of these handlers can be told from a request by the router (C13, C14). *)
Definition answers_well (hd : handlers) : Prop :=
  forall r resp, wire_ok (WRequest r) -> answers hd r resp -> wire_ok (WResponse resp).

(** The messages are such that the router tells them apart (C13, C14), and the server has a request
    handler. *)
Definition proper (a : wact) : Prop :=
  match a with
  | WClient (TBegin r) => wire_ok (WRequest r)
  | WClient (TNotify n) => wire_ok (WNotification n)
  | WServe _ _ _ hd => h_request hd <> None /\ answers_well hd
  | WDone _ hd => answers_well hd
  | WEvent m hd => wire_ok m /\ (forall r, m <> WResponse r) /\ answers_well hd
  | _ => True
  end.

(** The text of a refusal needs no escapes (C83). *)
Definition refusals_plain (e : ends) : Prop :=
  hc_auth (en_server e) = false \/
  forall t err, en_verify e t = Rejects err -> forall c, In c err -> (32 <= code c)%N /\ c <> QUOTE /\ c <> BACKSLASH.

(** ** What happened *)
(** The server ran a request handler on r for this client, and resp is what it answers with. *)
Definition ran_with (w : web) (r : request) (resp : response) : Prop :=
  exists hd, In (hd, CRequest r) (wb_ran w) /\ h_request hd <> None /\ answers hd r resp.

(** The requests that the server ran a handler on for this client, in order. *)
Definition ran_requests (w : web) : list request :=
  flat_map (fun x => match snd x with CRequest r => [r] | _ => [] end) (wb_ran w).

(** A transport's own error for a request with this id. *)
Definition own_error (r : request) (resp : response) : Prop :=
  exists msg, In msg [bs "Invalid/empty HTTP response"; bs "Mismatched response id"; bs "Transport closed"] /\
    resp = gave (IdStr (id_key (rq_id r))) msg.

(** ** Where the two ends fit together *)
(** The server lets the client's Host and Authorization headers pass, at any time. *)
Definition lets_in (e : ends) : Prop :=
  check_local (en_loopback e) (hc_address (en_server e)) (en_host e) [] = None /\
  (hc_auth (en_server e) = false \/
   forall now, br_ok (check_bearer (en_auth e) (en_verify e) (hc_bearer (en_server e)) now) = true).

(** Both use the same endpoint. *)
Definition same_endpoint (e : ends) : Prop :=
  cf_endpoint (en_client e) <> [] /\ cf_endpoint (en_client e) = hc_endpoint (en_server e) /\
  cf_endpoint (en_client e) <> bs "/.well-known/oauth-protected-resource" /\
  cf_endpoint (en_client e) <> well_known_base (en_server e).

(** The client has no endpoint, and both use the same path for requests. *)
Definition same_rpc (e : ends) : Prop :=
  cf_endpoint (en_client e) = [] /\ cf_rpc (en_client e) = hc_rpc (en_server e) /\
  (hc_endpoint (en_server e) <> [] -> cf_rpc (en_client e) <> hc_endpoint (en_server e)) /\
  cf_rpc (en_client e) <> bs "/.well-known/oauth-protected-resource" /\
  cf_rpc (en_client e) <> well_known_base (en_server e).

(** The server knows a session of this name and takes the client's version for it. *)
Definition welcome (e : ends) (h : hstate) (s : bstr) : Prop :=
  exists n x, find_session s h = Some n /\ nth_error (hs_heap h) n = Some x /\
    check_version (en_version e) (ss_version x) = true.

(** A POST that the server will accept. *)
Definition acceptable (e : ends) (h : hstate) (r : request) (q : hreq) : Prop :=
  same_rpc e \/
  same_endpoint e /\ (welcome e h (f_session q) \/ rq_method r = bs "initialize" /\ f_session q = []).

(** The n-th POST under way is that of request r, and the server has not seen it. *)
Definition under_way (w : web) (n : nat) (r : request) (q : hreq) : Prop :=
  nth_error (wb_air w) n = Some {| ar_purpose := PuRequest (id_key (rq_id r)); ar_req := q; ar_back := None |}.

(** The step leaves the n-th POST under way alone. *)
Definition spares (n : nat) (a : wact) : Prop :=
  match a with
  | WLose m => m <> n
  | WDone m _ => n < m
  | WClient TClosed => False
  | _ => True
  end.

(** ** Sessions that last *)
(** The server opens a session for this POST: it reads an initialize request in it, and there is no
    session header. *)
Definition opens (q : hreq) (r : request) : Prop :=
  deser_request request0 (hq_body q) = (true, r) /\ rq_method r = bs "initialize" /\ f_session q = [].

(** Nobody deletes a session, the server is not stopped, and no session number comes up that is in
    use; when the server opens a session for this client, the version asked for is that of the client's
    header, or one that the server takes for it; an event stream names no session unknown to the
    server. *)
Definition deletes (q : hreq) : Prop := hq_verb q = DELETE.
Definition lasting (e : ends) (w : web) (a : wact) : Prop :=
  match a with
  | WServe n _ draw _ =>
      find_session (session_name draw) (wb_srv w) = None /\
      forall x r, nth_error (wb_air w) n = Some x -> opens (ar_req x) r -> check_version (en_version e) (asked_version r) = true
  | WOther q _ draw _ => ~ deletes q /\ find_session (session_name draw) (wb_srv w) = None
  | WServer (OCreate _ draw) => find_session (session_name draw) (wb_srv w) = None
  | WServer (OUnlink _) => False
  | WServer OStop => False
  | WStream hs => forall s, In s (session_values hs) -> welcome e (wb_srv w) s
  | _ => True
  end.

Fixpoint lasting_run (e : ends) (w : web) (es : list wact) : Prop :=
  match es with
  | [] => True
  | a :: r => lasting e w a /\ lasting_run e (wstep e w a) r
  end.
