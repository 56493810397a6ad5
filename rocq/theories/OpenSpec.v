(** Sessions of the HTTP server as clients open and use them. *)
From Coq Require Import Ascii String List Arith NArith ZArith Bool.
From Verif Require Import StrModel DoubleModel JsonModel JsonSpec RpcModel RpcSpec RouterModel MapModel MemModel AuthModel AuthSpec GuardModel HttpModel RefuseSpec.
Import ListNotations.
Local Open Scope nat_scope.

(** A request on the path of the sessions that the guard and the token check let through. *)
Definition reaches (loopback : bstr -> bool) (c : hconf) (verify : verifier) (now : Z) (q : hreq) : Prop :=
  check_local loopback (hc_address c) (f_host q) (f_origin q) = None /\
  at_endpoint c q /\ ~ asks_metadata c q /\ let_in c verify now q /\ hq_verb q = POST.

(** A message that is written and read without loss. *)
Definition well (r : request) : Prop :=
  id_ok (rq_id r) /\ (forall s, rq_id r = IdStr s -> JsonSpec.plain s) /\ rq_method r <> [] /\ JsonSpec.plain (rq_method r) /\
  (forall p, rq_params r = Some p -> ok p).
Definition well_response (r : response) : Prop :=
  id_ok (rs_id r) /\ (forall s, rs_id r = IdStr s -> JsonSpec.plain s) /\ (rs_result r <> None \/ rs_error r <> None) /\
  (forall v, rs_result r = Some v -> ok v /\ ~ key_in (bs "error") v) /\
  (forall e, rs_error r = Some e -> ok e /\ (rs_result r = None -> ~ key_in (bs "result") e)).

(** The version that an initialize request asks for, if it names one. *)
Definition names_version (r : request) (v : bstr) : Prop :=
  exists members, rq_params r = Some (JObj members) /\ aget (bs "protocolVersion") members = Some (JStr v).
Definition session_of (r : request) (v : bstr) : Prop :=
  (v <> [] /\ names_version r v) \/ (v = bs "2025-11-25" /\ forall w, names_version r w -> w = []).

(** What the request handler's answer becomes: the same, under the id of the request. *)
Definition given (r : request) (x : handled) : response :=
  match x with
  | HReturn y => {| rs_id := rq_id r; rs_result := rs_result y; rs_error := rs_error y |}
  | HNull => {| rs_id := rq_id r; rs_result := None;
                rs_error := Some (JObj [(bs "code", JInt (-32603)); (bs "message", JStr (bs "Null response from handler"))]) |}
  | HThrow what => {| rs_id := rq_id r; rs_result := None;
                      rs_error := Some (JObj [(bs "code", JInt (-32603)); (bs "message", JStr what)]) |}
  end.

(** The request's version field fits a session of version v. *)
Definition fits (q : hreq) (v : bstr) : Prop :=
  f_version q = [] \/ f_version q = v \/ (v = bs "2025-11-25" /\ In (f_version q) [bs "2025-03-26"; bs "2025-06-18"]).

(** Session n goes by that name and has that version. *)
Definition session_at (h : hstate) (name : bstr) (n : nat) (v : bstr) : Prop :=
  find_session name h = Some n /\ exists s, nth_error (hs_heap h) n = Some s /\ ss_id s = name /\ ss_version s = v.
