(** Independent specification for the in-memory pair: which traffic is well formed, and
    what is in transit. *)
From Coq Require Import Ascii String List Arith NArith ZArith Bool.
From Verif Require Import StrModel DoubleModel JsonModel JsonSpec RpcModel RpcSpec RouterModel MapModel MemModel.
Import ListNotations.
Local Open Scope nat_scope.

(** A request whose id and method need no escaping and whose params can be sent. *)
Definition good_request (r : request) : Prop :=
  id_ok (rq_id r) /\ (forall s, rq_id r = IdStr s -> plain s) /\
  rq_method r <> [] /\ plain (rq_method r) /\ (forall p, rq_params r = Some p -> ok p).

Definition good_notification (n : notification) : Prop :=
  nt_method n <> [] /\ plain (nt_method n) /\ (forall p, nt_params n = Some p -> ok p).

(** A response body that survives the wire (see C10). *)
Definition good_body (r : response) : Prop :=
  (rs_result r <> None \/ rs_error r <> None) /\
  (forall v, rs_result r = Some v -> ok v /\ ~ key_in (bs "error") v) /\
  (forall e, rs_error r = Some e -> ok e /\ (rs_result r = None -> ~ key_in (bs "result") e)).

(** What the application does is well formed; everything else is unrestricted. *)
Definition good_ev (v : ev) : Prop :=
  match v with
  | EBegin _ r => good_request r
  | ENotify _ n => good_notification n
  | EHandler _ _ (HReturn r) => good_body r
  | _ => True
  end.

(** Neither endpoint is closed. *)
Definition no_close (v : ev) : Prop :=
  match v with EDisconnect _ | EFailAll _ => False | _ => True end.

(** Nothing is in transit or in progress on this side. *)
Definition idle (e : endpoint) : Prop :=
  ep_queue e = [] /\ ep_current e = None /\ ep_out e = [] /\ ep_failing e = [] /\ ep_running e = [].

(** The id strings of the requests issued on a side. *)
Definition issued_keys (e : endpoint) : list bstr :=
  map (fun tr => id_key (rq_id (snd tr))) (ep_issued e).

(** Why request r of side x may complete with outcome o after the history vs: a response
    bearing its id was processed, its side was closed, or its transmission found the peer
    disconnected. A destroyed promise is never legitimate. *)
Definition cause (ha hb : bool) (vs : list ev) (x : side) (r : request) (o : outcome) : Prop :=
  match o with
  | OResp resp =>
      id_key (rs_id resp) = id_key (rq_id r) /\
      exists m, In m (ep_processed (run (sys0 ha hb) vs x)) /\ deser_response response0 m = (true, resp)
  | OClosed resp =>
      In (EFailAll x) vs /\
      resp = error_response (IdStr (id_key (rq_id r))) (-32603) (bs "Transport closed") None
  | OSendFail resp =>
      (exists vs1 k vs2, vs = vs1 ++ ETransmit x k :: vs2 /\
         ep_connected (run (sys0 ha hb) vs1 (other x)) = false) /\
      resp = error_response (rq_id r) (-32603) (bs "Peer not connected") None
  | OBroken => False
  end.
