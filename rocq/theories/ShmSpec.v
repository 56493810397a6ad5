(** Independent specification for the shared-memory transport. *)
From Coq Require Import Ascii String List Arith NArith ZArith Bool.
From Verif Require Import StrModel DoubleModel JsonModel JsonSpec RpcModel RpcSpec RouterModel MapModel MemModel MemSpec PendModel LayoutSpec ShmModel.
Import ListNotations.
Local Open Scope nat_scope.

(** The error a failed request receives. *)
Definition failed (i : rpcid) (msg : bstr) : response := error_response i (-32603) msg None.

(** The id strings of the requests entered in the table. *)
Definition shm_keys (e : shm) : list bstr := map (fun tr => id_key (rq_id (snd tr))) (hm_reg e).

(** Why request r may complete with the response resp at an endpoint that did vs and is now e. *)
Definition shm_cause (vs : list hact) (e : shm) (r : request) (resp : response) : Prop :=
  (id_key (rs_id resp) = id_key (rq_id r) /\
     exists m, In m (hm_got e) /\ deser_response response0 m = (true, resp) /\
       (contains (bs """result""") m || contains (bs """error""") m)%bool = true) \/
  (resp = failed (rq_id r) (bs "Payload too large") /\ (hm_max e < N.of_nat (length (ser_request r)))%N) \/
  (resp = failed (rq_id r) (bs "Send failed") /\ exists n ok, In (ASend n ok) vs) \/
  (resp = failed (IdStr (id_key (rq_id r))) (bs "Transport closed") /\ (In AExit vs \/ In AClosed vs)) \/
  (resp = failed (IdStr (id_key (rq_id r))) (bs "Peer not connected") /\
     exists m n, In m (hm_got e) /\ deser_notification notification0 m = (true, n) /\
       nt_method n = bs "transport/disconnected").

(** The two words that make the transport take a message for a response. *)
Definition silent (v : json) : Prop := ~ says (bs "result") v /\ ~ says (bs "error") v.

(** A request none of whose parts has one of those words as a string or a key. *)
Definition silent_request (r : request) : Prop :=
  silent (JStr (rq_method r)) /\ (forall s, rq_id r = IdStr s -> silent (JStr s)) /\
  (forall p, rq_params r = Some p -> silent p).

Definition silent_notification (n : notification) : Prop :=
  silent (JStr (nt_method n)) /\ (forall p, nt_params n = Some p -> silent p).

(** A text that needs no escaping at all. *)
Definition clean_request (r : request) : Prop :=
  good_request r /\ clean (rq_method r) /\ (forall s, rq_id r = IdStr s -> clean s).
Definition clean_notification (n : notification) : Prop :=
  good_notification n /\ clean (nt_method n).

(** Traffic between two endpoints: what the application asks for is well formed and says
    neither word; everything else is unrestricted. *)
Definition good_hact (a : hact) : Prop :=
  match a with
  | ABegin r _ => clean_request r /\ silent_request r
  | ANotify n _ => clean_notification n /\ silent_notification n
  | AHandler _ (HReturn r) _ => good_body r
  | _ => True
  end.

(** The messages that mean the transport gave the request up. *)
Definition gave_up (msg : bstr) : Prop :=
  In msg [bs "Payload too large"; bs "Send failed"; bs "Transport closed"; bs "Peer not connected"].
