(** What users of an HTTP server that sends requests to its client rely on. *)
From Coq Require Import Ascii String List Arith NArith ZArith Bool.
From Verif Require Import StrModel DoubleModel JsonModel RpcModel RouterModel MapModel MemModel PendModel AuthModel WwwModel GuardModel
  HttpModel HcliModel HcliSpec WireSpec WebModel WebSpec PushModel.
Import ListNotations.
Local Open Scope nat_scope.

(** The router reads no response in this text. *)
Definition no_response (text : bstr) : Prop := forall r, ~ is_response text r.

(** The messages are such that the router tells them apart (C13, C14), and nobody but the client
    posts responses to the server. *)
Definition pproper (a : pact) : Prop :=
  match a with
  | PWeb (WOther q _ _ _) => no_response (hq_body q)
  | PWeb a => proper a
  | PAsk r counter => wire_ok (WRequest (sent_as r counter))
  | PQueue _ => True
  | PNote m => wire_ok (WNotification m)
  | PHear _ hd => answers_well hd
  end.

(** The ids of the server's requests, as texts. *)
Definition asked_keys (p : push) : list bstr := map (fun x => id_key (rq_id (snd x))) (pu_asked p).

(** The client's handler ran on r, and resp is what it answers with. *)
Definition answered_with (p : push) (r : request) (resp : response) : Prop :=
  exists hd, In (hd, r) (pu_ran p) /\ answers hd r resp.

(** The errors that the server completes a request of its own with. *)
Definition server_gave_up (r : request) (resp : response) : Prop :=
  exists msg, In msg [bs "HTTP session closed"; bs "Transport closed"] /\ resp = gave (IdStr (id_key (rq_id r))) msg.

(** The n-th POST under way carries the response resp, and the server has not seen it. *)
Definition reply_under_way (p : push) (n : nat) (resp : response) (q : hreq) : Prop :=
  nth_error (wb_air (pu_web p)) n = Some {| ar_purpose := PuReply; ar_req := q; ar_back := None |} /\ hq_body q = ser_response resp.

(** The server knows the session that q names as the one number s, and takes q's version for it. *)
Definition names (h : hstate) (q : hreq) (s : nat) : Prop :=
  f_session q <> [] /\ find_session (f_session q) h = Some s /\
  exists x, nth_error (hs_heap h) s = Some x /\ check_version (f_version q) (ss_version x) = true.
