(** What a pair of connected transports is expected to do. *)
From Coq Require Import Ascii String List Arith NArith ZArith Bool.
From Verif Require Import StrModel FramerModel DoubleModel JsonModel JsonSpec RpcModel RpcSpec RouterModel MapModel MemModel PendModel
  WqModel StdioModel StdioSpec WireSpec DuoModel.
Import ListNotations.
Local Open Scope nat_scope.

(** Requests passed to SendRequest: the id may be missing or empty, then the transport makes one. *)
Definition request_ok (r : request) : Prop := wire_ok (WRequest r).

(** Handlers whose replies are proper responses. *)
Definition replies_ok (h : handlers) : Prop :=
  forall f r, h_request h = Some f -> request_ok r -> wire_ok (WResponse (reply (rq_id r) (f r))).

(** Both processes send well-formed requests and notifications and answer with well-formed replies. *)
Definition proper (e : dev) : Prop :=
  match e with
  | DLocal _ (SBegin r) => request_ok r
  | DLocal _ (SFrame p) => exists n, p = ser_notification n /\ wire_ok (WNotification n)
  | DHandle _ h => replies_ok h
  | _ => True
  end.

(** No frame that was queued exceeds the limits of the reader. *)
Definition small (s : stdio) : Prop :=
  forall p, In (encode p) (w_accepted (st_wq s)) -> (N.of_nat (length p) <= 1048576)%N /\ (N.of_nat (length (encode p)) < 2 ^ 64)%N.

(** In the history es, process b handled the text t, with handlers h. *)
Definition handled_with (u : bool -> setup) (es : list dev) (b : bool) (h : handlers) (t : bstr) : Prop :=
  exists es1 es2 rest, es = es1 ++ DHandle b h :: es2 /\ sd_inbox (duo_run u es1 b) = Delivered t :: rest.

(** All calls the router of a process has made. *)
Definition calls_made (vs : list sev) : list call :=
  flat_map (fun v => match v with SMessage h m => fst (route h m) | _ => [] end) vs.
