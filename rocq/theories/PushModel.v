(** The other direction of WebModel: requests and notifications that an HTTP server sends to an HTTP
    client over the event stream, and the answers that the client posts. *)
From Coq Require Import Ascii String List Arith NArith ZArith Bool.
From Verif Require Import StrModel DoubleModel JsonModel RpcModel RouterModel MapModel MemModel PendModel AuthModel WwwModel GuardModel
  HttpModel HcliModel WireSpec WebModel.
Import ListNotations.
Local Open Scope nat_scope.

(** The state: the two ends (WebModel); the calls of SendRequest between their two critical sections,
    each with its session and text; and, for every event the client read, the number of the stream.
    Not in the code: the requests sent, each with its ticket and session; those refused because there
    was no session; and the requests that the client's handler ran on, with the handlers. *)
Record push := {
  pu_web : web;
  pu_wait : list (nat * bstr);
  pu_read : list nat;
  pu_asked : list (nat * nat * request);
  pu_refused : list (nat * request);
  pu_ran : list (handlers * request)
}.
Definition push0 : push :=
  {| pu_web := web0; pu_wait := []; pu_read := []; pu_asked := []; pu_refused := []; pu_ran := [] |}.

(** Steps:
    - PWeb a: a step of WebModel other than those below
    - PAsk r counter: SendRequest up to the release of the session's lock, HTTPServer.cpp:1102-1133
    - PQueue j: the rest of the j-th such call, 1134
    - PNote m: SendNotification, 1138-1149
    - PHear k hd: the client reads the next event of the k-th stream and hands it to
      handleIncomingJson, HTTPTransport.cpp:625-634; hd: its handlers
    Simplification: what the client reads from a stream is what the server wrote there, event by event
    (C49 and C50: the text of an event, taken apart again, is the message); any stream may be one that
    the client reads, whoever opened it. *)
Inductive pact :=
| PWeb (a : wact)
| PAsk (r : request) (counter : N)
| PQueue (j : nat)
| PNote (m : notification)
| PHear (k : nat) (hd : handlers).

(** The steps of WebModel that the others do not replace. *)
Definition web_step (a : wact) : bool :=
  match a with
  | WEvent _ _ | WServer (OQueue _ _) | WServer (OPend _ _) | WServer (OResolve _ _) => false
  | _ => true
  end.

Definition on_web (f : web -> web) (p : push) : push :=
  {| pu_web := f (pu_web p); pu_wait := pu_wait p; pu_read := pu_read p; pu_asked := pu_asked p;
     pu_refused := pu_refused p; pu_ran := pu_ran p |}.
Definition on_srv (f : hstate -> hstate) (w : web) : web := put_srv (f (wb_srv w)) [] w.

(** The request as it is sent: with an id of the server if it has none, HTTPServer.cpp:1114-1128. *)
Definition sent_as (r : request) (counter : N) : request :=
  {| rq_id := send_key (rq_id r) counter; rq_method := rq_method r; rq_params := rq_params r |}.

(** The answer when there is no session, HTTPServer.cpp:1106-1112. *)
Definition refuse (r : request) (h : hstate) : hstate :=
  {| hs_heap := hs_heap h; hs_table := hs_table h; hs_active := hs_active h; hs_ticket := S (hs_ticket h);
     hs_done := hs_done h ++ [(hs_ticket h, Some (error_response (rq_id r) (-32603) (bs "No active HTTP session") None))];
     hs_streams := hs_streams h |}.

(** How many events of stream k the client has read. *)
Definition reads (k : nat) (l : list nat) : nat := count_occ Nat.eq_dec l k.

(** Whether the client acts on events: hcstep for TEvent. *)
Definition listening (h : hcli) : bool := (negb (hc_crashed h) && (hc_connected h && hc_sse h))%bool.

Definition requests_in (cs : list call) : list request :=
  flat_map (fun c => match c with CRequest r => [r] | _ => [] end) cs.

(** One step; a step that is not enabled changes nothing. *)
Definition pstep (e : ends) (p : push) (a : pact) : push :=
  match a with
  | PWeb a => if web_step a then on_web (fun w => wstep e w a) p else p
  | PAsk r counter =>
      let h := wb_srv (pu_web p) in
      match active_session h with
      | None =>
          {| pu_web := on_srv (refuse r) (pu_web p); pu_wait := pu_wait p; pu_read := pu_read p; pu_asked := pu_asked p;
             pu_refused := pu_refused p ++ [(hs_ticket h, r)]; pu_ran := pu_ran p |}
      | Some n =>
          let q := sent_as r counter in
          {| pu_web := on_srv (pend_request n (id_key (rq_id q))) (pu_web p); pu_wait := pu_wait p ++ [(n, ser_request q)];
             pu_read := pu_read p; pu_asked := pu_asked p ++ [(hs_ticket h, n, q)];
             pu_refused := pu_refused p; pu_ran := pu_ran p |}
      end
  | PQueue j =>
      match take_nth j (pu_wait p) with
      | Some ((n, text), rest) =>
          {| pu_web := on_srv (queue_outbound n text) (pu_web p); pu_wait := rest; pu_read := pu_read p; pu_asked := pu_asked p;
             pu_refused := pu_refused p; pu_ran := pu_ran p |}
      | None => p
      end
  | PNote m => on_web (on_srv (send_notification m)) p
  | PHear k hd =>
      match nth_error (hs_streams (wb_srv (pu_web p))) k with
      | Some m =>
          match nth_error (sm_wire m) (reads k (pu_read p)) with
          | Some (_, text) =>
              {| pu_web := act (TEvent text hd) (pu_web p); pu_wait := pu_wait p; pu_read := pu_read p ++ [k];
                 pu_asked := pu_asked p; pu_refused := pu_refused p;
                 pu_ran := pu_ran p ++ (if listening (client e (pu_web p))
                                        then map (fun r => (hd, r)) (requests_in (fst (route (wrap_handlers hd) text))) else []) |}
          | None => p
          end
      | None => p
      end
  end.

Definition prun (e : ends) (es : list pact) : push := fold_left (pstep e) es push0.
