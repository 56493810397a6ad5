(** Independent specification for the HTTP client transport. *)
From Coq Require Import Ascii String List Arith NArith ZArith Bool.
From Verif Require Import StrModel DoubleModel JsonModel RpcModel RouterModel MapModel MemModel PendModel HcliModel.
Import ListNotations.
Local Open Scope nat_scope.

(** What a text is, as the message router sees it (C13 and C14 say what that is). *)
Definition is_response (m : bstr) (r : response) : Prop := forall hd, fst (route hd m) = [CResolve r].
Definition is_request (m : bstr) (r : request) : Prop :=
  forall hd, h_request hd <> None -> fst (route hd m) = [CRequest r].

(** The error a request receives when there is no answer. *)
Definition gave (i : rpcid) (msg : bstr) : response := error_response i (-32603) msg None.

(** The id strings of the requests entered in the table. *)
Definition hc_keys (h : hcli) : list bstr := map (fun tr => id_key (rq_id (snd tr))) (hc_reg h).

(** Why a request with id string k may complete with resp at a transport that did vs and is
    now h:
    - a response bearing its id arrived
    - its own POST ended, with nothing that is a JSON-RPC request or response
    - its own POST ended, with the response to something else
    - the transport was closed *)
Definition hc_cause (vs : list hcact) (h : hcli) (k : bstr) (resp : response) : Prop :=
  (id_key (rs_id resp) = k /\ exists m, In m (hc_heard h) /\ is_response m resp) \/
  (resp = gave (IdStr k) (bs "Invalid/empty HTTP response") /\ exists ex, In (k, ex) (hc_ended h) /\
     (forall r, ~ is_response (ex_body ex) r) /\ (forall r, ~ is_request (ex_body ex) r)) \/
  (resp = gave (IdStr k) (bs "Mismatched response id") /\ exists ex r, In (k, ex) (hc_ended h) /\
     is_response (ex_body ex) r /\ id_key (rs_id r) <> k) \/
  (resp = gave (IdStr k) (bs "Transport closed") /\ In TClosed vs).

(** A transport on which everything that is to be sent can still be sent. *)
Definition running (h : hcli) : Prop :=
  hc_crashed h = false /\ hc_thread h = true /\ hc_stopped h = false.

(** The handlers take every notification without throwing. *)
Definition calm (hd : handlers) : Prop := forall f, h_notification hd = Some f -> forall n, f n = true.
Definition calm_act (a : hcact) : Prop :=
  match a with TDone _ _ hd => calm hd | TEvent _ hd => calm hd | _ => True end.

(** Start is not called on a transport that is running already. *)
Fixpoint started_once (up : bool) (vs : list hcact) : Prop :=
  match vs with
  | [] => True
  | TStart :: r => up = false /\ started_once true r
  | TStop :: r => started_once false r
  | _ :: r => started_once up r
  end.

(** ** Sessions *)
(** The values of the headers called Mcp-Session-Id. *)
Definition session_values (hs : list (bstr * bstr)) : list bstr :=
  map snd (filter (fun h => beq (fst h) (bs "Mcp-Session-Id")) hs).

(** The session in force after what happened on the network: the last one issued, in the reply to
    a POST or at the head of an event stream, since Close. A reply that has an empty one, or
    none, leaves it. *)
Inductive in_force : list hclog -> bstr -> Prop :=
| if_start : in_force [] []
| if_post l s p x v b : in_force l s -> in_force (l ++ [SPost p x v b]) s
| if_delete l s x : in_force l s -> in_force (l ++ [SDelete x]) s
| if_issue l hs a s' : session_values hs = a ++ [s'] -> s' <> [] -> in_force (l ++ [SReply hs]) s'
| if_keep l hs s : in_force l s -> last (session_values hs) [] = [] -> in_force (l ++ [SReply hs]) s
| if_stream l hs a s' : session_values hs = a ++ [s'] -> in_force (l ++ [SStream hs]) s'
| if_stay l hs s : in_force l s -> session_values hs = [] -> in_force (l ++ [SStream hs]) s
| if_clear l : in_force (l ++ [SCleared]) [].

(** The same names up to the case of letters, as HTTP compares them (RFC 9110, 5.1). *)
Definition lower (c : ascii) : ascii :=
  let n := N_of_ascii c in if (N.leb 65 n && N.leb n 90)%bool then ascii_of_N (n + 32) else c.
Definition same_name (a b : bstr) : Prop := map lower a = map lower b.

(** Where a message is posted: everything at the endpoint if there is one, else requests at the
    request path and the rest at the notification path. *)
Definition url_for (c : hccfg) (p : purpose) : bstr :=
  match cf_endpoint c, p with
  | [], PuRequest _ => cf_rpc c
  | [], _ => cf_notify c
  | e, _ => e
  end.

(** ** POSTs *)
Definition posted (l : list hclog) : list (bstr * bstr) :=
  flat_map (fun e => match e with SPost p _ _ b => [(p, b)] | _ => [] end) l.
Definition texts_for (f : purpose -> bool) (l : list (purpose * bstr)) : list bstr :=
  map snd (filter (fun p => f (fst p)) l).
Definition for_request (p : purpose) : bool := match p with PuRequest _ => true | _ => false end.
Definition for_notify (p : purpose) : bool := match p with PuNotify => true | _ => false end.
Definition for_reply (p : purpose) : bool := match p with PuReply => true | _ => false end.

(** The requests of the server that reached the client, and the notifications sent. *)
Definition asked (cs : list call) : list request :=
  flat_map (fun c => match c with CRequest r => [r] | _ => [] end) cs.

(** The application leaves the id to the transport. *)
Definition auto_hcact (a : hcact) : Prop :=
  match a with TBegin r => rq_id r = IdNull \/ rq_id r = IdStr [] | _ => True end.
Definition hc_begins (vs : list hcact) : N :=
  N.of_nat (length (filter (fun a => match a with TBegin _ => true | _ => false end) vs)).

(** What request r of the server is answered with, when hd are the handlers installed. *)
Definition answers (hd : handlers) (r : request) (resp : response) : Prop :=
  match h_request hd with
  | None => resp = error_response (rq_id r) (-32001) (bs "No request handler registered") None
  | Some f =>
      match f r with
      | HReturn x => rs_id resp = rq_id r /\ rs_result resp = rs_result x /\ rs_error resp = rs_error x
      | HNull => resp = error_response (rq_id r) (-32603) (bs "Null response from handler") None
      | HThrow what => resp = error_response (rq_id r) (-32603) what None
      end
  end.
Definition installed (vs : list hcact) (hd : handlers) : Prop :=
  exists a, In a vs /\ match a with TDone _ _ x => x = hd | TEvent _ x => x = hd | _ => False end.

(** The notifications sent while the transport is up. *)
Fixpoint sent_notes (up : bool) (vs : list hcact) : list notification :=
  match vs with
  | [] => []
  | TStart :: r => sent_notes true r
  | TDisconnect :: r => sent_notes false r
  | TNotify n :: r => if up then n :: sent_notes up r else sent_notes up r
  | _ :: r => sent_notes up r
  end.
