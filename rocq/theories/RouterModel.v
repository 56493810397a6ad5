(** The JSON-RPC message router. *)
From Coq Require Import Ascii String List Arith NArith ZArith Bool.
From Verif Require Import StrModel DoubleModel JsonModel RpcModel.
Import ListNotations.
Local Open Scope nat_scope.

(** Where the loop of hasTopLevelKey is: between tokens, inside a string (escape flag,
    text collected so far reversed), or after a string, skipping white space. *)
Inductive scan_mode :=
| Out
| InKey (esc : bool) (acc : bstr)
| AfterKey (key : bstr).

(** One byte between tokens, JsonRpcMessageRouter.cpp:50, 77-91. None: leave the loop. *)
Definition scan_out (c : ascii) (depth : nat) : option (nat * scan_mode) :=
  if Ascii.eqb c QUOTE then Some (depth, InKey false [])
  else if Ascii.eqb c LBRACE then Some (S depth, Out)
  else if Ascii.eqb c RBRACE then
    match depth with
    | S (S d) => Some (S d, Out)
    | _ => None
    end
  else Some (depth, Out).

(** The loop of hasTopLevelKey, JsonRpcMessageRouter.cpp:31-93, as a state machine over the
    bytes. The variables inStr and esc of the code never change from false. Brackets do
    not count. Simplification: depth does not wrap at 2^32. *)
Fixpoint top_scan (key : bstr) (depth : nat) (m : scan_mode) (s : bstr) : bool :=
  match s with
  | [] => false
  | c :: r =>
      let out :=
        match scan_out c depth with
        | Some (d, m') => top_scan key d m' r
        | None => false
        end in
      match m with
      | Out => out
      | InKey true acc => top_scan key depth (InKey false acc) r
      | InKey false acc =>
          if Ascii.eqb c BACKSLASH then top_scan key depth (InKey true acc) r
          else if Ascii.eqb c QUOTE then top_scan key depth (AfterKey (rev acc)) r
          else top_scan key depth (InKey false (c :: acc)) r
      | AfterKey k =>
          if is_ws c then top_scan key depth (AfterKey k) r
          else if Ascii.eqb c COLON then
            if (Nat.eqb depth 1 && beq k key)%bool then true else top_scan key depth Out r
          else out
      end
  end.

(** hasTopLevelKey, JsonRpcMessageRouter.cpp:19-94. *)
Definition has_top_key (key s : bstr) : bool :=
  match drop_while is_ws s with
  | c :: r => if Ascii.eqb c LBRACE then top_scan key 1 Out r else false
  | [] => false
  end.

Inductive kind := KRequest | KResponse | KNotification | KUnknown.

Definition contains (p s : bstr) : bool := match find_sub p s with Some _ => true | None => false end.

(** classify, JsonRpcMessageRouter.cpp:98-109. *)
Definition classify (s : bstr) : kind :=
  if (has_top_key (bs "result") s || has_top_key (bs "error") s)%bool then KResponse
  else if contains (bs """method""") s then
    if has_top_key (bs "id") s then KRequest else KNotification
  else KUnknown.

(** What a request handler does: return a response object, return null, or throw an
    exception with the given text. *)
Inductive handled := HReturn (r : response) | HNull | HThrow (what : bstr).

(** RouterHandlers, JsonRpcMessageRouter.h:21-25: each may be unset. A notification handler
    either returns (true) or throws (false). *)
Record handlers := {
  h_request : option (request -> handled);
  h_notification : option (notification -> bool);
  h_error : bool
}.

(** Calls that routing makes. *)
Inductive call :=
| CResolve (r : response)
| CRequest (r : request)
| CNotification (n : notification)
| CError (what : bstr).

(** How route ends: returning an optional text, or letting an exception through. *)
Inductive routed := RReturn (out : option bstr) | RThrow.

Definition with_id (i : rpcid) (r : response) : response :=
  {| rs_id := i; rs_result := rs_result r; rs_error := rs_error r |}.

(** The reply to a handled request, JsonRpcMessageRouter.cpp:129-147. *)
Definition reply (i : rpcid) (h : handled) : response :=
  match h with
  | HReturn r => with_id i r
  | HNull => error_response i (-32603) (bs "Null response from handler") None
  | HThrow what => error_response i (-32603) what None
  end.

(** The last part of route, JsonRpcMessageRouter.cpp:151-166. *)
Definition route_notification (h : handlers) (s : bstr) : list call * routed :=
  match deser_notification notification0 s with
  | (true, n) =>
      match h_notification h with
      | Some f => ([CNotification n], if f n then RReturn None else RThrow)
      | None => ([], RReturn None)
      end
  | (false, _) =>
      (if h_error h then [CError (bs "Router: unrecognized JSON-RPC message")] else [], RReturn None)
  end.

(** route, JsonRpcMessageRouter.cpp:111-166. *)
Definition route (h : handlers) (s : bstr) : list call * routed :=
  let '(ok, resp) := deser_response response0 s in
  if ((has_top_key (bs "result") s || has_top_key (bs "error") s) && ok)%bool then
    ([CResolve resp], RReturn None)
  else
    let '(okr, r) := deser_request request0 s in
    match h_request h with
    | Some f =>
        if (contains (bs """method""") s && has_top_key (bs "id") s && okr)%bool then
          ([CRequest r], RReturn (Some (ser_response (reply (rq_id r) (f r)))))
        else route_notification h s
    | None => route_notification h s
    end.
