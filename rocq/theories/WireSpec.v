(** Messages on the wire between two processes. *)
From Coq Require Import Ascii String List Arith NArith ZArith Bool.
From Verif Require Import StrModel FramerModel DoubleModel JsonModel JsonSpec RpcModel RpcSpec RouterModel.
Import ListNotations.
Local Open Scope nat_scope.

(** A message, its text, and what its receiver is to do with it. *)
Inductive wire := WRequest (r : request) | WResponse (r : response) | WNotification (n : notification).
Definition wire_text (m : wire) : bstr :=
  match m with WRequest r => ser_request r | WResponse r => ser_response r | WNotification n => ser_notification n end.
Definition wire_call (m : wire) : call :=
  match m with WRequest r => CRequest r | WResponse r => CResolve r | WNotification n => CNotification n end.

(** What the bytes decode to, by the function for that kind of message. *)
Definition wire_read (m : wire) (s : bstr) : Prop :=
  match m with
  | WRequest r => deser_request request0 s = (true, r)
  | WResponse r => deser_response response0 s = (true, r)
  | WNotification n => deser_notification notification0 s = (true, n)
  end.

(** Ids and methods without quotation marks and backslashes, valid JSON values; a response has a result
    or an error, and no object inside uses the key of the other. *)
Definition wire_ok (m : wire) : Prop :=
  match m with
  | WRequest r => id_ok (rq_id r) /\ (forall s, rq_id r = IdStr s -> plain s) /\
      rq_method r <> [] /\ plain (rq_method r) /\ (forall p, rq_params r = Some p -> ok p)
  | WResponse r => id_ok (rs_id r) /\ (forall s, rs_id r = IdStr s -> plain s) /\
      (rs_result r <> None \/ rs_error r <> None) /\
      (forall v, rs_result r = Some v -> ok v /\ ~ key_in (bs "error") v) /\
      (forall e, rs_error r = Some e -> ok e /\ (rs_result r = None -> ~ key_in (bs "result") e))
  | WNotification n => nt_method n <> [] /\ plain (nt_method n) /\ (forall p, nt_params n = Some p -> ok p)
  end.

(** It fits the receiver's limit on frames and the machine's word. *)
Definition fits (max : N) (m : wire) : Prop :=
  (N.of_nat (length (wire_text m)) <= max)%N /\ (N.of_nat (length (encode (wire_text m))) < 2 ^ 64)%N.

(** The receiver has handlers for requests and notifications. *)
Definition listening (h : handlers) : Prop := h_request h <> None /\ h_notification h <> None.

(** The calls made by a receiver that hands every delivered text to its router. *)
Definition calls_of (h : handlers) (evs : list rx_event) : list call :=
  flat_map (fun e => match e with Delivered t => fst (route h t) | _ => [] end) evs.
