(** What the event stream is expected to do. *)
From Coq Require Import Ascii String List Arith NArith ZArith Bool.
From Verif Require Import StrModel DoubleModel JsonModel JsonSpec RpcModel RpcSpec RouterModel.
Import ListNotations.
Local Open Scope nat_scope.

(** Event ids are decimal numbers. *)
Definition number (i : bstr) : Prop := Forall (fun c => (48 <= N_of_ascii c <= 57)%N) i.

(** A payload on one line: not empty, no line break inside, no carriage return at the end. *)
Definition one_line (p : bstr) : Prop := p <> [] /\ ~ In (ascii_of_nat 10) p /\ (forall q, p <> q ++ [ascii_of_nat 13]).

(** The pieces an event may be cut into without harm: every byte of the id line on its own, the data line
    as a whole, the two line breaks. If it may be cut anywhere, every byte is a piece. *)
Definition pieces (kept : bool) (e : bstr * bstr) : list bstr :=
  let single := map (fun c : ascii => [c]) in
  let id_line := bs "id: " ++ fst e ++ [ascii_of_nat 10] in
  let data := bs "data: " ++ snd e in
  if kept then single id_line ++ [data; [ascii_of_nat 10]; [ascii_of_nat 10]]
  else single (id_line ++ data ++ [ascii_of_nat 10; ascii_of_nat 10]).

(** The reads are runs of consecutive pieces of these events. *)
Definition cut_into (es : list (bool * (bstr * bstr))) (reads : list bstr) : Prop :=
  exists groups : list (list bstr),
    concat groups = flat_map (fun x => pieces (fst x) (snd x)) es /\ reads = map (@concat ascii) groups.

(** No line break of either kind. *)
Definition breakless (s : bstr) : Prop := ~ In (ascii_of_nat 10) s /\ ~ In (ascii_of_nat 13) s.

(** Messages a server sends on its own, as text, and what the client is to do with them. *)
Inductive message := MRequest (r : request) | MNotification (n : notification).
Definition message_text (m : message) : bstr :=
  match m with MRequest r => ser_request r | MNotification n => ser_notification n end.
Definition message_call (m : message) : call :=
  match m with MRequest r => CRequest r | MNotification n => CNotification n end.

(** A message whose method, id and object keys are free of quotation marks, backslashes and line
    breaks; strings inside the parameters may hold anything. *)
Definition params_ok (p : option json) : Prop :=
  forall v, p = Some v -> ok v /\ forall k, key_in k v -> breakless k.
Definition sendable (m : message) : Prop :=
  match m with
  | MRequest r =>
      id_ok (rq_id r) /\ (forall s, rq_id r = IdStr s -> plain s /\ breakless s) /\
      rq_method r <> [] /\ plain (rq_method r) /\ breakless (rq_method r) /\ params_ok (rq_params r)
  | MNotification n => nt_method n <> [] /\ plain (nt_method n) /\ breakless (nt_method n) /\ params_ok (nt_params n)
  end.
