(** Who is subscribed to what, from the history. *)
From Coq Require Import Ascii String List Arith NArith ZArith Bool.
From Verif Require Import StrModel DoubleModel JsonModel MapModel TaskModel SubModel.
Import ListNotations.
Local Open Scope nat_scope.

(** The request names this URI; the request names none. *)
Definition names_uri (params : option json) (u : bstr) : Prop :=
  exists o, params = Some (JObj o) /\ obj_get (bs "uri") o = Some (JStr u).
Definition names_none (params : option json) : Prop := forall u, ~ names_uri params u.

(** u was subscribed to, and since then neither it nor everything was unsubscribed. *)
Definition subscribed (ops : list sub_op) (u : bstr) : Prop :=
  exists before p after, ops = before ++ OSubscribe p :: after /\ names_uri p u /\
    forall q, In (OUnsubscribe q) after -> ~ names_uri q u /\ ~ names_none q.
