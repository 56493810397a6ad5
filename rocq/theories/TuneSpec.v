(** What a client asked for, and when it knows that it is in force. *)
From Coq Require Import Ascii String List Arith NArith ZArith Bool.
From Verif Require Import StrModel DoubleModel JsonModel RpcModel MapModel TaskModel SubModel SubSpec LogModel LogSpec FreshModel TuneModel.
Import ListNotations.
Local Open Scope nat_scope.

(** The requests sent, and the notifications called for, in order. *)
Definition asked_for (h : list tev) : list ask := flat_map (fun e => match e with USend a => [a] | _ => [] end) h.
Definition called (h : list tev) : list tell := flat_map (fun e => match e with UCall m => [m] | _ => [] end) h.
(** The client has received the answers to all requests it sent: as many answers as requests. *)
Definition is_answer (d : tdown) : bool := match d with TAns _ => true | TMsg _ _ => false end.
Definition answered (h : list tev) : Prop := length (filter is_answer (tu_got (trun tune0 h))) = length (asked_for h).
(** It never sends one before the earlier ones are answered. *)
Definition one_by_one (h : list tev) : Prop := forall a x b, h = a ++ USend x :: b -> answered a.
(** Requests are carried out in the order they were sent: because the client waits for each answer, or because the server takes them in order. *)
Definition in_order (h : list tev) : Prop := one_by_one h \/ forall k, In (UHandle k) h -> k = 0.
(** No request is sent. *)
Definition sends_none (h : list tev) : Prop := asked_for h = [].
(** The client received the notification of call i. *)
Definition received (s : tune) (i : nat) : Prop := exists m, In (TMsg i m) (tu_got s).
(** Nothing is left to be sent or received. *)
Definition drained (s : tune) : Prop := tu_go s = [] /\ tu_down s = [].

(** The requests as C37 and C38 look at them. *)
Definition sub_ops (l : list ask) : list sub_op := flat_map (fun a => match a with ASub p => [OSubscribe p] | AUnsub p => [OUnsubscribe p] | ALevel _ => [] end) l.
Definition level_acts (l : list ask) : list log_act := flat_map (fun a => match a with ALevel p => [GSetLevel p] | _ => [] end) l.
