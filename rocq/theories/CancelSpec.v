(** Which cancellations concern which requests. *)
From Coq Require Import Ascii String List Arith NArith ZArith Bool.
From Verif Require Import StrModel JsonModel RpcModel CancelModel.
Import ListNotations.
Local Open Scope nat_scope.

(** What a client names in a cancellation: an id, as a JSON string or integer. *)
Definition names (p : option json) (i : rpcid) : Prop :=
  exists o, p = Some (JObj o) /\
    match i with
    | IdStr s => obj_get (bs "id") o = Some (JStr s)
    | IdInt z => obj_get (bs "id") o = Some (JInt z)
    | IdNull => False
    end.

(** In flight: begun and not ended. *)
Definition in_flight (h : list cev) (q : req) : Prop := In (CBegin q) h /\ ~ In (CEnd q) h.

(** Its handler is running: watched, and not released since. *)
Definition watching (h : list cev) (q : req) : Prop := In (CWatch q) h /\ ~ In (CUnwatch q) h.

(** Histories of a server: requests begin once and end once, handlers run inside their request,
    at most once. *)
Inductive history : list cev -> Prop :=
| history_nil : history []
| history_begin h q : history h -> (forall i, ~ In (CBegin (fst q, i)) h) -> history (h ++ [CBegin q])
| history_end h q : history h -> in_flight h q -> ~ watching h q -> history (h ++ [CEnd q])
| history_cancel h p : history h -> history (h ++ [CCancel p])
| history_watch h q : history h -> in_flight h q -> ~ In (CWatch q) h -> history (h ++ [CWatch q])
| history_unwatch h q : history h -> watching h q -> history (h ++ [CUnwatch q]).

(** No two requests in flight together have ids with the same text (so never 1 beside "1"). *)
Definition distinct_ids (h : list cev) : Prop :=
  forall a b q r, h = a ++ b -> in_flight a q -> in_flight a r -> id_text (snd q) = id_text (snd r) -> id_text (snd q) <> [] -> q = r.

(** A cancellation naming the text i arrived, and no request with that id has ended since. *)
Definition pending (h : list cev) (i : bstr) : Prop :=
  i <> [] /\ exists a p b, h = a ++ CCancel p :: b /\ cancel_text p = i /\ (forall q, In (CEnd q) b -> id_text (snd q) <> i).
