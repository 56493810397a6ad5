(** The table of pending requests that the stdio, shared-memory and HTTP transports keep:
    an unordered_map from id string to promise. A promise is a ticket number, allotted in
    order of registration. *)
From Coq Require Import Ascii String List Arith NArith ZArith Bool.
From Verif Require Import StrModel DoubleModel JsonModel RpcModel MapModel.
Import ListNotations.
Local Open Scope nat_scope.

(** pt_keys records the id string each ticket was registered under; pt_done records every
    set_value call (Some response) and every destruction of an unset promise (None:
    broken_promise), in order. *)
Record ptab := {
  pt_pend : list (bstr * nat);
  pt_next : nat;
  pt_keys : list (nat * bstr);
  pt_done : list (nat * option response)
}.

Definition ptab0 : ptab := {| pt_pend := []; pt_next := 0; pt_keys := []; pt_done := [] |}.

(** pendingRequests[id] = std::move(promise): StdioTransport.cpp:1180, HTTPTransport.cpp:885,
    SharedMemoryTransport.cpp:390. Assigning over an entry destroys its promise. *)
Definition pt_register (k : bstr) (p : ptab) : ptab :=
  {| pt_pend := aset k (pt_next p) (pt_pend p);
     pt_next := S (pt_next p);
     pt_keys := pt_keys p ++ [(pt_next p, k)];
     pt_done := pt_done p ++ match aget k (pt_pend p) with Some t => [(t, None)] | None => [] end |}.

(** find, set_value, erase: StdioTransport.cpp:1009-1013 and 966-973. *)
Definition pt_complete (k : bstr) (r : response) (p : ptab) : ptab :=
  match aget k (pt_pend p) with
  | None => p
  | Some t => {| pt_pend := adel k (pt_pend p); pt_next := pt_next p; pt_keys := pt_keys p;
                 pt_done := pt_done p ++ [(t, Some r)] |}
  end.

(** A future returned already completed, never entered in the table:
    StdioTransport.cpp:1156-1164. *)
Definition pt_immediate (k : bstr) (r : response) (p : ptab) : ptab :=
  {| pt_pend := pt_pend p; pt_next := S (pt_next p); pt_keys := pt_keys p ++ [(pt_next p, k)];
     pt_done := pt_done p ++ [(pt_next p, Some r)] |}.

(** The loop over all entries followed by clear(): StdioTransport.cpp:1131-1139. *)
Definition pt_fail_all (f : bstr -> response) (p : ptab) : ptab :=
  {| pt_pend := []; pt_next := pt_next p; pt_keys := pt_keys p;
     pt_done := pt_done p ++ map (fun kt => (snd kt, Some (f (fst kt)))) (pt_pend p) |}.

(** The loop over a list of ids: StdioTransport.cpp:965-975. *)
Definition pt_complete_list (f : bstr -> response) (ks : list bstr) (p : ptab) : ptab :=
  fold_left (fun q k => pt_complete k (f k) q) ks p.
