(** What users of the HTTP server rely on, without its internals. *)
From Coq Require Import Ascii String List Sorted Arith NArith ZArith Bool.
From Verif Require Import StrModel DoubleModel JsonModel RpcModel RouterModel MapModel MemModel AuthModel AuthSpec WwwModel GuardModel GuardSpec HttpModel.
Import ListNotations.
Local Open Scope nat_scope.

(** No bearer token that counts comes with the request. *)
Definition unadmitted (c : hconf) (verify : verifier) (now : Z) (q : hreq) : Prop :=
  forall i, ~ admitted (f_auth q) verify (hc_bearer c) now i.

(** The request asks for the event stream. *)
Definition asks_stream (c : hconf) (q : hreq) : Prop :=
  hc_endpoint c <> [] /\ hq_verb q = GET /\ hq_target q = stream_path c.

(** Taking fields of a name out of a request. *)
Definition without (n : bstr) (q : hreq) : hreq :=
  {| hq_verb := hq_verb q; hq_target := hq_target q;
     hq_fields := filter (fun f => negb (beq (lower (fst f)) n)) (hq_fields q); hq_body := hq_body q |}.

(** The same server bound elsewhere. *)
Definition bound_to (a : bstr) (c : hconf) : hconf :=
  {| hc_address := a; hc_endpoint := hc_endpoint c; hc_stream := hc_stream c; hc_rpc := hc_rpc c;
     hc_notify := hc_notify c; hc_bearer := hc_bearer c; hc_auth := hc_auth c |}.

(** The payloads queued to session n by a history; sessions are numbered in order of
    creation, made of them exist already. *)
Fixpoint queued (n made : nat) (os : list hop) : list bstr :=
  match os with
  | [] => []
  | OCreate _ _ :: r => queued n (S made) r
  | OQueue k p :: r => if (Nat.eqb k n && Nat.ltb n made)%bool then p :: queued n made r else queued n made r
  | _ :: r => queued n made r
  end.

(** Events numbered from m on, modulo 2^64. *)
Fixpoint numbered (m : N) (l : list bstr) : list (bstr * bstr) :=
  match l with
  | [] => []
  | p :: r => (print_N (m mod two64), p) :: numbered (m + 1) r
  end.

Definition queue_of (n : nat) (h : hstate) : list (bstr * bstr) :=
  match nth_error (hs_heap h) n with Some s => ss_queue s | None => [] end.
Definition held_by (k : nat) (h : hstate) : option (bstr * bstr) :=
  match nth_error (hs_streams h) k with Some m => sm_held m | None => None end.
Definition wire_of (k : nat) (h : hstate) : list (bstr * bstr) :=
  match nth_error (hs_streams h) k with Some m => sm_wire m | None => [] end.
Definition serves (k n : nat) (h : hstate) : bool :=
  match nth_error (hs_streams h) k with Some m => Nat.eqb (sm_session m) n | None => false end.

(** The message that a step makes stream k take off its queue. *)
Definition taken_now (k : nat) (h : hstate) (o : hop) : list (bstr * bstr) :=
  match o with
  | OTake j => if Nat.eqb j k then
                 match held_by k h, held_by k (hstep h o) with
                 | None, Some x => [x]
                 | _, _ => []
                 end
               else []
  | _ => []
  end.

(** The messages stream k takes in a history, in order. *)
Fixpoint taken_by (k : nat) (os : list hop) (h : hstate) : list (bstr * bstr) :=
  match os with
  | [] => []
  | o :: r => taken_now k h o ++ taken_by k r (hstep h o)
  end.

(** The messages that streams of session n take, in order. *)
Fixpoint taken (n : nat) (os : list hop) (h : hstate) : list (bstr * bstr) :=
  match os with
  | [] => []
  | o :: r => (match o with OTake k => if serves k n h then taken_now k h o else [] | _ => [] end) ++ taken n r (hstep h o)
  end.

(** a is b with some elements left out. *)
Inductive subseq {A : Type} : list A -> list A -> Prop :=
| sub_nil : subseq [] []
| sub_keep : forall x a b, subseq a b -> subseq (x :: a) (x :: b)
| sub_drop : forall x a b, subseq a b -> subseq a (x :: b).

(** The requests sent: ticket, session, id text, in order. *)
Fixpoint issued (made tick : nat) (os : list hop) : list (nat * nat * bstr) :=
  match os with
  | [] => []
  | OCreate _ _ :: r => issued (S made) tick r
  | OPend n k :: r => if Nat.ltb n made then (tick, n, k) :: issued made (S tick) r else issued made tick r
  | _ :: r => issued made tick r
  end.

(** The names of all sessions created. *)
Fixpoint created (os : list hop) : list bstr :=
  match os with
  | [] => []
  | OCreate _ d :: r => session_name d :: created r
  | _ :: r => created r
  end.

(** The random number generator's promise, HTTPServer.cpp:153. *)
Definition draws_ok (os : list hop) : Prop :=
  forall v d, In (OCreate v d) os -> (1000 <= d <= 9999)%N.
