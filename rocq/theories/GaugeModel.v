(** Two ends of a shared-memory channel with message sizes of their own,
    src/mcp/SharedMemoryTransport.cpp. *)
From Coq Require Import Ascii String List Arith NArith ZArith Bool.
From Verif Require Import StrModel DoubleModel JsonModel RpcModel MapModel MemModel PendModel ShmModel.
Import ListNotations.
Local Open Scope nat_scope.

(** The steps of an end: what its application, handlers and closing do, and a turn of its
    processing thread. *)
Inductive gact :=
| GDo (a : hact)
| GTurn.

(** A send the queue does not take, SharedMemoryTransport.cpp:168-182. *)
Definition refuse (a : hact) : hact :=
  match a with
  | ASend n _ => ASend n false
  | ANotify nt _ => ANotify nt false
  | AHandler n h _ => AHandler n h false
  | AClose _ => AClose false
  | _ => a
  end.

(** try_send and timed_send throw when the message is longer than the size the queue was
    created with, SharedMemoryTransport.cpp:168-182. Simplification: the report of the exception
    is that of a full queue. This and the size check of timed_receive below are assumptions about
    boost::interprocess::message_queue, whose source is not available here. *)
Definition fit (cap : N) (creator : bool) (e : shm) (a : hact) : hact :=
  match snd (hstep creator e a) with
  | Some m => if N.ltb cap (N.of_nat (length m)) then refuse a else a
  | None => a
  end.

(** A turn of the loop, SharedMemoryTransport.cpp:252-274: timed_receive throws, before it looks
    for a message, when the buffer of maxMessageSize of this end (251) is smaller than the size
    the queue was created with. Otherwise the first message is taken, if there is one. Other
    failures of the queue are not modelled. *)
Definition turn (cap : N) (e : shm) (q : list bstr) : option hact :=
  if hm_live e then
    if N.ltb (hm_max e) cap then Some AReceiveError
    else match q with m :: _ => Some (AReceive m) | [] => None end
  else None.

(** One step; both queues are created with the size of the creator,
    SharedMemoryTransport.cpp:236-237, and an opener takes them as they are, 239-240. *)
Definition gstep (cap : N) (s : hpair) (v : side * gact) : hpair :=
  let (x, g) := v in
  match g with
  | GTurn => match turn cap (hp_ep s x) (hp_q s x) with Some a => hpstep s (x, a) | None => s end
  | GDo (AReceive _) | GDo AReceiveError => s
  | GDo a => hpstep s (x, fit cap (is_creator x) (hp_ep s x) a)
  end.

(** A channel whose creator has the size ma and whose opener has the size mb; the handlers are
    set as ha and hb say. *)
Definition grun (ha hb : bool) (ma mb : N) (vs : list (side * gact)) : hpair :=
  fold_left (gstep ma) vs (hpair0 ha hb ma mb).
