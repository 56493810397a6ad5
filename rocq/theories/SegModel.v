(** The life of shared-memory transports on one channel: Start, Close, destruction, the names of the queues. *)
From Coq Require Import List Arith Bool.
Import ListNotations.
Local Open Scope nat_scope.

(** Messages, by what the processing thread does with them, SharedMemoryTransport.cpp:83-148. GBye is transport/disconnected. *)
Inductive gmsg := GNote | GRequest | GReply | GBye.

(** The processing thread, 249-288. KTop: before the test of connected. KRecv q: inside timed_receive on the queue q. KBusy: inside
    processMessage. KEpi: before the epilogue, 275.
    Simplification: timed_receive does not throw. *)
Inductive kwk := KTop | KRecv (q : nat) | KBusy (m : gmsg) | KEpi | KEnded.

(** Where the thread that owns a transport is. Start 219-292: SOpen 222-246, SConn 248, SSpawn 249, SStop and SJoin the move
    assignment of std::jthread. Close 294-346: CBye 297-307, CConn 308, CStop 311, CJoin 312, CRemove 318-331, CFail 333-342. The destructor
    62-81: DStop 65, DJoin 66, DRemove 69-80. *)
Inductive kpc := KOut | SOpen | SConn | SSpawn | SStop | SJoin | CBye | CConn | CStop | CJoin | CRemove | CFail | DStop | DJoin | DRemove | KFreed.

(** sg_rx, sg_tx: the queues of recvMq and sendMq. sg_thread: processingThread, None if not joinable. sg_old: the thread it replaced, while
    Start joins it. sg_pend: requests without an answer. sg_jobs: detached request-handler threads. Ghosts: sg_starts: calls of
    Start; sg_done: returns of Close and of the destructor. *)
Record seg := {
  sg_creator : bool; sg_conn : bool; sg_rx : option nat; sg_tx : option nat; sg_thread : option kwk; sg_stop : bool;
  sg_old : option kwk; sg_ostop : bool; sg_pend : nat; sg_jobs : nat; sg_pc : kpc; sg_starts : nat; sg_done : nat }.

(** A new transport, 57-61. *)
Definition seg0 (creator : bool) : seg :=
  {| sg_creator := creator; sg_conn := false; sg_rx := None; sg_tx := None; sg_thread := None; sg_stop := false; sg_old := None; sg_ostop := false;
     sg_pend := 0; sg_jobs := 0; sg_pc := KOut; sg_starts := 0; sg_done := 0 |}.

Inductive gfate := GTerminated | GCorrupt.

(** gw_ends: all transports on the channel, in whatever process. gw_chan: the queues the names <channel>_c2s and <channel>_s2c stand for.
    gw_qs: every queue ever made: removing a name does not touch the queue of those that have it open.
    gw_cap: maxMessageCount. Simplifications: both names are made and removed together; one capacity; no process crashes. *)
Record segs := { gw_ends : list seg; gw_chan : option (nat * nat); gw_qs : list (list gmsg); gw_cap : nat; gw_fate : option gfate }.

Definition segs0 (cap : nat) (kinds : list bool) : segs :=
  {| gw_ends := map seg0 kinds; gw_chan := None; gw_qs := []; gw_cap := cap; gw_fate := None |}.

Fixpoint upd {A} (n : nat) (x : A) (l : list A) : list A :=
  match l, n with [], _ => [] | _ :: l, 0 => x :: l | y :: l, S n => y :: upd n x l end.

Definition set_end (i : nat) (s : seg) (w : segs) : segs :=
  {| gw_ends := upd i s (gw_ends w); gw_chan := gw_chan w; gw_qs := gw_qs w; gw_cap := gw_cap w; gw_fate := gw_fate w |}.
Definition set_chan (c : option (nat * nat)) (w : segs) : segs :=
  {| gw_ends := gw_ends w; gw_chan := c; gw_qs := gw_qs w; gw_cap := gw_cap w; gw_fate := gw_fate w |}.
Definition set_qs (qs : list (list gmsg)) (w : segs) : segs :=
  {| gw_ends := gw_ends w; gw_chan := gw_chan w; gw_qs := qs; gw_cap := gw_cap w; gw_fate := gw_fate w |}.
Definition set_doom (f : gfate) (w : segs) : segs :=
  {| gw_ends := gw_ends w; gw_chan := gw_chan w; gw_qs := gw_qs w; gw_cap := gw_cap w; gw_fate := Some f |}.

Definition g_pc (c : kpc) (s : seg) : seg :=
  {| sg_creator := sg_creator s; sg_conn := sg_conn s; sg_rx := sg_rx s; sg_tx := sg_tx s; sg_thread := sg_thread s; sg_stop := sg_stop s;
     sg_old := sg_old s; sg_ostop := sg_ostop s; sg_pend := sg_pend s; sg_jobs := sg_jobs s; sg_pc := c; sg_starts := sg_starts s; sg_done := sg_done s |}.
Definition g_conn (b : bool) (s : seg) : seg :=
  {| sg_creator := sg_creator s; sg_conn := b; sg_rx := sg_rx s; sg_tx := sg_tx s; sg_thread := sg_thread s; sg_stop := sg_stop s;
     sg_old := sg_old s; sg_ostop := sg_ostop s; sg_pend := sg_pend s; sg_jobs := sg_jobs s; sg_pc := sg_pc s; sg_starts := sg_starts s; sg_done := sg_done s |}.
Definition g_open (rx tx : nat) (s : seg) : seg :=
  {| sg_creator := sg_creator s; sg_conn := sg_conn s; sg_rx := Some rx; sg_tx := Some tx; sg_thread := sg_thread s; sg_stop := sg_stop s;
     sg_old := sg_old s; sg_ostop := sg_ostop s; sg_pend := sg_pend s; sg_jobs := sg_jobs s; sg_pc := sg_pc s; sg_starts := sg_starts s; sg_done := sg_done s |}.
Definition g_threads (t : option kwk) (st : bool) (o : option kwk) (ost : bool) (s : seg) : seg :=
  {| sg_creator := sg_creator s; sg_conn := sg_conn s; sg_rx := sg_rx s; sg_tx := sg_tx s; sg_thread := t; sg_stop := st;
     sg_old := o; sg_ostop := ost; sg_pend := sg_pend s; sg_jobs := sg_jobs s; sg_pc := sg_pc s; sg_starts := sg_starts s; sg_done := sg_done s |}.
Definition g_pend (n : nat) (s : seg) : seg :=
  {| sg_creator := sg_creator s; sg_conn := sg_conn s; sg_rx := sg_rx s; sg_tx := sg_tx s; sg_thread := sg_thread s; sg_stop := sg_stop s;
     sg_old := sg_old s; sg_ostop := sg_ostop s; sg_pend := n; sg_jobs := sg_jobs s; sg_pc := sg_pc s; sg_starts := sg_starts s; sg_done := sg_done s |}.
Definition g_jobs (n : nat) (s : seg) : seg :=
  {| sg_creator := sg_creator s; sg_conn := sg_conn s; sg_rx := sg_rx s; sg_tx := sg_tx s; sg_thread := sg_thread s; sg_stop := sg_stop s;
     sg_old := sg_old s; sg_ostop := sg_ostop s; sg_pend := sg_pend s; sg_jobs := n; sg_pc := sg_pc s; sg_starts := sg_starts s; sg_done := sg_done s |}.
Definition g_start (s : seg) : seg :=
  {| sg_creator := sg_creator s; sg_conn := sg_conn s; sg_rx := sg_rx s; sg_tx := sg_tx s; sg_thread := sg_thread s; sg_stop := sg_stop s;
     sg_old := sg_old s; sg_ostop := sg_ostop s; sg_pend := sg_pend s; sg_jobs := sg_jobs s; sg_pc := SOpen; sg_starts := S (sg_starts s); sg_done := sg_done s |}.
Definition g_finish (c : kpc) (s : seg) : seg :=
  {| sg_creator := sg_creator s; sg_conn := sg_conn s; sg_rx := sg_rx s; sg_tx := sg_tx s; sg_thread := sg_thread s; sg_stop := sg_stop s;
     sg_old := sg_old s; sg_ostop := sg_ostop s; sg_pend := sg_pend s; sg_jobs := sg_jobs s; sg_pc := c; sg_starts := sg_starts s; sg_done := S (sg_done s) |}.

(** sendPayload, 154-187: try_send, then timed_send. Result: the queues, and whether the message was taken.
    Simplification: the 200 ms of timed_send are one moment of the schedule; messages are not too large. *)
Definition g_send (m : gmsg) (s : seg) (w : segs) : list (list gmsg) * bool :=
  match sg_tx s with
  | None => (gw_qs w, false)
  | Some q => match nth_error (gw_qs w) q with
              | Some l => if length l <? gw_cap w then (upd q (l ++ [m]) (gw_qs w), true) else (gw_qs w, false)
              | None => (gw_qs w, false)
              end
  end.

(** The next step of Start, Close or the destructor of transport i. *)
Definition g_own (i : nat) (s : seg) (w : segs) : segs :=
  match sg_pc s with
  | KOut | KFreed => w
  | SOpen =>
      if sg_creator s then
        let n := length (gw_qs w) in
        set_end i (g_pc SConn (g_open n (S n) s)) (set_chan (Some (n, S n)) (set_qs (gw_qs w ++ [[]; []]) w))
      else match gw_chan w with
           | Some (c2s, s2c) => set_end i (g_pc SConn (g_open s2c c2s s)) w
           | None => set_end i (g_pc KOut s) w
           end
  | SConn => set_end i (g_pc SSpawn (g_conn true s)) w
  | SSpawn => set_end i (g_pc SStop (g_threads (Some KTop) false (sg_thread s) (sg_stop s) s)) w
  | SStop => set_end i (g_pc SJoin (g_threads (sg_thread s) (sg_stop s) (sg_old s) true s)) w
  | SJoin => match sg_old s with
             | None | Some KEnded => set_end i (g_pc KOut (g_threads (sg_thread s) (sg_stop s) None false s)) w
             | Some _ => w
             end
  | CBye => if sg_creator s then set_end i (g_pc CConn s) (set_qs (fst (g_send GBye s w)) w) else set_end i (g_pc CConn s) w
  | CConn => set_end i (g_pc CStop (g_conn false s)) w
  | CStop => match sg_thread s with
             | None => set_end i (g_pc CRemove s) w
             | Some _ => set_end i (g_pc CJoin (g_threads (sg_thread s) true (sg_old s) (sg_ostop s) s)) w
             end
  | CJoin => match sg_thread s with
             | None | Some KEnded => set_end i (g_pc CRemove (g_threads None false (sg_old s) (sg_ostop s) s)) w
             | Some _ => w
             end
  | CRemove => set_end i (g_pc CFail s) (if sg_creator s then set_chan None w else w)
  | CFail => set_end i (g_finish KOut (g_pend 0 s)) w
  | DStop => match sg_thread s with
             | None => set_end i (g_pc DRemove s) w
             | Some _ => set_end i (g_pc DJoin (g_threads (sg_thread s) true (sg_old s) (sg_ostop s) s)) w
             end
  | DJoin => match sg_thread s with
             | None | Some KEnded => set_end i (g_pc DRemove (g_threads None false (sg_old s) (sg_ostop s) s)) w
             | Some _ => w
             end
  | DRemove => set_end i (g_finish KFreed s) (if sg_creator s then set_chan None w else w)
  end.

Definition g_thread (old : bool) (s : seg) : option kwk := if old then sg_old s else sg_thread s.
Definition g_stopped (old : bool) (s : seg) : bool := if old then sg_ostop s else sg_stop s.
Definition g_set (old : bool) (k : kwk) (s : seg) : seg :=
  if old then g_threads (sg_thread s) (sg_stop s) (Some k) (sg_ostop s) s else g_threads (Some k) (sg_stop s) (sg_old s) (sg_ostop s) s.

(** One step of a processing thread, 249-288. timed_receive takes the oldest message, or returns without one after 100 ms. A receive whose queue
    object Start has replaced (236, 239) uses freed memory. KBusy GNote: the handler returns. Simplification: requestHandler is set. *)
Definition g_work (i : nat) (old : bool) (s : seg) (w : segs) : segs :=
  match g_thread old s with
  | None | Some KEnded => w
  | Some KTop => match sg_conn s, g_stopped old s, sg_rx s with
                 | true, false, Some q => set_end i (g_set old (KRecv q) s) w
                 | true, false, None => w
                 | _, _, _ => set_end i (g_set old KEpi s) w
                 end
  | Some (KRecv q) =>
      if match sg_rx s with Some q' => Nat.eqb q q' | None => false end then
        match nth_error (gw_qs w) q with
        | Some (m :: l) => set_end i (g_set old (KBusy m) s) (set_qs (upd q l (gw_qs w)) w)
        | _ => set_end i (g_set old KTop s) w
        end
      else set_doom GCorrupt w
  | Some (KBusy GNote) => set_end i (g_set old KTop s) w
  | Some (KBusy GRequest) => set_end i (g_jobs (S (sg_jobs s)) (g_set old KTop s)) w
  | Some (KBusy GReply) => set_end i (g_pend (pred (sg_pend s)) (g_set old KTop s)) w
  | Some (KBusy GBye) => set_end i (g_pend 0 (g_conn false (g_set old KTop s))) w
  | Some KEpi => set_end i (g_pend 0 (g_conn false (g_set old KEnded s))) w
  end.

(** GStart, GClose, GDestroy: the owner of transport i calls. GOwn: the call goes on. GWork: a processing thread goes on. GSay: SendNotification.
    GAsk: SendRequest 351-434. GAnswer: a request handler returns and its thread sends the answer, 101-118. GInClose, GInDestroy: a notification handler calls
    Close (its join throws and is ignored, 313-315) or destroys its transport (the join in the destructor is not guarded, 66).
    Simplification: one thread at a time starts, closes and destroys a transport; SendRequest, and Close in a handler, are one step. *)
Inductive gact := GStart (i : nat) | GClose (i : nat) | GDestroy (i : nat) | GOwn (i : nat) | GWork (i : nat) (old : bool) | GSay (i : nat) | GAsk (i : nat)
| GAnswer (i : nat) | GInClose (i : nat) | GInDestroy (i : nat).

Definition actor (v : gact) : nat :=
  match v with
  | GStart i | GClose i | GDestroy i | GOwn i | GWork i _ | GSay i | GAsk i | GAnswer i | GInClose i | GInDestroy i => i
  end.

Definition gstep (w : segs) (v : gact) : segs :=
  match gw_fate w, nth_error (gw_ends w) (actor v) with
  | None, Some s =>
      match v with
      | GStart i => match sg_pc s with KOut => set_end i (g_start s) w | _ => w end
      | GClose i => match sg_pc s with KOut => set_end i (g_pc CBye s) w | _ => w end
      | GDestroy i => match sg_pc s with KOut => set_end i (g_pc DStop (g_conn false s)) w | _ => w end
      | GOwn i => g_own i s w
      | GWork i old => g_work i old s w
      | GSay i => match sg_pc s with KFreed => w | _ => set_qs (fst (g_send GNote s w)) w end
      | GAsk i => match sg_pc s with
                  | KFreed => w
                  | _ => if sg_conn s then
                           let (qs, ok) := g_send GRequest s w in set_qs qs (if ok then set_end i (g_pend (S (sg_pend s)) s) w else w)
                         else w
                  end
      | GAnswer i => match sg_jobs s with
                     | 0 => w
                     | S n => match sg_pc s with
                              | KFreed => set_doom GCorrupt w
                              | _ => set_qs (fst (g_send GReply s w)) (set_end i (g_jobs n s) w)
                              end
                     end
      | GInClose i => match sg_thread s with
                      | Some (KBusy GNote) =>
                          let w1 := if sg_creator s then set_chan None (set_qs (fst (g_send GBye s w)) w) else w in
                          set_end i (g_pend 0 (g_conn false (g_threads (sg_thread s) true (sg_old s) (sg_ostop s) s))) w1
                      | _ => w
                      end
      | GInDestroy i => match sg_thread s with Some (KBusy GNote) => set_doom GTerminated w | _ => w end
      end
  | _, _ => w
  end.

Definition grun (w : segs) (h : list gact) : segs := fold_left gstep h w.
