(** The threads of a pair of in-memory transports: Start, Close, destruction. *)
From Coq Require Import List Arith Bool.
Import ListNotations.
Local Open Scope nat_scope.

(** What a queued message makes the worker do, InMemoryTransport.cpp:81-137: run the notification handler, start a
    detached thread for the request handler, or complete a promise. *)
Inductive pkind := MNote | MReq | MResp.

(** The worker, InMemoryTransport.cpp:61-79. WTop: before the test of connected. WChecked: it holds queueMutex and the
    predicate of the wait was false; it has not started to wait. WBlocked: it waits and holds nothing. WAwake: notified, it
    has to look at the predicate again. WDrain: it holds queueMutex at the head of the inner loop, 69. WTaken: it has
    popped a message and released the mutex. WBusy: inside processMessage. WRelock: before 74.
    Simplification: condition variables do not wake up without cause. *)
Inductive wk := WTop | WChecked | WBlocked | WAwake | WDrain | WTaken (m : pkind * nat) | WBusy (m : pkind) | WRelock | WEnded.

(** Where the thread that owns the end is: Start (190-196), Close (198-215), the destructor of Impl (52-59). SSpawn: connected is
    set. SStop: the new thread runs; the move assignment of std::jthread has yet to stop the old one. SJoin: it joins the old
    one. CNotify: connected is cleared. DNotify, DStop, DJoin: 54, 56, 57. EFreed: the end is gone. *)
Inductive epc := EOut | SSpawn | SStop | SJoin | CNotify | DNotify | DStop | DJoin | EFreed.

(** en_worker: the jthread member, None if not joinable; en_stop: its stop flag. en_old, en_ostop: the thread it replaced, while Start
    joins it. en_queue: each message with the number of calls of Start on this end before it was queued. en_jobs: detached request-handler threads that run.
    Ghosts: en_starts: calls of Start; en_begun: for each message handed over, that number and en_starts then. *)
Record pside := {
  en_conn : bool; en_queue : list (pkind * nat); en_worker : option wk; en_stop : bool; en_old : option wk; en_ostop : bool;
  en_jobs : nat; en_pc : epc; en_starts : nat; en_begun : list (nat * nat) }.

(** A new end, InMemoryTransport.cpp:29, 38. *)
Definition side0 : pside :=
  {| en_conn := false; en_queue := []; en_worker := None; en_stop := false; en_old := None; en_ostop := false; en_jobs := 0;
     en_pc := EOut; en_starts := 0; en_begun := [] |}.

(** Terminated: std::terminate. Corrupt: a thread has used an end after it was freed. *)
Inductive pfate := PTerminated | PCorrupt.

(** Both ends of CreatePair, 178-187. Each keeps a plain pointer to the other for ever. *)
Record pair := { pr_a : pside; pr_b : pside; pr_fate : option pfate }.
Definition pair0 : pair := {| pr_a := side0; pr_b := side0; pr_fate := None |}.

Definition side (e : bool) (p : pair) : pside := if e then pr_a p else pr_b p.
Definition put (e : bool) (s : pside) (p : pair) : pair :=
  if e then {| pr_a := s; pr_b := pr_b p; pr_fate := pr_fate p |} else {| pr_a := pr_a p; pr_b := s; pr_fate := pr_fate p |}.
Definition doom (f : pfate) (p : pair) : pair := {| pr_a := pr_a p; pr_b := pr_b p; pr_fate := Some f |}.

Definition set_conn (b : bool) (s : pside) : pside :=
  {| en_conn := b; en_queue := en_queue s; en_worker := en_worker s; en_stop := en_stop s; en_old := en_old s; en_ostop := en_ostop s;
     en_jobs := en_jobs s; en_pc := en_pc s; en_starts := en_starts s; en_begun := en_begun s |}.
Definition set_pc (c : epc) (s : pside) : pside :=
  {| en_conn := en_conn s; en_queue := en_queue s; en_worker := en_worker s; en_stop := en_stop s; en_old := en_old s; en_ostop := en_ostop s;
     en_jobs := en_jobs s; en_pc := c; en_starts := en_starts s; en_begun := en_begun s |}.
Definition set_queue (q : list (pkind * nat)) (s : pside) : pside :=
  {| en_conn := en_conn s; en_queue := q; en_worker := en_worker s; en_stop := en_stop s; en_old := en_old s; en_ostop := en_ostop s;
     en_jobs := en_jobs s; en_pc := en_pc s; en_starts := en_starts s; en_begun := en_begun s |}.
Definition set_jobs (n : nat) (s : pside) : pside :=
  {| en_conn := en_conn s; en_queue := en_queue s; en_worker := en_worker s; en_stop := en_stop s; en_old := en_old s; en_ostop := en_ostop s;
     en_jobs := n; en_pc := en_pc s; en_starts := en_starts s; en_begun := en_begun s |}.
Definition set_begun (g : list (nat * nat)) (s : pside) : pside :=
  {| en_conn := en_conn s; en_queue := en_queue s; en_worker := en_worker s; en_stop := en_stop s; en_old := en_old s; en_ostop := en_ostop s;
     en_jobs := en_jobs s; en_pc := en_pc s; en_starts := en_starts s; en_begun := g |}.
Definition set_threads (w : option wk) (stop : bool) (o : option wk) (ostop : bool) (s : pside) : pside :=
  {| en_conn := en_conn s; en_queue := en_queue s; en_worker := w; en_stop := stop; en_old := o; en_ostop := ostop;
     en_jobs := en_jobs s; en_pc := en_pc s; en_starts := en_starts s; en_begun := en_begun s |}.

(** The current worker or the one it replaced. *)
Definition thread (old : bool) (s : pside) : option wk := if old then en_old s else en_worker s.
Definition stopped (old : bool) (s : pside) : bool := if old then en_ostop s else en_stop s.
Definition set_thread (old : bool) (w : wk) (s : pside) : pside :=
  if old then set_threads (en_worker s) (en_stop s) (Some w) (en_ostop s) s else set_threads (Some w) (en_stop s) (en_old s) (en_ostop s) s.

(** A notified thread; only one that already waits hears it. *)
Definition roused (w : option wk) : option wk := match w with Some WBlocked => Some WAwake | _ => w end.
(** queueCondition.notify_all, 54, 202. *)
Definition notify_all (s : pside) : pside := set_threads (roused (en_worker s)) (en_stop s) (roused (en_old s)) (en_ostop s) s.
(** queueCondition.notify_one, 159: if two threads wait, pick chooses. *)
Definition notify_one (pick : bool) (s : pside) : pside :=
  match en_worker s, en_old s with
  | Some WBlocked, Some WBlocked => if pick then set_thread true WAwake s else set_thread false WAwake s
  | _, _ => notify_all s
  end.

(** Whether a thread holds queueMutex. *)
Definition holds (w : option wk) : bool := match w with Some WChecked | Some WDrain => true | _ => false end.

(** enqueueMessage, 156-160: it waits for queueMutex (here: nothing happens yet). *)
Definition enqueue (pick : bool) (m : pkind) (s : pside) : option pside :=
  if (holds (en_worker s) || holds (en_old s))%bool then None
  else Some (notify_one pick (set_queue (en_queue s ++ [(m, en_starts s)]) s)).

(** sendToPeer, 162-170, from end e: the other end is used without asking whether it still exists. *)
Definition send_peer (pick : bool) (m : pkind) (e : bool) (p : pair) : option pair :=
  match en_pc (side (negb e) p) with
  | EFreed => Some (doom PCorrupt p)
  | _ => if en_conn (side (negb e) p) then
           match enqueue pick m (side (negb e) p) with Some t => Some (put (negb e) t p) | None => None end
         else Some p
  end.

(** The next step of Start, Close or the destructor. Close 204-213 fails the pending requests: not modelled here. *)
Definition own_step (s : pside) : pside :=
  match en_pc s with
  | EOut | EFreed => s
  | SSpawn => set_pc SStop (set_threads (Some WTop) false (en_worker s) (en_stop s) s)
  | SStop => set_pc SJoin (set_threads (en_worker s) (en_stop s) (en_old s) true s)
  | SJoin => match en_old s with None | Some WEnded => set_pc EOut (set_threads (en_worker s) (en_stop s) None false s) | Some _ => s end
  | CNotify => set_pc EOut (notify_all s)
  | DNotify => set_pc DStop (notify_all s)
  | DStop => match en_worker s with None => set_pc EFreed s | Some _ => set_pc DJoin (set_threads (en_worker s) true (en_old s) (en_ostop s) s) end
  | DJoin => match en_worker s with None | Some WEnded => set_pc EFreed s | Some _ => s end
  end.

(** The predicate of the wait, 65, and 66-68. *)
Definition look (old : bool) (s : pside) : wk :=
  if stopped old s then WEnded else match en_queue s with [] => if en_conn s then WChecked else WDrain | _ :: _ => WDrain end.

(** One step of a worker, 62-78. A step that needs queueMutex waits while the other worker holds it.
    Simplification: requestHandler is set; a response is only taken off the queue. *)
Definition work (old : bool) (s : pside) : pside :=
  let free := negb (holds (thread (negb old) s)) in
  match thread old s with
  | Some WTop => if (en_conn s && negb (stopped old s))%bool then if free then set_thread old (look old s) s else s
                 else set_thread old WEnded s
  | Some WChecked => set_thread old WBlocked s
  | Some WAwake => if free then set_thread old (look old s) s else s
  | Some WDrain => match en_queue s with
                   | m :: q => if en_conn s then set_thread old (WTaken m) (set_queue q s) else set_thread old WTop s
                   | [] => set_thread old WTop s
                   end
  | Some (WTaken m) => set_begun (en_begun s ++ [(snd m, en_starts s)]) (set_thread old (WBusy (fst m)) s)
  | Some (WBusy MReq) => set_jobs (S (en_jobs s)) (set_thread old WRelock s)
  | Some (WBusy _) => set_thread old WRelock s
  | Some WRelock => if free then set_thread old WDrain s else s
  | Some WBlocked | Some WEnded | None => s
  end.

(** AStart, AClose, ADestroy: the owner of an end calls. AStep: the call goes on. AWorker: a worker goes on (for WBusy MNote: the
    handler returns). ASend: SendRequest 221-268 or SendNotification 270-281. AJob: a request handler returns and its thread
    sends the answer, 97-117. AInClose, AInDestroy: a notification handler calls Close or destroys its own transport (57 joins
    the calling thread: std::system_error leaves a destructor). Simplification: one thread at a time starts, closes and destroys an
    end; Close in a handler is one step. *)
Inductive pact := AStart (e : bool) | AClose (e : bool) | ADestroy (e : bool) | AStep (e : bool) | AWorker (e old : bool)
| ASend (e pick : bool) (m : pkind) | AJob (e pick : bool) | AInClose (e : bool) | AInDestroy (e : bool).

Definition pstep (p : pair) (v : pact) : pair :=
  match pr_fate p with
  | Some _ => p
  | None =>
      match v with
      | AStart e => match en_pc (side e p) with
                    | EOut => let s := side e p in
                              put e {| en_conn := true; en_queue := en_queue s; en_worker := en_worker s; en_stop := en_stop s; en_old := en_old s;
                                       en_ostop := en_ostop s; en_jobs := en_jobs s; en_pc := SSpawn; en_starts := S (en_starts s); en_begun := en_begun s |} p
                    | _ => p
                    end
      | AClose e => match en_pc (side e p) with EOut => put e (set_pc CNotify (set_conn false (side e p))) p | _ => p end
      | ADestroy e => match en_pc (side e p) with EOut => put e (set_pc DNotify (set_conn false (side e p))) p | _ => p end
      | AStep e => put e (own_step (side e p)) p
      | AWorker e old => put e (work old (side e p)) p
      | ASend e pick m => match en_pc (side e p) with
                          | EFreed => p
                          | _ => match send_peer pick m e p with Some q => q | None => p end
                          end
      | AJob e pick =>
          match en_jobs (side e p) with
          | 0 => p
          | S n => match en_pc (side e p) with
                   | EFreed => doom PCorrupt p
                   | _ => match send_peer pick MResp e p with Some q => put e (set_jobs n (side e q)) q | None => p end
                   end
          end
      | AInClose e => match en_worker (side e p) with Some (WBusy MNote) => put e (notify_all (set_conn false (side e p))) p | _ => p end
      | AInDestroy e => match en_worker (side e p) with Some (WBusy MNote) => doom PTerminated p | _ => p end
      end
  end.

Definition prun (p : pair) (h : list pact) : pair := fold_left pstep h p.
