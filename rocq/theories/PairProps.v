(** C163 to C166: starting, closing and destroying a pair of in-memory transports. *)
From Coq Require Import List Arith Bool Lia.
From Verif Require Import PairModel PairSpec PairProofs PairAwake.
Import ListNotations.
Local Open Scope nat_scope.

(** C163, the part that holds. Once the destructor has told the thread of its end to stop, and that thread did not fall asleep
    just before, the destructor returns in every schedule that gives both six turns, whatever both ends do in between. *)
Theorem C163_destroy_partial : forall h e h', let p := prun pair0 h in
  pr_fate p = None -> told (side e p) -> ~ asleep (side e p) ->
  turns [AStep e; AWorker e false] 6 h' -> pr_fate (prun p h') = None -> en_pc (side e (prun p h')) = EFreed.
Proof. exact destroy_ends. Qed.
Print Assumptions C163_destroy_partial.

(** A thread about to hand over a notification when its transport is destroyed; the other end goes on sending. *)
Example C163_destroy_ex :
  let h := [AStart true; AStep true; AStep true; AStep true; AWorker true false; AWorker true false; ASend false false MNote;
            AWorker true false; AWorker true false; ADestroy true; AStep true] in
  let b := [AStep true; ASend false true MReq; AWorker true false] in
  let p := prun pair0 h in
  pr_fate p = None /\ told (side true p) /\ en_worker (side true p) = Some (WTaken (MNote, 1)) /\ ~ asleep (side true p) /\
  turns [AStep true; AWorker true false] 6 (b ++ b ++ b ++ b ++ b ++ b ++ []) /\
  en_pc (side true (prun p (b ++ b ++ b ++ b ++ b))) <> EFreed /\ en_pc (side true (prun p (b ++ b ++ b ++ b ++ b ++ b ++ []))) = EFreed.
Proof.
  intros h b p. split; [vm_compute; reflexivity|]. split; [vm_compute; auto|]. split; [vm_compute; reflexivity|].
  split; [vm_compute; intros [H|H]; discriminate|]. split; [|split; vm_compute; congruence].
  do 6 (apply turns_S; [unfold b; cbn; intuition (subst; auto)|]). apply turns_0.
Qed.

(** C163 fails: connected is cleared and the thread notified without its mutex. If the thread has just found its queue empty it falls
    asleep after the notification: no later event wakes it, and the destructor waits for ever. *)
Theorem C163_lost_refuted : exists h, let p := prun pair0 h in
  pr_fate p = None /\ en_jobs (side true p) = 0 /\ en_queue (side true p) = [] /\
  forall h', pr_fate (prun p h') = None -> In (en_pc (side true (prun p h'))) [DStop; DJoin].
Proof.
  exists [AStart true; AStep true; AStep true; AStep true; AWorker true false; ADestroy true; AStep true].
  do 3 (split; [vm_compute; reflexivity|]). intros h' F.
  destruct (missed_run true h' _ F) as (_ & _ & _ & P); [|exact P]. vm_compute. auto 8.
Qed.
Print Assumptions C163_lost_refuted.

(** Closing first does not help if the thread is slow enough. *)
Theorem C163_closed_refuted : exists h, let p := prun pair0 h in
  pr_fate p = None /\ en_pc (side true p) = EOut /\ en_conn (side true p) = false /\
  forall h', pr_fate (prun p ([ADestroy true; AStep true] ++ h')) = None ->
    In (en_pc (side true (prun p ([ADestroy true; AStep true] ++ h')))) [DStop; DJoin].
Proof.
  exists [AStart true; AStep true; AStep true; AStep true; AWorker true false; AClose true; AStep true].
  do 3 (split; [vm_compute; reflexivity|]). intros h' F. rewrite prun_app in *.
  destruct (missed_run true h' _ F) as (_ & _ & _ & P); [|exact P]. vm_compute. auto 8.
Qed.
Print Assumptions C163_closed_refuted.

(** C164, the part that holds. Start returns, connected and with one new thread, if the thread of an earlier Start has ended. *)
Theorem C164_start_partial : forall p e, pr_fate p = None -> en_pc (side e p) = EOut -> ended (side e p) ->
  let q := prun p [AStart e; AStep e; AStep e; AStep e] in
  pr_fate q = None /\ en_pc (side e q) = EOut /\ en_conn (side e q) = true /\ en_worker (side e q) = Some WTop /\ en_old (side e q) = None.
Proof. exact fresh_start. Qed.
Print Assumptions C164_start_partial.

(** C164. That thread ends after Close in every schedule that gives it five turns before the next Start, unless it fell asleep just
    before Close told it to stop. *)
Theorem C164_close_ends_partial : forall h e h', let p := prun pair0 h in
  pr_fate p = None -> en_pc (side e p) = EOut -> en_conn (side e p) = false -> ~ asleep (side e p) ->
  turns [AWorker e false] 5 h' -> ~ In (AStart e) h' -> pr_fate (prun p h') = None -> ended (side e (prun p h')).
Proof. exact closed_ends. Qed.
Print Assumptions C164_close_ends_partial.

Example C164_ex :
  let h := [AStart true; AStep true; AStep true; AStep true; AWorker true false; AWorker true false; ASend false false MNote;
            AWorker true false; AWorker true false; AClose true; AStep true] in
  let b := [AWorker true false; ASend false true MReq] in
  let p := prun pair0 h in
  pr_fate p = None /\ en_pc (side true p) = EOut /\ en_conn (side true p) = false /\ ~ asleep (side true p) /\
  turns [AWorker true false] 5 (b ++ b ++ b ++ b ++ b ++ []) /\ ~ ended (side true (prun p (b ++ b ++ b ++ b))) /\
  ended (side true (prun p (b ++ b ++ b ++ b ++ b ++ []))).
Proof.
  intros h b p. do 3 (split; [vm_compute; reflexivity|]). split; [vm_compute; intros [H|H]; discriminate|].
  split; [do 5 (apply turns_S; [unfold b; cbn; intuition (subst; auto)|]); apply turns_0|].
  split; vm_compute; [intros [H|H]; discriminate|auto].
Qed.

(** C164. Outside a call of Start at most one thread hands messages over. *)
Theorem C164_one_thread : forall h e, pr_fate (prun pair0 h) = None -> ~ starting (side e (prun pair0 h)) -> en_old (side e (prun pair0 h)) = None.
Proof. exact one_thread. Qed.
Print Assumptions C164_one_thread.

Example C164_one_thread_ex : let p := prun pair0 [AStart true; AStep true; AStep true] in
  pr_fate p = None /\ starting (side true p) /\ ~ starting (side true (pstep p (AStep true))).
Proof. vm_compute. split; [reflexivity|]. split; [auto|]. intros [H|[H|[]]]; discriminate. Qed.

(** C164, another part that holds. Start on a started transport, whose thread is awake when Start tells it to stop, can return: there is
    a schedule of that thread alone, and of nothing else, in which it ends and Start goes on to its end. *)
Theorem C164_awake_partial : forall h e, let p := prun pair0 h in
  pr_fate p = None -> en_pc (side e p) = SStop -> en_old (side e p) <> Some WChecked -> en_old (side e p) <> Some WBlocked ->
  exists m n, let q := prun p ([AStep e] ++ repeat (AWorker e false) m ++ repeat (AWorker e true) n ++ [AStep e]) in
    pr_fate q = None /\ en_pc (side e q) = EOut /\ en_old (side e q) = None.
Proof. exact awake_returns. Qed.
Print Assumptions C164_awake_partial.

Example C164_awake_ex : let p := prun pair0 [AStart true; AStep true; AStep true; AStep true; AStart true; AStep true] in
  pr_fate p = None /\ en_pc (side true p) = SStop /\ en_old (side true p) <> None /\
  en_old (side true p) <> Some WChecked /\ en_old (side true p) <> Some WBlocked.
Proof. vm_compute. repeat split; discriminate. Qed.

(** C164 fails: Start on a started transport waits for the first thread, which sleeps. As long as the other end sends nothing it never
    returns. *)
Theorem C164_twice_refuted : exists h, let p := prun pair0 h in
  pr_fate p = None /\ en_starts (side true p) = 2 /\
  forall h', silent true h' -> pr_fate (prun p h') = None -> en_pc (side true (prun p h')) = SJoin.
Proof.
  exists [AStart true; AStep true; AStep true; AStep true; AWorker true false; AWorker true false; AStart true; AStep true; AStep true].
  do 2 (split; [vm_compute; reflexivity|]). intros h' S F.
  destruct (stuck_run true h' _ F S) as (_ & _ & P & _); [|exact P]. vm_compute. auto 10.
Qed.
Print Assumptions C164_twice_refuted.

(** C164 fails: so does Start after Close, if the thread was notified by Close but looks at its condition only when Start has set connected
    again. *)
Theorem C164_restart_refuted : exists h, let p := prun pair0 h in
  pr_fate p = None /\ en_starts (side true p) = 2 /\ In (AClose true) h /\
  forall h', silent true h' -> pr_fate (prun p h') = None -> en_pc (side true (prun p h')) = SJoin.
Proof.
  exists [AStart true; AStep true; AStep true; AStep true; AWorker true false; AWorker true false; AClose true; AStep true; AStart true;
          AWorker true false; AStep true; AStep true].
  do 2 (split; [vm_compute; reflexivity|]). split; [cbn; auto 10|]. intros h' S F.
  destruct (stuck_run true h' _ F S) as (_ & _ & P & _); [|exact P]. vm_compute. auto 10.
Qed.
Print Assumptions C164_restart_refuted.

(** C164 fails: while such a Start waits, two threads hand messages over at once. *)
Theorem C164_two_refuted : exists h, let p := prun pair0 h in
  pr_fate p = None /\ en_worker (side true p) = Some (WBusy MNote) /\ en_old (side true p) = Some (WBusy MNote).
Proof.
  exists [AStart true; AStep true; AStep true; AStep true; ASend false false MNote; ASend false false MNote; AWorker true false; AWorker true false; AWorker true false;
          AStart true; AStep true; AStep true; AWorker true false; AWorker true false; AWorker true false].
  vm_compute. auto.
Qed.
Print Assumptions C164_two_refuted.

(** C165, the part that holds. If the application destroys an end only when nothing of either end runs, and afterwards leaves the other
    alone, no freed memory is used and the process is not terminated. *)
Theorem C165_careful_partial : forall h, careful pair0 h -> pr_fate (prun pair0 h) = None.
Proof. intros h C. apply (careful_run h pair0 tidy0 C). Qed.
Print Assumptions C165_careful_partial.

(** A whole life: a request and its answer, Close and destruction of both ends. *)
Definition C165_life : list pact :=
  [AStart true; AStep true; AStep true; AStep true; AStart false; AStep false; AStep false; AStep false; ASend false false MReq;
   AWorker true false; AWorker true false; AWorker true false; AWorker true false; AJob true false; AClose true; AStep true; AClose false; AStep false;
   AWorker true false; AWorker true false; AWorker true false; AWorker false false;
   ADestroy true; AStep true; AStep true; AStep true; ADestroy false; AStep false; AStep false; AStep false].
Example C165_careful_ex : careful pair0 C165_life /\ en_pc (side true (prun pair0 C165_life)) = EFreed /\ en_pc (side false (prun pair0 C165_life)) = EFreed.
Proof.
  split; [|split; vm_compute; reflexivity].
  unfold C165_life, careful, quiet, ended, dying; vm_compute;
    repeat split; first [reflexivity|exact I|left; reflexivity|right; reflexivity|intros H; repeat (destruct H as [H|H]; [discriminate|]); exact H].
Qed.

(** C165 fails: an end that outlives the other uses it, although both were closed before. *)
Theorem C165_peer_refuted : exists h, let p := prun pair0 h in
  pr_fate p = None /\ en_conn (side true p) = false /\ en_conn (side false p) = false /\ quiet (side false p) /\
  en_pc (side true p) = EFreed /\ en_pc (side false p) = EOut /\
  forall pick m, pr_fate (pstep p (ASend false pick m)) = Some PCorrupt.
Proof.
  exists [AStart true; AStep true; AStep true; AStep true; AStart false; AStep false; AStep false; AStep false;
          AWorker true false; AWorker true false; AWorker false false; AWorker false false; AClose true; AStep true; AClose false; AStep false;
          AWorker true false; AWorker true false; AWorker true false; AWorker false false; AWorker false false; AWorker false false;
          ADestroy true; AStep true; AStep true; AStep true].
  split; [vm_compute; reflexivity|]. split; [vm_compute; reflexivity|]. split; [vm_compute; reflexivity|].
  split; [vm_compute; repeat split; auto; intros [H|[H|[H|[]]]]; discriminate|]. split; [vm_compute; reflexivity|]. split; [vm_compute; reflexivity|].
  intros pick m. vm_compute. reflexivity.
Qed.
Print Assumptions C165_peer_refuted.

(** C165 fails: the destructor does not wait for request handlers; one that returns later uses the freed transport. *)
Theorem C165_job_refuted : exists h, let p := prun pair0 h in
  pr_fate p = None /\ en_pc (side true p) = EFreed /\ 0 < en_jobs (side true p) /\
  forall pick, pr_fate (pstep p (AJob true pick)) = Some PCorrupt.
Proof.
  exists [AStart true; AStep true; AStep true; AStep true; ASend false false MReq; AWorker true false; AWorker true false; AWorker true false; AWorker true false;
          AClose true; AStep true; AWorker true false; AWorker true false; AWorker true false; ADestroy true; AStep true; AStep true; AStep true].
  split; [vm_compute; reflexivity|]. split; [vm_compute; reflexivity|]. split; [vm_compute; auto|]. intros pick. vm_compute. reflexivity.
Qed.
Print Assumptions C165_job_refuted.

(** C165 fails: a notification handler cannot destroy its own transport. *)
Theorem C165_within_refuted : forall p e, pr_fate p = None -> en_worker (side e p) = Some (WBusy MNote) -> pr_fate (pstep p (AInDestroy e)) = Some PTerminated.
Proof. intros p e F W. unfold pstep. rewrite F, W. reflexivity. Qed.
Print Assumptions C165_within_refuted.

Example C165_within_ex : let p := prun pair0 [AStart true; AStep true; AStep true; AStep true; ASend false false MNote; AWorker true false; AWorker true false; AWorker true false] in
  pr_fate p = None /\ en_worker (side true p) = Some (WBusy MNote).
Proof. vm_compute. auto. Qed.

(** C166, the part that holds. Once Close has returned, and until the next Start, at most one more message is handed to the
    application. *)
Theorem C166_partial : forall h e h', let p := prun pair0 h in
  pr_fate p = None -> en_pc (side e p) = EOut -> en_conn (side e p) = false ->
  ~ In (AStart e) h' -> pr_fate (prun p h') = None -> length (en_begun (side e (prun p h'))) <= S (length (en_begun (side e p))).
Proof. exact late_at_most. Qed.
Print Assumptions C166_partial.

(** C166 fails: one more is, *)
Theorem C166_late_refuted : exists h h', let p := prun pair0 h in
  pr_fate p = None /\ en_pc (side true p) = EOut /\ In (AClose true) h /\ en_conn (side true p) = false /\ ~ In (AStart true) h' /\
  pr_fate (prun p h') = None /\ length (en_begun (side true p)) = 0 /\ length (en_begun (side true (prun p h'))) = 1.
Proof.
  exists [AStart true; AStep true; AStep true; AStep true; ASend false false MNote; AWorker true false; AWorker true false; AClose true; AStep true], [AWorker true false].
  cbn. repeat split; auto 20. intros [H|[]]; discriminate.
Qed.
Print Assumptions C166_late_refuted.

(** and a message that was queued before Close is handed over after the next Start. *)
Theorem C166_stale_refuted : exists h, let p := prun pair0 h in
  pr_fate p = None /\ en_starts (side true p) = 2 /\ In (1, 2) (en_begun (side true p)).
Proof.
  exists [AStart true; AStep true; AStep true; AStep true; AWorker true false; ASend false false MNote; AWorker true false; ASend false false MNote; AClose true; AStep true;
          AWorker true false; AWorker true false; AWorker true false;
          AStart true; AStep true; AStep true; AStep true; AWorker true false; AWorker true false; AWorker true false].
  vm_compute. auto.
Qed.
Print Assumptions C166_stale_refuted.
