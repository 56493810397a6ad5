(** C135 and C136: the life of the stdio transport. *)
From Coq Require Import List Arith Bool Lia.
From Verif Require Import LifeModel LifeSpec LifeProofs.
Import ListNotations.
Local Open Scope nat_scope.

(** ** C135: Close returns *)

(** C135. Wherever the reader and the writer hang, and whatever the timeout thread was doing, a Close in the first life of
    a transport comes to its end by its own steps, the end of its half-second waits and those of the timeout thread, in
    at most nine steps; unless the timeout thread was about to sleep without a deadline when Close woke it.
    Missing: that one moment, and a transport that was started again; both are refuted below. *)
Theorem C135_close_partial : forall h, let s := life_run life0 h in
  lf_started s <= 1 -> lf_fate s = None -> in_close s -> ~ missed s ->
  exists h', Forall (fun v => v = LStep true \/ v = LTimer \/ v = LTimeout) h' /\ length h' <= 9 /\
    lf_pc (life_run s h') = COut /\ lf_closed (life_run s h') = S (lf_closed s) /\ lf_fate (life_run s h') = None.
Proof. exact close_ends. Qed.
Print Assumptions C135_close_partial.

(** A Close during a blocked read, with a request that has a deadline. *)
Example C135_close_ex : let s := life_run life0 [LStart; LSend; LTimer; LTimer; LClose] in
  lf_started s <= 1 /\ lf_fate s = None /\ in_close s /\ ~ missed s /\ lf_reader s = Some false /\ lf_writer s = Some false.
Proof. repeat split; cbn; auto. intros (_ & H & _). cbn in H. intuition discriminate. Qed.

(** C135. In the steps of Close itself its caller is never left in a state other than waiting or returned: Close does not
    end the process. *)
Theorem C135_no_crash : forall s v, lf_fate s = None -> in_close s -> lf_fate (life_step s v) = None.
Proof.
  intros s v F I. unfold in_close in I. destruct s as [conn rd oldr wr oldw rx wx tm due pc st cl ft]. cbn in *. subst ft.
  destruct I as [<-|[<-|[<-|[<-|[<-|[]]]]]]; destruct v; unfold life_step, close_step, timer_step, notify; cbn; open_up; reflexivity.
Qed.
Print Assumptions C135_no_crash.

(** C135 fails: connected is cleared and the timeout thread notified without its mutex. If the thread has just found that it has
    nothing to do, it falls asleep after the notification: Close then waits for it for ever, whatever else happens. *)
Theorem C135_lost_refuted : exists h, let s := life_run life0 h in
  lf_started s = 1 /\ lf_fate s = None /\ in_close s /\ lf_closed s = 0 /\
  forall h', lf_closed (life_run s h') = 0 /\ in_close (life_run s h').
Proof.
  exists [LStart; LTimer; LClose; LStep false]. do 2 (split; [vm_compute; reflexivity|]). split; [vm_compute; auto|]. split; [vm_compute; reflexivity|]. intros h'. split.
  - destruct (missed_forever h' (life_run life0 [LStart; LTimer; LClose; LStep false])) as [_ E]; [vm_compute; reflexivity|vm_compute; auto 10|]. rewrite E. vm_compute. reflexivity.
  - destruct (missed_forever h' (life_run life0 [LStart; LTimer; LClose; LStep false])) as [(_ & P & _) _]; [vm_compute; reflexivity|vm_compute; auto 10|].
    unfold in_close. cbn in P |- *. tauto.
Qed.
Print Assumptions C135_lost_refuted.

(** C135 fails for a transport that is started again: the flag that tells that the reader has ended is still set, so Close
    joins the new reader instead of waiting half a second for it, and does not return while that one reads. *)
Theorem C135_again_refuted : exists h, let s := life_run life0 h in
  orderly life0 h /\ prompt h /\ lf_started s = 2 /\ lf_closed s = 1 /\ in_close s /\
  forall h', ~ In LReaderEnd h' -> lf_closed (life_run s h') = 1 /\ in_close (life_run s h').
Proof.
  set (h := [LStart; LTimer; LTimer; LClose; LReaderEnd; LWriterEnd; LStep false; LTimer; LStep false; LStep false; LStep false; LStep false; LStart; LClose]).
  exists h. assert (waits (life_run life0 h)) as W by (vm_compute; auto 10).
  split; [vm_compute; auto 40|]. split; [unfold prompt, h; cbn; intuition discriminate|]. do 2 (split; [vm_compute; reflexivity|]). split; [vm_compute; auto|]. intros h' H. split.
  - destruct (waits_forever h' _ H W) as [_ E]. rewrite E. vm_compute. reflexivity.
  - destruct (waits_forever h' _ H W) as [(_ & _ & _ & _ & _ & P) _]. unfold in_close. destruct P as [-> | ->]; cbn; auto.
Qed.
Print Assumptions C135_again_refuted.

(** ** C136: one reader, one writer, and a clean end *)

(** C136. If a transport is started and destroyed only when stopped, and its threads notice Close within half a second, then
    the process is not terminated, no thread uses a transport that is gone, and there is never more than one reader and
    one writer.
    Missing: the same without these two conditions; refuted below. *)
Theorem C136_orderly_partial : forall h, orderly life0 h -> prompt h ->
  let s := life_run life0 h in (lf_fate s = None \/ lf_fate s = Some Freed) /\ readers s <= 1 /\ writers s <= 1.
Proof.
  intros h O P s. destruct (sound_run h life0 O P sound0) as [F R W _]. fold s in F, R, W. split; [exact F|].
  unfold readers, writers. rewrite R, W. split; [destruct (lf_reader s) as [[]|]|destruct (lf_writer s) as [[]|]]; cbn; lia.
Qed.
Print Assumptions C136_orderly_partial.

Example C136_orderly_ex :
  let h := [LStart; LTimer; LTimer; LSend; LTimer; LTimer; LClose; LReaderEnd; LWriterEnd; LStep false; LTimer; LTimer; LStep false; LStep false; LTimeout; LTimer; LStep false; LStep false; LDestroy;
            LStep false; LStep false; LStep false] in
  orderly life0 h /\ prompt h /\ lf_fate (life_run life0 h) = Some Freed.
Proof. intros h. split; [vm_compute; auto 40|]. split; [unfold prompt, h; cbn; intuition discriminate|vm_compute; reflexivity]. Qed.

(** C136. A transport that was closed is destroyed in three steps, which wait for nothing. *)
Theorem C136_closed_destroyed : forall s, lf_fate s = None -> lf_pc s = COut -> running s = false ->
  lf_fate (life_run s [LDestroy; LStep false; LStep false; LStep false]) = Some Freed.
Proof.
  intros s F P R. destruct s as [conn rd oldr wr oldw rx wx tm due pc st cl ft]. unfold running in R. cbn in *. subst. destruct rd, wr, tm; try discriminate. reflexivity.
Qed.
Print Assumptions C136_closed_destroyed.

(** C136. In every history, when Close returns the transport is stopped: it may be started again or destroyed. *)
Theorem C136_close_stops : forall h v, let s := life_run life0 h in lf_closed (life_step s v) <> lf_closed s ->
  running (life_step s v) = false /\ lf_pc (life_step s v) = COut.
Proof. exact close_stopped. Qed.
Print Assumptions C136_close_stops.

Example C136_close_stops_ex : let s := life_run life0 [LStart; LClose; LStep false; LStep true; LStep true; LTimer; LStep false] in
  lf_closed (life_step s (LStep false)) <> lf_closed s.
Proof. vm_compute. discriminate. Qed.

(** C136 fails: a second Start of a running transport terminates the process, whatever came before. *)
Theorem C136_twice_refuted : forall s, lf_fate s = None -> lf_pc s = COut -> running s = true -> lf_fate (life_step s LStart) = Some Terminated.
Proof. exact started_twice. Qed.
Print Assumptions C136_twice_refuted.

Example C136_twice_ex : let s := life_run life0 [LStart] in lf_fate s = None /\ lf_pc s = COut /\ running s = true.
Proof. repeat split. Qed.

(** C136 fails: a transport that was started cannot be destroyed without Close. In no history does its destructor
    return; the process terminates, *)
Theorem C136_destroy_refuted : forall h, ~ In LClose h -> 0 < lf_started (life_run life0 h) ->
  lf_fate (life_run life0 h) = None \/ lf_fate (life_run life0 h) = Some Terminated.
Proof. intros h N. apply (unclosed_run h N). Qed.
Print Assumptions C136_destroy_refuted.

Example C136_destroy_ex : let h := [LStart; LTimer; LReaderEnd; LWriterEnd; LDestroy; LStep false; LTimer; LSend; LStep false; LStep false] in
  let h' := [LStart; LReaderEnd; LDestroy; LStep false; LTimer; LStep false; LStep false] in
  ~ In LClose h /\ lf_fate (life_run life0 h) = None /\ lf_pc (life_run life0 h) = DTimer /\ lf_fate (life_run life0 h') = Some Terminated.
Proof. intros h h'. split; [unfold h; cbn; intuition discriminate|]. vm_compute. auto. Qed.

(** or it hangs: the destructor clears connected and joins the timeout thread without waking it. *)
Theorem C136_destroy_hangs_refuted : exists h, lf_pc (life_run life0 h) = DTimer /\
  forall h', lf_fate (life_run life0 (h ++ h')) = None /\ lf_pc (life_run life0 (h ++ h')) = DTimer.
Proof.
  exists [LStart; LTimer; LTimer; LDestroy; LStep false; LStep false]. split; [vm_compute; reflexivity|]. intros h'. rewrite life_app.
  destruct (asleep_forever h' (life_run life0 [LStart; LTimer; LTimer; LDestroy; LStep false; LStep false])) as (F & _ & P & _); [vm_compute; auto|]. auto.
Qed.
Print Assumptions C136_destroy_hangs_refuted.

(** C136 fails when a reader is slow to notice Close: it is left behind, and after the next Start two threads read standard
    input at once, and two write. *)
Theorem C136_two_readers_refuted : exists h, orderly life0 h /\
  let s := life_run life0 h in lf_fate s = None /\ lf_pc s = COut /\ readers s = 2 /\ writers s = 2.
Proof.
  exists [LStart; LTimer; LTimer; LClose; LStep false; LStep true; LStep true; LTimer; LStep false; LStep false; LStart]. vm_compute. auto 40.
Qed.
Print Assumptions C136_two_readers_refuted.

(** C136 fails when such a transport is destroyed: a thread that was left behind uses it afterwards. *)
Theorem C136_freed_refuted : exists h, orderly life0 h /\ lf_fate (life_run life0 h) = Some Corrupt.
Proof.
  exists [LStart; LTimer; LTimer; LClose; LStep false; LStep true; LStep true; LTimer; LStep false; LStep false; LDestroy; LStep false; LStep false; LStep false; LOldReader].
  vm_compute. auto 40.
Qed.
Print Assumptions C136_freed_refuted.
