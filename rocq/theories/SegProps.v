(** C167 to C170: the life of shared-memory transports. *)
From Coq Require Import List Arith Bool Lia.
From Verif Require Import SegModel SegSpec SegProofs SegChan SegTold SegRest.
Import ListNotations.
Local Open Scope nat_scope.

(** Start called by the owner of i and run to its end; the same for Close and for the destructor of a transport whose thread gets its turns. *)
Definition start_ (i : nat) : list gact := [GStart i; GOwn i; GOwn i; GOwn i; GOwn i; GOwn i].
Definition turn (i : nat) : list gact := [GOwn i; GWork i false].
Definition turns (i : nat) : list gact := turn i ++ turn i ++ turn i ++ turn i ++ turn i ++ turn i ++ turn i ++ turn i ++ turn i ++ turn i.

(** ** C167 *)
Theorem C167_returns_partial : forall cap kinds h i s h', let w := grun (segs0 cap kinds) h in gw_fate w = None -> at_ i w s -> leaving s ->
  rounds [GOwn i; GWork i false] 10 h' -> gw_fate (grun w h') = None ->
  exists s', at_ i (grun w h') s' /\ sg_done s < sg_done s'.
Proof. exact close_returns. Qed.
Print Assumptions C167_returns_partial.

Theorem C167_stopped_partial : forall cap kinds h i s v s', let w := grun (segs0 cap kinds) h in gw_fate w = None -> at_ i w s ->
  gw_fate (gstep w v) = None -> at_ i (gstep w v) s' -> sg_done s < sg_done s' ->
  sg_conn s' = false /\ sg_thread s' = None /\ sg_old s' = None /\ (sg_pc s' = KOut /\ sg_pend s' = 0 \/ sg_pc s' = KFreed).
Proof. exact closed_state. Qed.
Print Assumptions C167_stopped_partial.

(** A request waits for an answer when the opener closes: the hypotheses of both theorems are met. *)
Example C167_ex : let h := start_ 0 ++ start_ 1 ++ [GAsk 1; GWork 1 false; GClose 1] in let w := grun (segs0 4 [true; false]) h in
  gw_fate w = None /\ (exists s, at_ 1 w s /\ leaving s /\ sg_pend s = 1 /\ live s) /\ rounds [GOwn 1; GWork 1 false] 10 (turns 1) /\
  gw_fate (grun w (turns 1)) = None /\ exists s', at_ 1 (grun w (turns 1)) s' /\ sg_done s' = 1 /\ sg_pend s' = 0.
Proof.
  cbn zeta. split; [vm_compute; reflexivity|]. split; [|split; [|split; [vm_compute; reflexivity|]]].
  - eexists. split; [vm_compute; reflexivity|]. vm_compute. split; [auto 15|]. split; [reflexivity|]. split; discriminate.
  - unfold turns, turn. repeat (apply (rounds_S _ _ [GOwn 1; GWork 1 false]); [cbn; tauto|]). constructor.
  - eexists. split; [vm_compute; reflexivity|]. vm_compute. auto.
Qed.

(** Close called in a notification handler returns while the thread goes on, and a Start after it returns with the transport disconnected. *)
Theorem C167_within_refuted : exists h h', let w := grun (segs0 4 [true; false]) h in
  (exists s, at_ 1 w s /\ sg_conn s = true /\ sg_thread s = Some (KBusy GNote)) /\
  (exists s, at_ 1 (gstep w (GInClose 1)) s /\ sg_conn s = false /\ live s) /\
  gw_fate (grun w (GInClose 1 :: GStart 1 :: h')) = None /\
  exists s, at_ 1 (grun w (GInClose 1 :: GStart 1 :: h')) s /\ sg_pc s = KOut /\ sg_conn s = false.
Proof.
  exists (start_ 0 ++ start_ 1 ++ [GSay 0; GWork 1 false; GWork 1 false]), [GOwn 1; GOwn 1; GWork 1 false; GWork 1 false; GWork 1 false; GOwn 1; GOwn 1; GOwn 1].
  cbn zeta. split; [eexists; split; [vm_compute; reflexivity|vm_compute; auto]|].
  split; [eexists; split; [vm_compute; reflexivity|vm_compute; split; [reflexivity|split; discriminate]]|].
  split; [vm_compute; reflexivity|]. eexists. split; [vm_compute; reflexivity|vm_compute; auto].
Qed.
Print Assumptions C167_within_refuted.

(** Destroying the transport in a notification handler ends the program. *)
Theorem C167_destroy_refuted : exists h, let w := grun (segs0 4 [true; false]) h in
  gw_fate w = None /\ (exists s, at_ 1 w s /\ sg_conn s = true /\ sg_pc s = KOut) /\ gw_fate (gstep w (GInDestroy 1)) = Some GTerminated.
Proof.
  exists (start_ 0 ++ start_ 1 ++ [GSay 0; GWork 1 false; GWork 1 false]). cbn zeta. split; [vm_compute; reflexivity|].
  split; [eexists; split; [vm_compute; reflexivity|vm_compute; auto]|]. vm_compute. reflexivity.
Qed.
Print Assumptions C167_destroy_refuted.

(** A request handler that is still running when the destructor has returned uses the freed transport. *)
Theorem C167_job_refuted : exists h, let w := grun (segs0 4 [true; false]) h in
  gw_fate w = None /\ (exists s, at_ 0 w s /\ sg_pc s = KFreed /\ sg_done s = 1) /\ gw_fate (gstep w (GAnswer 0)) = Some GCorrupt.
Proof.
  exists (start_ 0 ++ start_ 1 ++ [GAsk 1; GWork 0 false; GWork 0 false; GWork 0 false; GDestroy 0] ++ turns 0). cbn zeta. split; [vm_compute; reflexivity|].
  split; [eexists; split; [vm_compute; reflexivity|vm_compute; auto]|]. vm_compute. reflexivity.
Qed.
Print Assumptions C167_job_refuted.

(** ** C168 *)
Theorem C168_told_partial : forall cap kinds h c i sc s q h',
  let w := grun (segs0 cap kinds) h in
  (forall j, nth_error kinds j = Some false -> j = i) -> nth_error kinds c = Some true ->
  at_ c w sc -> sg_pc sc = CBye -> sg_tx sc = Some q ->
  at_ i w s -> sg_conn s = true -> sg_pc s = KOut -> sg_rx s = Some q ->
  length (queue q w) < cap ->
  left_alone i h' -> rounds [GWork i false] (3 * length (queue q w) + 4) h' -> gw_fate (grun w (GOwn c :: h')) = None ->
  exists s', at_ i (grun w (GOwn c :: h')) s' /\ sg_conn s' = false /\ sg_pend s' = 0.
Proof. exact opener_told. Qed.
Print Assumptions C168_told_partial.

Example C168_ex : let h := start_ 0 ++ start_ 1 ++ [GAsk 1; GSay 0; GClose 0] in let w := grun (segs0 4 [true; false]) h in
  let h' := [GWork 1 false; GWork 1 false; GOwn 0; GWork 1 false; GWork 1 false; GOwn 0; GWork 1 false; GWork 1 false; GWork 1 false] in
  (forall j, nth_error [true; false] j = Some false -> j = 1) /\ (exists sc, at_ 0 w sc /\ sg_pc sc = CBye /\ sg_tx sc = Some 1) /\
  (exists s, at_ 1 w s /\ sg_conn s = true /\ sg_pc s = KOut /\ sg_rx s = Some 1 /\ sg_pend s = 1) /\ queue 1 w = [GNote] /\
  left_alone 1 h' /\ rounds [GWork 1 false] 7 h' /\ gw_fate (grun w (GOwn 0 :: h')) = None.
Proof.
  cbn zeta. split; [intros [|[|j]]; cbn; try discriminate; auto; destruct j; discriminate|].
  split; [eexists; split; [vm_compute; reflexivity|vm_compute; auto]|]. split; [eexists; split; [vm_compute; reflexivity|vm_compute; auto]|].
  split; [vm_compute; reflexivity|]. split; [|split; [|vm_compute; reflexivity]].
  - intros v I. cbn in I. repeat (destruct I as [I|I]; [subst v; repeat split; discriminate|]). contradiction.
  - apply (rounds_S _ 6 [GWork 1 false]); [cbn; tauto|]. apply (rounds_S _ 5 [GWork 1 false]); [cbn; tauto|]. apply (rounds_S _ 4 [GOwn 0; GWork 1 false]); [cbn; tauto|].
    apply (rounds_S _ 3 [GWork 1 false]); [cbn; tauto|]. apply (rounds_S _ 2 [GOwn 0; GWork 1 false]); [cbn; tauto|]. apply (rounds_S _ 1 [GWork 1 false]); [cbn; tauto|].
    apply (rounds_S _ 0 [GWork 1 false] []); [cbn; tauto|]. constructor.
Qed.

(** A connected creator never learns that the other side has gone: whatever the others do, closing and destruction included, it stays connected. *)
Theorem C168_creator_refuted : forall cap kinds h i s h',
  let w := grun (segs0 cap kinds) h in
  at_ i w s -> sg_creator s = true -> sg_conn s = true -> sg_pc s = KOut -> left_alone i h' -> ~ In (GInClose i) h' -> gw_fate (grun w h') = None ->
  exists s', at_ i (grun w h') s' /\ sg_conn s' = true.
Proof. exact creator_stays. Qed.
Print Assumptions C168_creator_refuted.

(** Its request is never answered and does not fail: the opener closed and was destroyed, the thread of the creator had its turns. *)
Example C168_creator_ex : let h := start_ 0 ++ start_ 1 ++ [GAsk 0] in let h' := [GClose 1] ++ turns 1 ++ [GDestroy 1] ++ turns 1 ++ turns 0 in
  let w := grun (segs0 4 [true; false]) h in
  (exists s, at_ 0 w s /\ sg_creator s = true /\ sg_conn s = true /\ sg_pc s = KOut) /\ ~ In (GInClose 0) h' /\ gw_fate (grun w h') = None /\
  (exists s, at_ 1 (grun w h') s /\ sg_pc s = KFreed) /\ exists s, at_ 0 (grun w h') s /\ sg_pend s = 1.
Proof.
  cbn zeta. split; [eexists; split; [vm_compute; reflexivity|vm_compute; auto]|]. split; [vm_compute; intuition discriminate|]. split; [vm_compute; reflexivity|].
  split; eexists; (split; [vm_compute; reflexivity|vm_compute; reflexivity]).
Qed.

(** With a full queue the creator closes without telling the opener: nothing is left in the queue and the opener stays connected, its request open. *)
Theorem C168_full_refuted : exists h, let w := grun (segs0 1 [true; false]) h in
  gw_fate w = None /\ (exists s, at_ 0 w s /\ sg_pc s = KOut /\ sg_done s = 1 /\ sg_thread s = None) /\
  exists s, at_ 1 w s /\ sg_conn s = true /\ sg_pend s = 1 /\ sg_thread s = Some KTop /\ sg_rx s = Some 1 /\ queue 1 w = [].
Proof.
  exists (start_ 0 ++ start_ 1 ++ [GAsk 1; GSay 0; GClose 0] ++ turns 0 ++ [GWork 1 false; GWork 1 false; GWork 1 false]). cbn zeta.
  split; [vm_compute; reflexivity|]. split; eexists; (split; [vm_compute; reflexivity|vm_compute; auto 10]).
Qed.
Print Assumptions C168_full_refuted.

(** ** C169 *)
Theorem C169_joins_partial : forall n cap h s j t,
  let w := grun (segs0 cap (sole n)) h in
  gw_fate w = None -> ~ In (GInClose 0) h -> at_ 0 w s -> sg_conn s = true -> at_ j w t -> j <> 0 -> sg_pc t = SOpen ->
  exists t', at_ j (gstep w (GOwn j)) t' /\ sg_pc t' = SConn /\ sg_rx t' = sg_tx s /\ sg_tx t' = sg_rx s /\ sg_rx t' <> sg_tx t' /\ sg_rx t' <> None /\ sg_tx t' <> None.
Proof. exact opener_joins. Qed.
Print Assumptions C169_joins_partial.

Example C169_ex : let h := start_ 0 ++ start_ 1 ++ [GClose 1] ++ turns 1 ++ [GSay 0; GStart 2] in let w := grun (segs0 4 (sole 2)) h in
  gw_fate w = None /\ ~ In (GInClose 0) h /\ (exists s, at_ 0 w s /\ sg_conn s = true) /\ exists t, at_ 2 w t /\ sg_pc t = SOpen.
Proof.
  cbn zeta. split; [vm_compute; reflexivity|]. split; [vm_compute; intuition discriminate|]. split; eexists; (split; [vm_compute; reflexivity|vm_compute; reflexivity]).
Qed.

(** The destructor of a creator that was never started takes the channel away from the one that runs: an opener cannot connect to it. *)
Theorem C169_bystander_refuted : exists h, let w := grun (segs0 4 [true; true; false]) h in
  gw_fate w = None /\ (exists s, at_ 0 w s /\ sg_conn s = true /\ live s) /\ (exists s, at_ 1 w s /\ sg_starts s = 0 /\ sg_pc s = KFreed) /\
  exists s, at_ 2 (grun w (start_ 2)) s /\ sg_pc s = KOut /\ sg_conn s = false /\ sg_thread s = None.
Proof.
  exists (start_ 0 ++ [GDestroy 1; GOwn 1; GOwn 1]). cbn zeta. split; [vm_compute; reflexivity|].
  split; [eexists; split; [vm_compute; reflexivity|vm_compute; split; [reflexivity|split; discriminate]]|].
  split; eexists; (split; [vm_compute; reflexivity|vm_compute; auto]).
Qed.
Print Assumptions C169_bystander_refuted.

(** A second creator takes the name: the opener is connected to the second one, and the first stays connected to nobody. *)
Theorem C169_second_refuted : exists h, let w := grun (segs0 4 [true; true; false]) h in
  gw_fate w = None /\ exists s0 s1 s2, at_ 0 w s0 /\ at_ 1 w s1 /\ at_ 2 w s2 /\ sg_conn s0 = true /\ sg_conn s1 = true /\ sg_conn s2 = true /\
  sg_rx s2 = sg_tx s1 /\ sg_tx s2 = sg_rx s1 /\ sg_rx s2 <> sg_tx s0 /\ sg_tx s2 <> sg_rx s0.
Proof.
  exists (start_ 0 ++ start_ 1 ++ start_ 2). cbn zeta. split; [vm_compute; reflexivity|]. eexists. eexists. eexists.
  split; [vm_compute; reflexivity|]. split; [vm_compute; reflexivity|]. split; [vm_compute; reflexivity|]. vm_compute. repeat split; discriminate.
Qed.
Print Assumptions C169_second_refuted.

(** Two openers share one queue: the answer to a request of the first is taken by the second, and the first waits for ever. *)
Theorem C169_shared_refuted : exists h, let w := grun (segs0 4 (sole 2)) h in
  gw_fate w = None /\ (exists s, at_ 1 w s /\ sg_conn s = true /\ sg_pend s = 1 /\ sg_rx s = Some 1) /\ queue 1 w = [] /\
  (exists s, at_ 2 w s /\ sg_conn s = true /\ sg_pend s = 0 /\ sg_thread s = Some (KBusy GReply)) /\ exists s, at_ 0 w s /\ sg_jobs s = 0.
Proof.
  exists (start_ 0 ++ start_ 1 ++ start_ 2 ++ [GAsk 1; GWork 0 false; GWork 0 false; GWork 0 false; GAnswer 0; GWork 2 false; GWork 2 false]). cbn zeta.
  split; [vm_compute; reflexivity|]. split; [eexists; split; [vm_compute; reflexivity|vm_compute; auto]|]. split; [vm_compute; reflexivity|].
  split; eexists; (split; [vm_compute; reflexivity|vm_compute; auto]).
Qed.
Print Assumptions C169_shared_refuted.

(** ** C170 *)
Theorem C170_creator_partial : forall cap kinds h i s h',
  let w := grun (segs0 cap kinds) h in
  at_ i w s -> sg_creator s = true -> sg_pc s = KOut -> sg_thread s = None -> left_alone i h' -> ~ In (GInClose i) h' -> rounds [GOwn i] 5 h' ->
  gw_fate (grun w (GStart i :: h')) = None ->
  exists s', at_ i (grun w (GStart i :: h')) s' /\ sg_pc s' = KOut /\ sg_conn s' = true /\ live s' /\ sg_old s' = None.
Proof. exact creator_starts. Qed.
Print Assumptions C170_creator_partial.

Theorem C170_opener_partial : forall cap kinds h i s h',
  let w := grun (segs0 cap kinds) h in
  at_ i w s -> sg_pc s = KOut -> sg_thread s = None -> left_alone i h' -> ~ In (GWork i false) h' -> rounds [GOwn i] 5 h' ->
  gw_fate (grun w (GStart i :: h')) = None -> chan_kept w (GStart i :: h') ->
  exists s', at_ i (grun w (GStart i :: h')) s' /\ sg_pc s' = KOut /\ sg_conn s' = true /\ live s' /\ sg_old s' = None.
Proof. exact opener_starts. Qed.
Print Assumptions C170_opener_partial.

(** Both ends have run and closed; the creator starts again, then the opener. *)
Example C170_ex : let h := start_ 0 ++ start_ 1 ++ [GSay 0; GClose 1] ++ turns 1 ++ [GClose 0] ++ turns 0 in
  let h0 := [GOwn 0; GOwn 0; GOwn 0; GWork 0 false; GOwn 0; GOwn 0] in let h1 := [GOwn 1; GOwn 1; GOwn 1; GSay 0; GOwn 1; GOwn 1] in
  let w := grun (segs0 4 [true; false]) h in let w1 := grun w (GStart 0 :: h0) in
  (exists s, at_ 0 w s /\ sg_creator s = true /\ sg_pc s = KOut /\ sg_thread s = None) /\ rounds [GOwn 0] 5 h0 /\ gw_fate w1 = None /\
  (exists s, at_ 1 w1 s /\ sg_pc s = KOut /\ sg_thread s = None) /\ rounds [GOwn 1] 5 h1 /\ gw_fate (grun w1 (GStart 1 :: h1)) = None /\ chan_kept w1 (GStart 1 :: h1).
Proof.
  cbn zeta. split; [eexists; split; [vm_compute; reflexivity|vm_compute; auto]|]. split.
  { apply (rounds_S _ 4 [GOwn 0]); [cbn; tauto|]. apply (rounds_S _ 3 [GOwn 0]); [cbn; tauto|]. apply (rounds_S _ 2 [GOwn 0]); [cbn; tauto|].
    apply (rounds_S _ 1 [GWork 0 false; GOwn 0]); [cbn; tauto|]. apply (rounds_S _ 0 [GOwn 0] []); [cbn; tauto|]. constructor. }
  split; [vm_compute; reflexivity|]. split; [eexists; split; [vm_compute; reflexivity|vm_compute; auto]|]. split.
  { apply (rounds_S _ 4 [GOwn 1]); [cbn; tauto|]. apply (rounds_S _ 3 [GOwn 1]); [cbn; tauto|]. apply (rounds_S _ 2 [GOwn 1]); [cbn; tauto|].
    apply (rounds_S _ 1 [GSay 0; GOwn 1]); [cbn; tauto|]. apply (rounds_S _ 0 [GOwn 1] []); [cbn; tauto|]. constructor. }
  split; [vm_compute; reflexivity|]. apply chan_keptb_ok. vm_compute. reflexivity.
Qed.

(** Start on a transport that is connected: the first thread still waits on the queue that Start replaces. *)
Theorem C170_twice_refuted : exists h, let w := grun (segs0 4 [true; false]) h in
  gw_fate w = None /\ (exists s, at_ 0 w s /\ sg_conn s = true /\ sg_pc s = KOut) /\ gw_fate (grun w [GStart 0; GOwn 0; GWork 0 false]) = Some GCorrupt.
Proof.
  exists (start_ 0 ++ [GWork 0 false]). cbn zeta. split; [vm_compute; reflexivity|]. split; [eexists; split; [vm_compute; reflexivity|vm_compute; auto]|]. vm_compute. reflexivity.
Qed.
Print Assumptions C170_twice_refuted.

(** Or the first thread, on its way out, disconnects the transport that Start has just connected. *)
Theorem C170_silent_refuted : exists h, let w := grun (segs0 4 [true; false]) (start_ 0 ++ h) in
  gw_fate w = None /\ exists s, at_ 0 w s /\ sg_starts s = 2 /\ sg_done s = 0 /\ sg_pc s = KOut /\ sg_conn s = false.
Proof.
  exists [GStart 0; GOwn 0; GOwn 0; GOwn 0; GOwn 0; GWork 0 true; GWork 0 true; GOwn 0]. cbn zeta. split; [vm_compute; reflexivity|].
  eexists. split; [vm_compute; reflexivity|vm_compute; auto].
Qed.
Print Assumptions C170_silent_refuted.

(** An opener that starts when no creator has started returns from Start without an exception, unconnected. *)
Theorem C170_absent_refuted : forall cap kinds h i s, let w := grun (segs0 cap kinds) h in
  gw_fate w = None -> gw_chan w = None -> at_ i w s -> sg_creator s = false -> sg_pc s = KOut -> sg_conn s = false ->
  exists s', at_ i (grun w [GStart i; GOwn i]) s' /\ sg_pc s' = KOut /\ sg_conn s' = false /\ sg_thread s' = sg_thread s.
Proof.
  intros cap kinds h i s w F Ch A C P X. exists (g_pc KOut (g_start s)). split; [|auto]. unfold at_ in A. cbn [grun fold_left].
  assert (gstep w (GStart i) = set_end i (g_start s) w) as E by (unfold gstep; rewrite F; cbn [actor]; rewrite A, P; reflexivity). rewrite E.
  pose proof (at_set i s (g_start s) w A) as A1. unfold gstep. cbn [gw_fate set_end actor]. rewrite F. unfold at_ in A1. rewrite A1.
  unfold g_own. cbn [sg_pc g_start sg_creator]. rewrite C. cbn [gw_chan set_end]. rewrite Ch. apply (at_set i (g_start s)). exact A1.
Qed.
Print Assumptions C170_absent_refuted.
