(** C140: stopping an HTTP server. C141: starting it again. C142: destroying it. C143: it keeps listening. C144: its streams leave nothing behind. *)
From Coq Require Import List Arith Bool Lia.
From Verif Require Import HupModel HupSpec HupProofs.
Import ListNotations.
Local Open Scope nat_scope.

(** C140, returns: as long as the threads of the server go on, and the writes to its streams return, Stop returns: after at most three
    steps and two for every stream. Missing: that writes return. *)
Theorem C140_returns_partial : forall h1 h n, let s := hup_run hup0 h1 in
  stopping s -> worked s h n -> 3 + 2 * length (hu_streams s) <= n -> returns s h.
Proof.
  intros h1 h n s [P F] W L. pose proof (upright_run h1) as U. fold s in U. destruct (up_stop s U P) as [R H].
  apply (stop_run s h n W); [|exact P|pose proof (todo_le s); lia]. repeat split; auto; [destruct P; congruence|]. unfold turning. rewrite H. apply andb_false_r.
Qed.
Print Assumptions C140_returns_partial.
(** Stop with two streams, one of them in a write. *)
Definition two_streams : list uev := [UStart; UListen true; UPost; USession; UHandled; UGet 0; UWritten 0 true; UGet 0; UStop].
Definition winding : list uev := [UIoEnd; UGo; UTick 0; UWritten 1 true; UTick 1; UGo].
Example C140_returns_ex : let s := hup_run hup0 two_streams in
  stopping s /\ hu_streams s = [(0, SWait); (0, SWrite)] /\ worked s winding 6 /\ hu_pc (hup_run s winding) = UOut.
Proof.
  cbn zeta. split; [split; [now left|reflexivity]|]. split; [reflexivity|]. split; [|reflexivity].
  repeat (apply wk_some; [reflexivity|intros E; vm_compute in E; discriminate E|]). apply wk_nil.
Qed.

(** C140, never stuck: while Stop has not returned, one of the server's own threads can go on. *)
Theorem C140_never_stuck : forall h1, let s := hup_run hup0 h1 in stopping s -> exists v, inner v = true /\ happens s v.
Proof.
  intros h1 s [P F]. pose proof (upright_run h1) as U. fold s in U. destruct (up_stop s U P) as [R H]. apply falling_goes; [|auto|apply (up_late s U)].
  repeat split; auto; [destruct P; congruence|]. unfold turning. rewrite H. apply andb_false_r.
Qed.
Print Assumptions C140_never_stuck.
Example C140_never_stuck_ex : stopping (hup_run hup0 two_streams) /\ stopping (hup_run hup0 (two_streams ++ [UIoEnd; UGo])).
Proof. split; (split; [vm_compute; auto|vm_compute; reflexivity]). Qed.

(** C140, hang: a client that opens a stream and does not read it keeps Stop from returning for as long as it likes, whatever else happens. *)
Theorem C140_hang_refuted : exists h1, let s := hup_run hup0 h1 in
  stopping s /\ forall h, (forall ok, ~ In (UWritten 0 ok) h) -> stopping (hup_run s h).
Proof.
  exists [UStart; UListen true; UPost; USession; UHandled; UGet 0; UWritten 0 true; UMsg 0; UStop]. cbn zeta. split; [split; [now left|reflexivity]|].
  intros h N. destruct (jammed_run 0 h (hup_run hup0 [UStart; UListen true; UPost; USession; UHandled; UGet 0; UWritten 0 true; UMsg 0; UStop])) as (A & B & _); [|exact N|split; [exact B|exact A]].
  repeat split; [now left|]. now exists 0.
Qed.
Print Assumptions C140_hang_refuted.

(** C140, quiet: once Stop has returned, the thread and the streams are gone, nothing listens, and until the next Start no handler begins and no stream opens. *)
Theorem C140_quiet : forall h1 h, let s := hup_run hup0 h1 in let s' := hup_step s UGo in
  stopping s -> hu_pc s' = UOut -> ~ In UStart h ->
  hu_run s' = false /\ hu_io s' = None /\ hu_streams s' = [] /\ hu_accept s' <> AOpen /\
  hu_handlers (hup_run s' h) <= hu_handlers s' /\ hu_streams (hup_run s' h) = [] /\ hu_io (hup_run s' h) = None.
Proof.
  intros h1 h s s' [P F] O N. pose proof (upright_run h1) as U. fold s in U. destruct (up_stop s U P) as [R H]. pose proof (upright_step s UGo U) as U'. fold s' in U'.
  assert (E : hu_run s' = false /\ hu_io s' = None /\ hu_streams s' = [] /\ hu_accept s' <> AOpen /\ hu_halted s' = true).
  { unfold s', hup_step, hup_go in *. rewrite F in *. destruct P as [P|P]; rewrite P in *.
    - destruct (hu_io s) as [[|]|]; cbn in O; congruence.
    - pose proof (up_late s U (or_introl P)) as L. destruct (all_ended (hu_streams s)); cbn in *; [|congruence]. repeat split; auto. intros A. destruct (up_live s U H A); congruence. }
  destruct E as (E1 & E2 & E3 & E4 & E5). assert (T : turning s' = false) by (unfold turning; now rewrite E2). destruct (quiet_run h s' T N) as [_ Q].
  repeat split; auto. 
  all: clear - E2 E3 E5 N; revert E2 E3 E5 N; generalize s'; induction h as [|v h IH]; intros x E2 E3 E5 N; [assumption|]; apply (IH (hup_step x v)).
  all: try (intros I; apply N; now right). all: assert (v <> UStart) by (intros ->; apply N; now left); unfold hup_step; destruct (hu_fate x); auto; unfold turning; destruct v as [| | | |ok| | | | |j| |j|j|j ok|j]; try congruence; unfold hup_go; rewrite ?E2, ?E3, ?E5; cbn; look x; cbn; auto.
  all: try (match goal with |- context [nth_error [] ?j] => destruct j; cbn; auto; fail end).
  all: now rewrite E2.
Qed.
Print Assumptions C140_quiet.
Example C140_quiet_ex : let s := hup_run hup0 (two_streams ++ removelast winding) in stopping s /\ hu_pc (hup_step s UGo) = UOut /\ length (hu_streams s) = 2.
Proof. split; [split; [vm_compute; auto|vm_compute; reflexivity]|]. split; reflexivity. Qed.

(** C140, handlers: a handler that was running when Stop was called may still be running when Stop has returned, and create sessions. *)
Theorem C140_handlers_refuted : exists h1, let s := hup_run hup0 h1 in
  stopping (hup_run hup0 (removelast h1)) /\ hu_pc s = UOut /\ hu_fate s = None /\ hu_handlers s = 1 /\ hu_closed s = [] /\ hu_closed (hup_step s USession) = [false].
Proof. exists [UStart; UListen true; UPost; UStop; UIoEnd; UGo; UGo]. cbn zeta. split; [split; [vm_compute; auto|vm_compute; reflexivity]|]. repeat split. Qed.
Print Assumptions C140_handlers_refuted.

(** C141, restart: after Stop was called, no history makes the server listen again or the future of a later Start ready. *)
Theorem C141_restart_refuted : forall h1 h, let s := hup_run hup0 h1 in
  hu_pc s = UOut -> hu_fate s = None -> let s' := hup_run (hup_step s UStop) (UIoEnd :: UGo :: UGo :: UStart :: h) in
  hu_streams s = [] -> hu_accept s' <> AOpen /\ hu_ready s' <> Some true.
Proof.
  intros h1 h s O F s' NS. pose proof (upright_run h1) as U. fold s in U. unfold s'. clear s'.
  assert (D : dark (hup_run (hup_step s UStop) [UIoEnd; UGo; UGo; UStart])).
  { unfold hup_run. cbn [fold_left]. unfold hup_step at 5. rewrite F, O. unfold hup_stop. rewrite NS.
    destruct (hu_io s) as [[|]|] eqn:IO; unfold hup_step; cbn; rewrite ?F; cbn; unfold hup_go; cbn; rewrite ?F; cbn; rewrite ?F; cbn; unfold hup_start; cbn; repeat split; cbn; try discriminate. }
  destruct (dark_run h _ D) as (_ & A & R). split; [exact A|exact R].
Qed.
Print Assumptions C141_restart_refuted.
Example C141_restart_ex : let s := hup_run hup0 [UStart; UListen true; UPost; UHandled] in
  hu_pc s = UOut /\ hu_fate s = None /\ hu_streams s = [] /\ hu_accept s = AOpen /\ hu_fate (hup_run (hup_step s UStop) [UIoEnd; UGo; UGo; UStart]) = None /\
  hu_ready (hup_run (hup_step s UStop) [UIoEnd; UGo; UGo; UStart]) = Some false.
Proof. repeat split. Qed.

(** C141, first: the future of a Start of a server that was never stopped can become ready, and if nothing was reported then it listens. *)
Theorem C141_first_partial : forall h1, let s := hup_run hup0 h1 in hu_fate s = None -> hu_halted s = false ->
  (hu_ready s = Some false -> forall ok, hu_ready (hup_step s (UListen ok)) = Some true /\ (ok = true -> hu_accept (hup_step s (UListen ok)) = AOpen)) /\
  (hu_ready s = Some true -> hu_told s = 0 -> hu_accept s = AOpen).
Proof.
  intros h1 s F H. pose proof (upright_run h1) as U. fold s in U. split.
  - intros R ok. pose proof (up_wait s U R) as P. destruct (up_pend s U P) as [_ I]. unfold hup_step, turning. rewrite F, P, (I H), H. cbn. split; [reflexivity|]. now intros ->.
  - intros R T. assert (K : forall h, let x := hup_run hup0 h in hu_halted x = false -> hu_ready x = Some true -> hu_told x = 0 -> hu_accept x = AOpen).
    { clear. induction h as [|v h IH] using rev_ind; intros x; subst x; [discriminate|]. rewrite hup_app. cbn [hup_run fold_left]. set (x := hup_run hup0 h) in *. cbn zeta in IH.
      unfold hup_step. destruct (hu_fate x); [exact IH|]. destruct v; unfold hup_start, hup_go; look x; cbn; intros X1 X2 X3; try discriminate; try (now apply IH); try (now rewrite IH in *); auto.
      destruct (hu_io x); [discriminate X1|now apply IH]. }
    now apply (K h1).
Qed.
Print Assumptions C141_first_partial.
Example C141_first_ex : let s := hup_run hup0 [UStart] in hu_fate s = None /\ hu_halted s = false /\ hu_ready s = Some false /\
  hu_ready (hup_step s (UListen true)) = Some true /\ hu_told (hup_step s (UListen true)) = 0.
Proof. repeat split. Qed.

(** C141, twice: a second Start ends the process, also when the first one failed. *)
Theorem C141_twice_refuted : forall h1 h, let s := hup_run hup0 h1 in hu_pc s = UOut -> hu_fate s = None -> ~ In UStop h -> ~ In UStart h -> ~ In UDestroy h ->
  hu_io s = None -> hu_fate (hup_run s (UStart :: h ++ [UStart])) = Some UTerminated.
Proof.
  intros h1 h s O F N1 N2 N3 I. change (hup_run s (UStart :: h ++ [UStart])) with (hup_run (hup_step s UStart) (h ++ [UStart])). rewrite hup_app.
  assert (K : forall x, hu_pc x = UOut -> hu_fate x = None -> hu_io x <> None -> hu_fate (hup_run (hup_run x h) [UStart]) = Some UTerminated).
  { clear - N1 N2 N3. induction h as [|v h IH]; intros x O F I.
    - cbn. unfold hup_step. rewrite F, O. unfold hup_start. destruct (hu_io x); [reflexivity|now destruct I].
    - cbn [hup_run fold_left]. assert (v <> UStop /\ v <> UStart /\ v <> UDestroy) as (V1 & V2 & V3) by (repeat split; intros ->; [apply N1|apply N2|apply N3]; now left).
      assert (J : hu_pc (hup_step x v) = UOut /\ hu_fate (hup_step x v) = None /\ hu_io (hup_step x v) <> None).
      { unfold hup_step. rewrite F. destruct v as [| | | |ok| | | | |j| |j|j|j ok|j]; try congruence; unfold hup_go; look x; cbn; auto; repeat split; congruence. }
      apply IH; try tauto; intros Q; [apply N1|apply N2|apply N3]; now right. }
  apply K; unfold hup_step; rewrite F, O; unfold hup_start; rewrite I; cbn; auto. discriminate.
Qed.
Print Assumptions C141_twice_refuted.
Example C141_twice_ex : hu_fate (hup_run hup0 [UStart; UListen false; UIoEnd; UStart]) = Some UTerminated.
Proof. reflexivity. Qed.

(** C141, failed: when the port cannot be had, the future of Start becomes ready all the same, without an exception, and nothing listens. *)
Theorem C141_failed_refuted : exists h, let s := hup_run hup0 (UStart :: h) in hu_ready s = Some true /\ hu_run s = true /\ hu_accept s = AGone /\
  forall h2, ~ In UStart h2 -> hu_accept (hup_run s h2) = AGone.
Proof. exists [UListen false]. cbn zeta. repeat split. intros h2. now apply gone_run. Qed.
Print Assumptions C141_failed_refuted.

(** C142, destroy: a server that was stopped before, and has no handler running, is destroyed in the end. Missing: a server that runs; one with handlers. *)
Theorem C142_destroy_partial : forall h1 h n, let s := hup_run hup0 h1 in
  dying s -> hu_run s = false -> hu_handlers s = 0 -> worked s h n -> 3 + 2 * length (hu_streams s) <= n -> vanishes s h.
Proof.
  intros h1 h n s [P F] R H W L. pose proof (upright_run h1) as U. fold s in U.
  apply (die_run s h n W); auto; [|pose proof (todo_le s); lia]. repeat split; auto; [destruct P; congruence|]. apply (up_die s U P).
Qed.
Print Assumptions C142_destroy_partial.
(** Destroyed without ever being started, and after Stop. *)
Example C142_destroy_ex : hu_fate (hup_run hup0 [UDestroy; UGo; UGo]) = Some UFreed /\
  (let s := hup_run hup0 (two_streams ++ winding ++ [UDestroy]) in dying s /\ hu_run s = false /\ hu_handlers s = 0 /\ vanishes s [UGo; UGo]).
Proof. split; [reflexivity|]. split; [split; [vm_compute; auto|vm_compute; reflexivity]|]. repeat split. Qed.

(** C142, open stream: a server destroyed while it runs, with a stream that is open, is not destroyed until a write to that stream fails. *)
Theorem C142_open_stream_refuted : exists h1, let s := hup_run hup0 h1 in
  dying s /\ forall h, ~ In (UWritten 0 false) h -> dying (hup_run s h).
Proof.
  exists [UStart; UListen true; UPost; USession; UHandled; UGet 0; UDestroy]. cbn zeta. split; [split; [now left|reflexivity]|].
  intros h N. destruct (lingers_run 0 0 h (hup_run hup0 [UStart; UListen true; UPost; USession; UHandled; UGet 0; UDestroy])) as (A & B & _); [|exact N|split; [exact B|exact A]].
  repeat split; [now left|now right].
Qed.
Print Assumptions C142_open_stream_refuted.

(** C142, handler: a server that was stopped and is then destroyed, while a handler still runs, leaves that handler with freed memory. *)
Theorem C142_handler_refuted : exists h1 h2, hu_pc (hup_run hup0 (h1 ++ UStop :: h2)) = UOut /\ hu_run (hup_run hup0 (h1 ++ UStop :: h2)) = false /\
  hu_fate (hup_run hup0 ((h1 ++ UStop :: h2) ++ [UDestroy; UGo; UGo])) = Some UCorrupt.
Proof. exists [UStart; UListen true; UPost], [UIoEnd; UGo; UGo]. repeat split. Qed.
Print Assumptions C142_handler_refuted.

(** C143: a server that listens goes on listening, whatever clients, handlers and streams do, until it is stopped or destroyed or accepting a connection fails. *)
Theorem C143_listens_partial : forall h1 h, let s := hup_run hup0 h1 in hu_fate s = None -> hu_pc s = UOut -> hu_accept s = AOpen -> turning s = true ->
  forallb (fun v => negb (calls_or_fails v)) h = true ->
  let s' := hup_run s h in hu_accept s' = AOpen /\ hu_handlers (hup_step s' UPost) = S (hu_handlers s').
Proof.
  intros h1 h s F P A T N s'. destruct (hearing_run h s (conj F (conj P (conj A T))) N) as (F' & P' & A' & T'). fold s' in F', P', A', T'.
  split; [exact A'|]. unfold hup_step. now rewrite F', A', T'.
Qed.
Print Assumptions C143_listens_partial.
Example C143_listens_ex : let s := hup_run hup0 [UStart; UListen true] in hu_fate s = None /\ hu_pc s = UOut /\ hu_accept s = AOpen /\ turning s = true.
Proof. repeat split. Qed.

(** C143, error: one failed accept, as when there are no file descriptors left, and the server never accepts again, though it was not stopped. *)
Theorem C143_error_refuted : forall h1, let s := hup_run hup0 h1 in hu_fate s = None -> hu_accept s = AOpen -> turning s = true -> hu_run s = true ->
  let s' := hup_step s UAcceptErr in hu_told s' = S (hu_told s) /\
  forall h, ~ In UStart h -> hu_accept (hup_run s' h) = AGone /\ (~ In UStop h -> hu_run (hup_run s' h) = true) /\ hu_handlers (hup_step (hup_run s' h) UPost) = hu_handlers (hup_run s' h).
Proof.
  intros h1 s F A T R s'. assert (E : hu_accept s' = AGone /\ hu_told s' = S (hu_told s) /\ hu_run s' = true) by (unfold s', hup_step; rewrite F, A, T; auto). destruct E as (E1 & E2 & E3).
  split; [exact E2|]. intros h N. pose proof (gone_run h s' E1 N) as G. split; [exact G|]. split; [now apply run_stays|]. unfold hup_step. rewrite G. now destruct (hu_fate (hup_run s' h)).
Qed.
Print Assumptions C143_error_refuted.
Example C143_error_ex : let s := hup_run hup0 [UStart; UListen true] in hu_fate s = None /\ hu_accept s = AOpen /\ turning s = true /\ hu_run s = true.
Proof. repeat split. Qed.

(** C144: what streams leave behind, a thread each, is not given back before Stop: any number of clients that come and go one after the other
    leave that number of finished threads, and nothing but Stop takes one away. *)
Theorem C144_pile_refuted : forall n, exists h, let s := hup_run hup0 h in ~ In UStop h /\ hu_fate s = None /\ all_ended (hu_streams s) = true /\ length (hu_streams s) = n /\
  forall h2, ~ In UStop h2 -> n <= length (hu_streams (hup_run s h2)).
Proof.
  intros n. assert (K : exists h, let s := hup_run hup0 h in ~ In UStop h /\ hearing s /\ is_closed s 0 = false /\ all_ended (hu_streams s) = true /\ length (hu_streams s) = n).
  { induction n as [|n (h & N & (F & P & A & T) & C & E & L)].
    - exists [UStart; UListen true; UPost; USession; UHandled]. cbn zeta. split; [intros [I|[I|[I|[I|[I|I]]]]]; easy|]. repeat split.
    - exists (h ++ [UGet 0; UWritten n false]). cbn zeta. split.
      { intros I. apply in_app_or in I as [I|[I|[I|I]]]; easy. }
      rewrite hup_app. set (s := hup_run hup0 h) in *.
      assert (S1 : hup_step s (UGet 0) = set_streams (hu_streams s ++ [(0, SWrite)]) s) by (unfold hup_step; now rewrite F, A, T, C).
      assert (NN : nth_error (hu_streams s ++ [(0, SWrite)]) n = Some (0, SWrite)) by (rewrite nth_error_app2, L, Nat.sub_diag by lia; reflexivity).
      assert (PP : put_at n (0, SEnd) (hu_streams s ++ [(0, SWrite)]) = hu_streams s ++ [(0, SEnd)]).
      { clear - L. revert n L. induction (hu_streams s) as [|x l IH]; intros n L; cbn in L; subst n; [reflexivity|]. cbn. f_equal. now apply IH. }
      assert (S2 : hup_run s [UGet 0; UWritten n false] = set_streams (hu_streams s ++ [(0, SEnd)]) s).
      { cbn [hup_run fold_left]. rewrite S1. unfold hup_step. cbn [hu_fate set_streams hu_streams]. rewrite F, NN, PP. reflexivity. }
      rewrite S2. repeat split; auto; cbn; [|rewrite app_length, L; cbn; lia]. unfold all_ended. rewrite forallb_app. cbn. unfold all_ended in E. now rewrite E. }
  destruct K as (h & N & (F & P & A & T) & C & E & L). exists h. cbn zeta. repeat split; auto. intros h2 N2. rewrite <- L. apply streams_pile; auto; congruence.
Qed.
Print Assumptions C144_pile_refuted.

(** C144, stop: and Stop, when it returns, has taken all of them. *)
Theorem C144_stop_partial : forall h1, let s := hup_run hup0 h1 in stopping s -> hu_pc (hup_step s UGo) = UOut -> hu_streams (hup_step s UGo) = [].
Proof. intros h1 s K O. apply (C140_quiet h1 [] K O). intros []. Qed.
Print Assumptions C144_stop_partial.
Example C144_stop_ex : let s := hup_run hup0 (two_streams ++ removelast winding) in stopping s /\ hu_pc (hup_step s UGo) = UOut.
Proof. split; [split; [vm_compute; auto|vm_compute; reflexivity]|]. reflexivity. Qed.
