(** C176 to C178: closing and destroying the HTTP client transport; responses that have been read. *)
From Coq Require Import List Arith Bool Lia.
From Verif Require Import HlifeModel HlifeSpec HlifeInv HlifeStep HlifeLive HlifeCall HlifeReply HlifeSafe HlifeBad HlifeAfter.
Import ListNotations.
Local Open Scope nat_scope.

Definition plain_conf : hlconf := {| hk_tls := false; hk_stream := false; hk_delete := false |}.
Definition delete_conf : hlconf := {| hk_tls := false; hk_stream := false; hk_delete := true |}.
Definition stream_conf : hlconf := {| hk_tls := false; hk_stream := true; hk_delete := false |}.
Definition tls_conf : hlconf := {| hk_tls := true; hk_stream := false; hk_delete := false |}.

(** * C176 *)
(** Close called by a thread of the application returns, whatever else happens, if every thread and the network get their turns. *)
Theorem C176_returns_partial : forall c s,
  reach_once c s -> hl_life s = Alive -> closing_by ByApp s ->
  inevitable c all_turns (returned (length (hl_rets s))) s.
Proof. exact close_returns. Qed.
Print Assumptions C176_returns_partial.

(** When it returns from its end: not connected, the i/o thread is joined, the event-stream thread is gone or does nothing more, all requests are completed. *)
Theorem C176_clean_partial : forall c s w,
  reach c s -> hl_rets (hlstep c s VCall) = hl_rets s ++ [(w, true)] ->
  let s' := hlstep c s VCall in
  w = ByApp /\ hl_conn s' = false /\ hl_io s' = INone /\ (hl_sse s' = SNone \/ hl_sse s' = STop \/ hl_sse s' = SOver) /\ all_ready s' /\
  hl_stop s' = true /\ hl_enabled s' = false.
Proof. exact close_clean. Qed.
Print Assumptions C176_clean_partial.

(** After that no handler is called, whatever is done, Start included. *)
Theorem C176_quiet_partial : forall c s w h,
  reach c s -> hl_rets (hlstep c s VCall) = hl_rets s ++ [(w, true)] -> hl_calls (hlrun c (hlstep c s VCall) h) = hl_calls s.
Proof. exact close_quiet. Qed.
Print Assumptions C176_quiet_partial.

(** Until Start is called again it stays not connected, every request is completed, and what is sent is completed at once: a request with an error, a
    notification as if it had been sent. *)
Theorem C176_after_partial : forall c s w h,
  reach c s -> hl_rets (hlstep c s VCall) = hl_rets s ++ [(w, true)] -> ~ In VStart h ->
  let t := hlrun c (hlstep c s VCall) h in
  hl_conn t = false /\ all_ready t /\
  (hl_life t = Alive -> forall i,
     hl_futs (hlstep c t (VSend i)) = hl_futs t ++ [Some OError] /\
     hl_notes (hlstep c t VNote) = hl_notes t ++ [Some true]).
Proof. exact closed_after. Qed.
Print Assumptions C176_after_partial.

Definition app_close : list hlact := [VStart; VSend true; VTake; VNet (JPost 0 true) RAnswer; VTake; VSpawn; VTest; VDialled true; VSend false; VTake; VTake; VClose ByApp].
Definition full_conf : hlconf := {| hk_tls := false; hk_stream := true; hk_delete := true |}.
Example C176_close_case :
  let s := hlrun full_conf hl0 app_close in
  start_first app_close /\ hl_life s = Alive /\ closing_by ByApp s /\ hl_sse s = SAuth /\ hl_futs s = [Some OAnswer; None] /\
  let t := hlrun full_conf s [VTake; VNet JDelete RNothing; VTake; VCall; VCall; VNet JAuth RNothing; VTake; VGranted; VGone; VTest; VCall; VCall; VStop; VCall] in
  hl_rets (hlstep full_conf t VCall) = hl_rets t ++ [(ByApp, true)] /\ hl_futs (hlstep full_conf t VCall) = [Some OAnswer; Some OClosed].
Proof.
  vm_compute. refine (conj _ (conj eq_refl (conj _ (conj eq_refl (conj eq_refl (conj eq_refl eq_refl)))))); [|exists KDelete; split; [vm_compute; reflexivity|now left]].
  intros [].
Qed.

(** In a request handler on the i/o thread Close does not return, ever, if it has a DELETE to send; no request is ever completed. *)
Theorem C176_handler_refuted : exists c s,
  reach_once c s /\ closing_by ByIo s /\ nth_error (hl_futs s) 1 = Some None /\
  forall h, ~ returned 0 (hlrun c s h) /\ ~ answered 1 (hlrun c s h).
Proof.
  set (h0 := [VStart; VSend false; VSend false; VTake; VTake; VNet (JPost 0 false) (RCall true); VTake; VClose ByIo]).
  exists delete_conf, (hlrun delete_conf hl0 h0). split; [exists h0; split; [cbn; tauto|reflexivity]|]. split; [exists KDelete; split; [vm_compute; reflexivity|now left]|]. split; [reflexivity|].
  intro h. assert (S0 : stuck_io [] 1 (hlrun delete_conf hl0 h0)).
  { split; [vm_compute; reflexivity|]. split; [vm_compute; reflexivity|]. right. vm_compute. repeat split. eauto. }
  apply (stuck_io_run delete_conf [] 1 h) in S0 as (A & B & _). unfold returned, answered. rewrite A, B. split; [cbn; lia|intros (o & X); discriminate X].
Qed.
Print Assumptions C176_handler_refuted.

(** If it has none, it returns and leaves requests pending and the i/o thread not joined. *)
Theorem C176_pending_refuted : exists c s,
  reach_once c s /\ hl_rets s = [(ByIo, false)] /\ hl_call s = None /\ hl_conn s = false /\ hl_io s <> INone /\ ~ all_ready s.
Proof.
  set (h0 := [VStart; VSend false; VSend false; VTake; VTake; VNet (JPost 0 false) (RCall true); VTake; VClose ByIo; VCall; VCall; VCall; VCall]).
  exists plain_conf, (hlrun plain_conf hl0 h0). split; [exists h0; split; [cbn; intuition discriminate|reflexivity]|]. vm_compute. repeat split; [discriminate|]. intro X. apply X. now left.
Qed.
Print Assumptions C176_pending_refuted.

(** In a handler on the event-stream thread it returns with the transport still connected and running. *)
Theorem C176_stream_handler_refuted : exists c s,
  reach_once c s /\ hl_rets s = [(BySse, false)] /\ hl_call s = None /\ hl_conn s = true /\ hl_io s = IIdle /\ hl_sse s = SUser 0 /\ hl_stop s = false /\ ~ all_ready s.
Proof.
  set (h0 := [VStart; VSend true; VTake; VNet (JPost 0 true) RAnswer; VTake; VSpawn; VTest; VDialled true; VTake; VNet JAuth RNothing; VTake; VGranted; VSend false; VRead 0;
              VClose BySse; VCall; VCall]).
  exists stream_conf, (hlrun stream_conf hl0 h0). split; [exists h0; split; [cbn; intuition discriminate|reflexivity]|]. vm_compute. repeat split. intro X. apply X. right. now left.
Qed.
Print Assumptions C176_stream_handler_refuted.

(** The future of a notification is not ready after Close. *)
Theorem C176_notes_refuted : exists c s, reach_once c s /\ hl_rets s = [(ByApp, true)] /\ hl_call s = None /\ hl_notes s = [None].
Proof.
  set (h0 := [VStart; VNote; VClose ByApp; VCall; VCall; VCall; VStop; VCall; VCall]).
  exists plain_conf, (hlrun plain_conf hl0 h0). split; [exists h0; split; [cbn; intuition discriminate|reflexivity]|]. vm_compute. repeat split.
Qed.
Print Assumptions C176_notes_refuted.

(** The event-stream thread can still be there when Close returns. *)
Theorem C176_late_thread_refuted : exists c s, reach_once c s /\ hl_rets s = [(ByApp, true)] /\ hl_call s = None /\ hl_sse s = STop.
Proof.
  set (h0 := [VStart; VSend true; VTake; VNet (JPost 0 true) RAnswer; VTake; VClose ByApp; VCall; VCall; VSpawn; VCall; VStop; VCall; VCall]).
  exists stream_conf, (hlrun stream_conf hl0 h0). split; [exists h0; split; [cbn; intuition discriminate|reflexivity]|]. vm_compute. repeat split.
Qed.
Print Assumptions C176_late_thread_refuted.

(** After Close, Start makes the transport say that it is connected; a request is then never completed unless Close or the destructor is called. *)
Theorem C176_restart_refuted : exists c s k,
  reach c s /\ hl_conn s = true /\ hl_life s = Alive /\ nth_error (hl_futs s) k = Some None /\
  forall h, (forall v, In v h -> (forall w, v <> VClose w) /\ (forall w, v <> VDestroy w)) -> ~ answered k (hlrun c s h).
Proof.
  set (h0 := [VStart; VClose ByApp; VCall; VCall; VCall; VStop; VCall; VCall; VStart; VSend false]).
  exists plain_conf, (hlrun plain_conf hl0 h0), 0. split; [exists h0; reflexivity|]. do 3 (split; [vm_compute; reflexivity|]).
  intros h H. assert (S0 : lost 0 (hlrun plain_conf hl0 h0)).
  { split; [vm_compute; reflexivity|]. right. vm_compute. repeat split; auto. }
  apply (lost_run plain_conf 0 h _ H) in S0 as (A & _). intros (o & X). congruence.
Qed.
Print Assumptions C176_restart_refuted.

(** Nor does a second Close return, if it has a DELETE to send. *)
Theorem C176_again_refuted : exists c s,
  reach c s /\ closing_by ByApp s /\ hl_life s = Alive /\ hl_rets s = [(ByApp, true)] /\ forall h, ~ returned 1 (hlrun c s h).
Proof.
  set (h0 := [VStart; VClose ByApp; VTake; VNet JDelete RNothing; VTake; VCall; VCall; VCall; VCall; VStop; VCall; VCall; VStart; VClose ByApp]).
  exists delete_conf, (hlrun delete_conf hl0 h0). split; [exists h0; reflexivity|]. split; [exists KDelete; split; [vm_compute; reflexivity|now left]|]. do 2 (split; [vm_compute; reflexivity|]).
  intro h. assert (S0 : stuck_again [(ByApp, true)] (hlrun delete_conf hl0 h0)).
  { split; [vm_compute; reflexivity|]. right. vm_compute. repeat split; auto. }
  apply (stuck_again_run delete_conf _ h) in S0 as (A & _). unfold returned. rewrite A. cbn. lia.
Qed.
Print Assumptions C176_again_refuted.

(** * C177 *)
(** The destructor, run by a thread of the application, comes to its end. *)
Theorem C177_ends_partial : forall c s, reach c s -> hl_life s = Alive -> destroying_by ByApp s -> inevitable c all_turns (fun t => hl_life t <> Alive) s.
Proof. exact destroy_ends. Qed.
Print Assumptions C177_ends_partial.

(** It ends well if there is no event stream, or if Close has returned from its end before. *)
Theorem C177_frees_partial : forall c s,
  reach c s -> hl_life s = Alive -> hl_call s = None -> hk_stream c = false \/ In (ByApp, true) (hl_rets s) ->
  inevitable c all_turns (fun t => hl_life t = Freed) (hlstep c s (VDestroy ByApp)).
Proof. exact destroy_frees. Qed.
Print Assumptions C177_frees_partial.

(** When the transport is gone, so are its threads, and no future is left without a value or an exception. *)
Theorem C177_clean_partial : forall c s, reach c s -> hl_life s = Freed -> no_threads s /\ ~ In None (hl_futs s) /\ ~ In None (hl_notes s).
Proof. exact freed_clean. Qed.
Print Assumptions C177_clean_partial.

Example C177_case :
  let h := app_close ++ [VTake; VNet JDelete RNothing; VTake; VCall; VCall; VNet JAuth RNothing; VTake; VGranted; VGone; VTest; VCall; VCall; VStop; VCall; VCall] in
  let s := hlrun full_conf hl0 h in
  In (ByApp, true) (hl_rets s) /\ hl_call s = None /\ hl_life s = Alive /\ hl_life (hlrun full_conf s [VDestroy ByApp; VCall; VCall; VCall; VCall]) = Freed.
Proof. vm_compute. repeat split. now left. Qed.

(** Pending requests are not told that the transport is closed: their promises are broken. *)
Theorem C177_broken_refuted : exists c s, reach c s /\ hl_life s = Freed /\ hl_futs s = [Some OBroken] /\ hl_notes s = [Some false].
Proof.
  set (h0 := [VStart; VSend false; VNote; VTake; VTake; VDestroy ByApp; VCall; VCall; VCall; VStop; VCall; VCall]).
  exists plain_conf, (hlrun plain_conf hl0 h0). split; [exists h0; reflexivity|]. vm_compute. repeat split.
Qed.
Print Assumptions C177_broken_refuted.

(** In a handler of either thread the destructor ends the process. *)
Theorem C177_handler_refuted : exists c s1 s2,
  reach c s1 /\ destroying_by ByIo s1 /\ hl_life s1 = Alive /\ hl_life (hlstep c s1 VCall) = Crashed /\
  reach c s2 /\ destroying_by BySse s2 /\ hl_life s2 = Alive /\ hl_life (hlstep c s2 VCall) = Crashed.
Proof.
  set (h1 := [VStart; VSend false; VTake; VNet (JPost 0 false) (RCall true); VTake; VDestroy ByIo; VCall; VCall; VCall]).
  set (h2 := [VStart; VSend true; VTake; VNet (JPost 0 true) RAnswer; VTake; VSpawn; VTest; VDialled true; VTake; VNet JAuth RNothing; VTake; VGranted; VRead 0; VDestroy BySse; VCall]).
  exists stream_conf, (hlrun stream_conf hl0 h1), (hlrun stream_conf hl0 h2).
  split; [exists h1; reflexivity|]. split; [exists (KWait true); split; [vm_compute; reflexivity|cbn; tauto]|]. split; [vm_compute; reflexivity|]. split; [reflexivity|].
  split; [exists h2; reflexivity|]. split; [exists (KJoin true); split; [vm_compute; reflexivity|cbn; tauto]|]. split; vm_compute; reflexivity.
Qed.
Print Assumptions C177_handler_refuted.

(** Without Close, and while the answer to initialize is worked on, the destructor of the application can end the process. *)
Theorem C177_race_refuted : exists c s, reach c s /\ destroying_by ByApp s /\ hl_life s = Alive /\ hl_life (hlstep c s VCall) = Crashed.
Proof.
  set (h0 := [VStart; VSend true; VTake; VNet (JPost 0 true) RAnswer; VTake; VDestroy ByApp; VCall; VCall; VSpawn; VCall; VStop; VCall]).
  exists stream_conf, (hlrun stream_conf hl0 h0). split; [exists h0; reflexivity|]. split; [exists (KLast true); split; [vm_compute; reflexivity|cbn; tauto]|]. split; vm_compute; reflexivity.
Qed.
Print Assumptions C177_race_refuted.

(** * C178 *)
(** Without TLS a response that has been read completes its request by the steps of the i/o thread and of handlers alone, unless the transport is closed. *)
Theorem C178_plain_partial : forall c k s,
  reach c s -> hk_tls c = false -> arrived k s -> inevitable c own_turns (fun t => answered k t \/ interrupted t) s.
Proof. exact reply_completes. Qed.
Print Assumptions C178_plain_partial.

Example C178_case :
  let s := hlrun plain_conf hl0 [VStart; VSend false; VSend false; VTake; VTake; VNet (JPost 0 false) (RCall true); VNet (JPost 1 false) RAnswer] in
  arrived 1 s /\ ~ answered 1 s /\ ~ interrupted s /\ answered 1 (hlrun plain_conf s [VTake; VReturn; VTake]).
Proof.
  vm_compute. refine (conj _ (conj _ (conj _ _))).
  - exists false, RAnswer. split; [now left|]. right. now left.
  - intros (o & X). discriminate X.
  - intros [X|[X|[(p & X)|(b & [])]]]; [now apply X|discriminate X|discriminate X].
  - now exists OAnswer.
Qed.

(** With TLS it does not, as long as the peer of another exchange does not end its connection; then no call of Close returns either. *)
Theorem C178_tls_refuted : exists c s,
  reach c s /\ arrived 1 s /\ ~ interrupted s /\
  forall h, ~ In VShut h -> ~ answered 1 (hlrun c s h) /\ ~ returned 0 (hlrun c s h).
Proof.
  set (h0 := [VStart; VSend false; VSend false; VTake; VTake; VNet (JPost 0 false) RAnswer; VNet (JPost 1 false) RAnswer; VTake]).
  exists tls_conf, (hlrun tls_conf hl0 h0). split; [exists h0; reflexivity|]. split; [exists false, RAnswer; split; [now left|now left]|].
  split; [intros [X|[X|[(p & X)|(b & [])]]]; [now apply X|discriminate X|discriminate X]|].
  intros h H. assert (S0 : hung 1 (hlrun tls_conf hl0 h0)).
  { split; [vm_compute; reflexivity|]. split; [vm_compute; reflexivity|]. right. split; [vm_compute; reflexivity|]. vm_compute. split; [eauto|]. repeat split; discriminate. }
  apply (hung_run tls_conf 1 h _ H) in S0 as (A & B & _). unfold returned, answered. rewrite A, B. split; [intros (o & X); discriminate X|cbn; lia].
Qed.
Print Assumptions C178_tls_refuted.
