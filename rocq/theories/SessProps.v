(** Theorems about the lives of servers and clients: running, stopping, reconnecting, announcing. *)
From Coq Require Import Ascii String List Permutation Arith NArith ZArith Bool Lia.
From Verif Require Import StrModel StrProofs DoubleModel JsonModel JsonSpec JsonProofs ObjSpec ObjProofs MapModel RpcModel TaskModel TaskSpec DescModel DescSpec DescProofs RegModel RegSpec ValModel ValSpec ReadModel SubModel LogModel CancelModel ServModel ServSpec ServProofs ServProps DispSpec PeerModel PeerSpec PeerProofs CacheModel CacheSpec CacheProofs SessModel SessSpec SessProofs.
Import ListNotations.
Local Open Scope nat_scope.

Definition initialized_note : notification := {| nt_method := bs "notifications/initialized"; nt_params := None |}.
Definition hello (caps : list (bstr * json)) : request := ask (bs "initialize") (JObj [(bs "capabilities", JObj caps)]).
Definition shy_hello : request := ask (bs "initialize") (JObj []).
Definition ok_ask (q : request) : hev := VAsk demo_world false false false q.
Definition subscribe_to (u : bstr) : request := ask (bs "resources/subscribe") (JObj [(bs "uri", JStr u)]).

(** C119. IsRunning: a client said that it is initialized, the server was not stopped since, and its transport is connected. *)
Theorem C119_running : forall s l, let h := host_run (host0 s) l in hh_dead h = false ->
  (is_running h = true <-> begun_after l /\ (has_wire l -> connected_after l)).
Proof. exact running_iff. Qed.
Print Assumptions C119_running.
(** Stop ends it, if there is a transport. *)
Theorem C119_stop_partial : forall s l, let h := host_run (host0 s) l in hh_dead h = false -> has_wire l ->
  is_running (host_step h VStop) = false.
Proof.
  intros s l h D W. pose proof (host_snoc l (host0 s) VStop) as E. fold h in E. rewrite <- E.
  destruct (is_running (host_run (host0 s) (l ++ [VStop]))) eqn:R; [|reflexivity].
  apply running_iff in R as [B _]; [|rewrite E; apply step_alive; [now apply wire_has|exact D]].
  apply begun_snoc' in B as [[[c X]|(b & n & X & _)]|[_ X]]; [discriminate|discriminate|elim (X eq_refl W)].
Qed.
Print Assumptions C119_stop_partial.
(** Without one, which is how a server behind HandleJSONRPC is used, Stop does nothing. *)
Theorem C119_stop_refuted : forall s l, let h := host_run (host0 s) l in hh_dead h = false -> ~ has_wire l -> host_step h VStop = h.
Proof.
  intros s l h D N. unfold host_step. rewrite D. unfold do_stop. pose proof (wire_has l s D) as W. fold h in W.
  destruct (hh_wire h); [elim N; apply W; discriminate|reflexivity].
Qed.
Print Assumptions C119_stop_refuted.
(** A server started on a new transport runs before its client has initialized, if it ran before. *)
Theorem C119_restart_refuted : forall s l, let h := host_run (host0 s) l in hh_dead h = false -> is_running h = true -> is_running (host_step h (VStart true)) = true.
Proof.
  intros s l h D R. unfold is_running in *. apply andb_true_iff in R as [U _]. unfold host_step. rewrite D. cbn. now rewrite U.
Qed.
Print Assumptions C119_restart_refuted.
(** With this library's client a server never runs: the client does not send notifications/initialized. *)
Theorem C119_own_client_refuted : forall s l, Forall own_client l -> is_running (host_run (host0 s) l) = false.
Proof. exact own_never_running. Qed.
Print Assumptions C119_own_client_refuted.
Example C119_ex : is_running (host_run (host0 demo_server) [VStart true; ok_ask (hello []); VNote false initialized_note]) = true /\
  is_running (host_run (host0 demo_server) [VStart true; ok_ask (hello [])]) = false /\
  is_running (host_run (host0 demo_server) [VStart true; VNote false initialized_note; VDrop]) = false /\
  is_running (host_run (host0 demo_server) [VInit ccaps0; VStop]) = true /\
  is_running (host_run (host0 demo_server) [VStart true; VNote false initialized_note; VStart true]) = true /\
  Forall own_client [VStart true; ok_ask (hello []); VNote false (client_note CRoots)].
Proof.
  repeat (split; [vm_compute; reflexivity|]). repeat constructor. now exists CRoots.
Qed.

(** C120. Once a transport was given, telling the client something never crashes. *)
Theorem C120_safe : forall s l, wired_first l -> hh_dead (host_run (host0 s) l) = false.
Proof. exact safe_run. Qed.
Print Assumptions C120_safe.
(** Before that it does: the transport is not tested. *)
Theorem C120_refuted : forall s l t, hh_dead (host_run (host0 s) l) = false -> ~ has_wire l -> unfiltered t ->
  hh_dead (host_run (host0 s) (l ++ [VTell t])) = true.
Proof. exact unwired_dies. Qed.
Print Assumptions C120_refuted.
Example C120_ex : wired_first [VStart false; VTell TellTools; VStop; VTell (TellAny (bs "x/y") JNull)] /\
  hh_dead (host_run (host0 demo_server) [ok_ask (hello []); VTell TellTools]) = true /\
  hh_dead (host_run (host0 demo_server) [ok_ask (hello []); VReg (UnregTool (bs "echo"))]) = false.
Proof.
  split; [|split; vm_compute; reflexivity]. intros a t b E. exists false. destruct a as [|e a]; [discriminate|]. injection E as <- _. now left.
Qed.

(** C121. What the next client is answered does not depend on what the clients before it did, tasks apart: two servers with
    the same registrations, whatever else happened to them, give the same reply. *)
Theorem C121_session_partial : forall s l1 l2 w0 x y z q0 m w a b c q,
  hh_dead (host_run (host0 s) l1) = false -> hh_dead (host_run (host0 s) l2) = false ->
  registrations l1 = registrations l2 -> introduces q0 -> no_tasks q ->
  fst (do_ask w a b c q (host_run (host0 s) (l1 ++ VStart true :: VAsk w0 x y z q0 :: m))) =
  fst (do_ask w a b c q (host_run (host0 s) (l2 ++ VStart true :: VAsk w0 x y z q0 :: m))).
Proof. exact sessions_same. Qed.
Print Assumptions C121_session_partial.
(** Tasks: the next client sees, follows and cancels the tasks of the one before. *)
Theorem C121_tasks_refuted : forall h w0 x0 y0 z0 q0 w x y z q, hh_dead h = false -> rq_method q0 = bs "initialize" ->
  In (rq_method q) [bs "tasks/get"; bs "tasks/list"; bs "tasks/result"; bs "tasks/cancel"] ->
  fst (do_ask w x y z q (host_run h (session w0 x0 y0 z0 q0))) = fst (do_ask w x y z q h).
Proof. exact tasks_shared. Qed.
Print Assumptions C121_tasks_refuted.
(** Subscriptions and the log level: the next client is told what the one before would have been told. *)
Theorem C121_told_refuted : forall h w x y z q t, hh_dead h = false -> hh_wire h = Some true -> rq_method q = bs "initialize" ->
  let h' := host_run h (session w x y z q) in
  exists ns, hh_out (host_step h (VTell t)) = hh_out h ++ ns /\ hh_out (host_step h' (VTell t)) = hh_out h' ++ ns.
Proof. exact told_shared. Qed.
Print Assumptions C121_told_refuted.
(** Capabilities: a client that names none is taken for the one before. *)
Theorem C121_caps_refuted : forall h w0 x0 y0 z0 q0 w x y z q, hh_dead h = false -> rq_method q0 = bs "initialize" -> ~ introduces q0 -> no_tasks q ->
  on_line h = true -> fst (do_ask w x y z q (host_run h (session w0 x0 y0 z0 q0))) = fst (do_ask w x y z q h).
Proof. exact caps_shared. Qed.
Print Assumptions C121_caps_refuted.
Definition updated (u : bstr) : notification := {| nt_method := bs "notifications/resources/updated"; nt_params := Some (JObj [(bs "uri", JStr u)]) |}.
Example C121_ex : introduces (hello []) /\ ~ introduces shy_hello /\ no_tasks (ask (bs "tools/list") (JObj [])) /\
  (let l := [VStart true; ok_ask (hello []); ok_ask (subscribe_to (bs "a:b"))] in
   let h := host_run (host0 demo_server) (l ++ session demo_world false false false (hello [])) in
   hh_out (host_step h (VTell (TellUpdated (bs "c:d")))) = hh_out h /\
   hh_out (host_step h (VTell (TellUpdated (bs "a:b")))) = hh_out h ++ [updated (bs "a:b")]) /\
  (let h := host_run (host0 demo_server) [VStart true; ok_ask (hello [])] in hh_out (host_step h (VTell (TellUpdated (bs "c:d")))) = hh_out h ++ [updated (bs "c:d")]).
Proof.
  split; [split; [reflexivity|]; eexists _, _; split; reflexivity|]. split; [intros (_ & o & k & [= <-] & H); discriminate|].
  split; [split; [cbn [In ask rq_method]; intros [H|[H|[H|[H|[]]]]]; discriminate|intros (o & t & [= <-] & H); discriminate]|].
  split; [split|]; vm_compute; reflexivity.
Qed.

(** C122. List calls that are not served from the cache go to the connection in force, and only they do. *)
Theorem C122_asks : forall strict now h t c, In (t, c) (kc_sent (krun (kclient0 strict now) h)) <->
  exists a kd b, h = a ++ KList (LBegin kd) :: b /\ t = begins (lists_in a) /\ c = connections a /\
    forall l, ~ served (lrun (lcache0 strict now) (lists_in a)) kd l.
Proof. exact sent_iff. Qed.
Print Assumptions C122_asks.
(** What the cache serves is not changed by connecting to another server. *)
Theorem C122_stale_refuted : forall strict now h r kd l,
  served (kc_lists (krun (kclient0 strict now) h)) kd l <-> served (kc_lists (krun (kclient0 strict now) (h ++ [KDisconnect; KConnect; KInit r]))) kd l.
Proof.
  intros strict now h r kd l. rewrite !krun_lists. cbn [kclient0 kc_lists].
  assert (lists_in (h ++ [KDisconnect; KConnect; KInit r]) = lists_in h) as ->; [|reflexivity]. unfold lists_in. now rewrite flat_map_app, app_nil_r.
Qed.
Print Assumptions C122_stale_refuted.
(** It is when that server announces, as this library's does on initialize (C124_init): nothing is served until a new list is stored. *)
Theorem C122_announced : forall strict now g m kd l b, concerns m kd -> (forall t, ~ In (LStore t) b) -> ~ served (lrun (lcache0 strict now) (g ++ LNotify m :: b)) kd l.
Proof. exact announced_gone_later. Qed.
Print Assumptions C122_announced.
(** Initialize returns what the new server says of itself; when it says nothing, what the one before said. *)
Theorem C122_caps_partial : forall k i v c, read_scaps v = Some c -> kc_told (kstep k (KInit (Some {| rs_id := i; rs_result := Some v; rs_error := None |}))) = Some c.
Proof. intros k i v c H. cbn. now rewrite H. Qed.
Print Assumptions C122_caps_partial.
Theorem C122_caps_refuted : forall k i v i' o c, read_scaps v = Some c -> obj_get (bs "capabilities") o = None ->
  kc_told (krun k [KConnect; KInit (Some {| rs_id := i; rs_result := Some v; rs_error := None |}); KDisconnect; KConnect;
                   KInit (Some {| rs_id := i'; rs_result := Some (JObj o); rs_error := None |})]) = Some c.
Proof.
  intros k i v i' o c H N. assert (R : read_scaps (JObj o) = None) by (unfold read_scaps; cbn [as_obj]; now rewrite N).
  unfold krun. cbn [fold_left kstep kc_caps kc_told]. now rewrite H, R.
Qed.
Print Assumptions C122_caps_refuted.
Definition one_tool : reply := RResponse (Some {| rs_id := IdInt 1; rs_result := Some (JObj [(bs "tools", JArr [tool_json (default_tool (bs "old"))])]); rs_error := None |}).
Example C122_ex : exists l, l <> [] /\
  served (kc_lists (krun (kclient0 false 0) [KConnect; KList (LTtl (Some 1000%N)); KList (LBegin KTools); KList (LReply 0 one_tool); KList (LStore 0); KDisconnect; KConnect; KInit None])) KTools l /\
  kc_sent (krun (kclient0 false 0) [KConnect; KList (LBegin KTools); KDisconnect; KConnect; KList (LBegin KTools)]) = [(0, 1); (1, 2)] /\
  read_scaps (JObj [(bs "capabilities", JObj [])]) <> None /\ concerns TOOL_CHANGED KTools.
Proof.
  eexists. split; [|split; [unfold served; vm_compute; right; left; reflexivity|]]; [discriminate|].
  split; [vm_compute; reflexivity|]. split; [vm_compute; discriminate|reflexivity].
Qed.

(** C123. CurrentRequestId and CurrentProgressToken, on a thread: those of the request it entered last and has not left,
    whatever other threads do; none if there is no such request. *)
Theorem C123_current : forall t a q b, balanced t b ->
  id_is q (current_id (xrun (a ++ XBegin t q :: b)) t) /\ token_is q (current_token (xrun (a ++ XBegin t q :: b)) t).
Proof.
  intros t a q b B. destruct (innermost t a q b B) as [r E]. unfold current_id, current_token. rewrite E. split; [apply id_is_text|apply token_is_text].
Qed.
Print Assumptions C123_current.
Theorem C123_none : forall t l, balanced t l -> current_id (xrun l) t = None /\ current_token (xrun l) t = None.
Proof. intros t l B. unfold current_id, current_token, xrun. rewrite (balanced_keeps t l B). now split. Qed.
Print Assumptions C123_none.
(** So a thread that entered no request, such as the worker of a task or a thread the handler starts, is given none. *)
Theorem C123_elsewhere_refuted : forall t l, (forall q, ~ In (XBegin t q) l) -> current_id (xrun l) t = None /\ current_token (xrun l) t = None.
Proof.
  intros t l N. assert (X : xrun l t = []); [|unfold current_id, current_token; rewrite X; now split].
  induction l as [|e l IH] using rev_ind; [reflexivity|]. unfold xrun in *. rewrite fold_left_app. cbn [fold_left].
  assert (IH' : fold_left xstep l (fun _ => []) t = []) by (apply IH; intros q I; apply (N q); apply in_or_app; now left).
  destruct e as [u q|u]; cbn [xstep]; unfold xput; destruct (Nat.eqb_spec t u) as [->|Ne]; try exact IH'.
  - elim (N q). apply in_or_app. right. now left.
  - now rewrite IH'.
Qed.
Print Assumptions C123_elsewhere_refuted.
(** An integer and its text give the same id. *)
Theorem C123_same_text_refuted : forall t q q' z, rq_id q = IdInt z -> rq_id q' = IdStr (print_Z z) -> 
  current_id (xrun [XBegin t q]) t = current_id (xrun [XBegin t q']) t.
Proof.
  intros t q q' z A B. unfold current_id, xrun. cbn [fold_left xstep]. unfold xput. rewrite Nat.eqb_refl. cbn [ctx_of fst]. rewrite A, B. cbn [request_text].
  destruct (print_Z_head z) as (d & ds & E & _). now rewrite E.
Qed.
Print Assumptions C123_same_text_refuted.
Example C123_ex : balanced 1 [XBegin 2 (hello []); XBegin 1 (hello []); XEnd 2; XEnd 1] /\
  current_id (xrun [XBegin 1 (ask (bs "a") JNull); XBegin 2 shy_hello; XBegin 1 {| rq_id := IdStr (bs "x"); rq_method := []; rq_params := None |}; XEnd 1]) 1 = Some (bs "5").
Proof.
  split; [|vm_compute; reflexivity]. apply bal_other; [discriminate|]. apply (bal_nest 1 [XEnd 2] [] (hello [])); [|constructor]. apply bal_other_end; [discriminate|constructor].
Qed.

(** C124. While the transport is connected, a registration or its removal that changes what a list request is answered is announced. *)
Theorem C124_announced : forall h o w x y z q k, hh_dead h = false -> hh_wire h = Some true -> rq_method q = list_method k ->
  fst (do_ask w x y z q (host_step h (VReg o))) <> fst (do_ask w x y z q h) ->
  exists n, hh_out (host_step h (VReg o)) = hh_out h ++ [n] /\ concerns (nt_method n) k.
Proof. exact list_announced. Qed.
Print Assumptions C124_announced.
(** Changes made while there was no connection are made up for on initialize: every list is announced. *)
Theorem C124_init : forall h w x y z q k, hh_dead h = false -> hh_wire h = Some true -> rq_method q = bs "initialize" ->
  exists ns n, hh_out (host_step h (VAsk w x y z q)) = hh_out h ++ ns /\ In n ns /\ concerns (nt_method n) k.
Proof. exact init_announces. Qed.
Print Assumptions C124_init.
(** A server that was never given a transport, as behind HTTPServer, announces nothing. *)
Theorem C124_no_transport_refuted : forall s l, ~ has_wire l -> hh_out (host_run (host0 s) l) = [].
Proof. exact unwired_silent. Qed.
Print Assumptions C124_no_transport_refuted.
Example C124_ex : let h := host_run (host0 demo_server) [VStart true] in let q := ask (bs "tools/list") (JObj []) in
  hh_dead h = false /\ hh_wire h = Some true /\ rq_method q = list_method KTools /\
  fst (do_ask demo_world false false false q (host_step h (VReg (UnregTool (bs "echo"))))) <> fst (do_ask demo_world false false false q h).
Proof. repeat (split; [reflexivity|]). vm_compute. discriminate. Qed.

(** C125. A status notification of the client's tasks gives the application the task the client had; every other notification but
    the one that starts the server is ignored. *)
Theorem C125_status : forall t n h, arrives (status_note t) n -> hh_dead h = false ->
  hh_seen (host_step h (VNote true n)) = hh_seen h ++ [t] /\ hh_sv (host_step h (VNote true n)) = hh_sv h /\
  hh_out (host_step h (VNote true n)) = hh_out h /\ is_running (host_step h (VNote true n)) = is_running h.
Proof. intros t n h A D. rewrite (server_hears t n h A D). now repeat split. Qed.
Print Assumptions C125_status.
Theorem C125_ignored : forall n b h, nt_method n <> bs "notifications/initialized" ->
  (nt_method n = bs "notifications/tasks/status" -> b = false \/ nt_params n = None \/ (sv_strict (hh_sv h) = true /\ forall v, nt_params n = Some v -> ~ TaskShape v)) ->
  host_step h (VNote b n) = h.
Proof. exact server_ignores. Qed.
Print Assumptions C125_ignored.
Example C125_ex : let t := new_task 3 (bs "2025-01-01T00:00:00Z") None in arrives (status_note t) (status_note t) /\
  hh_seen (host_run (host0 demo_server) [VStart true; VNote true (status_note t); VNote true (client_note CRoots)]) = [t].
Proof.
  split; [split; [reflexivity|constructor; apply ObjProofs.same_refl]|vm_compute; reflexivity].
Qed.
