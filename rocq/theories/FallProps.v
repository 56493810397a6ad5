(** C206: the connections of an HTTP server, their failures and their independence. *)
From Coq Require Import Ascii String List Arith Bool Lia.
From Verif Require Import StrModel FallModel FallSpec FallProofs.
Import ListNotations.
Local Open Scope nat_scope.

(** The error handler is told of a connection at most once. *)
Theorem C206_once : forall st evs i, length (told i (fall_run st evs)) <= 1.
Proof. exact told_once. Qed.
Print Assumptions C206_once.

(** It is not told of peers that hang up. *)
Theorem C206_quiet : forall st evs i, at_peace i evs -> told i (fall_run st evs) = [].
Proof. exact quiet. Qed.
Print Assumptions C206_quiet.

(** It is told of any other failure while the server runs, with the kind of connection and the reason. *)
Theorem C206_session_told : forall st evs i p r what a b, s_eh st = Some b ->
  f_dead (fall_run st evs) = false -> f_run (fall_run st evs) = true -> turns (fall_run st evs) = true ->
  is_at i p (fall_run st evs) -> in_session p -> fails_as r what ->
  told i (fall_run st (evs ++ [FDone i r a])) =
    [(if s_tls st then bs "HTTPServer TLS session error: " else bs "HTTPServer plain session error: ") ++ what] /\
  is_at i PEnd (fall_run st (evs ++ [FDone i r a])).
Proof. exact session_told. Qed.
Print Assumptions C206_session_told.

Theorem C206_stream_told : forall st evs i p r what a b, s_eh st = Some b ->
  f_dead (fall_run st evs) = false -> f_run (fall_run st evs) = true ->
  is_at i p (fall_run st evs) -> in_stream p -> fails_as r what ->
  told i (fall_run st (evs ++ [FDone i r a])) =
    [(if s_tls st then bs "HTTPServer SSE TLS session error: " else bs "HTTPServer SSE plain session error: ") ++ what].
Proof. exact stream_told. Qed.
Print Assumptions C206_stream_told.

(** Once the server is going down it is told of nothing more. Missing: std::exceptions other than
    system_error in the thread of a stream. *)
Theorem C206_stopped_partial : forall st before after i, (forall what a, ~ In (FDone i (Std what) a) after) ->
  f_dead (fall_run st before) = false ->
  told i (fall_run st (before ++ FDown :: after)) = told i (fall_run st before).
Proof.
  intros st before after i H D. rewrite run_app. cbn [fold_left]. rewrite down_quiet; [|unfold fall_step; now rewrite D|exact H].
  unfold fall_step. rewrite D. reflexivity.
Qed.
Print Assumptions C206_stopped_partial.

Theorem C206_stopped_refuted : exists st before after i,
  f_dead (fall_run st before) = false /\ told i (fall_run st before) = [] /\
  told i (fall_run st (before ++ FDown :: after)) = [bs "HTTPServer SSE plain session error: bad_alloc"].
Proof.
  exists {| s_tls := false; s_eh := Some false |}, [FOpen; FDone 0 Fine AStream; FDone 0 Fine AStream; FDone 0 Fine AStream; FMsg 0],
    [FDone 0 (Std (bs "bad_alloc")) AOther], 0. repeat split; vm_compute; reflexivity.
Qed.
Print Assumptions C206_stopped_refuted.

(** The failures end no program. Missing: handlers that throw, see below. *)
Theorem C206_alive_partial : forall st evs, s_eh st <> Some true -> (forall i a, ~ In (FDone i Alien a) evs) -> f_dead (fall_run st evs) = false.
Proof. exact alive. Qed.
Print Assumptions C206_alive_partial.

(** An error handler that throws is harmless when a request fails and ends the program when a stream does. *)
Theorem C206_throws_refuted : exists evs, (forall i a, ~ In (FDone i Alien a) evs) /\
  f_dead (fall_run {| s_tls := false; s_eh := Some true |} evs) = true /\
  f_dead (fall_run {| s_tls := false; s_eh := Some false |} evs) = false.
Proof.
  exists [FOpen; FDone 0 Fine AStream; FDone 0 Fine AStream; FDone 0 (Sys (COther 1) (bs "timed out")) AOther].
  split; [|split; vm_compute; reflexivity]. intros i a H. cbn in H. decompose [or] H; try discriminate; contradiction.
Qed.
Print Assumptions C206_throws_refuted.

(** Without TLS, what becomes of a connection is up to the events about it and the server as a whole:
    whatever the other clients do changes nothing. *)
Theorem C206_apart_partial : forall st, s_tls st = false -> apart st.
Proof. exact plain_apart. Qed.
Print Assumptions C206_apart_partial.

(** With TLS, from the moment a connection is closed until its peer answers, no other connection is
    accepted and no request on any other goes on. *)
Theorem C206_blocked : forall st more evs j, f_io (fall_run st evs) = Some j -> ~ In (FShut j) more ->
  f_io (fall_run st (evs ++ more)) = Some j /\
  length (f_conns (fall_run st (evs ++ more))) = length (f_conns (fall_run st evs)) /\
  forall i p, is_at i p (fall_run st evs) -> in_session p -> conn_at i (fall_run st (evs ++ more)) = conn_at i (fall_run st evs).
Proof. exact blocked. Qed.
Print Assumptions C206_blocked.

(** When the peer answers, or its connection breaks, the server goes on. *)
Theorem C206_freed : forall st evs j, f_io (fall_run st evs) = Some j -> f_dead (fall_run st evs) = false ->
  f_io (fall_run st (evs ++ [FShut j])) = None /\ is_at j PEnd (fall_run st (evs ++ [FShut j])).
Proof. exact freed. Qed.
Print Assumptions C206_freed.

Definition secure : settings := {| s_tls := true; s_eh := Some false |}.
(** The first client has its answer and stays silent; the second has its handshake under way. *)
Definition silent : list fev :=
  [FOpen; FOpen; FDone 0 Fine AOther; FDone 0 Fine AOther; FDone 0 Fine AOther; FDone 0 Fine AOther].
Theorem C206_apart_refuted : ~ apart secure.
Proof.
  intro H. specialize (H (silent ++ [FDone 1 Fine AOther]) 1 eq_refl). vm_compute in H. discriminate.
Qed.
Print Assumptions C206_apart_refuted.

(** The hypotheses are met. *)
Example C206_silent : f_io (fall_run secure silent) = Some 0 /\ is_at 1 PShake (fall_run secure silent) /\ in_session PShake.
Proof. split; [reflexivity|]. split; [eexists; split; reflexivity|now left]. Qed.
Example C206_reset : at_peace 0 [FOpen; FDone 0 (Sys CReset (bs "reset")) AOther] /\
  is_at 0 PEnd (fall_run secure [FOpen; FDone 0 (Sys CReset (bs "reset")) AOther]).
Proof.
  split; [|eexists; split; reflexivity]. intros r a H. cbn in H. destruct H as [H|[H|[]]]; [discriminate|]. injection H as <- _. right. eexists. right. now left.
Qed.
Example C206_timeout : told 0 (fall_run secure [FOpen; FDone 0 (Sys (COther 110) (bs "timed out")) AOther]) = [bs "HTTPServer TLS session error: timed out"] /\
  f_run (fall_run secure [FOpen]) = true /\ turns (fall_run secure [FOpen]) = true /\ is_at 0 PShake (fall_run secure [FOpen]).
Proof. split; [vm_compute; reflexivity|]. split; [reflexivity|]. split; [reflexivity|]. eexists. split; reflexivity. Qed.
Example C206_served : conn_at 1 (fall_run {| s_tls := false; s_eh := None |} [FOpen; FOpen; FDone 0 (Sys (COther 7) []) AOther; FDone 1 Fine AOther; FDone 1 Fine AOther; FDone 1 Fine AOther]) =
  Some {| c_pc := PEnd; c_told := [] |}.
Proof. reflexivity. Qed.
