(** C129 to C131, and the part of C102 about the event stream of the HTTP client transport. *)
From Coq Require Import Ascii String List Permutation Arith NArith ZArith Bool Lia ZifyBool ZifyNat ZifyN.
From Verif Require Import StrModel StrProofs DoubleModel JsonModel RpcModel HcliModel SseModel SseSpec SseProofs LoopModel LoopSpec LoopProofs.
Import ListNotations.
Local Open Scope nat_scope.

Definition stream_conf : lconf := {| lc_stream := true; lc_delay := 250 |}.
Definition fine : bstr -> bool := fun _ => true.
Definition ok_reply (fields : list (bstr * bstr)) (rest : bstr) : bstr := reply_text (bs "200") (bs "OK") fields rest.
Definition got_session : lact := LReply true (bs "s1").
Definition line (s : string) : bstr := bs s ++ [LF].

(** C129. Once an initialize request was given a session, and until Close is called, a stream is
    answered 405 or a stream takes the session away, the thread is at work ... *)
Theorem C129_kept : forall c vs, wanted c vs -> streaming (lrun c (loop0 c) vs).
Proof. intros c vs W. now destruct (wanted_kept c vs W) as (_ & S & _). Qed.
Print Assumptions C129_kept.
(** ... and asks again when a connection is lost: right after the delay in force, with the session
    in force ... *)
Theorem C129_again : forall c vs d, let h := lrun c (loop0 c) vs in
  wanted c vs -> in_connection h -> (delay_of h <= d)%N -> exists s, current_session (lp_log h) s /\ s <> [] /\
  lp_log (lrun c h [LFail; LTick d; LWake; LTest; LConnect]) = lp_log h ++ [GEnd (lp_now h) (delay_of h); GGet (lp_now h + d) s].
Proof.
  intros c vs d h W IC L. destruct (wanted_kept c vs W) as (Cr & _ & E & C & N). exists (lp_session h). split.
  - apply (li_session _ (lrun_ok c vs)). destruct W as (St & R & NC & NH & H). destruct (keep_run c vs St NC NH H) as (_ & X & _).
    change (lp_close h = 0) in X. change (lp_close h <> 2). rewrite X. discriminate.
  - split; [exact N|]. apply reconnect; auto.
Qed.
Print Assumptions C129_again.
(** ... and, if it was already waiting, when that time is over. *)
Theorem C129_wakes : forall c vs till d, let h := lrun c (loop0 c) vs in
  wanted c vs -> lp_thread h = ThRuns (PNap till) -> (till <= lp_now h + delay_of h)%N /\
  ((till <= lp_now h + d)%N -> exists s, s <> [] /\ lp_log (lrun c h [LTick d; LWake; LTest; LConnect]) = lp_log h ++ [GGet (lp_now h + d) s]).
Proof.
  intros c vs till d h W T. destruct (wanted_kept c vs W) as (Cr & _ & E & C & N). split; [exact (li_nap _ (lrun_ok c vs) till T)|].
  intros L. exists (lp_session h). split; [exact N|]. now apply (wakes c h till).
Qed.
Print Assumptions C129_wakes.
(** C129. Whatever happens: every GET carries the session in force, there is one connection at a
    time, and none is opened before the delay that was in force when any earlier one ended is
    over. *)
Theorem C129_gets : forall c vs l1 t s l2, lp_log (lrun c (loop0 c) vs) = l1 ++ GGet t s :: l2 ->
  current_session l1 s /\ s <> [] /\
  (forall t0 d, In (GEnd t0 d) l1 -> (t0 + d <= t)%N) /\
  (forall a t1 s1 b, l1 = a ++ GGet t1 s1 :: b -> exists t' d, In (GEnd t' d) b).
Proof. intros c vs l1 t s l2 E. exact (li_gets _ (lrun_ok c vs) l1 t s l2 E). Qed.
Print Assumptions C129_gets.
Theorem C129_session_unique : forall l s s', current_session l s -> current_session l s' -> s = s'.
Proof. exact current_det. Qed.
Print Assumptions C129_session_unique.
(** C129. A stream answered 405 is never asked for again. *)
Theorem C129_off : forall c vs reason fields rest ok ws, let h := lrun c (loop0 c) vs in
  lp_crashed h = false -> lp_thread h = ThRuns PHead -> reason_ok reason -> ~ mentions (bs "200") reason -> Forall field_ok fields ->
  forall t s, In (GGet t s) (lp_log (lrun c h (LHead (reply_text (bs "405") reason fields rest) ok :: ws))) -> In (GGet t s) (lp_log h).
Proof.
  intros c vs reason fields rest ok ws h Cr T R M F t s.
  assert (SC : status_code (bs "405")) by (split; [reflexivity|]; split; cbn; intuition discriminate).
  change (lrun c h (?a :: ?w)) with (lrun c (lstep c h a) w).
  assert (V : read_head (lp_session h) (reply_text (bs "405") reason fields rest) = VOff).
  { rewrite head_read by assumption. destruct (contains (bs "200") _) eqn:C1.
    - apply status_contains in C1; [|now left|exact SC]. destruct C1 as [X|X]; [discriminate|contradiction].
    - assert (C2 : contains (bs "405") (status_line (bs "405") reason) = true) by (apply status_contains; [now right|exact SC|now left]).
      now rewrite C2. }
  unfold lstep. rewrite Cr, T, V. set (h1 := lp_over _). assert (O : off h1) by (split; [reflexivity|left; reflexivity]).
  destruct (off_run c h1 ws O) as (_ & l & E & G). rewrite E. intros X. apply in_app_or in X. destruct X as [X|X]; [exact X|].
  specialize (G _ X). discriminate.
Qed.
Print Assumptions C129_off.
(** C129. The events of a connection are received: each payload once and in order, when the server's
    events are read in pieces that do not cut a payload and the handlers do not throw. *)
Theorem C129_received : forall c vs ok reason fields es extra reads, let h := lrun c (loop0 c) vs in
  lp_crashed h = false -> lp_close h = 0 -> lp_thread h = ThRuns PHead -> (forall p, ok p = true) ->
  reason_ok reason -> Forall field_ok fields ->
  Forall (fun e => number (fst e) /\ one_line (snd e)) es -> cut_into (map (pair true) es) (extra :: reads) ->
  received (lrun c h (LHead (reply_text (bs "200") reason fields extra) ok :: map (fun r => LBytes r ok) reads)) = received h ++ map snd es.
Proof.
  intros c vs ok reason fields es extra reads h Cr K T O R F E C.
  assert (SC : status_code (bs "200")) by (split; [reflexivity|]; split; cbn; intuition discriminate).
  destruct (lrun_ok c vs) as [(_ & _ & B3 & _ & _ & B6) _ _ _ _ _]. fold h in B3, B6.
  assert (V : read_head (lp_session h) (reply_text (bs "200") reason fields extra) = VStream (fold_left field_session fields (lp_session h)) extra).
  { rewrite head_read by assumption. assert (C2 : contains (bs "200") (status_line (bs "200") reason) = true) by (apply status_contains; [now left|exact SC|now left]).
    now rewrite C2. }
  rewrite (connection_received c ok h _ _ extra reads O Cr (B3 ltac:(rewrite K; discriminate)) (B6 K ltac:(exists PHead; exact T)) T V).
  f_equal. destruct (stream_contained _ extra reads (delay_of h) (good_kept _ E) C) as [M _]. exact (made_kept _ _ M).
Qed.
Print Assumptions C129_received.

(** A stream, lost and opened again under the session its head named. *)
Definition demo_stream : list lact :=
  [got_session; LTest; LConnect; LHead (ok_reply [(bs "Mcp-Session-Id", bs "s2")] (line "retry: 1000")) fine].
Example C129_ex : wanted stream_conf demo_stream /\ in_connection (lrun stream_conf (loop0 stream_conf) demo_stream) /\
  delay_of (lrun stream_conf (loop0 stream_conf) demo_stream) = 1000%N /\
  lp_log (lrun stream_conf (loop0 stream_conf) (demo_stream ++ [LFail; LTick 1000; LWake; LTest; LConnect])) =
    [GIssued (bs "s1"); GGet 0 (bs "s1"); GHead (bs "s2"); GEnd 0 1000; GGet 1000 (bs "s2")].
Proof.
  split; [|split; [right; exists []; vm_compute; reflexivity|split; vm_compute; reflexivity]].
  split; [reflexivity|]. split; [exists (bs "s1"); split; [discriminate|now left]|].
  split; [cbn; intuition discriminate|]. split.
  - intros text ok [X|[X|[X|[X|[]]]]]; try discriminate. injection X as <- _. vm_compute. discriminate.
  - intros s X. vm_compute in X. intuition congruence.
Qed.
Example C129_received_ex : let h := lrun stream_conf (loop0 stream_conf) [got_session; LTest; LConnect] in
  lp_thread h = ThRuns PHead /\ lp_close h = 0 /\
  received (lrun stream_conf h [LHead (ok_reply [] (event_text (bs "1", bs "{a}"))) fine; LBytes (event_text (bs "2", bs "{b}")) fine]) = [bs "{a}"; bs "{b}"].
Proof. cbv zeta. vm_compute. auto. Qed.

(** C129 does not hold when a handler throws: the events that came in the same read are lost, also to
    the handlers that would have taken them, and the connection is given up. *)
Theorem C129_throw_refuted : exists ok e1 e2, ok (snd e2) = true /\
  let h := lrun stream_conf (loop0 stream_conf) [got_session; LTest; LConnect] in
  received (lrun stream_conf h [LHead (ok_reply [] (event_text e1 ++ event_text e2)) ok]) = [snd e1] /\
  received (lrun stream_conf h [LHead (ok_reply [] (event_text e1 ++ event_text e2)) fine]) = [snd e1; snd e2].
Proof. exists (fun p => negb (beq p (bs "{a}"))), (bs "1", bs "{a}"), (bs "2", bs "{b}"). vm_compute. auto. Qed.
Print Assumptions C129_throw_refuted.

(** C102. The stream does not bring the process down as long as no stream's head has an empty session
    id. *)
Theorem C102_stream_partial : forall c vs, (forall s, In (GHead s) (lp_log (lrun c (loop0 c) vs)) -> s <> []) ->
  lp_crashed (lrun c (loop0 c) vs) = false.
Proof. intros c vs H. now destruct (lrun_safe c vs H). Qed.
Print Assumptions C102_stream_partial.
(** C102 fails: a server that answers the GET with an empty session id ends the thread; the session
    given to the next initialize request brings the process down. *)
Theorem C102_stream_refuted : exists fields reason,
  lp_crashed (lrun stream_conf (loop0 stream_conf)
    [got_session; LTest; LConnect; LHead (reply_text (bs "200") reason fields []) fine; LFail; LTick 250; LWake; LTest; LConnect; got_session]) = true.
Proof. exists [(bs "Mcp-Session-Id", [])], (bs "OK"). vm_compute. reflexivity. Qed.
Print Assumptions C102_stream_refuted.
Example C102_stream_ex : lp_crashed (lrun stream_conf (loop0 stream_conf) (demo_stream ++ [got_session])) = false.
Proof. vm_compute. reflexivity. Qed.

(** C130. Close returns once the server has ended the connection, if there is one, and the delay in
    force is over. *)
Theorem C130_close_partial : forall c vs d, let h := lrun c (loop0 c) vs in
  lp_crashed h = false -> close_pending h -> (delay_of h <= d)%N -> close_done (lrun c h [LFail; LTick d; LWake; LTest; LJoin]).
Proof. intros c vs d h Cr K L. apply close_returns; auto. apply lrun_ok. Qed.
Print Assumptions C130_close_partial.
(** C130. After it has returned there is no thread and no GET. *)
Theorem C130_after : forall c vs ws, let h := lrun c (loop0 c) vs in close_done h ->
  ~ streaming (lrun c h ws) /\ forall t s, In (GGet t s) (lp_log (lrun c h ws)) -> In (GGet t s) (lp_log h).
Proof.
  intros c vs ws h K. destruct (lrun_ok c vs) as [(B1 & B2 & _) _ _ _ _ _]. fold h in B1, B2. unfold close_done in K.
  assert (O : off h) by (split; [destruct B1 as [X|X]; [congruence|exact X]|right; now apply B2]).
  destruct (off_run c h ws O) as ((_ & T) & l & E & G). split.
  - intros (p & X). destruct T; congruence.
  - rewrite E. intros t s X. apply in_app_or in X. destruct X as [X|X]; [exact X|]. specialize (G _ X). discriminate.
Qed.
Print Assumptions C130_after.
Example C130_ex : let h := lrun stream_conf (loop0 stream_conf) (demo_stream ++ [LClose]) in
  lp_crashed h = false /\ close_pending h /\ delay_of h = 1000%N /\ close_done (lrun stream_conf h [LFail; LTick 1000; LWake; LTest; LJoin]).
Proof. cbv zeta. unfold close_pending, close_done. vm_compute. auto. Qed.
(** C130 does not hold: a server that has asked for a delay of 4294967295 ms keeps Close waiting for
    seven weeks, whatever else happens. *)
Theorem C130_delay_refuted : exists rest, let h := lrun stream_conf (loop0 stream_conf) [got_session; LTest; LConnect; LHead (ok_reply [] rest) fine; LFail; LClose] in
  forall ws, (total_ticks ws < 4294967295)%N -> close_pending (lrun stream_conf h ws).
Proof.
  exists (line "retry: 4294967295"). cbv zeta. intros ws L. unfold close_pending.
  set (h := lrun stream_conf (loop0 stream_conf) _).
  assert (H : lp_thread h = ThRuns (PNap 4294967295) /\ lp_close h = 1 /\ lp_enabled h = false /\ lp_now h = 0%N) by (vm_compute; auto).
  destruct H as (T & K & E & N). apply (asleep_run _ ws h 4294967295%N T K E). rewrite N. exact L.
Qed.
Print Assumptions C130_delay_refuted.
(** C130 does not hold: while the server says nothing on an open stream Close does not return. *)
Theorem C130_silent_refuted : let h := lrun stream_conf (loop0 stream_conf) [got_session; LTest; LConnect; LHead (ok_reply [] []) fine; LClose] in
  forall ws, Forall silent ws -> close_pending (lrun stream_conf h ws).
Proof.
  cbv zeta. intros ws F. set (h := lrun stream_conf (loop0 stream_conf) _).
  assert (H : lp_thread h = ThRuns (PBody []) /\ lp_close h = 1) by (vm_compute; auto).
  destruct H as (T & K). now apply (silent_run _ ws h []).
Qed.
Print Assumptions C130_silent_refuted.

(** C131. A reply with status 200 opens a stream, under the session its fields name, and what follows
    the blank line is the stream's. *)
Theorem C131_opens : forall session reason fields rest s,
  reason_ok reason -> Forall field_ok fields -> session_after session fields s ->
  read_head session (reply_text (bs "200") reason fields rest) = VStream s rest.
Proof.
  intros session reason fields rest s R F S.
  assert (SC : status_code (bs "200")) by (split; [reflexivity|]; split; cbn; intuition discriminate).
  rewrite head_read by assumption. assert (C2 : contains (bs "200") (status_line (bs "200") reason) = true) by (apply status_contains; [now left|exact SC|now left]).
  rewrite C2. f_equal. exact (session_after_det _ _ _ _ (fields_after fields session) S).
Qed.
Print Assumptions C131_opens.
(** C131. Any other status does not, when the reason does not mention 200, and is taken for 405
    exactly when it is 405, when the reason does not mention that. *)
Theorem C131_refuses_partial : forall session code reason fields rest,
  status_code code -> code <> bs "200" -> reason_ok reason -> Forall field_ok fields -> ~ mentions (bs "200") reason -> ~ mentions (bs "405") reason ->
  (code = bs "405" -> read_head session (reply_text code reason fields rest) = VOff) /\
  (code <> bs "405" -> read_head session (reply_text code reason fields rest) = VAgain).
Proof.
  intros session code reason fields rest SC N R F M1 M2. rewrite head_read by assumption.
  destruct (contains (bs "200") _) eqn:C1; [apply status_contains in C1; [|now left|exact SC]; destruct C1 as [X|X]; [congruence|contradiction]|].
  destruct (contains (bs "405") _) eqn:C2.
  - apply status_contains in C2; [|now right|exact SC]. destruct C2 as [X|X]; [|contradiction]. split; [reflexivity|congruence].
  - split; [|reflexivity]. intros ->. assert (X : contains (bs "405") (status_line (bs "405") reason) = true) by (apply status_contains; [now right|exact SC|now left]). congruence.
Qed.
Print Assumptions C131_refuses_partial.
(** C131 does not hold: a refusal whose reason mentions 200 is read as a stream. *)
Theorem C131_reason_refuted : exists reason, reason_ok reason /\
  forall session rest, read_head session (reply_text (bs "503") reason [] rest) = VStream session rest.
Proof.
  exists (bs "Retry in 200 s"). split; [unfold reason_ok; cbn; intuition discriminate|]. intros session rest.
  assert (SC : status_code (bs "503")) by (split; [reflexivity|]; split; cbn; intuition discriminate).
  rewrite head_read; [|exact SC|unfold reason_ok; cbn; intuition discriminate|constructor]. vm_compute. reflexivity.
Qed.
Print Assumptions C131_reason_refuted.
Example C131_ex : Forall field_ok [(bs "Content-Type", bs "text/event-stream"); (bs "Mcp-Session-Id", bs "s2")] /\
  session_after (bs "s1") [(bs "Content-Type", bs "text/event-stream"); (bs "Mcp-Session-Id", bs "s2")] (bs "s2") /\
  read_head (bs "s1") (ok_reply [(bs "Content-Type", bs "text/event-stream"); (bs "Mcp-Session-Id", bs "s2")] (bs "data: x")) = VStream (bs "s2") (bs "data: x").
Proof.
  split.
  - repeat constructor; cbn; try discriminate; intuition discriminate.
  - split; [|vm_compute; reflexivity]. left. exists [(bs "Content-Type", bs "text/event-stream")], []. split; [reflexivity|intros f []].
Qed.
