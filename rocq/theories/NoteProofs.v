(** Proofs about notifications between the ends of an in-memory pair. *)
From Coq Require Import Ascii String List Permutation Arith NArith ZArith Bool Lia.
From Verif Require Import StrModel DoubleModel JsonModel JsonSpec JsonProofs RpcModel RpcSpec RpcProofs RouterModel RouterProofs
  MapModel MapProofs MemModel MemSpec MemProofs NoteSpec.
Import ListNotations.
Local Open Scope nat_scope.

Lemma sent_snoc : forall x vs open v, sent_from x open (vs ++ [v]) = sent_from x open vs ++
  match v with ENotify y n => if (side_eqb x y && fold_left (fun b v => turns_open (other x) v b) vs open)%bool then [n] else [] | _ => [] end.
Proof.
  intros x vs. induction vs as [|a vs IH]; intros open v; cbn [sent_from app fold_left].
  - now rewrite app_nil_r.
  - now rewrite IH, app_assoc.
Qed.

Lemma notes_snoc : forall x vs v, notes_sent x (vs ++ [v]) = notes_sent x vs ++
  match v with ENotify y n => if (side_eqb x y && opened (other x) vs)%bool then [n] else [] | _ => [] end.
Proof. intros. apply sent_snoc. Qed.

Lemma opened_snoc : forall x vs v, opened x (vs ++ [v]) = turns_open x v (opened x vs).
Proof. intros. unfold opened. now rewrite fold_left_app. Qed.

Lemma side_eqb_refl : forall x, side_eqb x x = true.
Proof. now intros []. Qed.

Lemma send_conn : forall s x m y, ep_connected (snd (send_to_peer s x m) y) = ep_connected (s y).
Proof.
  intros s x m y. unfold send_to_peer. destruct (ep_connected (s (other x))) eqn:E; [|reflexivity]. cbn [snd].
  destruct (upd_cases (upd s (other x) (set_queue (ep_queue (s (other x)) ++ [m]) (s (other x)))) x
    (log_sent m (upd s (other x) (set_queue (ep_queue (s (other x)) ++ [m]) (s (other x))) x)) y) as [[-> ->]|[-> ->]].
  - cbn [log_sent ep_connected]. now rewrite upd_other by apply other_neq.
  - now rewrite upd_same.
Qed.

Lemma upd_conn : forall s x e y, ep_connected e = ep_connected (s x) -> ep_connected (upd s x e y) = ep_connected (s y).
Proof. intros s x e y H. destruct (upd_cases s x e y) as [[-> ->]|[-> ->]]; auto. Qed.

Lemma step_conn : forall s v y, ep_connected (step s v y) = turns_open y v (ep_connected (s y)).
Proof.
  intros s v y. destruct v as [x|x|x|x r|x k|x k|x n|x|x|x k h]; cbn [step turns_open].
  - destruct (upd_cases s x (set_connected true (s x)) y) as [[-> ->]|[-> ->]]; [now rewrite side_eqb_refl|now destruct x].
  - destruct (upd_cases s x (set_connected false (s x)) y) as [[-> ->]|[-> ->]]; [now rewrite side_eqb_refl|now destruct x].
  - now apply upd_conn.
  - apply upd_conn. unfold begin_request. now destruct (final_id (ep_counter (s x)) (rq_id r)).
  - destruct (take_nth k (ep_out (s x))) as [[[t r] rest]|]; [|reflexivity].
    destruct (send_to_peer s x (ser_request r)) as [sent s1] eqn:E. rewrite upd_conn by reflexivity.
    change s1 with (snd (sent, s1)). rewrite <- E. apply send_conn.
  - destruct (take_nth k (ep_failing (s x))) as [[[t r] rest]|]; [|reflexivity]. apply upd_conn.
    now destruct (aget (id_key (rq_id r)) (ep_pend (s x))).
  - apply send_conn.
  - destruct (ep_connected (s x)); [|reflexivity]. destruct (ep_current (s x)); [reflexivity|].
    destruct (ep_queue (s x)); [reflexivity|]. now apply upd_conn.
  - destruct (ep_current (s x)); [|reflexivity]. apply upd_conn. cbn [log_processed ep_connected].
    destruct (process_keep (set_current None (s x)) b) as [-> _]. reflexivity.
  - destruct (take_nth k (ep_running (s x))) as [[r rest]|]; [|reflexivity]. rewrite send_conn. now apply upd_conn.
Qed.

Lemma conn_run : forall ha hb vs x, ep_connected (run (sys0 ha hb) vs x) = opened x vs.
Proof.
  intros ha hb vs x. induction vs as [|v vs IH] using rev_ind; [reflexivity|].
  rewrite run_app, opened_snoc. cbn [run fold_left]. fold (run (sys0 ha hb) vs). now rewrite step_conn, IH.
Qed.

(** What a queued message will be to the notification handler. *)
Definition note_of (m : bstr) : list notification :=
  match classify m with KNotification => match deser_notification notification0 m with (true, n) => [n] | _ => [] end | _ => [] end.
Definition waiting (e : endpoint) : list notification :=
  flat_map note_of (match ep_current e with Some m => [m] | None => [] end ++ ep_queue e).

Lemma note_of_good : forall s y m, good_msg s y m ->
  (exists n, m = ser_notification n /\ good_notification n /\ note_of m = [n]) \/
  (note_of m = [] /\ (classify m = KRequest /\ (exists r, deser_request request0 m = (true, r)) \/ classify m = KResponse)).
Proof.
  intros s y m [(r & -> & _ & G)|[(n & -> & G)|(r & h & -> & _ & G & B)]].
  - right. destruct (good_request_roundtrip r G) as [C D]. unfold note_of. rewrite C. split; [reflexivity|]. left. eauto.
  - left. exists n. destruct (good_notification_roundtrip n G) as [C D]. unfold note_of. rewrite C, D. auto.
  - right. destruct (good_reply_roundtrip r h G B) as [C D]. unfold note_of. rewrite C. auto.
Qed.

Lemma process_notes : forall s y e m, good_msg s y m -> ep_handler e = true ->
  ep_notified (process e m) = ep_notified e ++ note_of m.
Proof.
  intros s y e m G H. destruct (note_of_good s y m G) as [(n & -> & K & ->)|[-> [[C [r D]]|C]]].
  - destruct (good_notification_roundtrip n K) as [C D]. unfold process, process_notification. now rewrite C, D.
  - unfold process. rewrite C, D, H, app_nil_r. reflexivity.
  - unfold process, resolve. rewrite C, app_nil_r. now destruct (aget _ _).
Qed.

Lemma process_queue : forall e m, ep_queue (process e m) = ep_queue e /\ ep_current (process e m) = ep_current e /\ ep_handler (process e m) = ep_handler e.
Proof.
  intros e m. unfold process, process_notification, resolve.
  destruct (classify m); [destruct (deser_request request0 m) as [[] r]; [destruct (ep_handler e) eqn:H|]| | |];
    try (destruct (deser_notification notification0 m) as [[] n]); try (destruct (aget _ _)); auto.
Qed.

(** The invariant of one direction: what y has heard and will hear is what the other end sent. *)
Definition heard (y : side) (s : sys) (sent : list notification) : Prop :=
  ep_handler (s y) = true /\ ep_notified (s y) ++ waiting (s y) = sent.

Lemma heard_same : forall y s s' sent, ep_handler (s' y) = ep_handler (s y) -> ep_notified (s' y) = ep_notified (s y) ->
  ep_current (s' y) = ep_current (s y) -> ep_queue (s' y) = ep_queue (s y) -> heard y s sent -> heard y s' sent.
Proof. intros y s s' sent H1 H2 H3 H4 [A B]. unfold heard, waiting. rewrite H1, H2, H3, H4. auto. Qed.

Lemma heard_upd : forall y s x e sent, ep_handler e = ep_handler (s x) -> ep_notified e = ep_notified (s x) ->
  ep_current e = ep_current (s x) -> ep_queue e = ep_queue (s x) -> heard y s sent -> heard y (upd s x e) sent.
Proof.
  intros y s x e sent H1 H2 H3 H4. destruct (upd_cases s x e y) as [[-> E]|[-> E]]; apply heard_same; rewrite E; auto.
Qed.

Lemma heard_send : forall y s x m sent, heard y s sent ->
  heard y (snd (send_to_peer s x m)) (sent ++ if (side_eqb (other y) x && ep_connected (s y))%bool then note_of m else []).
Proof.
  intros y s x m sent H. unfold send_to_peer. destruct (side_cases (other y) x) as [-> | ->].
  - rewrite side_eqb_refl, other_other. cbn [andb]. destruct (ep_connected (s y)); [|now rewrite app_nil_r]. cbn [snd].
    destruct H as [H1 H2]. unfold heard, waiting. rewrite upd_other by apply other_neq. rewrite upd_same.
    cbn [set_queue ep_handler ep_notified ep_current ep_queue]. split; [exact H1|].
    rewrite app_assoc, flat_map_app. unfold waiting in H2. rewrite <- H2. cbn [flat_map]. rewrite <- (app_nil_r (note_of m)) at 2. apply app_assoc.
  - rewrite !other_other. replace (side_eqb (other y) y) with false by now destruct y. cbn [andb]; cbv iota; rewrite app_nil_r.
    destruct (ep_connected (s (other y))); [|exact H]. cbn [snd].
    revert H. apply heard_same; rewrite upd_same; cbn [log_sent ep_handler ep_notified ep_current ep_queue]; rewrite upd_other by apply other_neq; reflexivity.
Qed.

Lemma send_none : forall y s x m sent, note_of m = [] -> heard y s sent -> heard y (snd (send_to_peer s x m)) sent.
Proof.
  intros y s x m sent N H. pose proof (heard_send y s x m sent H) as X. rewrite N in X.
  destruct (side_eqb (other y) x && ep_connected (s y))%bool; now rewrite app_nil_r in X.
Qed.

Lemma heard_step : forall y s v sent, traffic s -> (forall x, table_inv (s x)) -> good_ev v -> heard y s sent ->
  heard y (step s v) (sent ++ match v with ENotify x n => if (side_eqb (other y) x && ep_connected (s y))%bool then [n] else [] | _ => [] end).
Proof.
  intros y s v sent T TI G H. destruct v as [x|x|x|x r|x k|x k|x n|x|x|x k h]; cbn [step]; try rewrite app_nil_r.
  - now apply heard_upd.
  - now apply heard_upd.
  - now apply heard_upd.
  - apply heard_upd; auto; unfold begin_request; now destruct (final_id (ep_counter (s x)) (rq_id r)).
  - destruct (take_nth k (ep_out (s x))) as [[[t r] rest]|] eqn:K; [|exact H].
    apply take_nth_in in K as [Ki _].
    assert (good_request r) as GR by (apply (tf_issued s T x t), (ti_out _ (TI x)); apply in_or_app; now left).
    destruct (good_request_roundtrip r GR) as [C D].
    assert (note_of (ser_request r) = []) as N by (unfold note_of; now rewrite C).
    pose proof (send_none y s x _ sent N H) as X.
    destruct (send_to_peer s x (ser_request r)) as [sent' s1]. apply heard_upd; try reflexivity. exact X.
  - destruct (take_nth k (ep_failing (s x))) as [[[t r] rest]|]; [|exact H].
    apply heard_upd; auto; now destruct (aget (id_key (rq_id r)) (ep_pend (s x))).
  - pose proof (heard_send y s x (ser_notification n) sent H) as X.
    destruct (good_notification_roundtrip n G) as [C D]. unfold note_of in X. rewrite C, D in X. exact X.
  - destruct (ep_connected (s x)); [|exact H]. destruct (ep_current (s x)) eqn:Ec; [exact H|].
    destruct (ep_queue (s x)) as [|m q] eqn:Eq; [exact H|].
    destruct (upd_cases s x (set_current (Some m) (set_queue q (s x))) y) as [[-> E]|[-> E]].
    + destruct H as [H1 H2]. unfold heard, waiting. rewrite E. cbn [set_current set_queue ep_handler ep_notified ep_current ep_queue].
      split; [exact H1|]. unfold waiting in H2. rewrite Ec, Eq in H2. exact H2.
    + revert H. apply heard_same; now rewrite E.
  - destruct (ep_current (s x)) as [m|] eqn:Ec; [|exact H].
    destruct (upd_cases s x (log_processed m (process (set_current None (s x)) m)) y) as [[-> E]|[-> E]].
    + destruct H as [H1 H2]. unfold heard, waiting. rewrite E. cbn [log_processed ep_handler ep_notified ep_current ep_queue].
      destruct (process_queue (set_current None (s x)) m) as (-> & -> & ->).
      rewrite (process_notes s x) by (exact (tf_current s T x m Ec) || exact H1).
      cbn [set_current ep_handler ep_notified ep_current ep_queue app]. split; [exact H1|].
      unfold waiting in H2. rewrite Ec in H2. cbn [app flat_map] in H2. now rewrite <- app_assoc.
    + revert H. apply heard_same; now rewrite E.
  - destruct (take_nth k (ep_running (s x))) as [[r rest]|] eqn:K; [|exact H].
    apply take_nth_in in K as [Ki _]. destruct (tf_running s T x r Ki) as [_ GR].
    assert (good_body (reply (rq_id r) h)) as GB by (apply good_reply; intros r0 ->; exact G).
    destruct (good_reply_roundtrip r h GR GB) as [C D].
    apply send_none; [unfold note_of; now rewrite C|]. now apply heard_upd.
Qed.

Definition has_handler (ha hb : bool) (x : side) : bool := match x with SideA => ha | SideB => hb end.

Lemma heard_run : forall ha hb y vs, has_handler ha hb y = true -> Forall good_ev vs ->
  heard y (run (sys0 ha hb) vs) (notes_sent (other y) vs).
Proof.
  intros ha hb y vs Hh. induction vs as [|v vs IH] using rev_ind; intro G.
  - split; [destruct y; exact Hh|reflexivity].
  - apply Forall_app in G as [G Gv]. apply Forall_inv in Gv. rewrite notes_snoc, run_app. cbn [run fold_left]. fold (run (sys0 ha hb) vs).
    rewrite other_other, <- (conn_run ha hb). apply heard_step; auto; [now apply traffic_reachable|apply table_reachable].
Qed.


Lemma own_turns : forall y n s, run s (EDispatch y :: turns y n) (other y) = s (other y).
Proof.
  intros y n. assert (forall l s, Forall (fun v => v = EDispatch y \/ v = EPop y) l -> run s l (other y) = s (other y)) as K.
  { induction l as [|v l IH]; intros s F; [reflexivity|]. apply Forall_cons_iff in F as [Hv F]. cbn [run fold_left].
    fold (run (step s v) l). rewrite IH by exact F. destruct Hv as [-> | ->]; cbn [step].
    - destruct (ep_current (s y)); [|reflexivity]. apply upd_other. intro E. now destruct (other_neq y).
    - destruct (ep_connected (s y)); [|reflexivity]. destruct (ep_current (s y)); [reflexivity|]. destruct (ep_queue (s y)); [reflexivity|].
      apply upd_other. intro E. now destruct (other_neq y). }
  intro s. apply K. apply Forall_cons; [now left|]. induction n as [|n IH]; [constructor|].
  unfold turns. cbn [repeat concat turn List.app]. fold (turns y n). repeat (apply Forall_cons; [auto|]). exact IH.
Qed.

Lemma turns_good : forall y n, Forall good_ev (EDispatch y :: turns y n) /\
  forall vs, notes_sent (other y) (vs ++ EDispatch y :: turns y n) = notes_sent (other y) vs.
Proof.
  intros y n. assert (Forall (fun v => v = EDispatch y \/ v = EPop y) (EDispatch y :: turns y n)) as F.
  { apply Forall_cons; [now left|]. induction n as [|n IH]; [constructor|].
    unfold turns. cbn [repeat concat turn List.app]. fold (turns y n). repeat (apply Forall_cons; [auto|]). exact IH. }
  split.
  - revert F. apply Forall_impl. intros v [-> | ->]; exact I.
  - revert F. generalize (EDispatch y :: turns y n). intros l F vs.
    revert vs. induction F as [|v l Hv F IH]; intro vs; [now rewrite app_nil_r|].
    change (v :: l) with ([v] ++ l). rewrite app_assoc, IH, notes_snoc. destruct Hv as [-> | ->]; apply app_nil_r.
Qed.

Lemma notes_delivered : forall ha hb vs x, has_handler ha hb (other x) = true -> Forall good_ev vs -> opened (other x) vs = true ->
  exists n, ep_notified (run (sys0 ha hb) (vs ++ EDispatch (other x) :: turns (other x) n) (other x)) = notes_sent x vs.
Proof.
  intros ha hb vs x Hh G O. rewrite <- (conn_run ha hb) in O. destruct (all_delivered ha hb vs x O) as [n E]. exists n.
  destruct (turns_good (other x) n) as [G' N]. rewrite other_other in N.
  pose proof (heard_run ha hb (other x) (vs ++ EDispatch (other x) :: turns (other x) n) Hh) as H.
  rewrite other_other, N in H. destruct H as [_ H]; [apply Forall_app; now split|].
  pose proof (fifo_reachable ha hb (vs ++ EDispatch (other x) :: turns (other x) n) x) as F.
  rewrite E in F. rewrite run_app in F. pose proof (own_turns (other x) n (run (sys0 ha hb) vs)) as W. rewrite other_other in W.
  rewrite W in F. rewrite <- run_app in F. rewrite <- (app_nil_r (ep_sent _)) in F at 1. apply app_inv_head in F.
  unfold waiting in H. rewrite <- F in H. cbn [flat_map] in H. now rewrite app_nil_r in H.
Qed.
