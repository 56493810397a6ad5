From Coq Require Import Ascii String List Permutation Arith NArith ZArith Bool Lia ZifyBool ZifyNat ZifyN.
From Verif Require Import StrModel StrProofs DoubleModel JsonModel JsonSpec JsonProofs RpcModel RpcSpec RpcProofs
  RouterModel RouterProofs MapModel MapProofs MemModel MemSpec.
Import ListNotations.
Local Open Scope nat_scope.

Lemma side_eqb_eq : forall x y, side_eqb x y = true <-> x = y.
Proof. intros [] []; cbn; intuition congruence. Qed.
Lemma upd_same : forall s x e, upd s x e x = e.
Proof. intros s [] e; reflexivity. Qed.
Lemma upd_other : forall s x y e, x <> y -> upd s x e y = s y.
Proof. intros s [] [] e H; try reflexivity; congruence. Qed.
Lemma other_neq : forall x, other x <> x.
Proof. intros []; discriminate. Qed.
Lemma other_other : forall x, other (other x) = x.
Proof. intros []; reflexivity. Qed.
Lemma side_cases : forall x y : side, y = x \/ y = other x.
Proof. intros [] []; auto. Qed.

(** What cause justifies an outcome. *)
Definition caused (e : endpoint) (t : nat) (o : outcome) : Prop :=
  exists r, In (t, r) (ep_issued e) /\
  match o with
  | OResp resp => id_key (rs_id resp) = id_key (rq_id r) /\
                  exists m, In m (ep_processed e) /\ classify m = KResponse /\ deser_response response0 m = (true, resp)
  | OClosed resp => resp = closed_response (id_key (rq_id r))
  | OSendFail resp => exists r', In r' (map snd (ep_issued e)) /\ id_key (rq_id r') = id_key (rq_id r) /\
                      resp = error_response (rq_id r') (-32603) (bs "Peer not connected") None
  | OBroken => exists t' r', t < t' /\ In (t', r') (ep_issued e) /\ id_key (rq_id r') = id_key (rq_id r)
  end.

Record table_inv (e : endpoint) : Prop := {
  ti_keys : NoDup (map fst (ep_pend e));
  ti_tickets : Permutation (seq 0 (ep_next e)) (map snd (ep_pend e) ++ map fst (ep_done e));
  ti_issued : map fst (ep_issued e) = seq 0 (ep_next e);
  ti_pend : forall k t, In (k, t) (ep_pend e) -> exists r, In (t, r) (ep_issued e) /\ k = id_key (rq_id r);
  ti_done : forall t o, In (t, o) (ep_done e) -> caused e t o;
  ti_out : forall t r, In (t, r) (ep_out e ++ ep_failing e) -> In (t, r) (ep_issued e)
}.

Lemma table_inv0 : forall h, table_inv (endpoint0 h).
Proof. intro h. constructor; cbn; try easy. constructor. Qed.

(** The part of an endpoint the table invariant reads, other than the processed log. *)
Definition same_table (e e' : endpoint) : Prop :=
  ep_pend e' = ep_pend e /\ ep_next e' = ep_next e /\ ep_issued e' = ep_issued e /\ ep_done e' = ep_done e /\
  (forall p, In p (ep_out e' ++ ep_failing e') -> In p (ep_out e ++ ep_failing e)) /\
  (forall m, In m (ep_processed e) -> In m (ep_processed e')).

Lemma caused_mono : forall e e' t o, (forall p, In p (ep_issued e) -> In p (ep_issued e')) ->
  (forall m, In m (ep_processed e) -> In m (ep_processed e')) -> caused e t o -> caused e' t o.
Proof.
  intros e e' t o H1 H2 (r & Hr & H). exists r. split; [auto|]. destruct o as [resp|resp|resp|].
  - destruct H as (E & m & Hm & Hc). split; [easy|]. exists m. auto.
  - easy.
  - destruct H as (r' & Hr' & E & F). exists r'. split; [|easy].
    apply in_map_iff in Hr' as ([t2 r2] & <- & Hi). apply in_map_iff. exists (t2, r2). auto.
  - destruct H as (t' & r' & Hl & Hi & E). exists t', r'. auto.
Qed.

Lemma table_inv_same : forall e e', same_table e e' -> table_inv e -> table_inv e'.
Proof.
  intros e e' (E1 & E2 & E3 & E4 & E5 & E6) [I1 I2 I3 I4 I5 I6].
  constructor; rewrite ?E1, ?E2, ?E3, ?E4; auto.
  intros t o H. apply caused_mono with e; auto. now rewrite E3.
Qed.

Lemma same_refl : forall e, same_table e e.
Proof. intro e. repeat split; auto. Qed.

Lemma same_trans : forall a b c, same_table a b -> same_table b c -> same_table a c.
Proof.
  intros a b c (A1 & A2 & A3 & A4 & A5 & A6) (B1 & B2 & B3 & B4 & B5 & B6).
  repeat split; try congruence; auto.
Qed.

Lemma same_send : forall s x m y, same_table (s y) (snd (send_to_peer s x m) y).
Proof.
  intros s x m y. unfold send_to_peer. destruct (ep_connected (s (other x))); [|apply same_refl].
  cbn [snd]. destruct x, y; cbn; repeat split; auto.
Qed.

(** Removing an entry of the table into the log. *)
Lemma tickets_move : forall k t o p d n,
  NoDup (map fst p) -> aget k p = Some t ->
  Permutation (seq 0 n) (map snd p ++ map fst d) ->
  Permutation (seq 0 n) (map snd (adel k p) ++ map fst (d ++ [(t, o)] : list (nat * outcome))).
Proof.
  intros k t o p d n H1 H2 H3. rewrite H3. rewrite (Permutation_map snd (adel_perm k t p H1 H2)).
  rewrite map_app. cbn [map snd fst app]. rewrite app_assoc. apply Permutation_cons_append.
Qed.

Lemma table_resolve : forall e k t o e', table_inv e -> aget k (ep_pend e) = Some t ->
  ep_pend e' = adel k (ep_pend e) -> ep_done e' = ep_done e ++ [(t, o)] ->
  ep_next e' = ep_next e -> ep_issued e' = ep_issued e ->
  (forall p, In p (ep_out e' ++ ep_failing e') -> In p (ep_out e ++ ep_failing e)) ->
  (forall m, In m (ep_processed e) -> In m (ep_processed e')) ->
  caused e' t o -> table_inv e'.
Proof.
  intros e k t o e' [I1 I2 I3 I4 I5 I6] H E1 E2 E3 E4 E5 E6 C.
  constructor; rewrite ?E1, ?E3, ?E4.
  - now apply nodup_adel.
  - rewrite E2. now apply tickets_move.
  - easy.
  - intros k' t' Hi. apply in_adel in Hi as [Hi _]. auto.
  - intros t' o' Hi. rewrite E2 in Hi. apply in_app_iff in Hi as [Hi|[Hi|[]]].
    + apply caused_mono with e; auto. now rewrite E4.
    + injection Hi as <- <-. exact C.
  - auto.
Qed.

Lemma seq_S0 : forall n, seq 0 (S n) = seq 0 n ++ [n].
Proof. intro n. now rewrite seq_S. Qed.

Lemma table_begin : forall e r, table_inv e -> table_inv (begin_request e r).
Proof.
  intros e r [I1 I2 I3 I4 I5 I6]. unfold begin_request.
  destruct (final_id (ep_counter e) (rq_id r)) as [i c].
  set (r' := {| rq_id := i; rq_method := rq_method r; rq_params := rq_params r |}).
  constructor; cbn [ep_pend ep_done ep_next ep_issued ep_out ep_failing].
  - now apply nodup_aset.
  - rewrite seq_S0, I2. destruct (aget (id_key i) (ep_pend e)) as [t'|] eqn:E.
    + rewrite map_app. cbn [map fst].
      pose proof (Permutation_map snd (aset_perm_old (id_key i) (ep_next e) t' _ I1 E)) as P. cbn [map snd] in P.
      rewrite <- app_assoc.
      transitivity (t' :: map snd (aset (id_key i) (ep_next e) (ep_pend e)) ++ map fst (ep_done e)).
      * change (t' :: map snd (aset (id_key i) (ep_next e) (ep_pend e)) ++ map fst (ep_done e))
          with ((t' :: map snd (aset (id_key i) (ep_next e) (ep_pend e))) ++ map fst (ep_done e)).
        rewrite P. cbn [app]. rewrite app_assoc. apply Permutation_sym, Permutation_cons_append.
      * rewrite app_assoc. apply Permutation_cons_append.
    + rewrite app_nil_r.
      pose proof (Permutation_map snd (aset_perm_new (id_key i) (ep_next e) _ E)) as P. cbn [map snd] in P.
      rewrite P. cbn [app]. apply Permutation_sym, Permutation_cons_append.
  - rewrite map_app, I3, seq_S0. reflexivity.
  - intros k t Hi. apply in_aset in Hi; [|easy]. destruct Hi as [E|[Hi _]].
    + injection E as -> ->. exists r'. split; [apply in_or_app; right; now left|reflexivity].
    + destruct (I4 _ _ Hi) as (r0 & Hr & E). exists r0. split; [apply in_or_app; now left|easy].
  - intros t o Hi. apply in_app_iff in Hi as [Hi|Hi].
    + apply caused_mono with e; auto. intros p Hp. cbn. apply in_or_app. now left.
    + destruct (aget (id_key i) (ep_pend e)) as [t'|] eqn:E; [|easy]. destruct Hi as [Hi|[]]. injection Hi as <- <-.
      apply aget_in in E. destruct (I4 _ _ E) as (r0 & Hr & Ek). exists r0. split; [apply in_or_app; now left|].
      exists (ep_next e), r'. split; [|split; [apply in_or_app; right; now left|exact Ek]].
      assert (In t' (seq 0 (ep_next e))) as Hs by (rewrite <- I3; apply in_map_iff; now exists (t', r0)).
      apply in_seq in Hs. lia.
  - intros t r0 Hi. rewrite <- app_assoc in Hi. apply in_app_iff in Hi as [Hi|Hi].
    + apply in_or_app. left. apply I6. apply in_or_app. now left.
    + cbn in Hi. destruct Hi as [Hi|Hi]; [apply in_or_app; right; now left|].
      apply in_or_app. left. apply I6. apply in_or_app. now right.
Qed.

Lemma same_process_notification : forall e m, same_table e (process_notification e m).
Proof.
  intros e m. unfold process_notification. destruct (deser_notification notification0 m) as [[|] n];
    repeat split; auto.
Qed.

Lemma table_dispatch : forall e m, table_inv e -> table_inv (log_processed m (process (set_current None e) m)).
Proof.
  intros e m I. unfold process.
  assert (forall e', same_table (set_current None e) e' -> table_inv (log_processed m e')) as K.
  { intros e' H. apply table_inv_same with e; [|easy].
    apply same_trans with (set_current None e); [repeat split; auto|].
    apply same_trans with e'; [easy|]. repeat split; auto. intros m' Hm'. cbn. apply in_or_app. now left. }
  destruct (classify m) eqn:Ec.
  - destruct (deser_request request0 m) as [[|] r].
    + destruct (ep_handler (set_current None e)); apply K; [|apply same_process_notification]. repeat split; auto.
    + apply K, same_process_notification.
  - unfold resolve. set (resp := snd (deser_response response0 m)).
    destruct (aget (id_key (rs_id resp)) (ep_pend (set_current None e))) as [t|] eqn:E.
    + apply table_resolve with (e := e) (k := id_key (rs_id resp)) (t := t) (o := OResp resp); auto.
      * intros m' Hm'. cbn. apply in_or_app. now left.
      * cbn in E. apply aget_in in E. destruct (ti_pend _ I _ _ E) as (r & Hr & Ek). exists r.
        split; [exact Hr|]. split; [easy|]. exists m. split; [apply in_or_app; right; now left|].
        split; [easy|reflexivity].
    + apply K. apply same_refl.
  - apply K, same_process_notification.
  - apply K, same_process_notification.
Qed.

Lemma table_step : forall s v, (forall x, table_inv (s x)) -> forall x, table_inv (step s v x).
Proof.
  intros s v I y. pose proof (I y) as Iy.
  assert (forall x e, (y = x -> table_inv e) -> table_inv (upd s x e y)) as U.
  { intros x e H. destruct (side_eqb x y) eqn:E; unfold upd; rewrite E; [|easy].
    apply side_eqb_eq in E. auto. }
  destruct v as [x|x|x|x r|x k|x k|x n|x|x|x k h]; cbn [step].
  - apply U. intros ->. apply table_inv_same with (s x); [repeat split; auto|easy].
  - apply U. intros ->. apply table_inv_same with (s x); [repeat split; auto|easy].
  - apply U. intros ->. destruct Iy as [I1 I2 I3 I4 I5 I6]. constructor; cbn.
    + constructor.
    + rewrite I2, map_app, map_map. cbn [fst]. rewrite Permutation_app_comm. 
      apply Permutation_app_head. reflexivity.
    + easy.
    + easy.
    + intros t o Hi. apply in_app_iff in Hi as [Hi|Hi].
      * apply caused_mono with (s x); auto.
      * apply in_map_iff in Hi as ([k t'] & E & Hi). injection E as <- <-.
        destruct (I4 _ _ Hi) as (r & Hr & Ek). exists r. split; [easy|]. cbn. now subst.
    + easy.
  - apply U. intros ->. now apply table_begin.
  - destruct (take_nth k (ep_out (s x))) as [[[t r] rest]|] eqn:E; [|easy].
    apply take_nth_in in E as [Ei Er].
    pose proof (same_send s x (ser_request r)) as HS.
    destruct (send_to_peer s x (ser_request r)) as [sent s1]. cbn [snd] in HS.
    destruct (side_eqb x y) eqn:Exy; unfold upd; rewrite Exy.
    + apply side_eqb_eq in Exy. subst y. apply table_inv_same with (s x); [|easy].
      specialize (HS x). destruct HS as (E1 & E2 & E3 & E4 & E5 & E6).
      unfold set_out. repeat split; auto. intros p Hp. cbn in Hp.
      assert (In p (ep_failing (s1 x)) -> In p (ep_out (s x) ++ ep_failing (s x))) as HF
        by (intro Hf; apply E5; apply in_or_app; now right).
      apply in_app_iff in Hp as [Hp|Hp]; [apply in_or_app; left; auto|].
      destruct sent; [auto|]. apply in_app_iff in Hp as [Hp|[<-|[]]]; [auto|]. apply in_or_app. now left.
    + apply table_inv_same with (s y); [apply HS|easy].
  - destruct (take_nth k (ep_failing (s x))) as [[[t r] rest]|] eqn:E; [|easy].
    apply take_nth_in in E as [Ei Er]. apply U. intros ->.
    assert (forall p, In p (ep_out (s x) ++ rest) -> In p (ep_out (s x) ++ ep_failing (s x))) as HP.
    { intros p Hp. apply in_app_iff in Hp as [Hp|Hp]; apply in_or_app; auto. }
    destruct (aget (id_key (rq_id r)) (ep_pend (s x))) as [t'|] eqn:Eg.
    + eapply table_resolve with (e := s x); try eassumption; auto; try reflexivity.
      apply aget_in in Eg. destruct (ti_pend _ Iy _ _ Eg) as (r0 & Hr & Ek). exists r0. split; [exact Hr|].
      exists r. split; [|split; [easy|reflexivity]]. apply in_map_iff. exists (t, r). split; [easy|].
      apply (ti_out _ Iy). apply in_or_app. now right.
    + apply table_inv_same with (s x); [repeat split; auto|easy].
  - apply table_inv_same with (s y); [apply same_send|easy].
  - destruct (ep_connected (s x)); [|easy]. destruct (ep_current (s x)); [easy|].
    destruct (ep_queue (s x)); [easy|]. apply U. intros ->.
    apply table_inv_same with (s x); [repeat split; auto|easy].
  - destruct (ep_current (s x)) as [m|]; [|easy]. apply U. intros ->. now apply table_dispatch.
  - destruct (take_nth k (ep_running (s x))) as [[r rest]|]; [|easy].
    eapply table_inv_same; [apply same_send|]. apply U. intros ->.
    apply table_inv_same with (s x); [repeat split; auto|easy].
Qed.

Lemma run_app : forall s a b, run s (a ++ b) = run (run s a) b.
Proof. intros s a b. unfold run. apply fold_left_app. Qed.

Lemma run_invariant : forall (P : sys -> Prop), (forall s v, P s -> P (step s v)) ->
  forall vs s, P s -> P (run s vs).
Proof.
  intros P H vs. induction vs as [|v vs IH]; intros s Hs; [exact Hs|]. cbn. apply IH. auto.
Qed.

Lemma table_run : forall vs s, (forall x, table_inv (s x)) -> forall x, table_inv (run s vs x).
Proof.
  intros vs s. apply (run_invariant (fun s => forall x, table_inv (s x))). intros. now apply table_step.
Qed.

Lemma table_reachable : forall ha hb vs x, table_inv (run (sys0 ha hb) vs x).
Proof. intros ha hb vs x. apply table_run. intros []; apply table_inv0. Qed.

(** FIFO *)
Definition fifo (s : sys) : Prop := forall x,
  ep_sent (s x) = ep_processed (s (other x)) ++
    match ep_current (s (other x)) with Some m => [m] | None => [] end ++ ep_queue (s (other x)).

Definition same_traffic (e e' : endpoint) : Prop :=
  ep_sent e' = ep_sent e /\ ep_processed e' = ep_processed e /\ ep_current e' = ep_current e /\ ep_queue e' = ep_queue e.

Lemma fifo_same : forall s s', (forall x, same_traffic (s x) (s' x)) -> fifo s -> fifo s'.
Proof.
  intros s s' H F x. destruct (H x) as (-> & _). destruct (H (other x)) as (_ & -> & -> & ->). apply F.
Qed.

Lemma fifo_upd : forall s x e, same_traffic (s x) e -> fifo s -> fifo (upd s x e).
Proof.
  intros s x e H. apply fifo_same. intro y. unfold upd. destruct (side_eqb x y) eqn:E.
  - apply side_eqb_eq in E. now subst.
  - repeat split.
Qed.

Lemma fifo_send : forall s x m, fifo s -> fifo (snd (send_to_peer s x m)).
Proof.
  intros s x m F. unfold send_to_peer. destruct (ep_connected (s (other x))); [|exact F].
  intro y. pose proof (F y) as Fy. destruct x, y; cbn in *; rewrite Fy; try reflexivity;
    rewrite <- !app_assoc; reflexivity.
Qed.

Lemma fifo_step : forall s v, fifo s -> fifo (step s v).
Proof.
  intros s v F. destruct v as [x|x|x|x r|x k|x k|x n|x|x|x k h]; cbn [step].
  - apply fifo_upd; [repeat split|easy].
  - apply fifo_upd; [repeat split|easy].
  - apply fifo_upd; [repeat split|easy].
  - apply fifo_upd; [|easy]. unfold begin_request. destruct (final_id (ep_counter (s x)) (rq_id r)). repeat split.
  - destruct (take_nth k (ep_out (s x))) as [[[t r] rest]|]; [|easy].
    pose proof (fifo_send s x (ser_request r) F) as G.
    destruct (send_to_peer s x (ser_request r)) as [sent s1]. cbn [snd] in G.
    apply fifo_upd; [repeat split|easy].
  - destruct (take_nth k (ep_failing (s x))) as [[[t r] rest]|]; [|easy]. apply fifo_upd; [|easy].
    destruct (aget (id_key (rq_id r)) (ep_pend (s x))); repeat split.
  - now apply fifo_send.
  - destruct (ep_connected (s x)); [|easy]. destruct (ep_current (s x)) eqn:Ec; [easy|].
    destruct (ep_queue (s x)) as [|m q] eqn:Eq; [easy|].
    intro y. pose proof (F y) as Fy. destruct x, y; cbn in *; rewrite Fy, ?Ec, ?Eq; reflexivity.
  - destruct (ep_current (s x)) as [m|] eqn:Ec; [|easy].
    assert (same_traffic (set_current None (s x)) (process (set_current None (s x)) m)) as T.
    { unfold process, process_notification, resolve. destruct (classify m).
      - destruct (deser_request request0 m) as [[|] r].
        + destruct (ep_handler (set_current None (s x))); [repeat split|].
          destruct (deser_notification notification0 m) as [[|] n]; repeat split.
        + destruct (deser_notification notification0 m) as [[|] n]; repeat split.
      - destruct (aget _ _); repeat split.
      - destruct (deser_notification notification0 m) as [[|] n]; repeat split.
      - destruct (deser_notification notification0 m) as [[|] n]; repeat split. }
    destruct T as (T1 & T2 & T3 & T4). intro y. pose proof (F y) as Fy.
    destruct x, y; cbn in *; rewrite ?T1, ?T2, ?T3, ?T4, Fy, ?Ec; rewrite <- ?app_assoc; reflexivity.
  - destruct (take_nth k (ep_running (s x))) as [[r rest]|]; [|easy].
    apply fifo_send. apply fifo_upd; [repeat split|easy].
Qed.

Lemma fifo_reachable : forall ha hb vs, fifo (run (sys0 ha hb) vs).
Proof.
  intros ha hb vs. apply (run_invariant fifo); [intros; now apply fifo_step|]. intros []; reflexivity.
Qed.

(** Logs only grow. *)
Definition grows (e e' : endpoint) : Prop :=
  (exists a, ep_issued e' = ep_issued e ++ a) /\ (exists a, ep_done e' = ep_done e ++ a) /\
  (exists a, ep_served e' = ep_served e ++ a) /\ ep_handler e' = ep_handler e.

Lemma grows_refl : forall e, grows e e.
Proof. intro e. split; [|split; [|split]]; try (exists []; now rewrite app_nil_r). reflexivity. Qed.

Lemma grows_trans : forall a b c, grows a b -> grows b c -> grows a c.
Proof.
  intros a b c ((a1 & A1) & (a2 & A2) & (a3 & A3) & A4) ((b1 & B1) & (b2 & B2) & (b3 & B3) & B4).
  split; [exists (a1 ++ b1)|split; [exists (a2 ++ b2)|split; [exists (a3 ++ b3)|congruence]]].
  - now rewrite B1, A1, app_assoc.
  - now rewrite B2, A2, app_assoc.
  - now rewrite B3, A3, app_assoc.
Qed.

Lemma grows_eq : forall e e', ep_issued e' = ep_issued e -> ep_done e' = ep_done e -> ep_served e' = ep_served e ->
  ep_handler e' = ep_handler e -> grows e e'.
Proof.
  intros e e' H1 H2 H3 H4. split; [|split; [|split]]; try (exists []; rewrite app_nil_r); assumption.
Qed.

Lemma grows_send : forall s x m y, grows (s y) (snd (send_to_peer s x m) y).
Proof.
  intros s x m y. unfold send_to_peer. destruct (ep_connected (s (other x))); [|apply grows_refl].
  destruct x, y; apply grows_eq; reflexivity.
Qed.

Lemma grows_upd : forall s x e y, grows (s x) e -> grows (s y) (upd s x e y).
Proof.
  intros s x e y H. unfold upd. destruct (side_eqb x y) eqn:E; [|apply grows_refl].
  apply side_eqb_eq in E. now subst.
Qed.

Lemma grows_process : forall e m, grows e (process e m).
Proof.
  assert (forall e m, grows e (process_notification e m)) as N.
  { intros e m. unfold process_notification. destruct (deser_notification notification0 m) as [[|] n];
      [now apply grows_eq|apply grows_refl]. }
  intros e m. unfold process. destruct (classify m); auto.
  - destruct (deser_request request0 m) as [[|] r]; auto. destruct (ep_handler e); auto. now apply grows_eq.
  - unfold resolve. destruct (aget _ _); [|apply grows_refl].
    split; [exists []; now rewrite app_nil_r|split; [eexists; reflexivity|split; [exists []; now rewrite app_nil_r|reflexivity]]].
Qed.

Lemma grows_step : forall s v y, grows (s y) (step s v y).
Proof.
  intros s v y. destruct v as [x|x|x|x r|x k|x k|x n|x|x|x k h]; cbn [step].
  - apply grows_upd. now apply grows_eq.
  - apply grows_upd. now apply grows_eq.
  - apply grows_upd.
    split; [exists []; now rewrite app_nil_r|split; [eexists; reflexivity|split; [exists []; now rewrite app_nil_r|reflexivity]]].
  - apply grows_upd. unfold begin_request. destruct (final_id (ep_counter (s x)) (rq_id r)).
    split; [eexists; reflexivity|split; [eexists; reflexivity|split; [exists []; now rewrite app_nil_r|reflexivity]]].
  - destruct (take_nth k (ep_out (s x))) as [[[t r] rest]|]; [|apply grows_refl].
    pose proof (grows_send s x (ser_request r)) as G.
    destruct (send_to_peer s x (ser_request r)) as [sent s1]. cbn [snd] in G.
    eapply grows_trans; [apply G|]. apply grows_upd. now apply grows_eq.
  - destruct (take_nth k (ep_failing (s x))) as [[[t r] rest]|]; [|apply grows_refl]. apply grows_upd.
    destruct (aget (id_key (rq_id r)) (ep_pend (s x))); [|now apply grows_eq].
    split; [exists []; now rewrite app_nil_r|split; [eexists; reflexivity|split; [exists []; now rewrite app_nil_r|reflexivity]]].
  - apply grows_send.
  - destruct (ep_connected (s x)); [|apply grows_refl]. destruct (ep_current (s x)); [apply grows_refl|].
    destruct (ep_queue (s x)); [apply grows_refl|]. apply grows_upd. now apply grows_eq.
  - destruct (ep_current (s x)) as [m|]; [|apply grows_refl]. apply grows_upd.
    eapply grows_trans; [|now apply grows_eq].
    eapply grows_trans; [|apply grows_process]. now apply grows_eq.
  - destruct (take_nth k (ep_running (s x))) as [[r rest]|]; [|apply grows_refl].
    eapply grows_trans; [|apply grows_send]. apply grows_upd.
    split; [exists []; now rewrite app_nil_r|split; [exists []; now rewrite app_nil_r|split; [eexists; reflexivity|reflexivity]]].
Qed.

Lemma grows_run : forall vs s y, grows (s y) (run s vs y).
Proof.
  induction vs as [|v vs IH]; intros s y; [apply grows_refl|]. cbn.
  eapply grows_trans; [apply grows_step|]. apply IH.
Qed.

(** Well-formed traffic *)
Definition good_msg (s : sys) (y : side) (m : bstr) : Prop :=
  (exists r, m = ser_request r /\ In r (map snd (ep_issued (s (other y)))) /\ good_request r) \/
  (exists n, m = ser_notification n /\ good_notification n) \/
  (exists r h, m = ser_response (reply (rq_id r) h) /\ In (r, h) (ep_served (s (other y))) /\
     good_request r /\ good_body (reply (rq_id r) h)).

Record traffic (s : sys) : Prop := {
  tf_queue : forall y m, In m (ep_queue (s y)) -> good_msg s y m;
  tf_current : forall y m, ep_current (s y) = Some m -> good_msg s y m;
  tf_running : forall y r, In r (ep_running (s y)) -> In r (map snd (ep_issued (s (other y)))) /\ good_request r;
  tf_served : forall y r h, In (r, h) (ep_served (s y)) -> In r (map snd (ep_issued (s (other y))));
  tf_issued : forall y t r, In (t, r) (ep_issued (s y)) -> good_request r;
  tf_done : forall y t resp, In (t, OResp resp) (ep_done (s y)) ->
    exists r h, In (r, h) (ep_served (s (other y))) /\ resp = reply (rq_id r) h
}.

Lemma good_msg_grows : forall s s' y m, (forall y, grows (s y) (s' y)) -> good_msg s y m -> good_msg s' y m.
Proof.
  intros s s' y m G H. destruct (G (other y)) as ((a & E1) & _ & (b & E2) & _).
  destruct H as [(r & E & Hi & Hg)|[H|(r & h & E & Hi & Hg)]].
  - left. exists r. split; [easy|]. split; [|easy]. rewrite E1, map_app. apply in_or_app. now left.
  - right. now left.
  - right. right. exists r, h. split; [easy|]. split; [|easy]. rewrite E2. apply in_or_app. now left.
Qed.

Lemma traffic_from : forall s s', traffic s -> (forall y, grows (s y) (s' y)) ->
  (forall y m, In m (ep_queue (s' y)) -> In m (ep_queue (s y)) \/ good_msg s' y m) ->
  (forall y m, ep_current (s' y) = Some m -> ep_current (s y) = Some m \/ In m (ep_queue (s y))) ->
  (forall y r, In r (ep_running (s' y)) -> In r (ep_running (s y)) \/
     (In r (map snd (ep_issued (s (other y)))) /\ good_request r)) ->
  (forall y r h, In (r, h) (ep_served (s' y)) -> In (r, h) (ep_served (s y)) \/ In r (ep_running (s y))) ->
  (forall y t r, In (t, r) (ep_issued (s' y)) -> In (t, r) (ep_issued (s y)) \/ good_request r) ->
  (forall y t resp, In (t, OResp resp) (ep_done (s' y)) -> In (t, OResp resp) (ep_done (s y)) \/
    exists r h, In (r, h) (ep_served (s (other y))) /\ resp = reply (rq_id r) h) ->
  traffic s'.
Proof.
  intros s s' [T1 T2 T3 T4 T5 T6] G H1 H2 H3 H4 H5 H6.
  assert (forall y r, In r (map snd (ep_issued (s (other y)))) -> In r (map snd (ep_issued (s' (other y))))) as GI.
  { intros y r Hi. destruct (G (other y)) as ((a & ->) & _). rewrite map_app. apply in_or_app. now left. }
  constructor.
  - intros y m Hm. destruct (H1 y m Hm) as [K|K]; [|easy]. apply good_msg_grows with s; auto.
  - intros y m Hm. destruct (H2 y m Hm) as [K|K]; apply good_msg_grows with s; auto.
  - intros y r Hr. destruct (H3 y r Hr) as [K|[K1 K2]]; [|auto]. destruct (T3 y r K). auto.
  - intros y r h Hr. destruct (H4 y r h Hr) as [K|K]; [eauto|]. destruct (T3 y r K). auto.
  - intros y t r Hr. destruct (H5 y t r Hr) as [K|K]; [eauto|easy].
  - intros y t resp Hr. destruct (H6 y t resp Hr) as [K|K]; [apply T6 in K|]; destruct K as (r & h & Hs & E);
      exists r, h; (split; [|easy]); destruct (G (other y)) as (_ & _ & (b & ->) & _); apply in_or_app; now left.
Qed.

Lemma print_N_plain : forall n, plain (print_N n).
Proof.
  intro n. destruct (print_N_spec n) as (_ & H & _). rewrite forallb_forall in H.
  split; intro K; apply H in K; discriminate.
Qed.

Lemma good_final_id : forall c r, good_request r ->
  good_request {| rq_id := fst (final_id c (rq_id r)); rq_method := rq_method r; rq_params := rq_params r |}.
Proof.
  intros c r (H1 & H2 & H3 & H4 & H5). unfold final_id.
  assert (plain (bs "mem-req-" ++ print_N ((c + 1) mod 2 ^ 32))) as P.
  { pose proof (print_N_plain ((c + 1) mod 2 ^ 32)) as [P1 P2].
    assert (plain (bs "mem-req-")) as [Q1 Q2] by now apply plainb_plain.
    split; rewrite in_app_iff; tauto. }
  assert (good_request {| rq_id := IdStr (bs "mem-req-" ++ print_N ((c + 1) mod 2 ^ 32));
                          rq_method := rq_method r; rq_params := rq_params r |}) as K.
  { split; [apply P|]. split; [intros s [= <-]; exact P|]. auto. }
  destruct (rq_id r) as [[|a s]|z|] eqn:E; cbn [fst].
  - exact K.
  - split; [exact H1|]. split; [exact H2|]. auto.
  - split; [exact H1|]. split; [exact H2|]. auto.
  - exact K.
Qed.

Lemma good_error : forall i c msg, (- 2 ^ 63 <= c < 2 ^ 63)%Z -> good_body (error_response i c msg None).
Proof.
  intros i c msg Hc. split; [right; discriminate|]. split; [discriminate|]. intros e [= <-]. split.
  - unfold error_object. cbn [app]. constructor; cbn [map fst snd].
    + apply nodupb_nodup. reflexivity.
    + repeat (apply Forall_cons; [now apply plainb_plain|]). apply Forall_nil.
    + repeat constructor; lia.
  - intros _. now apply key_inb_not.
Qed.

Lemma good_reply : forall i h, (forall r, h = HReturn r -> good_body r) -> good_body (reply i h).
Proof.
  intros i [r| |w] H; cbn [reply].
  - destruct (H r eq_refl) as (A & B & C). split; [exact A|]. split; [exact B|exact C].
  - apply good_error. lia.
  - apply good_error. lia.
Qed.

Lemma good_request_roundtrip : forall r, good_request r ->
  classify (ser_request r) = KRequest /\ deser_request request0 (ser_request r) = (true, r).
Proof.
  intros r (H1 & H2 & H3 & H4 & H5). split; [now apply classify_request|].
  apply request_roundtrip; auto. apply H4.
Qed.

Lemma good_notification_roundtrip : forall n, good_notification n ->
  classify (ser_notification n) = KNotification /\ deser_notification notification0 (ser_notification n) = (true, n).
Proof.
  intros n (H1 & H2 & H3). split; [now apply classify_notification|].
  apply notification_roundtrip; auto. apply H2.
Qed.

Lemma good_reply_roundtrip : forall r h, good_request r -> good_body (reply (rq_id r) h) ->
  classify (ser_response (reply (rq_id r) h)) = KResponse /\
  deser_response response0 (ser_response (reply (rq_id r) h)) = (true, reply (rq_id r) h).
Proof.
  intros r h (H1 & H2 & _) (A & B & C). split.
  - apply classify_response; rewrite ?reply_id; auto. intros p [Hp|Hp]; [now apply B|now apply C].
  - apply response_roundtrip; rewrite ?reply_id; auto.
Qed.

(** Sending a good message. *)
Lemma send_queue : forall s x m y, forall m', In m' (ep_queue (snd (send_to_peer s x m) y)) ->
  In m' (ep_queue (s y)) \/ (y = other x /\ m' = m).
Proof.
  intros s x m y m' H. unfold send_to_peer in H. destruct (ep_connected (s (other x))); [|now left].
  destruct x, y; cbn in H; auto; apply in_app_iff in H as [H|[<-|[]]]; auto.
Qed.

Definition same_rest (e e' : endpoint) : Prop :=
  ep_current e' = ep_current e /\ ep_running e' = ep_running e /\ ep_served e' = ep_served e /\
  ep_issued e' = ep_issued e /\ ep_done e' = ep_done e /\ ep_out e' = ep_out e /\ ep_failing e' = ep_failing e /\
  ep_pend e' = ep_pend e /\ ep_connected e' = ep_connected e /\ ep_handler e' = ep_handler e.

Lemma send_rest : forall s x m y, same_rest (s y) (snd (send_to_peer s x m) y).
Proof.
  intros s x m y. unfold send_to_peer. destruct (ep_connected (s (other x))).
  - destruct x, y; cbn; repeat split.
  - repeat split.
Qed.

Lemma traffic_send : forall s x m, traffic s -> good_msg s (other x) m -> traffic (snd (send_to_peer s x m)).
Proof.
  intros s x m T H. pose proof (send_rest s x m) as R. apply traffic_from with s; auto.
  - intro y. apply grows_send.
  - intros y m' Hm. apply send_queue in Hm as [Hm|[-> ->]]; [now left|]. right.
    apply good_msg_grows with s; [apply grows_send|easy].
  - intros y m' Hm. destruct (R y) as (E & _). rewrite E in Hm. now left.
  - intros y r Hr. destruct (R y) as (_ & E & _). rewrite E in Hr. now left.
  - intros y r h Hr. destruct (R y) as (_ & _ & E & _). rewrite E in Hr. now left.
  - intros y t r Hr. destruct (R y) as (_ & _ & _ & E & _). rewrite E in Hr. now left.
  - intros y t r Hr. destruct (R y) as (_ & _ & _ & _ & E & _). rewrite E in Hr. now left.
Qed.

(** Changing one endpoint without touching the other. *)
Lemma traffic_upd : forall s x e, traffic s -> grows (s x) e ->
  (forall m, In m (ep_queue e) -> In m (ep_queue (s x))) ->
  (forall m, ep_current e = Some m -> ep_current (s x) = Some m \/ In m (ep_queue (s x))) ->
  (forall r, In r (ep_running e) -> In r (ep_running (s x)) \/
     (In r (map snd (ep_issued (s (other x)))) /\ good_request r)) ->
  (forall r h, In (r, h) (ep_served e) -> In (r, h) (ep_served (s x)) \/ In r (ep_running (s x))) ->
  (forall t r, In (t, r) (ep_issued e) -> In (t, r) (ep_issued (s x)) \/ good_request r) ->
  (forall t resp, In (t, OResp resp) (ep_done e) -> In (t, OResp resp) (ep_done (s x)) \/
    exists r h, In (r, h) (ep_served (s (other x))) /\ resp = reply (rq_id r) h) ->
  traffic (upd s x e).
Proof.
  intros s x e T G H1 H2 H3 H4 H5 H6.
  apply traffic_from with s; auto; try (intro y; now apply grows_upd);
    intro y; unfold upd; destruct (side_eqb x y) eqn:E; auto; apply side_eqb_eq in E; subst; auto.
Qed.

Lemma traffic_step : forall s v, traffic s -> (forall x, table_inv (s x)) -> good_ev v -> traffic (step s v).
Proof.
  intros s v T TI Hv. destruct v as [x|x|x|x r|x k|x k|x n|x|x|x k h]; cbn [step].
  - apply traffic_upd; auto. now apply grows_eq.
  - apply traffic_upd; auto. now apply grows_eq.
  - apply traffic_upd; auto.
    + split; [exists []; now rewrite app_nil_r|split; [eexists; reflexivity|split; [exists []; now rewrite app_nil_r|reflexivity]]].
    + intros t resp Hi. cbn in Hi. apply in_app_iff in Hi as [Hi|Hi]; [now left|].
      apply in_map_iff in Hi as (kt & E & _). discriminate.
  - pose proof (grows_step s (EBegin x r) x) as G. cbn [step] in G. rewrite upd_same in G.
    pose proof (good_final_id (ep_counter (s x)) r Hv) as HG.
    unfold begin_request in *. destruct (final_id (ep_counter (s x)) (rq_id r)) as [i c]. cbn [fst] in HG.
    apply traffic_upd; auto; cbn.
    + intros t r0 Hi. apply in_app_iff in Hi as [Hi|[Hi|[]]]; [now left|]. right. now injection Hi as <- <-.
    + intros t resp Hi. apply in_app_iff in Hi as [Hi|Hi]; [now left|].
      destruct (aget (id_key i) (ep_pend (s x))); [|easy]. destruct Hi as [Hi|[]]. discriminate.
  - destruct (take_nth k (ep_out (s x))) as [[[t r] rest]|] eqn:E; [|easy].
    apply take_nth_in in E as [Ei Er].
    assert (In (t, r) (ep_issued (s x))) as Hi by (apply (ti_out _ (TI x)); apply in_or_app; now left).
    assert (good_msg s (other x) (ser_request r)) as GM.
    { left. exists r. rewrite other_other. split; [easy|]. split; [apply in_map_iff; now exists (t, r)|].
      now apply (tf_issued s T x t). }
    pose proof (traffic_send s x _ T GM) as T1.
    destruct (send_to_peer s x (ser_request r)) as [sent s1]. cbn [snd] in T1.
    apply traffic_upd; auto. now apply grows_eq.
  - destruct (take_nth k (ep_failing (s x))) as [[[t r] rest]|] eqn:E; [|easy].
    destruct (aget (id_key (rq_id r)) (ep_pend (s x))) as [t'|].
    + apply traffic_upd; auto.
      * split; [exists []; now rewrite app_nil_r|split; [eexists; reflexivity|split; [exists []; now rewrite app_nil_r|reflexivity]]].
      * intros t0 resp Hi. cbn in Hi. apply in_app_iff in Hi as [Hi|[Hi|[]]]; [now left|discriminate].
    + apply traffic_upd; auto. now apply grows_eq.
  - apply traffic_send; auto. right. left. now exists n.
  - destruct (ep_connected (s x)); [|easy]. destruct (ep_current (s x)) eqn:Ec; [easy|].
    destruct (ep_queue (s x)) as [|m q] eqn:Eq; [easy|].
    apply traffic_upd; auto.
    + now apply grows_eq.
    + intros m' Hm. cbn in Hm. rewrite Eq. now right.
    + intros m' Hm. cbn in Hm. injection Hm as <-. right. rewrite Eq. now left.
  - destruct (ep_current (s x)) as [m|] eqn:Ec; [|easy].
    pose proof (grows_step s (EDispatch x) x) as G. cbn [step] in G. rewrite Ec, upd_same in G.
    pose proof (tf_current s T x m Ec) as GM. apply traffic_upd; auto; clear G.
    all: destruct GM as [(r & -> & Hi & Hg)|[(n & -> & Hg)|(r & h & -> & Hi & Hg & Hb)]].
    all: try (destruct (good_request_roundtrip r Hg) as [C D]).
    all: try (destruct (good_notification_roundtrip n Hg) as [C D]).
    all: try (destruct (good_reply_roundtrip r h Hg Hb) as [C' D']).
    all: unfold process, process_notification, resolve.
    all: try (rewrite C', D'; cbn [snd]; destruct (aget _ _)).
    all: try (rewrite C, D).
    all: try (destruct (deser_notification notification0 (ser_request r)) as [[|] n0]).
    all: try (destruct (ep_handler (set_current None (s x)))).
    all: cbn; auto; try discriminate.
    all: try (intros r0 Hr; apply in_app_iff in Hr as [Hr|[<-|[]]]; auto; fail).
    all: intros t resp Hr; apply in_app_iff in Hr as [Hr|[Hr|[]]]; [left; exact Hr|right].
    all: injection Hr as <- <-; exists r, h; split; [exact Hi|reflexivity].
  - destruct (take_nth k (ep_running (s x))) as [[r rest]|] eqn:E; [|easy].
    apply take_nth_in in E as [Ei Er]. destruct (tf_running s T x r Ei) as [Hi Hg].
    apply traffic_send.
    + apply traffic_upd; auto.
      * split; [exists []; now rewrite app_nil_r|split; [exists []; now rewrite app_nil_r|split; [eexists; reflexivity|reflexivity]]].
      * intros r0 h0 Hr. cbn in Hr. apply in_app_iff in Hr as [Hr|[Hr|[]]]; [now left|]. injection Hr as <- <-. now right.
    + right. right. exists r, h. split; [easy|]. rewrite other_other, upd_same. split; [cbn; apply in_or_app; right; now left|].
      split; [easy|]. apply good_reply. intros r0 ->. exact Hv.
Qed.

Lemma traffic0 : forall ha hb, traffic (sys0 ha hb).
Proof. intros ha hb. constructor; intros []; cbn; easy. Qed.

Lemma traffic_reachable : forall ha hb vs, Forall good_ev vs -> traffic (run (sys0 ha hb) vs).
Proof.
  intros ha hb vs. rewrite <- (rev_involutive vs). generalize (rev vs). clear vs. intro l.
  induction l as [|v l IH]; intro H; [apply traffic0|].
  cbn [rev] in *. apply Forall_app in H as [H1 H2]. rewrite run_app. cbn.
  apply traffic_step; [now apply IH|apply table_reachable|now inversion H2].
Qed.

Lemma issued_unique : forall e t r t' r', table_inv e -> NoDup (issued_keys e) ->
  In (t, r) (ep_issued e) -> In (t', r') (ep_issued e) -> id_key (rq_id r) = id_key (rq_id r') ->
  t = t' /\ r = r'.
Proof.
  intros e t r t' r' _ Hn H1 H2 E. unfold issued_keys in Hn.
  induction (ep_issued e) as [|p l IH]; [easy|]. cbn in Hn. inversion Hn; subst.
  destruct H1 as [->|H1]; destruct H2 as [E2|H2].
  - injection E2 as -> ->. auto.
  - exfalso. apply H3. cbn. rewrite E. apply in_map_iff. now exists (t', r').
  - exfalso. subst p. apply H3. cbn. rewrite <- E. apply in_map_iff. now exists (t, r).
  - auto.
Qed.

Lemma answer_matches : forall ha hb vs x t resp, Forall good_ev vs ->
  NoDup (issued_keys (run (sys0 ha hb) vs x)) ->
  In (t, OResp resp) (ep_done (run (sys0 ha hb) vs x)) ->
  exists r h, In (t, r) (ep_issued (run (sys0 ha hb) vs x)) /\
    In (r, h) (ep_served (run (sys0 ha hb) vs (other x))) /\ resp = reply (rq_id r) h.
Proof.
  intros ha hb vs x t resp Hg Hn Hd. pose proof (table_reachable ha hb vs x) as TI.
  pose proof (traffic_reachable ha hb vs Hg) as T.
  destruct (tf_done _ T x t resp Hd) as (r & h & Hs & ->).
  destruct (ti_done _ TI _ _ Hd) as (r0 & Hi & E & _). rewrite reply_id in E.
  pose proof (tf_served _ T _ _ _ Hs) as Hi2. rewrite other_other in Hi2.
  apply in_map_iff in Hi2 as ([t2 r2] & E2 & Hi2). cbn in E2. subst r2.
  destruct (issued_unique _ _ _ _ _ TI Hn Hi2 Hi E) as [-> ->]. now exists r0, h.
Qed.

(** Nothing is lost while both sides are up. *)
Definition inflight (e : endpoint) : list bstr :=
  match ep_current e with Some m => [m] | None => [] end ++ ep_queue e.

Definition live (s : sys) : Prop :=
  forall x, ep_connected (s x) = true /\ ep_handler (s x) = true /\ ep_failing (s x) = [].

Definition loc (s : sys) (x : side) (t : nat) (r : request) : Prop :=
  In (t, r) (ep_out (s x)) \/ In (ser_request r) (inflight (s (other x))) \/ In r (ep_running (s (other x))) \/
  exists h, In (r, h) (ep_served (s (other x))) /\ good_body (reply (rq_id r) h) /\
    In (ser_response (reply (rq_id r) h)) (inflight (s x)).

Definition located (s : sys) : Prop :=
  forall x k t, In (k, t) (ep_pend (s x)) -> exists r, In (t, r) (ep_issued (s x)) /\ loc s x t r.

Definition only_answers (s : sys) : Prop :=
  forall x t o, In (t, o) (ep_done (s x)) -> (exists resp, o = OResp resp) \/ o = OBroken.

Lemma send_live : forall s x m, ep_connected (s (other x)) = true ->
  fst (send_to_peer s x m) = true /\
  inflight (snd (send_to_peer s x m) (other x)) = inflight (s (other x)) ++ [m] /\
  inflight (snd (send_to_peer s x m) x) = inflight (s x).
Proof.
  intros s x m H. unfold send_to_peer, inflight. rewrite H. cbn [fst snd].
  destruct x; cbn; rewrite <- ?app_assoc; auto.
Qed.

Lemma loc_mono : forall s s' x t r,
  (In (t, r) (ep_out (s x)) -> In (t, r) (ep_out (s' x))) ->
  (forall m, In m (inflight (s (other x))) -> In m (inflight (s' (other x)))) ->
  (forall m, In m (inflight (s x)) -> In m (inflight (s' x))) ->
  (In r (ep_running (s (other x))) -> In r (ep_running (s' (other x)))) ->
  (forall p, In p (ep_served (s (other x))) -> In p (ep_served (s' (other x)))) ->
  loc s x t r -> loc s' x t r.
Proof.
  intros s s' x t r H1 H2 H3 H4 H5 [L|[L|[L|(h & L1 & Lb & L2)]]]; unfold loc; auto.
  right. right. right. exists h. auto.
Qed.

Lemma grows_issued : forall e e' p, grows e e' -> In p (ep_issued e) -> In p (ep_issued e').
Proof. intros e e' p ((a & ->) & _) H. apply in_or_app. now left. Qed.
Lemma grows_served : forall e e' p, grows e e' -> In p (ep_served e) -> In p (ep_served e').
Proof. intros e e' p (_ & _ & (a & ->) & _) H. apply in_or_app. now left. Qed.

Lemma located_from : forall s s', located s -> (forall y, grows (s y) (s' y)) ->
  (forall y k t, In (k, t) (ep_pend (s' y)) -> In (k, t) (ep_pend (s y)) \/
     exists r, In (t, r) (ep_issued (s' y)) /\ In (t, r) (ep_out (s' y))) ->
  (forall y k t r, In (k, t) (ep_pend (s' y)) -> In (k, t) (ep_pend (s y)) -> In (t, r) (ep_issued (s y)) ->
     loc s y t r -> loc s' y t r) ->
  located s'.
Proof.
  intros s s' L G H1 H2 y k t Hi. destruct (H1 y k t Hi) as [K|(r & K1 & K2)].
  - destruct (L y k t K) as (r & Hr & Hl). exists r. split; [now apply grows_issued with (s y)|]. now apply H2 with k.
  - exists r. split; [easy|]. now left.
Qed.

Lemma live_step : forall s v, live s -> no_close v -> live (step s v).
Proof.
  intros s v L Hc.
  assert (forall x e, ep_connected e = true -> ep_handler e = true -> ep_failing e = [] -> live (upd s x e)) as U.
  { intros x e H1 H2 H3 y. unfold upd. destruct (side_eqb x y); [auto|apply L]. }
  assert (forall s x m, live s -> live (snd (send_to_peer s x m))) as Snd.
  { intros s0 x m L0 y. destruct (send_rest s0 x m y) as (_ & _ & _ & _ & _ & _ & E1 & _ & E2 & E3).
    rewrite E1, E2, E3. apply L0. }
  destruct v as [x|x|x|x r|x k|x k|x n|x|x|x k h]; cbn [step].
  - apply U; cbn; try apply L. reflexivity.
  - destruct Hc.
  - destruct Hc.
  - unfold begin_request. destruct (final_id (ep_counter (s x)) (rq_id r)) as [i c]. apply U; cbn; apply L.
  - destruct (take_nth k (ep_out (s x))) as [[[t r] rest]|]; [|easy].
    pose proof (Snd s x (ser_request r) L) as L1.
    destruct (send_live s x (ser_request r) (proj1 (L (other x)))) as (Es & _).
    destruct (send_to_peer s x (ser_request r)) as [sent s1]. cbn [snd fst] in *. subst sent.
    intro y. unfold upd. destruct (side_eqb x y); [cbn; apply L1|apply L1].
  - destruct (L x) as (_ & _ & E). rewrite E. now destruct k.
  - now apply Snd.
  - destruct (ep_connected (s x)) eqn:Ec; [|easy]. destruct (ep_current (s x)); [easy|].
    destruct (ep_queue (s x)); [easy|]. apply U; cbn; apply L.
  - destruct (ep_current (s x)) as [m|]; [|easy].
    assert (ep_connected (process (set_current None (s x)) m) = ep_connected (s x) /\
            ep_handler (process (set_current None (s x)) m) = ep_handler (s x) /\
            ep_failing (process (set_current None (s x)) m) = ep_failing (s x)) as (E1 & E2 & E3).
    { unfold process, process_notification, resolve. destruct (classify m).
      - destruct (deser_request request0 m) as [[|] r].
        + destruct (ep_handler (set_current None (s x))) eqn:E; [cbn in *; auto|].
          destruct (deser_notification notification0 m) as [[|] n]; cbn in *; auto.
        + destruct (deser_notification notification0 m) as [[|] n]; cbn; auto.
      - destruct (aget _ _); cbn; auto.
      - destruct (deser_notification notification0 m) as [[|] n]; cbn; auto.
      - destruct (deser_notification notification0 m) as [[|] n]; cbn; auto. }
    apply U; cbn; rewrite ?E1, ?E2, ?E3; apply L.
  - destruct (take_nth k (ep_running (s x))) as [[r rest]|]; [|easy].
    apply Snd. apply U; cbn; apply L.
Qed.

Lemma upd_cases : forall s x e y, (y = x /\ upd s x e y = e) \/ (y = other x /\ upd s x e y = s y).
Proof. intros s [] e []; auto. Qed.

Lemma issued_fun : forall e t r r', table_inv e -> In (t, r) (ep_issued e) -> In (t, r') (ep_issued e) -> r = r'.
Proof.
  intros e t r r' TI H1 H2. pose proof (ti_issued e TI) as E.
  assert (NoDup (map fst (ep_issued e))) as Hn by (rewrite E; apply seq_NoDup). clear E.
  induction (ep_issued e) as [|[t0 r0] l IH]; [easy|]. cbn in Hn. inversion Hn as [|? ? N1 N2]; subst.
  destruct H1 as [H1|H1]; destruct H2 as [H2|H2].
  - congruence.
  - injection H1 as -> ->. exfalso. apply N1. apply in_map_iff. now exists (t, r').
  - injection H2 as -> ->. exfalso. apply N1. apply in_map_iff. now exists (t, r).
  - auto.
Qed.

Lemma process_rest : forall (e : endpoint) (m : bstr),
  ep_out (process e m) = ep_out e /\ ep_served (process e m) = ep_served e /\
  ep_queue (process e m) = ep_queue e /\ ep_current (process e m) = ep_current e /\
  (forall r, In r (ep_running e) -> In r (ep_running (process e m))) /\
  (forall kt, In kt (ep_pend (process e m)) -> In kt (ep_pend e)).
Proof.
  intros e m. unfold process, process_notification, resolve. destruct (classify m).
  - destruct (deser_request request0 m) as [[|] r].
    + destruct (ep_handler e).
      * cbn. repeat (split; [auto|]); auto. intros r0 H. apply in_or_app. now left.
      * destruct (deser_notification notification0 m) as [[|] n]; cbn; repeat (split; [auto|]); auto.
    + destruct (deser_notification notification0 m) as [[|] n]; cbn; repeat (split; [auto|]); auto.
  - destruct (aget _ _); cbn; repeat (split; [auto|]); auto. intros kt H. now apply in_adel in H.
  - destruct (deser_notification notification0 m) as [[|] n]; cbn; repeat (split; [auto|]); auto.
  - destruct (deser_notification notification0 m) as [[|] n]; cbn; repeat (split; [auto|]); auto.
Qed.

Lemma located_step : forall s v, located s -> live s -> traffic s -> (forall x, table_inv (s x)) ->
  good_ev v -> no_close v -> located (step s v).
Proof.
  intros s v L Lv T TI Hv Hc. pose proof (grows_step s v) as G.
  destruct v as [x|x|x|x r|x k|x k|x n|x|x|x k h]; cbn [step] in *.
  - apply located_from with s; auto.
    + intros y k t Hi. left. destruct (upd_cases s x (set_connected true (s x)) y) as [[-> E]|[-> E]]; rewrite E in Hi; exact Hi.
    + intros y k t r _ _ _. apply loc_mono; destruct x, y; auto.
  - destruct Hc.
  - destruct Hc.
  - apply located_from with s; auto.
    + intros y k t Hi. destruct (upd_cases s x (begin_request (s x) r) y) as [[-> E]|[-> E]]; rewrite E in *; [|now left].
      unfold begin_request in *. destruct (final_id (ep_counter (s x)) (rq_id r)) as [i c]. cbn in *.
      apply in_aset in Hi; [|apply TI]. destruct Hi as [Hi|[Hi _]]; [|now left]. right.
      injection Hi as -> ->. eexists. split; apply in_or_app; right; left; reflexivity.
    + intros y k t r0 _ _ _. unfold begin_request. destruct (final_id (ep_counter (s x)) (rq_id r)) as [i c].
      apply loc_mono; destruct x, y; cbn; auto; intro Hi; apply in_or_app; now left.
  - destruct (take_nth k (ep_out (s x))) as [[[t r] rest]|] eqn:Et; [|easy].
    apply take_nth_perm in Et.
    destruct (send_live s x (ser_request r) (proj1 (Lv (other x)))) as (Es & I1 & I2).
    pose proof (send_rest s x (ser_request r)) as R.
    destruct (send_to_peer s x (ser_request r)) as [sent s1]. cbn [snd fst] in *.
    set (e' := set_out rest (if sent then ep_failing (s1 x) else ep_failing (s1 x) ++ [(t, r)]) (s1 x)) in *.
    assert (forall y, inflight (upd s1 x e' y) = inflight (s1 y)) as If.
    { intro y. destruct (upd_cases s1 x e' y) as [[-> E]|[-> E]]; rewrite E; reflexivity. }
    assert (forall y, ep_served (upd s1 x e' y) = ep_served (s y)) as Sv.
    { intro y. destruct (upd_cases s1 x e' y) as [[-> E]|[-> E]]; rewrite E; apply R. }
    assert (forall y, ep_running (upd s1 x e' y) = ep_running (s y)) as Rn.
    { intro y. destruct (upd_cases s1 x e' y) as [[-> E]|[-> E]]; rewrite E; apply R. }
    apply located_from with s; auto.
    + intros y k0 t0 Hi. left. destruct (R y) as (_ & _ & _ & _ & _ & _ & _ & E & _).
      destruct (upd_cases s1 x e' y) as [[-> E2]|[-> E2]]; rewrite E2 in Hi; [unfold e' in Hi; cbn in Hi|]; now rewrite E in Hi.
    + intros y k0 t0 r0 _ _ _ HL. unfold loc in *. rewrite !If, Sv, Rn.
      destruct (side_cases x y) as [->| ->].
      * rewrite upd_same, I1, I2. cbn [e' set_out ep_out].
        destruct HL as [HL|[HL|[HL|HL]]]; [|right; left; apply in_or_app; now left|tauto|tauto].
        eapply Permutation_in in HL; [|exact Et]. destruct HL as [HL|HL]; [|now left].
        injection HL as <- <-. right. left. apply in_or_app. right. now left.
      * rewrite other_other in *. rewrite upd_other by (apply not_eq_sym, other_neq). rewrite I1, I2.
        destruct (R (other x)) as (_ & _ & _ & _ & _ & E & _). rewrite E.
        destruct HL as [HL|[HL|[HL|(h & HL1 & HLb & HL2)]]]; [tauto|tauto|tauto|].
        right. right. right. exists h. split; [easy|]. split; [easy|]. apply in_or_app. now left.
  - destruct (Lv x) as (_ & _ & E). rewrite E. now destruct k.
  - destruct (send_live s x (ser_notification n) (proj1 (Lv (other x)))) as (_ & I1 & I2).
    pose proof (send_rest s x (ser_notification n)) as R.
    set (s1 := snd (send_to_peer s x (ser_notification n))) in *.
    apply located_from with s; auto.
    + intros y k0 t0 Hi. left. destruct (R y) as (_ & _ & _ & _ & _ & _ & _ & E & _). now rewrite E in Hi.
    + intros y k0 t0 r0 _ _ _. assert (forall y m, In m (inflight (s y)) -> In m (inflight (s1 y))) as If.
      { intros z m Hm. destruct (side_cases x z) as [->| ->]; rewrite ?I1, ?I2; [easy|]. apply in_or_app. now left. }
      destruct (R y) as (_ & _ & _ & _ & _ & E1 & _). destruct (R (other y)) as (_ & E2 & E3 & _).
      apply loc_mono; auto; rewrite ?E1, ?E2, ?E3; auto.
  - destruct (ep_connected (s x)); [|easy]. destruct (ep_current (s x)) eqn:Ec; [easy|].
    destruct (ep_queue (s x)) as [|m q] eqn:Eq; [easy|].
    apply located_from with s; auto.
    + intros y k t Hi. left. destruct (upd_cases s x (set_current (Some m) (set_queue q (s x))) y) as [[-> E]|[-> E]]; rewrite E in Hi; exact Hi.
    + intros y k t r _ _ _. apply loc_mono; unfold inflight; destruct x, y; cbn; auto; rewrite ?Ec, ?Eq; auto.
  - destruct (ep_current (s x)) as [m|] eqn:Ec; [|easy].
    destruct (process_rest (set_current None (s x)) m) as (P1 & P2 & P3 & P4 & P5 & P6).
    set (e' := process (set_current None (s x)) m) in *.
    apply located_from with s; auto.
    + intros y k t Hk. left. destruct (side_cases x y) as [->| ->].
      * rewrite upd_same in Hk. exact (P6 _ Hk).
      * rewrite upd_other in Hk by (apply not_eq_sym, other_neq). exact Hk.
    + intros y k t r0 Hk Hk0 Hr0 HL. destruct (side_cases x y) as [->| ->].
      * unfold loc in *. rewrite upd_same in *. rewrite upd_other by (apply not_eq_sym, other_neq).
        unfold inflight at 2. cbn. rewrite P1, P3, P4. cbn.
        destruct HL as [HL|[HL|[HL|(h & HL1 & HLb & HL2)]]]; auto. right. right. right. exists h. split; [easy|]. split; [easy|].
        unfold inflight in HL2. rewrite Ec in HL2. destruct HL2 as [HL2|HL2]; [|exact HL2]. exfalso. cbn in Hk.
        destruct (good_reply_roundtrip r0 h (tf_issued s T x t r0 Hr0) HLb) as [C D].
        unfold e', process in Hk. rewrite HL2, C, D in Hk. cbn [snd] in Hk. unfold resolve in Hk. rewrite reply_id in Hk.
        destruct (ti_pend _ (TI x) k t Hk0) as (r1 & Hr1 & ->).
        assert (r1 = r0) as -> by now apply issued_fun with (s x) t; [apply TI| |].
        destruct (aget (id_key (rq_id r0)) (ep_pend (set_current None (s x)))) eqn:Ea.
        -- cbn in Hk. apply in_adel in Hk as [_ Hk]. apply Hk. reflexivity.
        -- cbn in Hk, Ea. apply aget_none in Ea. apply Ea. exact (in_map fst _ _ Hk0).
      * unfold loc in *. rewrite other_other in *. rewrite upd_same. rewrite upd_other by (apply not_eq_sym, other_neq).
        unfold inflight at 1. cbn. rewrite P2, P3, P4. cbn.
        destruct HL as [HL|[HL|[HL|HL]]]; auto.
        unfold inflight in HL. rewrite Ec in HL. destruct HL as [HL|HL]; [|auto]. right. right. left.
        destruct (good_request_roundtrip r0 (tf_issued s T _ t r0 Hr0)) as [C D].
        unfold e', process. rewrite HL, C, D. cbn [ep_handler set_current]. rewrite (proj1 (proj2 (Lv x))). cbn.
        apply in_or_app. right. now left.
  - destruct (take_nth k (ep_running (s x))) as [[r rest]|] eqn:E; [|easy].
    apply take_nth_perm in E.
    set (e1 := set_running rest (ep_served (s x) ++ [(r, h)]) (s x)) in *. set (s0 := upd s x e1) in *.
    assert (ep_connected (s0 (other x)) = true) as Hco.
    { unfold s0. rewrite upd_other by (apply not_eq_sym, other_neq). apply Lv. }
    destruct (send_live s0 x (ser_response (reply (rq_id r) h)) Hco) as (_ & I1 & I2).
    pose proof (send_rest s0 x (ser_response (reply (rq_id r) h))) as R.
    set (s1 := snd (send_to_peer s0 x (ser_response (reply (rq_id r) h)))) in *.
    assert (ep_pend (s0 x) = ep_pend (s x)) as Q1 by (unfold s0; now rewrite upd_same).
    assert (s0 (other x) = s (other x)) as Q2 by (unfold s0; now rewrite upd_other by (apply not_eq_sym, other_neq)).
    apply located_from with s; auto.
    + intros y k0 t0 Hi. left. destruct (R y) as (_ & _ & _ & _ & _ & _ & _ & Ep & _). rewrite Ep in Hi.
      destruct (side_cases x y) as [->| ->]; [now rewrite Q1 in Hi|now rewrite Q2 in Hi].
    + intros y k0 t0 r0 _ _ Hr0 HL. unfold loc in *.
      destruct (R y) as (_ & _ & _ & _ & _ & Eo & _). destruct (R (other y)) as (_ & Er & Es & _).
      rewrite Eo, Er, Es. destruct (side_cases x y) as [->| ->].
      * rewrite Q2, I1, I2, Q2. unfold s0. rewrite upd_same. cbn.
        destruct HL as [HL|[HL|[HL|HL]]]; auto. right. left. apply in_or_app. now left.
      * rewrite other_other in *. rewrite Q2, I1, I2, Q2. unfold s0. rewrite upd_same. cbn.
        destruct HL as [HL|[HL|[HL|(h0 & HL1 & HLb & HL2)]]]; auto.
        -- eapply Permutation_in in HL; [|exact E]. destruct HL as [HL|HL]; [|auto]. right. right. right. subst r0.
           exists h. split; [apply in_or_app; right; now left|]. split; [|apply in_or_app; right; now left].
           apply good_reply. intros r1 ->. exact Hv.
        -- right. right. right. exists h0. split; [apply in_or_app; now left|]. split; [easy|]. apply in_or_app. now left.
Qed.

Lemma process_done : forall e m t o, In (t, o) (ep_done (process e m)) ->
  In (t, o) (ep_done e) \/ exists resp, o = OResp resp.
Proof.
  intros e m t o. unfold process, process_notification, resolve. destruct (classify m).
  - destruct (deser_request request0 m) as [[|] r].
    + destruct (ep_handler e); [now left|]. destruct (deser_notification notification0 m) as [[|] n]; now left.
    + destruct (deser_notification notification0 m) as [[|] n]; now left.
  - destruct (aget _ _); [|now left]. cbn. intro H. apply in_app_iff in H as [H|[H|[]]]; [now left|].
    right. injection H as <- <-. eexists. reflexivity.
  - destruct (deser_notification notification0 m) as [[|] n]; now left.
  - destruct (deser_notification notification0 m) as [[|] n]; now left.
Qed.

Lemma only_answers_step : forall s v, only_answers s -> live s -> no_close v -> only_answers (step s v).
Proof.
  intros s v O L Hc.
  assert (forall x e, (forall t o, In (t, o) (ep_done e) -> In (t, o) (ep_done (s x)) \/ (exists resp, o = OResp resp) \/ o = OBroken) ->
          only_answers (upd s x e)) as U.
  { intros x e H y t o Hi. destruct (upd_cases s x e y) as [[-> E]|[-> E]]; rewrite E in Hi; [|now apply O in Hi].
    destruct (H t o Hi) as [K|K]; [now apply O in K|exact K]. }
  assert (forall s x m, only_answers s -> only_answers (snd (send_to_peer s x m))) as Snd.
  { intros s0 x m O0 y t o Hi. destruct (send_rest s0 x m y) as (_ & _ & _ & _ & E & _). rewrite E in Hi. now apply O0 in Hi. }
  destruct v as [x|x|x|x r|x k|x k|x n|x|x|x k h]; cbn [step].
  - apply U. intros t o Hi. left. exact Hi.
  - destruct Hc.
  - destruct Hc.
  - apply U. unfold begin_request. destruct (final_id (ep_counter (s x)) (rq_id r)) as [i c]. cbn.
    intros t o Hi. apply in_app_iff in Hi as [Hi|Hi]; [now left|]. right. right.
    destruct (aget (id_key i) (ep_pend (s x))); [|destruct Hi]. destruct Hi as [Hi|[]]. now injection Hi as <- <-.
  - destruct (take_nth k (ep_out (s x))) as [[[t r] rest]|]; [|exact O].
    pose proof (Snd s x (ser_request r) O) as O1.
    destruct (send_to_peer s x (ser_request r)) as [sent s1]. cbn [snd] in O1.
    intros y t0 o Hi. match type of Hi with context [upd s1 x ?e] => destruct (upd_cases s1 x e y) as [[-> E]|[-> E]]; rewrite E in Hi end;
      apply O1 in Hi; exact Hi.
  - destruct (L x) as (_ & _ & E). rewrite E. now destruct k.
  - now apply Snd.
  - destruct (ep_connected (s x)); [|exact O]. destruct (ep_current (s x)); [exact O|].
    destruct (ep_queue (s x)); [exact O|]. apply U. intros t o Hi. left. exact Hi.
  - destruct (ep_current (s x)) as [m|]; [|exact O]. apply U. intros t o Hi. cbn in Hi.
    apply process_done in Hi as [Hi|Hi]; [left; exact Hi|right; left; exact Hi].
  - destruct (take_nth k (ep_running (s x))) as [[r rest]|]; [|exact O].
    apply Snd. apply U. intros t o Hi. left. exact Hi.
Qed.

Definition sound_state (s : sys) : Prop :=
  live s /\ located s /\ traffic s /\ (forall x, table_inv (s x)) /\ only_answers s.

Lemma sound_run : forall vs s, sound_state s -> Forall good_ev vs -> Forall no_close vs -> sound_state (run s vs).
Proof.
  induction vs as [|v vs IH]; intros s H Hg Hn; [exact H|]. cbn.
  inversion Hg; inversion Hn; subst. destruct H as (A & B & C & D & E). apply IH; auto.
  split; [now apply live_step|]. split; [now apply located_step|]. split; [now apply traffic_step|].
  split; [now apply table_step|now apply only_answers_step].
Qed.

Lemma all_answered : forall vs, Forall good_ev vs -> Forall no_close vs ->
  let s := run (sys0 true true) (EStart SideA :: EStart SideB :: vs) in
  (forall x, NoDup (issued_keys (s x))) -> (forall x, idle (s x)) ->
  forall x t r, In (t, r) (ep_issued (s x)) ->
  exists h, In (r, h) (ep_served (s (other x))) /\ In (t, OResp (reply (rq_id r) h)) (ep_done (s x)).
Proof.
  intros vs Hg Hn s Hk Hi x t r Hr.
  assert (sound_state s) as (A & B & C & D & E).
  { unfold s. change (run (sys0 true true) (EStart SideA :: EStart SideB :: vs)) with
      (run (step (step (sys0 true true) (EStart SideA)) (EStart SideB)) vs).
    apply sound_run; auto. split; [|split; [|split; [|split]]].
    - intros []; cbn; auto.
    - intros [] k t0 [].
    - apply traffic_step; [apply traffic_step; [apply traffic0| |exact I]| |exact I].
      + intro y. apply table_inv0.
      + apply table_step. intro y. apply table_inv0.
    - apply table_step. apply table_step. intro y. apply table_inv0.
    - intros [] t0 o []. }
  assert (ep_pend (s x) = []) as Ep.
  { destruct (ep_pend (s x)) as [|[k0 t0] l] eqn:Ep; [easy|].
    destruct (B x k0 t0) as (r0 & _ & HL); [rewrite Ep; now left|].
    destruct (Hi x) as (I1 & I2 & I3 & I4 & I5). destruct (Hi (other x)) as (J1 & J2 & J3 & J4 & J5).
    unfold loc, inflight in HL. rewrite I1, I2, I3, J1, J2, J5 in HL. cbn in HL.
    destruct HL as [[]|[[]|[[]|(h & _ & _ & [])]]]. }
  pose proof (ti_tickets _ (D x)) as P. rewrite Ep in P. cbn in P.
  assert (In t (map fst (ep_issued (s x)))) as Ht by exact (in_map fst _ _ Hr).
  rewrite (ti_issued _ (D x)) in Ht. eapply Permutation_in in Ht; [|exact P].
  apply in_map_iff in Ht as ([t0 o] & Et & Ho). cbn in Et. subst t0.
  destruct (E x t o Ho) as [(resp & ->)| ->].
  - destruct (answer_matches true true (EStart SideA :: EStart SideB :: vs) x t resp) as (r0 & h & R1 & R2 & ->);
      [repeat (apply Forall_cons; [exact I|]); exact Hg|apply Hk|exact Ho|].
    assert (r0 = r) as -> by now apply issued_fun with (s x) t. now exists h.
  - exfalso. destruct (ti_done _ (D x) _ _ Ho) as (r1 & Hr1 & t' & r' & Hlt & Hi' & Ek).
    destruct (issued_unique _ _ _ _ _ (D x) (Hk x) Hr1 Hi' (eq_sym Ek)) as [-> _]. lia.
Qed.

(** Traced causes. *)
Definition failed_send (ha hb : bool) (vs : list ev) (x : side) : Prop :=
  exists vs1 k vs2, vs = vs1 ++ ETransmit x k :: vs2 /\ ep_connected (run (sys0 ha hb) vs1 (other x)) = false.

Lemma failed_send_snoc : forall ha hb vs x v, failed_send ha hb vs x -> failed_send ha hb (vs ++ [v]) x.
Proof.
  intros ha hb vs x v (a & k & b & -> & H). exists a, k, (b ++ [v]). split; [|exact H]. now rewrite <- app_assoc.
Qed.

Definition traced (ha hb : bool) (vs : list ev) (s : sys) : Prop := forall x,
  (ep_failing (s x) <> [] -> failed_send ha hb vs x) /\
  (forall t o, In (t, o) (ep_done (s x)) ->
    match o with OClosed _ => In (EFailAll x) vs | OSendFail _ => failed_send ha hb vs x | _ => True end).

Lemma process_failing : forall e m, ep_failing (process e m) = ep_failing e.
Proof.
  intros e m. unfold process, process_notification, resolve. destruct (classify m).
  - destruct (deser_request request0 m) as [[|] r].
    + destruct (ep_handler e); [easy|]. destruct (deser_notification notification0 m) as [[|] n]; easy.
    + destruct (deser_notification notification0 m) as [[|] n]; easy.
  - destruct (aget _ _); easy.
  - destruct (deser_notification notification0 m) as [[|] n]; easy.
  - destruct (deser_notification notification0 m) as [[|] n]; easy.
Qed.

Lemma traced_reachable : forall ha hb vs, traced ha hb vs (run (sys0 ha hb) vs).
Proof.
  intros ha hb vs. induction vs as [|v vs IH] using rev_ind; [intro x; cbn; now split|].
  rewrite run_app. cbn [run fold_left]. fold (run (sys0 ha hb) vs). set (s := run (sys0 ha hb) vs) in *.
  assert (traced ha hb (vs ++ [v]) s) as IH'.
  { intro x. destruct (IH x) as [A B]. split; [intro H; now apply failed_send_snoc, A|].
    intros t o Hi. specialize (B t o Hi). destruct o; auto; [apply in_or_app; now left|now apply failed_send_snoc]. }
  assert (forall x e, (ep_failing e <> [] -> failed_send ha hb (vs ++ [v]) x) ->
    (forall t o, In (t, o) (ep_done e) -> In (t, o) (ep_done (s x)) \/
       match o with OClosed _ => In (EFailAll x) (vs ++ [v]) | OSendFail _ => failed_send ha hb (vs ++ [v]) x | _ => True end) ->
    traced ha hb (vs ++ [v]) (upd s x e)) as U.
  { intros x e H1 H2 y. destruct (upd_cases s x e y) as [[-> E]|[-> E]]; rewrite E; [|apply IH'].
    split; [exact H1|]. intros t o Hi. destruct (H2 t o Hi) as [K|K]; [now apply IH' in K|exact K]. }
  assert (forall s x m, traced ha hb (vs ++ [v]) s -> traced ha hb (vs ++ [v]) (snd (send_to_peer s x m))) as Snd.
  { intros s0 x m O0 y. destruct (send_rest s0 x m y) as (_ & _ & _ & _ & E & _ & E2 & _). rewrite E, E2. apply O0. }
  destruct v as [x|x|x|x r|x k|x k|x n|x|x|x k h]; cbn [step].
  - apply U; [apply IH'|]. intros t o Hi. left. exact Hi.
  - apply U; [apply IH'|]. intros t o Hi. left. exact Hi.
  - apply U; [apply IH'|]. intros t o Hi. cbn in Hi. apply in_app_iff in Hi as [Hi|Hi]; [now left|]. right.
    apply in_map_iff in Hi as (kt & E & _). injection E as <- <-. apply in_or_app. right. now left.
  - apply U; unfold begin_request; destruct (final_id (ep_counter (s x)) (rq_id r)) as [i c]; cbn; [apply IH'|].
    intros t o Hi. apply in_app_iff in Hi as [Hi|Hi]; [now left|]. right.
    destruct (aget (id_key i) (ep_pend (s x))); [|destruct Hi]. destruct Hi as [Hi|[]]. now injection Hi as <- <-.
  - destruct (take_nth k (ep_out (s x))) as [[[t r] rest]|]; [|exact IH'].
    pose proof (Snd s x (ser_request r) IH') as O1.
    assert (fst (send_to_peer s x (ser_request r)) = ep_connected (s (other x))) as Es.
    { unfold send_to_peer. now destruct (ep_connected (s (other x))). }
    destruct (send_to_peer s x (ser_request r)) as [sent s1]. cbn [snd fst] in *.
    intro y. match goal with |- context [upd s1 x ?e] => destruct (upd_cases s1 x e y) as [[-> E]|[-> E]]; rewrite E end; [|apply O1].
    cbn. split; [|apply O1]. destruct sent; [apply O1|]. intros _. exists vs, k, []. split; [reflexivity|]. now symmetry.
  - destruct (take_nth k (ep_failing (s x))) as [[[t r] rest]|] eqn:E; [|exact IH'].
    apply take_nth_perm in E.
    assert (failed_send ha hb (vs ++ [EFailSend x k]) x) as F.
    { apply IH'. intro E0. rewrite E0 in E. now apply Permutation_nil in E. }
    apply U; [intro; exact F|]. intros t0 o Hi. destruct (aget (id_key (rq_id r)) (ep_pend (s x))); [|left; exact Hi].
    cbn in Hi. apply in_app_iff in Hi as [Hi|[Hi|[]]]; [now left|]. right. injection Hi as <- <-. exact F.
  - now apply Snd.
  - destruct (ep_connected (s x)); [|exact IH']. destruct (ep_current (s x)); [exact IH'|].
    destruct (ep_queue (s x)); [exact IH'|]. apply U; [apply IH'|]. intros t o Hi. left. exact Hi.
  - destruct (ep_current (s x)) as [m|]; [|exact IH']. apply U.
    + cbn. rewrite process_failing. apply IH'.
    + intros t o Hi. cbn in Hi. apply process_done in Hi as [Hi|(resp & ->)]; [left; exact Hi|now right].
  - destruct (take_nth k (ep_running (s x))) as [[r rest]|]; [|exact IH'].
    apply Snd. apply U; [apply IH'|]. intros t o Hi. left. exact Hi.
Qed.

Lemma for_cause : forall ha hb vs x t o,
  NoDup (issued_keys (run (sys0 ha hb) vs x)) ->
  In (t, o) (ep_done (run (sys0 ha hb) vs x)) ->
  exists r, In (t, r) (ep_issued (run (sys0 ha hb) vs x)) /\ cause ha hb vs x r o.
Proof.
  intros ha hb vs x t o Hn Hd. pose proof (table_reachable ha hb vs x) as TI.
  destruct (ti_done _ TI _ _ Hd) as (r & Hr & Hc). exists r. split; [exact Hr|].
  destruct (traced_reachable ha hb vs x) as [_ HT]. specialize (HT t o Hd).
  destruct o as [resp|resp|resp|]; cbn in *.
  - destruct Hc as (E & m & Hm & _ & D). split; [exact E|]. now exists m.
  - split; [exact HT|exact Hc].
  - split; [exact HT|]. destruct Hc as (r' & Hi & E & ->). apply in_map_iff in Hi as ([t' r''] & E2 & Hi). cbn in E2. subst r''.
    destruct (issued_unique _ _ _ _ _ TI Hn Hr Hi (eq_sym E)) as [_ ->]. reflexivity.
  - destruct Hc as (t' & r' & Hlt & Hi & E). destruct (issued_unique _ _ _ _ _ TI Hn Hr Hi (eq_sym E)) as [-> _]. lia.
Qed.

(** Every issued request is pending or done, never both, never twice. *)
Lemma at_most_once : forall ha hb vs x, NoDup (map fst (ep_done (run (sys0 ha hb) vs x))).
Proof.
  intros ha hb vs x. pose proof (ti_tickets _ (table_reachable ha hb vs x)) as P.
  assert (NoDup (map snd (ep_pend (run (sys0 ha hb) vs x)) ++ map fst (ep_done (run (sys0 ha hb) vs x)))) as N.
  { eapply Permutation_NoDup; [exact P|]. apply seq_NoDup. }
  clear P. induction (map snd (ep_pend (run (sys0 ha hb) vs x))) as [|a l IH]; [exact N|].
  inversion N. now apply IH.
Qed.

Lemma close_completes : forall ha hb vs1 vs2 vs3 x t r,
  In (t, r) (ep_issued (run (sys0 ha hb) vs1 x)) ->
  exists o, In (t, o) (ep_done (run (sys0 ha hb) (vs1 ++ EDisconnect x :: vs2 ++ EFailAll x :: vs3) x)) /\
    (In (t, o) (ep_done (run (sys0 ha hb) (vs1 ++ EDisconnect x :: vs2) x)) \/
     o = OClosed (closed_response (id_key (rq_id r)))).
Proof.
  intros ha hb vs1 vs2 vs3 x t r Hr.
  replace (vs1 ++ EDisconnect x :: vs2 ++ EFailAll x :: vs3) with ((vs1 ++ EDisconnect x :: vs2) ++ EFailAll x :: vs3)
    by (rewrite <- app_assoc; reflexivity).
  rewrite run_app. set (w := vs1 ++ EDisconnect x :: vs2). set (s := run (sys0 ha hb) w).
  pose proof (table_reachable ha hb w x) as TI. fold s in TI.
  assert (In (t, r) (ep_issued (s x))) as Hr2.
  { unfold s, w. rewrite run_app. eapply grows_issued; [apply grows_run|exact Hr]. }
  assert (In t (map fst (ep_issued (s x)))) as Ht by exact (in_map fst _ _ Hr2).
  rewrite (ti_issued _ TI) in Ht. eapply Permutation_in in Ht; [|exact (ti_tickets _ TI)].
  assert (exists o, In (t, o) (ep_done (step s (EFailAll x) x)) /\
    (In (t, o) (ep_done (s x)) \/ o = OClosed (closed_response (id_key (rq_id r))))) as (o & H1 & H2).
  { cbn [step]. rewrite upd_same. cbn. apply in_app_iff in Ht as [Ht|Ht].
    - apply in_map_iff in Ht as ([k t0] & E & Hp). cbn in E. subst t0.
      destruct (ti_pend _ TI _ _ Hp) as (r1 & Hr1 & ->).
      assert (r1 = r) as -> by (apply issued_fun with (s x) t; [exact TI|exact Hr1|exact Hr2]).
      exists (OClosed (closed_response (id_key (rq_id r)))). split; [|now right].
      apply in_or_app. right. apply in_map_iff. exists (id_key (rq_id r), t). split; [reflexivity|exact Hp].
    - apply in_map_iff in Ht as ([t0 o] & E & Hp). cbn in E. subst t0. exists o. split; [|now left].
      apply in_or_app. now left. }
  exists o. split; [|exact H2].
  change (run s (EFailAll x :: vs3)) with (run (step s (EFailAll x)) vs3).
  destruct (grows_run vs3 (step s (EFailAll x)) x) as (_ & (a & E) & _). rewrite E. apply in_or_app. now left.
Qed.

(** The processing loop, left to run, handles everything that was sent. *)
Definition turn (y : side) : list ev := [EPop y; EDispatch y].
Definition turns (y : side) (n : nat) : list ev := concat (repeat (turn y) n).

Lemma process_keep : forall e m, ep_connected (process e m) = ep_connected e /\ ep_processed (process e m) = ep_processed e.
Proof.
  intros e m. unfold process, process_notification, resolve. destruct (classify m).
  - destruct (deser_request request0 m) as [[|] r].
    + destruct (ep_handler e); [easy|]. destruct (deser_notification notification0 m) as [[|] n]; easy.
    + destruct (deser_notification notification0 m) as [[|] n]; easy.
  - destruct (aget _ _); easy.
  - destruct (deser_notification notification0 m) as [[|] n]; easy.
  - destruct (deser_notification notification0 m) as [[|] n]; easy.
Qed.

Lemma drain_turns : forall n s y, ep_connected (s y) = true -> ep_current (s y) = None -> length (ep_queue (s y)) = n ->
  ep_processed (run s (turns y n) y) = ep_processed (s y) ++ ep_queue (s y).
Proof.
  induction n as [|n IH]; intros s y Hc Hu Hl.
  - destruct (ep_queue (s y)); [|discriminate]. cbn. now rewrite app_nil_r.
  - destruct (ep_queue (s y)) as [|m q] eqn:Eq; [discriminate|]. injection Hl as Hl.
    unfold turns. cbn [repeat concat turn app]. fold (turns y n).
    change (run s (EPop y :: EDispatch y :: turns y n)) with (run (step (step s (EPop y)) (EDispatch y)) (turns y n)).
    cbn [step]. rewrite Hc, Hu, Eq, upd_same. cbn [ep_current set_current].
    set (e1 := set_current None (set_current (Some m) (set_queue q (s y)))).
    destruct (process_rest e1 m) as (_ & _ & P3 & P4 & _ & _). destruct (process_keep e1 m) as (P5 & P6).
    rewrite IH; rewrite upd_same; cbn [ep_connected ep_current ep_queue ep_processed log_processed].
    + rewrite P6, P3. cbn. now rewrite <- app_assoc.
    + rewrite P5. exact Hc.
    + rewrite P4. reflexivity.
    + rewrite P3. exact Hl.
Qed.

Lemma all_delivered : forall ha hb vs x, ep_connected (run (sys0 ha hb) vs (other x)) = true ->
  exists n, ep_processed (run (sys0 ha hb) (vs ++ EDispatch (other x) :: turns (other x) n) (other x)) =
            ep_sent (run (sys0 ha hb) vs x).
Proof.
  intros ha hb vs x Hc. pose proof (fifo_reachable ha hb vs x) as F. set (s := run (sys0 ha hb) vs) in *.
  exists (length (ep_queue (s (other x)))). rewrite run_app. fold s.
  change (run s (EDispatch (other x) :: turns (other x) (length (ep_queue (s (other x)))))) with
    (run (step s (EDispatch (other x))) (turns (other x) (length (ep_queue (s (other x)))))).
  rewrite F. cbn [step]. destruct (ep_current (s (other x))) as [m|] eqn:Ec.
  - set (e1 := set_current None (s (other x))).
    destruct (process_rest e1 m) as (_ & _ & P3 & P4 & _ & _). destruct (process_keep e1 m) as (P5 & P6).
    rewrite drain_turns; rewrite upd_same; cbn [ep_connected ep_current ep_queue ep_processed log_processed].
    + rewrite P6, P3. cbn. now rewrite <- app_assoc.
    + rewrite P5. exact Hc.
    + rewrite P4. reflexivity.
    + rewrite P3. reflexivity.
  - rewrite drain_turns; auto.
Qed.
