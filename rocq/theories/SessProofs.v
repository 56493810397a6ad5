From Coq Require Import Ascii String List Permutation Arith NArith ZArith Bool Lia ZifyBool ZifyNat ZifyN.
From Verif Require Import StrModel StrProofs DoubleModel JsonModel JsonSpec MapModel ObjSpec RpcModel TaskModel TaskSpec TaskProofs DescModel DescSpec DescProofs RegModel ValModel ValSpec ValProofs ReadModel SubModel LogModel ServModel ServSpec ServProofs CallProofs CallTaskProofs DispSpec DispProofs PeerModel PeerSpec PeerProofs CacheModel CacheSpec CacheProofs CancelModel SessModel SessSpec.
Import ListNotations.
Local Open Scope nat_scope.

(** ** Histories *)
Lemma host_snoc : forall l h e, host_run h (l ++ [e]) = host_step (host_run h l) e.
Proof. intros. unfold host_run. now rewrite fold_left_app. Qed.
Lemma host_app : forall l m h, host_run h (l ++ m) = host_run (host_run h l) m.
Proof. intros. unfold host_run. now rewrite fold_left_app. Qed.
Lemma dead_stays : forall m h, hh_dead h = true -> host_run h m = h.
Proof. induction m; intros h D; [reflexivity|]. cbn [host_run fold_left]. unfold host_step at 2. rewrite D. exact (IHm h D). Qed.
Lemma alive_before : forall l m h, hh_dead (host_run h (l ++ m)) = false -> hh_dead (host_run h l) = false.
Proof.
  intros l m h D. rewrite host_app in D. destruct (hh_dead (host_run h l)) eqn:E; [|reflexivity].
  rewrite (dead_stays m _ E) in D. congruence.
Qed.

Lemma send_wire : forall n h, hh_wire (send_note n h) = hh_wire h.
Proof. intros. unfold send_note. destruct (hh_wire h) as [[|]|] eqn:E; cbn; now rewrite ?E. Qed.
Lemma send_up : forall n h, hh_up (send_note n h) = hh_up h.
Proof. intros. unfold send_note. destruct (hh_wire h) as [[|]|] eqn:E; reflexivity. Qed.
Lemma send_sv : forall n h, hh_sv (send_note n h) = hh_sv h.
Proof. intros. unfold send_note. destruct (hh_wire h) as [[|]|] eqn:E; reflexivity. Qed.
Lemma tell_keeps : forall t h, hh_wire (do_tell t h) = hh_wire h /\ hh_up (do_tell t h) = hh_up h /\ hh_sv (do_tell t h) = hh_sv h.
Proof. intros. unfold do_tell. destruct (note_of (hh_sv h) t); [now rewrite send_wire, send_up, send_sv|auto]. Qed.
Lemma status_keeps : forall t h, hh_wire (do_status t h) = hh_wire h /\ hh_up (do_status t h) = hh_up h /\ hh_sv (do_status t h) = hh_sv h.
Proof. intros. unfold do_status. destruct (on_line h); auto. Qed.
Lemma reg_keeps : forall o h, hh_wire (do_reg o h) = hh_wire h /\ hh_up (do_reg o h) = hh_up h /\
  hh_sv (do_reg o h) = set_reg (reg_step (sv_reg (hh_sv h)) o) (hh_sv h).
Proof. intros. unfold do_reg. destruct (on_line h); [rewrite send_wire, send_up, send_sv|]; auto. Qed.
Lemma ask_keeps : forall w a b c q h, let h' := snd (do_ask w a b c q h) in
  hh_wire h' = hh_wire h /\ hh_up h' = hh_up h /\ hh_dead h' = hh_dead h /\ hh_seen h' = hh_seen h /\
  hh_sv h' = snd (dispatch (with_line (on_line h) w) a b c q (hh_sv h)).
Proof. intros. subst h'. unfold do_ask. destruct (dispatch _ _ _ _ _ _). cbn. auto. Qed.
Lemma hear_keeps : forall b n h, hh_wire (hear_note b n h) = hh_wire h /\ hh_sv (hear_note b n h) = hh_sv h /\ hh_dead (hear_note b n h) = hh_dead h.
Proof.
  intros. unfold hear_note. destruct (beq _ _); [auto|]. destruct (beq _ _); [|auto].
  destruct b; [|auto]. destruct (nt_params n); [|auto]. destruct (_ && _)%bool; auto.
Qed.

(** ** Wires *)
Lemma exists_last_or : forall {A : Type} (l : list A), l = [] \/ exists l' x, l = l' ++ [x].
Proof. intros A l. destruct l as [|a l]; [now left|]. right. destruct (@exists_last _ (a :: l)) as (l' & x & E); [discriminate|]. exists l', x. exact E. Qed.
Lemma wire_snoc : forall l e, has_wire (l ++ [e]) <-> has_wire l \/ exists ok, e = VStart ok.
Proof.
  intros. unfold has_wire. split.
  - intros [ok I]. apply in_app_or in I as [I|[->|[]]]; eauto.
  - intros [[ok I]|[ok ->]]; exists ok; apply in_or_app; [now left|right; now left].
Qed.
Lemma conn_snoc : forall l e, connected_after (l ++ [e]) <-> e = VStart true \/ (connected_after l /\ ~ touches_wire e).
Proof.
  intros. unfold connected_after. split.
  - intros (a & b & E & H). destruct (exists_last_or b) as [->|(b' & x & ->)].
    + apply app_inj_tail in E as [_ ->]. now left.
    + rewrite app_comm_cons, app_assoc in E. apply app_inj_tail in E as [-> ->]. right. split.
      * exists a, b'. split; [reflexivity|]. intros y I. apply H. apply in_or_app. now left.
      * apply H. apply in_or_app. right. now left.
  - intros [->|((a & b & -> & H) & N)].
    + exists l, []. split; [reflexivity|]. intros ? [].
    + exists a, (b ++ [e]). split; [now rewrite <- app_assoc|]. intros y I. apply in_app_or in I as [I|[<-|[]]]; auto.
Qed.
Lemma begun_snoc' : forall l e, begun_after (l ++ [e]) <-> begins_run e \/ (begun_after l /\ (e = VStop -> ~ has_wire l)).
Proof.
  intros. unfold begun_after. split.
  - intros (a & x & b & E & R & H). destruct (exists_last_or b) as [->|(b' & y & ->)].
    + apply app_inj_tail in E as [_ ->]. now left.
    + rewrite app_comm_cons, app_assoc in E. apply app_inj_tail in E as [-> ->]. right. split.
      * exists a, x, b'. split; [reflexivity|]. split; [exact R|]. intros u v ->. apply (H u (v ++ [y])). now rewrite <- app_assoc.
      * intros ->. apply (H b' []). reflexivity.
  - intros [R|((a & x & b & -> & R & H) & N)].
    + exists l, e, []. split; [reflexivity|]. split; [exact R|]. intros u v E. destruct u; discriminate.
    + exists a, x, (b ++ [e]). split; [now rewrite <- app_assoc|]. split; [exact R|]. intros u v E.
      destruct (exists_last_or v) as [->|(v' & y & ->)].
      * apply app_inj_tail in E as [<- ->]. now apply N.
      * rewrite app_comm_cons, app_assoc in E. apply app_inj_tail in E as [-> ->]. now apply (H u v').
Qed.

Lemma wire_has : forall l s, hh_dead (host_run (host0 s) l) = false -> (hh_wire (host_run (host0 s) l) <> None <-> has_wire l).
Proof.
  induction l as [|e l IH] using rev_ind; intros s D.
  - cbn. unfold has_wire. split; [congruence|intros [ok []]].
  - pose proof (alive_before _ _ _ D) as D'. specialize (IH s D'). rewrite wire_snoc, host_snoc.
    set (h := host_run (host0 s) l) in *. unfold host_step. rewrite D'.
    destruct e; cbn [do_start hh_set_wire hh_wire do_init hh_set_up hh_set_sv].
    + split; [right; now exists ok|discriminate].
    + unfold do_stop. destruct (hh_wire h) eqn:E; cbn [hh_set_wire hh_wire]; rewrite ?E; (split; [intros N; left; apply IH; congruence|]);
        intros [X|[ok X]]; try discriminate; apply IH in X; congruence.
    + destruct (hh_wire h) eqn:E; cbn [hh_set_wire hh_wire]; rewrite ?E; (split; [intros N; left; apply IH; congruence|]);
        intros [X|[ok X]]; try discriminate; apply IH in X; congruence.
    + destruct (ask_keeps w pre mid post q h) as (-> & _). rewrite IH. split; [tauto|]. intros [?|[? ?]]; [assumption|discriminate].
    + destruct (hear_keeps handler n h) as (-> & _). rewrite IH. split; [tauto|]. intros [?|[? ?]]; [assumption|discriminate].
    + rewrite IH. split; [tauto|]. intros [?|[? ?]]; [assumption|discriminate].
    + destruct (tell_keeps t h) as (-> & _). rewrite IH. split; [tauto|]. intros [?|[? ?]]; [assumption|discriminate].
    + destruct (status_keeps t h) as (-> & _). rewrite IH. split; [tauto|]. intros [?|[? ?]]; [assumption|discriminate].
    + destruct (reg_keeps o h) as (-> & _). rewrite IH. split; [tauto|]. intros [?|[? ?]]; [assumption|discriminate].
Qed.
Lemma wire_conn : forall l s, hh_dead (host_run (host0 s) l) = false -> (hh_wire (host_run (host0 s) l) = Some true <-> connected_after l).
Proof.
  induction l as [|e l IH] using rev_ind; intros s D.
  - cbn. split; [discriminate|]. intros (a & b & E & _). destruct a; discriminate.
  - pose proof (alive_before _ _ _ D) as D'. specialize (IH s D'). rewrite conn_snoc, host_snoc.
    set (h := host_run (host0 s) l) in *. unfold host_step. rewrite D'.
    destruct e; cbn [do_start hh_set_wire hh_wire do_init hh_set_up hh_set_sv touches_wire].
    + split; [intros [= ->]; now left|]. intros [[= ->]|[_ []]]; [reflexivity|exact I].
    + unfold do_stop. destruct (hh_wire h) eqn:E; cbn; rewrite ?E; split; try discriminate; intros [?|[_ []]]; try discriminate; exact I.
    + destruct (hh_wire h) eqn:E; cbn; rewrite ?E; split; try discriminate; intros [?|[_ []]]; try discriminate; exact I.
    + destruct (ask_keeps w pre mid post q h) as (-> & _). rewrite IH. split; [tauto|]. intros [?|[? ?]]; [discriminate|assumption].
    + destruct (hear_keeps handler n h) as (-> & _). rewrite IH. split; [tauto|]. intros [?|[? ?]]; [discriminate|assumption].
    + rewrite IH. split; [tauto|]. intros [?|[? ?]]; [discriminate|assumption].
    + destruct (tell_keeps t h) as (-> & _). rewrite IH. split; [tauto|]. intros [?|[? ?]]; [discriminate|assumption].
    + destruct (status_keeps t h) as (-> & _). rewrite IH. split; [tauto|]. intros [?|[? ?]]; [discriminate|assumption].
    + destruct (reg_keeps o h) as (-> & _). rewrite IH. split; [tauto|]. intros [?|[? ?]]; [discriminate|assumption].
Qed.
Lemma hear_up : forall b n h, hh_up (hear_note b n h) = true <-> nt_method n = bs "notifications/initialized" \/ hh_up h = true.
Proof.
  intros. unfold hear_note. destruct (beq (nt_method n) (bs "notifications/initialized")) eqn:E.
  - apply beq_eq in E. cbn. tauto.
  - assert (N : nt_method n <> bs "notifications/initialized") by (intros X; rewrite X, beq_refl in E; discriminate).
    assert (K : hh_up h = true <-> nt_method n = bs "notifications/initialized" \/ hh_up h = true).
    { split; [now right|]. intros [X|X]; [elim (N X)|exact X]. }
    destruct (beq (nt_method n) (bs "notifications/tasks/status")); [|exact K]. destruct b; [|exact K]. destruct (nt_params n); [|exact K]. destruct (_ && _)%bool; exact K.
Qed.
Lemma up_begun : forall l s, hh_dead (host_run (host0 s) l) = false -> (hh_up (host_run (host0 s) l) = true <-> begun_after l).
Proof.
  induction l as [|e l IH] using rev_ind; intros s D.
  - cbn. split; [discriminate|]. intros (a & x & b & E & _). destruct a; discriminate.
  - pose proof (alive_before _ _ _ D) as D'. specialize (IH s D'). pose proof (wire_has l s D') as W. rewrite begun_snoc', host_snoc.
    set (h := host_run (host0 s) l) in *. unfold host_step. rewrite D'.
    assert (R : forall P : Prop, ~ begins_run e -> e <> VStop -> (P <-> begun_after l) -> (P <-> begins_run e \/ (begun_after l /\ (e = VStop -> ~ has_wire l)))).
    { intros P N S HP. rewrite HP. split; [intros B; right; split; [exact B|intros X; now elim S]|]. intros [B|[B _]]; [now elim N|exact B]. }
    assert (NR : (forall c, e <> VInit c) -> (forall b n, e <> VNote b n) -> ~ begins_run e).
    { intros N1 N2 [[c X]|(b & n & X & _)]; [now apply (N1 c)|now apply (N2 b n)]. }
    destruct e; cbn [do_start hh_set_wire hh_up do_init hh_set_up hh_set_sv].
    + apply R; [apply NR; discriminate|discriminate|exact IH].
    + unfold do_stop. split.
      * destruct (hh_wire h) eqn:E; [cbn; discriminate|]. intros U. right. split; [now apply IH|]. intros _ X. apply W in X. congruence.
      * intros [B|[B X]]; [elim (NR ltac:(discriminate) ltac:(discriminate) B)|]. specialize (X eq_refl). destruct (hh_wire h) eqn:E; [elim X; apply W; discriminate|now apply IH].
    + apply R; [apply NR; discriminate|discriminate|]. destruct (hh_wire h); exact IH.
    + apply R; [apply NR; discriminate|discriminate|]. destruct (ask_keeps w pre mid post q h) as (_ & -> & _). exact IH.
    + rewrite hear_up, IH. split.
      * intros [M|B]; [left; right; exists handler, n; split; [reflexivity|exact M]|right; split; [exact B|discriminate]].
      * intros [[[c X]|(b & n' & [= -> ->] & M)]|[B _]]; [discriminate|now left|now right].
    + split; [intros _; left; left; now exists c|reflexivity].
    + apply R; [apply NR; discriminate|discriminate|]. destruct (tell_keeps t h) as (_ & -> & _). exact IH.
    + apply R; [apply NR; discriminate|discriminate|]. destruct (status_keeps t h) as (_ & -> & _). exact IH.
    + apply R; [apply NR; discriminate|discriminate|]. destruct (reg_keeps o h) as (_ & -> & _). exact IH.
Qed.

Lemma running_iff : forall s l, let h := host_run (host0 s) l in hh_dead h = false ->
  (is_running h = true <-> begun_after l /\ (has_wire l -> connected_after l)).
Proof.
  intros s l h D. pose proof (wire_has l s D) as W. pose proof (wire_conn l s D) as C. pose proof (up_begun l s D) as U. fold h in W, C, U.
  unfold is_running. rewrite andb_true_iff, U, <- W, <- C. destruct (hh_wire h) as [[|]|]; split; intros [A B]; split; auto; try congruence.
  assert (X : Some false = Some true) by (apply B; discriminate). discriminate.
Qed.

Lemma own_down : forall l h, hh_up h = false -> Forall own_client l -> hh_up (host_run h l) = false.
Proof.
  induction l as [|e l IH]; intros h U F; [exact U|]. inversion F as [|? ? O F' E1]; subst. cbn [host_run fold_left]. apply IH; [|exact F'].
  unfold host_step. destruct (hh_dead h); [exact U|]. destruct e; cbn [do_start hh_set_wire hh_up do_init hh_set_up hh_set_sv] in *; try contradiction; auto.
  - unfold do_stop. destruct (hh_wire h); [reflexivity|exact U].
  - destruct (hh_wire h); exact U.
  - destruct (ask_keeps w pre mid post q h) as (_ & -> & _). exact U.
  - destruct O as [c ->]. destruct (hh_up (hear_note handler (client_note c) h)) eqn:X; [|reflexivity].
    apply hear_up in X as [X|X]; [|congruence]. destruct c; discriminate.
  - destruct (tell_keeps t h) as (_ & -> & _). exact U.
  - destruct (status_keeps t h) as (_ & -> & _). exact U.
  - destruct (reg_keeps o h) as (_ & -> & _). exact U.
Qed.
Lemma own_never_running : forall s l, Forall own_client l -> is_running (host_run (host0 s) l) = false.
Proof. intros. unfold is_running. now rewrite (own_down l (host0 s) eq_refl H). Qed.

(** ** Null transports *)
Lemma stop_wire : forall h, hh_wire (do_stop h) = None <-> hh_wire h = None.
Proof. intros. unfold do_stop. destruct (hh_wire h) eqn:E; [cbn; split; discriminate|now rewrite E]. Qed.
Lemma safe_run : forall s l, wired_first l -> hh_dead (host_run (host0 s) l) = false.
Proof.
  intros s l. induction l as [|e l IH] using rev_ind; intros W; [reflexivity|].
  assert (W' : wired_first l). { intros a t b ->. apply (W a t (b ++ [e])). now rewrite <- app_assoc. }
  specialize (IH W'). rewrite host_snoc. pose proof (wire_has l s IH) as HW. set (h := host_run (host0 s) l) in *.
  unfold host_step. rewrite IH. destruct e; cbn [do_start hh_set_wire hh_dead do_init hh_set_up hh_set_sv]; auto.
  - unfold do_stop. destruct (hh_wire h); exact IH.
  - destruct (hh_wire h); exact IH.
  - destruct (ask_keeps w pre mid post q h) as (_ & _ & -> & _). exact IH.
  - destruct (hear_keeps handler n h) as (_ & _ & ->). exact IH.
  - assert (X : has_wire l) by (apply (W l t []); reflexivity). apply HW in X. unfold do_tell. destruct (note_of (hh_sv h) t); [|exact IH].
    unfold send_note. destruct (hh_wire h) as [[|]|]; [exact IH|exact IH|now elim X].
  - unfold do_status. destruct (on_line h); exact IH.
  - unfold do_reg. destruct (on_line h) eqn:E; [|exact IH]. unfold send_note. unfold on_line in E. cbn [hh_set_sv hh_wire].
    destruct (hh_wire h) as [[|]|]; [exact IH|exact IH|discriminate].
Qed.
Lemma unwired_dies : forall s l t, hh_dead (host_run (host0 s) l) = false -> ~ has_wire l -> unfiltered t ->
  hh_dead (host_run (host0 s) (l ++ [VTell t])) = true.
Proof.
  intros s l t D N U. rewrite host_snoc. pose proof (wire_has l s D) as HW. set (h := host_run (host0 s) l) in *.
  unfold host_step. rewrite D. assert (E : hh_wire h = None). { destruct (hh_wire h); [|reflexivity]. elim N. apply HW. discriminate. }
  unfold do_tell. assert (exists n, note_of (hh_sv h) t = Some n) as [n ->].
  { destruct t; cbn [note_of unfiltered] in *; eauto; [contradiction|]. destruct U as [-> | ->].
    - change (level_of (bs "error")) with LError. unfold suppressed. cbn [negb]. rewrite andb_false_r. eauto.
    - change (level_of (bs "ERROR")) with LError. unfold suppressed. cbn [negb]. rewrite andb_false_r. eauto. }
  unfold send_note. now rewrite E.
Qed.

(** ** One client after the other *)
Lemma tool_rest : forall w mid p s, let s' := snd (handle_tool w mid p s) in
  sv_strict s' = sv_strict s /\ sv_name s' = sv_name s /\ sv_caps s' = sv_caps s /\ sv_client s' = sv_client s.
Proof.
  intros w mid p s. cbn zeta. unfold handle_tool.
  repeat match goal with |- context[match ?b with _ => _ end] => destruct b end; now repeat split.
Qed.
Lemma cancel_rest : forall w p s, let s' := snd (handle_cancel_task w p s) in
  sv_strict s' = sv_strict s /\ sv_name s' = sv_name s /\ sv_caps s' = sv_caps s /\ sv_client s' = sv_client s.
Proof.
  intros w p s. cbn zeta. unfold handle_cancel_task.
  repeat match goal with |- context[match ?b with _ => _ end] => destruct b end; now repeat split.
Qed.
Lemma dispatch_rest : forall w pre mid post q s, let s' := snd (dispatch w pre mid post q s) in
  sv_strict s' = sv_strict s /\ sv_name s' = sv_name s /\ sv_caps s' = sv_caps s /\
  sv_client s' = (if beq (rq_method q) (bs "initialize") then match read_ccaps (rq_params q) with Some c => c | None => sv_client s end else sv_client s).
Proof.
  intros w pre mid post q s. cbv zeta. unfold dispatch.
  repeat match goal with
  | |- context[if beq (rq_method q) ?x then _ else _] =>
      let E := fresh "E" in destruct (beq (rq_method q) x) eqn:E;
        [apply beq_eq in E; rewrite E; methods; cbn [andb]|]
  end; try (now repeat split).
  all: try solve [destruct (set_level (rq_params q)) as [[c msg]|l]; now repeat split].
  all: try solve [destruct pre; now repeat split].
  - pose proof (cancel_rest w (rq_params q) s) as H. destruct (handle_cancel_task w (rq_params q) s) as [v s1]. exact H.
  - pose proof (tool_rest w mid (rq_params q) s) as H. destruct (handle_tool w mid (rq_params q) s) as [v s1]. exact H.
  - destruct (beq (rq_method q) (bs "initialize")); [|now repeat split].
    unfold handle_initialize. destruct (read_ccaps (rq_params q)); destruct (w_connected w); now repeat split.
Qed.

(** The servers differ at most in tasks, subscriptions, level and what was announced. *)
Definition alike (a b : server) : Prop :=
  sv_strict a = sv_strict b /\ sv_name a = sv_name b /\ sv_caps a = sv_caps b /\ sv_client a = sv_client b /\ sv_reg a = sv_reg b.
Lemma dispatch_alike : forall w pre mid post q a b, alike a b -> alike (snd (dispatch w pre mid post q a)) (snd (dispatch w pre mid post q b)).
Proof.
  intros w pre mid post q a b (A & B & C & D & E).
  pose proof (dispatch_rest w pre mid post q a) as (A1 & B1 & C1 & D1). pose proof (dispatch_rest w pre mid post q b) as (A2 & B2 & C2 & D2).
  pose proof (dispatch_changes w pre mid post q a) as (_ & _ & _ & E1). pose proof (dispatch_changes w pre mid post q b) as (_ & _ & _ & E2).
  unfold alike. rewrite A1, A2, B1, B2, C1, C2, D1, D2, E1, E2, D. now repeat split.
Qed.
Lemma no_task_meta : forall q, ~ task_request q -> fst (parse_metadata (rq_params q) None) = false.
Proof.
  intros q N. unfold parse_metadata. destruct (rq_params q) as [[| | | | | |o]|] eqn:P; try reflexivity.
  destruct (obj_get (bs "task") o) as [[| | | | | |t]|] eqn:T; try reflexivity. elim N. exists o, t. now split.
Qed.
Lemma tool_same : forall w mid p a b, fst (parse_metadata p None) = false -> alike a b -> fst (handle_tool w mid p a) = fst (handle_tool w mid p b).
Proof.
  intros w mid p a b T (A & _ & _ & _ & R). unfold handle_tool. destruct (parse_metadata p None) as [t ttl]. cbn [fst] in T. subst t. cbn [negb andb].
  rewrite A, R. repeat match goal with |- context[match ?b with _ => _ end] => destruct b end; reflexivity.
Qed.
Lemma dispatch_same : forall w pre mid post q a b, no_tasks q -> alike a b -> fst (dispatch w pre mid post q a) = fst (dispatch w pre mid post q b).
Proof.
  intros w pre mid post q a b [N T] A. apply no_task_meta in T. unfold dispatch.
  repeat match goal with
  | |- context[if beq (rq_method q) ?x then _ else _] =>
      let E := fresh "E" in destruct (beq (rq_method q) x) eqn:E; [apply beq_eq in E|]
  end; try solve [destruct a, b; unfold alike in A; cbn in A; destruct A as (-> & -> & -> & -> & ->); reflexivity];
    try solve [exfalso; apply N; match goal with H : rq_method q = _ |- _ => rewrite H end; cbn [In]; repeat (first [left; reflexivity|right])].
  - unfold handle_initialize. destruct a, b. unfold alike in A. cbn in A. destruct A as (-> & -> & -> & -> & ->). destruct (read_ccaps (rq_params q)); reflexivity.
  - destruct (set_level (rq_params q)) as [[c msg]|l]; reflexivity.
  - pose proof (tool_same w mid (rq_params q) _ _ T A) as H. destruct (handle_tool _ _ _ a). destruct (handle_tool _ _ _ b). cbn [fst] in *. subst. reflexivity.
  - destruct pre; [reflexivity|]. destruct a, b. unfold alike in A. cbn in A. destruct A as (-> & -> & -> & -> & ->). reflexivity.
Qed.

Definition in_step (a b : host) : Prop :=
  alike (hh_sv a) (hh_sv b) /\ hh_wire a = hh_wire b /\ hh_wire a <> None /\ hh_dead a = false /\ hh_dead b = false.
Lemma step_alive : forall h e, hh_wire h <> None -> hh_dead h = false -> hh_wire (host_step h e) <> None /\ hh_dead (host_step h e) = false.
Proof.
  intros h e W D. unfold host_step. rewrite D. destruct e; cbn [do_start hh_set_wire hh_dead hh_wire do_init hh_set_up hh_set_sv]; auto.
  - split; [discriminate|exact D].
  - unfold do_stop. destruct (hh_wire h) eqn:E; [split; [discriminate|exact D]|now elim W].
  - destruct (hh_wire h) eqn:E; [split; [discriminate|exact D]|now elim W].
  - destruct (ask_keeps w pre mid post q h) as (-> & _ & -> & _). now split.
  - destruct (hear_keeps handler n h) as (-> & _ & ->). now split.
  - destruct (tell_keeps t h) as (-> & _). split; [exact W|]. unfold do_tell. destruct (note_of (hh_sv h) t); [|exact D].
    unfold send_note. destruct (hh_wire h) as [[|]|]; [exact D|exact D|now elim W].
  - destruct (status_keeps t h) as (-> & _). split; [exact W|]. unfold do_status. destruct (on_line h); exact D.
  - destruct (reg_keeps o h) as (-> & _). split; [exact W|]. unfold do_reg. destruct (on_line h); [|exact D].
    unfold send_note. cbn [hh_set_sv hh_wire]. destruct (hh_wire h) as [[|]|]; [exact D|exact D|now elim W].
Qed.
Lemma in_step_step : forall a b e, in_step a b -> in_step (host_step a e) (host_step b e).
Proof.
  intros a b e (A & W & N & Da & Db). destruct (step_alive a e N Da) as [N1 D1].
  destruct (step_alive b e ltac:(now rewrite <- W) Db) as [N2 D2].
  assert (alike (hh_sv (host_step a e)) (hh_sv (host_step b e)) /\ hh_wire (host_step a e) = hh_wire (host_step b e)) as [X Y].
  { unfold host_step. rewrite Da, Db. destruct e; cbn [do_start hh_set_wire hh_wire hh_sv do_init hh_set_up hh_set_sv]; auto.
    - unfold do_stop. rewrite <- W. destruct (hh_wire a) eqn:E; [split; [exact A|reflexivity]|now elim N].
    - rewrite <- W. destruct (hh_wire a) eqn:E; [split; [exact A|reflexivity]|now elim N].
    - destruct (ask_keeps w pre mid post q a) as (-> & _ & _ & _ & ->). destruct (ask_keeps w pre mid post q b) as (-> & _ & _ & _ & ->).
      split; [|exact W]. unfold on_line. rewrite W. now apply dispatch_alike.
    - destruct (hear_keeps handler n a) as (-> & -> & _). destruct (hear_keeps handler n b) as (-> & -> & _). now split.
    - split; [|exact W]. destruct A as (A1 & A2 & A3 & A4 & A5). repeat split; cbn; assumption.
    - destruct (tell_keeps t a) as (-> & _ & ->). destruct (tell_keeps t b) as (-> & _ & ->). now split.
    - destruct (status_keeps t a) as (-> & _ & ->). destruct (status_keeps t b) as (-> & _ & ->). now split.
    - destruct (reg_keeps o a) as (-> & _ & ->). destruct (reg_keeps o b) as (-> & _ & ->). split; [|exact W].
      destruct A as (A1 & A2 & A3 & A4 & A5). unfold alike, set_reg. cbn. rewrite A5. now repeat split. }
  exact (conj X (conj Y (conj N1 (conj D1 D2)))).
Qed.
Lemma in_step_run : forall m a b, in_step a b -> in_step (host_run a m) (host_run b m).
Proof. induction m as [|e m IH]; intros a b I; [exact I|]. cbn [host_run fold_left]. apply IH. now apply in_step_step. Qed.

Lemma host_fixed : forall l s, hh_dead (host_run (host0 s) l) = false -> let s' := hh_sv (host_run (host0 s) l) in
  sv_strict s' = sv_strict s /\ sv_name s' = sv_name s /\ sv_caps s' = sv_caps s /\ sv_reg s' = fold_left reg_step (registrations l) (sv_reg s).
Proof.
  induction l as [|e l IH] using rev_ind; intros s D; [now repeat split|].
  pose proof (alive_before _ _ _ D) as D'. specialize (IH s D'). cbv zeta in *. rewrite host_snoc. unfold registrations in *. rewrite flat_map_app, fold_left_app.
  set (h := host_run (host0 s) l) in *. unfold host_step. rewrite D'. destruct IH as (A & B & C & R).
  destruct e; cbn [do_start hh_set_wire hh_sv do_init hh_set_up hh_set_sv flat_map fold_left Datatypes.app]; try (now repeat split).
  - unfold do_stop. destruct (hh_wire h); now repeat split.
  - destruct (hh_wire h); now repeat split.
  - destruct (ask_keeps w pre mid post q h) as (_ & _ & _ & _ & ->).
    pose proof (dispatch_rest (with_line (on_line h) w) pre mid post q (hh_sv h)) as (-> & -> & -> & _).
    pose proof (dispatch_changes (with_line (on_line h) w) pre mid post q (hh_sv h)) as (_ & _ & _ & ->). now repeat split.
  - destruct (hear_keeps handler n h) as (_ & -> & _). now repeat split.
  - destruct (tell_keeps t h) as (_ & _ & ->). now repeat split.
  - destruct (status_keeps t h) as (_ & _ & ->). now repeat split.
  - destruct (reg_keeps o h) as (_ & _ & ->). cbn. rewrite R. now repeat split.
Qed.

Lemma sessions_same : forall s l1 l2 w0 x y z q0 m w a b c q,
  hh_dead (host_run (host0 s) l1) = false -> hh_dead (host_run (host0 s) l2) = false ->
  registrations l1 = registrations l2 -> introduces q0 -> no_tasks q ->
  fst (do_ask w a b c q (host_run (host0 s) (l1 ++ VStart true :: VAsk w0 x y z q0 :: m))) =
  fst (do_ask w a b c q (host_run (host0 s) (l2 ++ VStart true :: VAsk w0 x y z q0 :: m))).
Proof.
  intros s l1 l2 w0 x y z q0 m w a b c q D1 D2 R (M & o & k & P & K) N.
  change (VStart true :: VAsk w0 x y z q0 :: m) with ([VStart true; VAsk w0 x y z q0] ++ m). rewrite !app_assoc, !(host_app _ m), !(host_app _ [_; _]).
  pose proof (host_fixed l1 s D1) as (A1 & B1 & C1 & R1). pose proof (host_fixed l2 s D2) as (A2 & B2 & C2 & R2).
  set (h1 := host_run (host0 s) l1) in *. set (h2 := host_run (host0 s) l2) in *.
  assert (I : in_step (host_run h1 [VStart true; VAsk w0 x y z q0]) (host_run h2 [VStart true; VAsk w0 x y z q0])).
  { assert (Z : forall h, hh_dead h = false -> host_run h [VStart true; VAsk w0 x y z q0] = snd (do_ask w0 x y z q0 (do_start true h))).
    { intros h D. cbn [host_run fold_left]. unfold host_step at 2. rewrite D. unfold host_step. change (hh_dead (do_start true h)) with (hh_dead h). now rewrite D. }
    rewrite (Z h1 D1), (Z h2 D2).
    set (g1 := do_start true h1). set (g2 := do_start true h2).
    destruct (ask_keeps w0 x y z q0 g1) as (W1 & _ & E1 & _ & S1). destruct (ask_keeps w0 x y z q0 g2) as (W2 & _ & E2 & _ & S2).
    unfold in_step. rewrite W1, W2, E1, E2, S1, S2. split; [|split; [reflexivity|split; [discriminate|split; [exact D1|exact D2]]]].
    change (on_line g1) with true. change (on_line g2) with true. change (hh_sv g1) with (hh_sv h1). change (hh_sv g2) with (hh_sv h2).
    pose proof (dispatch_rest (with_line true w0) x y z q0 (hh_sv h1)) as (F1 & F2 & F3 & F4). pose proof (dispatch_rest (with_line true w0) x y z q0 (hh_sv h2)) as (G1 & G2 & G3 & G4).
    pose proof (dispatch_changes (with_line true w0) x y z q0 (hh_sv h1)) as (_ & _ & _ & F5). pose proof (dispatch_changes (with_line true w0) x y z q0 (hh_sv h2)) as (_ & _ & _ & G5).
    unfold alike. rewrite F1, F2, F3, F4, F5, G1, G2, G3, G4, G5, A1, A2, B1, B2, C1, C2, R1, R2, R, M, P, beq_refl.
    repeat (split; [reflexivity|]). unfold read_ccaps. cbn [as_obj]. rewrite K. cbn [as_obj]. now split. }
  apply (in_step_run m) in I. set (u := host_run (host_run h1 _) m) in *. set (v := host_run (host_run h2 _) m) in *.
  destruct I as (A & W & _). unfold do_ask. pose proof (dispatch_same (with_line (on_line u) w) a b c q _ _ N A) as X.
  assert (L : on_line u = on_line v) by (unfold on_line; now rewrite W). rewrite L in *.
  destruct (dispatch _ _ _ _ _ (hh_sv u)). destruct (dispatch _ _ _ _ _ (hh_sv v)). exact X.
Qed.

(** What a new session inherits. *)
Lemma session_is : forall h w x y z q, hh_dead h = false ->
  host_run h (session w x y z q) = snd (do_ask w x y z q (do_start true (do_stop h))).
Proof.
  intros h w x y z q D. unfold session. cbn [host_run fold_left]. unfold host_step at 3. rewrite D.
  assert (D1 : hh_dead (do_stop h) = false) by (unfold do_stop; destruct (hh_wire h); exact D).
  unfold host_step at 2. rewrite D1. unfold host_step. change (hh_dead (do_start true (do_stop h))) with (hh_dead (do_stop h)). now rewrite D1.
Qed.
Lemma stop_sv : forall h, hh_sv (do_stop h) = hh_sv h.
Proof. intros. unfold do_stop. now destruct (hh_wire h). Qed.
Lemma init_tasks : forall w x y z q s, rq_method q = bs "initialize" -> sv_tasks (snd (dispatch w x y z q s)) = sv_tasks s.
Proof.
  intros w x y z q s M. unfold dispatch. rewrite M. methods. unfold handle_initialize.
  destruct (read_ccaps (rq_params q)); destruct (w_connected w); reflexivity.
Qed.
(** After the initialize request of a new client: tasks, subscriptions and level are as they were. *)
Lemma session_keeps : forall h w x y z q, hh_dead h = false -> rq_method q = bs "initialize" ->
  let h' := host_run h (session w x y z q) in
  hh_dead h' = false /\ hh_wire h' = Some true /\
  sv_strict (hh_sv h') = sv_strict (hh_sv h) /\ sv_name (hh_sv h') = sv_name (hh_sv h) /\ sv_caps (hh_sv h') = sv_caps (hh_sv h) /\ sv_reg (hh_sv h') = sv_reg (hh_sv h) /\
  sv_tasks (hh_sv h') = sv_tasks (hh_sv h) /\ sv_subs (hh_sv h') = sv_subs (hh_sv h) /\ sv_level (hh_sv h') = sv_level (hh_sv h) /\
  sv_client (hh_sv h') = match read_ccaps (rq_params q) with Some c => c | None => sv_client (hh_sv h) end.
Proof.
  intros h w x y z q D M h'. subst h'. rewrite (session_is _ _ _ _ _ _ D). set (g := do_start true (do_stop h)).
  assert (G : hh_sv g = hh_sv h) by (unfold g; cbn; apply stop_sv).
  destruct (ask_keeps w x y z q g) as (-> & _ & -> & _ & ->). rewrite G.
  pose proof (dispatch_rest (with_line (on_line g) w) x y z q (hh_sv h)) as (A & B & C & E). rewrite M, beq_refl in E.
  pose proof (dispatch_changes (with_line (on_line g) w) x y z q (hh_sv h)) as (S & L & _ & R). rewrite M in S, L.
  pose proof (init_tasks (with_line (on_line g) w) x y z q (hh_sv h) M) as T. revert S L. methods. intros S L.
  repeat split; try assumption. unfold g. cbn. unfold do_stop. destruct (hh_wire h); exact D.
Qed.
Lemma task_method_same : forall w w' x y z q a b, w_now w = w_now w' ->
  In (rq_method q) [bs "tasks/get"; bs "tasks/list"; bs "tasks/result"; bs "tasks/cancel"] ->
  sv_strict a = sv_strict b -> sv_caps a = sv_caps b -> sv_tasks a = sv_tasks b ->
  fst (dispatch w x y z q a) = fst (dispatch w' x y z q b).
Proof.
  intros w w' x y z q a b W I A C T. unfold dispatch. destruct I as [E|[E|[E|[E|[]]]]]; rewrite <- E; methods.
  - unfold handle_get_task, strict_task. now rewrite A, T.
  - unfold handle_list_tasks. now rewrite A, T.
  - unfold handle_task_result. now rewrite A, T.
  - unfold handle_cancel_task, strict_task. rewrite A, C, T, W. destruct (negb _); [reflexivity|]. destruct (parse_task_id _) as [[|] i]; [|reflexivity].
    destruct (ts_terminal _ _) as [[] ?]; reflexivity.
Qed.
Lemma ask_fst : forall w x y z q h, fst (do_ask w x y z q h) = fst (dispatch (with_line (on_line h) w) x y z q (hh_sv h)).
Proof. intros. unfold do_ask. now destruct (dispatch _ _ _ _ _ _). Qed.
Lemma tasks_shared : forall h w0 x0 y0 z0 q0 w x y z q, hh_dead h = false -> rq_method q0 = bs "initialize" ->
  In (rq_method q) [bs "tasks/get"; bs "tasks/list"; bs "tasks/result"; bs "tasks/cancel"] ->
  fst (do_ask w x y z q (host_run h (session w0 x0 y0 z0 q0))) = fst (do_ask w x y z q h).
Proof.
  intros h w0 x0 y0 z0 q0 w x y z q D M I. destruct (session_keeps h w0 x0 y0 z0 q0 D M) as (_ & _ & A & _ & C & _ & T & _). cbv zeta in *.
  rewrite !ask_fst. apply task_method_same; auto.
Qed.
Lemma note_same : forall t a b, sv_subs a = sv_subs b -> sv_level a = sv_level b -> note_of a t = note_of b t.
Proof. intros [] a b S L; cbn [note_of]; rewrite ?S, ?L; reflexivity. Qed.
Lemma tell_out : forall t h, hh_dead h = false -> hh_wire h = Some true ->
  hh_out (host_step h (VTell t)) = hh_out h ++ match note_of (hh_sv h) t with Some n => [n] | None => [] end.
Proof.
  intros t h D W. unfold host_step. rewrite D. unfold do_tell. destruct (note_of (hh_sv h) t); [|now rewrite app_nil_r].
  unfold send_note. now rewrite W.
Qed.
Lemma told_shared : forall h w x y z q t, hh_dead h = false -> hh_wire h = Some true -> rq_method q = bs "initialize" ->
  let h' := host_run h (session w x y z q) in
  exists ns, hh_out (host_step h (VTell t)) = hh_out h ++ ns /\ hh_out (host_step h' (VTell t)) = hh_out h' ++ ns.
Proof.
  intros h w x y z q t D W M h'. destruct (session_keeps h w x y z q D M) as (D' & W' & _ & _ & _ & _ & _ & S & L & _). fold h' in D', W', S, L.
  eexists. split; [now apply tell_out|]. rewrite (tell_out t h' D' W'). now rewrite (note_same t _ _ S L).
Qed.
Lemma caps_shared : forall h w0 x0 y0 z0 q0 w x y z q, hh_dead h = false -> rq_method q0 = bs "initialize" -> ~ introduces q0 -> no_tasks q ->
  on_line h = true -> fst (do_ask w x y z q (host_run h (session w0 x0 y0 z0 q0))) = fst (do_ask w x y z q h).
Proof.
  intros h w0 x0 y0 z0 q0 w x y z q D M N Q O. destruct (session_keeps h w0 x0 y0 z0 q0 D M) as (_ & W & A & B & C & R & _ & _ & _ & K). cbv zeta in *.
  rewrite !ask_fst. unfold on_line at 1. rewrite W, O. apply dispatch_same; [exact Q|]. unfold alike. rewrite A, B, C, R, K.
  assert (X : read_ccaps (rq_params q0) = None).
  { unfold read_ccaps. destruct (rq_params q0) as [[| | | | | |o]|] eqn:P; try reflexivity. cbn [as_obj].
    destruct (obj_get (bs "capabilities") o) as [[| | | | | |k]|] eqn:G; try reflexivity. elim N. split; [exact M|]. exists o, k. now split. }
  rewrite X. now repeat split.
Qed.

(** ** A client from connection to connection *)
Lemma krun_snoc : forall h k e, krun k (h ++ [e]) = kstep (krun k h) e.
Proof. intros. unfold krun. now rewrite fold_left_app. Qed.
Lemma krun_app : forall h g k, krun k (h ++ g) = krun (krun k h) g.
Proof. intros. unfold krun. now rewrite fold_left_app. Qed.
Lemma krun_lists : forall h k, kc_lists (krun k h) = lrun (kc_lists k) (lists_in h).
Proof.
  induction h as [|e h IH] using rev_ind; intros k; [reflexivity|]. rewrite krun_snoc. unfold lists_in in *. rewrite flat_map_app, CacheProofs.lrun_app, <- IH.
  destruct e; try reflexivity. cbn [kstep]. destruct r as [[i [v|] [w|]]|]; reflexivity.
Qed.
Lemma krun_conn : forall h k, kc_conn (krun k h) = kc_conn k + connections h.
Proof.
  induction h as [|e h IH] using rev_ind; intros k; [cbn; lia|]. rewrite krun_snoc. unfold connections in *. rewrite filter_app, app_length, Nat.add_assoc, <- IH.
  destruct e; cbn; try lia. destruct r as [[i [v|] [w|]]|]; cbn; lia.
Qed.
Lemma connections_app : forall a b, connections (a ++ b) = connections a + connections b.
Proof. intros. unfold connections. now rewrite filter_app, app_length. Qed.

Definition served_after (strict : bool) (now : Z) (h : list kev) (kd : lkind) (l : list entry) : Prop := served (lrun (lcache0 strict now) (lists_in h)) kd l.
Lemma fresh_out : forall strict now g t o, In (t, o) (lc_out (lrun (lcache0 strict now) g)) -> t < lc_next (lrun (lcache0 strict now) g).
Proof. intros strict now g t o I. pose proof (linv_run strict now g) as L. rewrite (li_next _ _ _ _ L). exact (li_out _ _ _ _ L t o I). Qed.

Lemma sent_iff : forall strict now h t c, In (t, c) (kc_sent (krun (kclient0 strict now) h)) <->
  exists a kd b, h = a ++ KList (LBegin kd) :: b /\ t = begins (lists_in a) /\ c = connections a /\
    forall l, ~ served (lrun (lcache0 strict now) (lists_in a)) kd l.
Proof.
  intros strict now. induction h as [|e h IH] using rev_ind; intros t c.
  - cbn. split; [intros []|]. intros (a & kd & b & E & _). destruct a; discriminate.
  - rewrite krun_snoc. set (k := krun (kclient0 strict now) h) in *.
    assert (KL : kc_lists k = lrun (lcache0 strict now) (lists_in h)) by (unfold k; now rewrite krun_lists).
    assert (KC : kc_conn k = connections h) by (unfold k; now rewrite krun_conn).
    assert (KN : lc_next (kc_lists k) = begins (lists_in h)) by (rewrite KL; apply (li_next _ _ _ _ (linv_run strict now (lists_in h)))).
    assert (R : (exists a kd b, h ++ [e] = a ++ KList (LBegin kd) :: b /\ t = begins (lists_in a) /\ c = connections a /\ forall l, ~ served (lrun (lcache0 strict now) (lists_in a)) kd l) <->
      In (t, c) (kc_sent k) \/ exists kd, e = KList (LBegin kd) /\ t = begins (lists_in h) /\ c = connections h /\ forall l, ~ served (lrun (lcache0 strict now) (lists_in h)) kd l).
    { rewrite IH. split.
      - intros (a & kd & b & E & T & C & N). destruct (exists_last_or b) as [->|(b' & x & ->)].
        + apply app_inj_tail in E as [-> ->]. right. exists kd. auto.
        + rewrite app_comm_cons, app_assoc in E. apply app_inj_tail in E as [-> ->]. left. exists a, kd, b'. auto.
      - intros [(a & kd & b & -> & T & C & N)|(kd & -> & T & C & N)].
        + exists a, kd, (b ++ [e]). rewrite <- app_assoc. auto.
        + exists h, kd, []. auto. }
    rewrite R. clear R.
    destruct e as [| |r|a]; cbn [kstep kc_sent].
    + split; [now left|]. intros [?|(kd & ? & _)]; [assumption|discriminate].
    + split; [now left|]. intros [?|(kd & ? & _)]; [assumption|discriminate].
    + assert (Z : kc_sent (kstep k (KInit r)) = kc_sent k) by (cbn; destruct r as [[i [v|] [w|]]|]; reflexivity).
      cbn [kstep] in Z. rewrite Z. split; [now left|]. intros [?|(kd & ? & _)]; [assumption|discriminate].
    + destruct a; try (split; [now left|]; intros [?|(kd & ? & _)]; [assumption|discriminate]).
      destruct (cache_hit k0 (kc_lists k)) as [l|] eqn:E.
      * split; [now left|]. intros [?|(kd & [= <-] & _ & _ & N)]; [assumption|]. elim (N l). rewrite <- KL.
        apply served_hit; [|exact E]. intros t' o'. rewrite KL. apply fresh_out.
      * rewrite in_app_iff. cbn [In]. rewrite pair_equal_spec, KN, KC. split.
        -- intros [?|[[T C]|[]]]; [now left|]. right. exists k0. repeat split; auto. intros l X. rewrite <- KL in X. apply served_hit in X; [congruence|].
           intros t' o'. rewrite KL. apply fresh_out.
        -- intros [?|(kd & _ & -> & -> & _)]; [now left|]. right. left. auto.
Qed.

(** A list is not served after it was announced to have changed. *)
Lemma announced_gone : forall strict now g m kd l, concerns m kd -> ~ served (lrun (lcache0 strict now) (g ++ [LNotify m])) kd l.
Proof.
  intros strict now g m kd l C H. apply served_hit in H; [|apply fresh_out]. apply hit_inv in H as (n & _ & _ & X & _).
  rewrite lrun_snoc in X. cbn [lstep with_slots lc_slot] in X. apply invalidate_set in X as [X _]. contradiction.
Qed.
Lemma announced_gone_later : forall strict now g m kd l b, concerns m kd -> (forall t, ~ In (LStore t) b) -> ~ served (lrun (lcache0 strict now) (g ++ LNotify m :: b)) kd l.
Proof.
  intros strict now g m kd l b C N H. apply served_hit in H; [|apply fresh_out]. apply hit_inv in H as (n & _ & _ & X & _). clear l n.
  assert (Y : sl_set (lc_slot (lrun (lcache0 strict now) (g ++ LNotify m :: b)) kd) = false); [|congruence]. clear X.
  revert N. induction b as [|e b IH] using rev_ind; intros N.
  - rewrite lrun_snoc. cbn [lstep with_slots lc_slot]. destruct (sl_set (invalidate m _ kd)) eqn:X; [|reflexivity]. apply invalidate_set in X as [X _]. contradiction.
  - assert (IH' : sl_set (lc_slot (lrun (lcache0 strict now) (g ++ LNotify m :: b)) kd) = false) by (apply IH; intros t I; apply (N t); apply in_or_app; now left).
    rewrite app_comm_cons, app_assoc, lrun_snoc. set (s := lrun (lcache0 strict now) (g ++ LNotify m :: b)) in *. destruct e; cbn [lstep lc_slot with_slots]; auto.
    + unfold set_ttl. destruct t as [[|p]|]; cbn [with_ttl lc_slot]; auto;
        (match goal with |- ?x = false => destruct x eqn:X end; [|reflexivity]; repeat (apply unset_set in X as X'; destruct X' as [? X']; rewrite X' in X; clear X'); congruence).
    + match goal with |- ?x = false => destruct x eqn:X end; [|reflexivity]. apply invalidate_set in X as X'. destruct X' as [_ X']. rewrite X' in X. congruence.
    + unfold begin_list. destruct (cache_hit k s); exact IH'.
    + destruct (find_lcall t (lc_calls s)) as [[k [l|]]|]; try exact IH'. destruct (list_reply _ _ _); exact IH'.
    + exfalso. apply (N t). apply in_or_app. right. now left.
Qed.

(** ** Request contexts *)
Lemma xrun_app : forall a b x, fold_left xstep (a ++ b) x = fold_left xstep b (fold_left xstep a x).
Proof. intros. apply fold_left_app. Qed.
Lemma balanced_keeps : forall t l, balanced t l -> forall x, fold_left xstep l x t = x t.
Proof.
  induction 1 as [|l u q N B IH|l u N B IH|a b q A IHa B IHb]; intros x; [reflexivity| | |].
  - cbn [fold_left]. rewrite IH. cbn [xstep]. unfold xput. destruct (Nat.eqb_spec t u); [congruence|reflexivity].
  - cbn [fold_left]. rewrite IH. cbn [xstep]. unfold xput. destruct (Nat.eqb_spec t u); [congruence|reflexivity].
  - cbn [fold_left]. rewrite xrun_app. cbn [fold_left]. rewrite IHb. cbn [xstep]. unfold xput at 1. rewrite Nat.eqb_refl, IHa.
    cbn [xstep]. unfold xput. now rewrite Nat.eqb_refl.
Qed.
Lemma innermost : forall t a q b, balanced t b -> exists r, xrun (a ++ XBegin t q :: b) t = ctx_of q :: r.
Proof.
  intros t a q b B. unfold xrun. rewrite xrun_app. cbn [fold_left]. rewrite (balanced_keeps t b B). cbn [xstep]. unfold xput. rewrite Nat.eqb_refl. eauto.
Qed.
Lemma id_is_text : forall q, id_is q (request_text (rq_id q)).
Proof. intros q. unfold id_is, request_text. destruct (rq_id q) as [[|c s]|z|]; reflexivity. Qed.
Lemma token_is_text : forall q, token_is q (progress_token (rq_params q)).
Proof.
  intros q. unfold token_is, token_of, progress_token. split; [|split].
  - intros s (o & m & -> & -> & ->) N. destruct s; [congruence|reflexivity].
  - intros z (o & m & -> & -> & ->). reflexivity.
  - intros A B. destruct (rq_params q) as [[| | | | | |o]|] eqn:P; try reflexivity. destruct (obj_get (bs "_meta") o) as [[| | | | | |m]|] eqn:M; try reflexivity.
    destruct (obj_get (bs "progressToken") m) as [[| |z| |[|ch s]| |]|] eqn:T; try reflexivity.
    + elim (B z). exists o, m. auto.
    + assert (X : ch :: s = []) by (apply A; exists o, m; auto). discriminate.
Qed.

(** ** Announcements *)
Lemma list_unchanged : forall w x y z q k s o, rq_method q = list_method k -> ~ concerns (op_note o) k ->
  fst (dispatch w x y z q (set_reg (reg_step (sv_reg s) o) s)) = fst (dispatch w x y z q s).
Proof.
  intros w x y z q k s o M N. unfold dispatch. rewrite M. destruct k; unfold list_method; methods; cbn [fst]; destruct o; try reflexivity; elim N; reflexivity.
Qed.
Lemma list_announced : forall h o w x y z q k, hh_dead h = false -> hh_wire h = Some true -> rq_method q = list_method k ->
  fst (do_ask w x y z q (host_step h (VReg o))) <> fst (do_ask w x y z q h) ->
  exists n, hh_out (host_step h (VReg o)) = hh_out h ++ [n] /\ concerns (nt_method n) k.
Proof.
  intros h o w x y z q k D W M N. exists (empty_note (op_note o)). unfold host_step in *. rewrite D in *. split.
  - unfold do_reg, on_line. rewrite W. unfold send_note. cbn [hh_set_sv hh_wire]. now rewrite W.
  - destruct (reg_keeps o h) as (W' & _ & S). rewrite !ask_fst, S in N. unfold on_line in N. rewrite W' in N.
    cbn [empty_note nt_method].
    assert (Dc : concerns (op_note o) k \/ ~ concerns (op_note o) k).
    { destruct k; destruct o; cbn; (left; reflexivity) || (right; discriminate). }
    destruct Dc as [C|C]; [exact C|]. elim N. now apply (list_unchanged _ _ _ _ _ k).
Qed.
Lemma skipn_sent : forall {A} (a b : list A), skipn (length a) (a ++ b) = b.
Proof. intros A a b. rewrite skipn_app, skipn_all, Nat.sub_diag. reflexivity. Qed.
Lemma init_out : forall h w x y z q, hh_wire h = Some true -> rq_method q = bs "initialize" ->
  hh_out (snd (do_ask w x y z q h)) = hh_out h ++ map empty_note INIT_NOTES.
Proof.
  intros h w x y z q W M. unfold do_ask. pose proof (dispatch_changes (with_line (on_line h) w) x y z q (hh_sv h)) as (_ & _ & S & _).
  destruct (dispatch _ _ _ _ _ _) as [d s']. cbn [snd] in *. rewrite M in S. unfold with_line at 1, on_line in S. cbn [w_connected] in S. rewrite W, beq_refl in S. cbn [andb] in S.
  cbn [hh_emit hh_set_sv hh_out]. now rewrite S, skipn_sent.
Qed.
Lemma other_out : forall h w x y z q, (on_line h = false \/ rq_method q <> bs "initialize") -> hh_out (snd (do_ask w x y z q h)) = hh_out h.
Proof.
  intros h w x y z q N. unfold do_ask. pose proof (dispatch_changes (with_line (on_line h) w) x y z q (hh_sv h)) as (_ & _ & S & _).
  destruct (dispatch _ _ _ _ _ _) as [d s']. cbn [snd] in *. cbn [hh_emit hh_set_sv hh_out].
  assert (E : (beq (rq_method q) (bs "initialize") && w_connected (with_line (on_line h) w))%bool = false).
  { destruct N as [N|N]; [cbn; rewrite N; apply andb_false_r|]. destruct (beq _ _) eqn:B; [apply beq_eq in B; congruence|reflexivity]. }
  rewrite E in S. rewrite S, skipn_all. cbn. apply app_nil_r.
Qed.
Lemma init_announces : forall h w x y z q k, hh_dead h = false -> hh_wire h = Some true -> rq_method q = bs "initialize" ->
  exists ns n, hh_out (host_step h (VAsk w x y z q)) = hh_out h ++ ns /\ In n ns /\ concerns (nt_method n) k.
Proof.
  intros h w x y z q k D W M. exists (map empty_note INIT_NOTES). unfold host_step. rewrite D, (init_out h w x y z q W M).
  destruct k; [exists (empty_note TOOL_CHANGED)|exists (empty_note RES_CHANGED)|exists (empty_note RES_CHANGED)|exists (empty_note PROMPT_CHANGED)];
    (split; [reflexivity|]; split; [apply in_map; unfold INIT_NOTES; cbn [In]; unfold TOOL_CHANGED, RES_CHANGED, PROMPT_CHANGED; tauto|reflexivity]).
Qed.
Lemma unwired_silent : forall s l, ~ has_wire l -> hh_out (host_run (host0 s) l) = [].
Proof.
  intros s l. induction l as [|e l IH] using rev_ind; intros N; [reflexivity|].
  assert (N' : ~ has_wire l) by (intros X; apply N; apply wire_snoc; now left). specialize (IH N'). rewrite host_snoc.
  destruct (hh_dead (host_run (host0 s) l)) eqn:D; [unfold host_step; now rewrite D|].
  assert (W : hh_wire (host_run (host0 s) l) = None). { destruct (hh_wire _) eqn:W; [|reflexivity]. elim N'. apply (wire_has l s D). congruence. }
  set (h := host_run (host0 s) l) in *. assert (O : on_line h = false) by (unfold on_line; now rewrite W).
  unfold host_step. rewrite D. destruct e; cbn [do_start hh_set_wire hh_out do_init hh_set_up hh_set_sv]; auto.
  - unfold do_stop. now rewrite W.
  - now rewrite W.
  - rewrite other_out; [exact IH|now left].
  - unfold hear_note. repeat match goal with |- context[match ?b with _ => _ end] => destruct b end; exact IH.
  - unfold do_tell. destruct (note_of (hh_sv h) t); [|exact IH]. unfold send_note. now rewrite W.
  - unfold do_status. now rewrite O.
  - unfold do_reg. now rewrite O.
Qed.

(** ** What a server hears *)
Lemma server_hears : forall t n h, arrives (status_note t) n -> hh_dead h = false ->
  host_step h (VNote true n) = hh_hear t h.
Proof.
  intros t n h [M P] D. cbn [status_note nt_method nt_params] in M, P. apply same_opt_some in P as (v & V & S).
  unfold host_step. rewrite D. unfold hear_note. rewrite M, V. methods.
  rewrite (task_arrives _ _ S), (parse_task_json _ _ S). cbn [negb]. now rewrite andb_false_r.
Qed.
Lemma server_ignores : forall n b h, nt_method n <> bs "notifications/initialized" ->
  (nt_method n = bs "notifications/tasks/status" -> b = false \/ nt_params n = None \/ (sv_strict (hh_sv h) = true /\ forall v, nt_params n = Some v -> ~ TaskShape v)) ->
  host_step h (VNote b n) = h.
Proof.
  intros n b h N T. unfold host_step. destruct (hh_dead h); [reflexivity|]. unfold hear_note.
  destruct (beq _ _) eqn:B; [apply beq_eq in B; congruence|]. destruct (beq (nt_method n) (bs "notifications/tasks/status")) eqn:B2; [|reflexivity].
  apply beq_eq in B2. destruct (T B2) as [-> |[-> |[St V]]]; [reflexivity|now destruct b|]. destruct b; [|reflexivity].
  destruct (nt_params n) as [v|]; [|reflexivity]. destruct (valid_task v) eqn:X; [apply task_iff in X; elim (V v eq_refl X)|]. now rewrite St.
Qed.
