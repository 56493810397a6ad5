(** The task store. *)
From Coq Require Import Ascii String List Permutation Arith NArith ZArith Bool Lia ZifyBool ZifyNat ZifyN.
From Verif Require Import StrModel StrProofs DoubleModel JsonModel JsonSpec JsonProofs MapModel MapProofs ObjSpec ObjProofs RpcProofs TaskModel TaskSpec.
Import ListNotations.
Local Open Scope nat_scope.

Lemma two64_val : two64 = (2 ^ 64)%N.
Proof. reflexivity. Qed.

Lemma task_name_inj : forall a b, task_name a = task_name b -> a = b.
Proof. intros a b H. apply app_inv_head in H. now apply print_N_inj. Qed.

Lemma creations_snoc : forall vs v, creations (vs ++ [v]) =
  creations vs + match v with TCreate _ _ _ => 1 | _ => 0 end.
Proof.
  intros vs v. unfold creations. rewrite filter_app, app_length. destruct v; cbn; lia.
Qed.

Lemma few_app : forall vs ws, few (vs ++ ws) -> few vs.
Proof. intros vs ws. unfold few, creations. rewrite filter_app, app_length. lia. Qed.

Lemma ts_run_snoc : forall s vs v, ts_run s (vs ++ [v]) = ts_step (ts_run s vs) v.
Proof. intros. unfold ts_run. now rewrite fold_left_app. Qed.
Lemma ts_run_app : forall s vs ws, ts_run s (vs ++ ws) = ts_run (ts_run s vs) ws.
Proof. intros. apply fold_left_app. Qed.

(** n tasks exist. *)
Record sinv (n : nat) (s : tstore) : Prop := {
  si_next : (N.of_nat n < 2 ^ 64)%N -> ts_next s = N.modulo (N.of_nat n + 1) two64;
  si_order : ts_order s = map (fun k => task_name (N.of_nat k)) (seq 1 n);
  si_ids : ids s = ts_order s;
  si_keys : NoDup (map fst (ts_recs s));
  si_dom : forall i, In i (map fst (ts_recs s)) <-> In i (ts_order s);
  si_rec : forall i r, In (i, r) (ts_recs s) -> exists t, In (t, tr_kind r) (ts_created s) /\
     tk_id t = i /\ tk_status t = WORKING /\
     match tr_payload r with
     | None => tr_task r = t /\ ~ In i (map (fun w => at_id (fst w)) (wins s))
     | Some p => exists a, In (a, tr_task r) (wins s) /\ at_id a = i /\ at_error a = tr_error r /\ at_payload a = p /\
         tr_task r = {| tk_id := i; tk_status := at_status a; tk_message := at_message a; tk_created := tk_created t;
                        tk_updated := at_now a; tk_ttl := tk_ttl t; tk_poll := tk_poll t |}
     end;
  si_once : NoDup (map (fun w => at_id (fst w)) (wins s));
  si_wins : forall a t, In (a, t) (wins s) -> In (at_id a) (ts_order s)
}.

Lemma seq_names_nodup : forall n, NoDup (map (fun k => task_name (N.of_nat k)) (seq 1 n)).
Proof.
  intro n. apply FinFun.Injective_map_NoDup; [|apply seq_NoDup]. intros a b H. apply task_name_inj in H. lia.
Qed.

Lemma wins_log : forall s a w, wins {| ts_recs := ts_recs s; ts_order := ts_order s; ts_next := ts_next s; ts_emit := ts_emit s; ts_seen := ts_seen s;
     ts_log := ts_log s ++ [(a, w)]; ts_created := ts_created s; ts_waiting := ts_waiting s; ts_waited := ts_waited s |} =
  wins s ++ match w with Won t => [(a, t)] | _ => [] end.
Proof. intros. unfold wins. cbn. rewrite flat_map_app. cbn. now rewrite app_nil_r. Qed.

Lemma sinv0 : sinv 0 tstore0.
Proof.
  constructor; cbn; try easy; try constructor.
Qed.

Lemma terminal_cases : forall n s a, sinv n s ->
  match aget (at_id a) (ts_recs s) with
  | None => ts_terminal a s = (NotFound, snd (ts_terminal a s)) /\ ~ In (at_id a) (ts_order s)
  | Some r => match tr_payload r with
              | Some _ => fst (ts_terminal a s) = Refused (tr_task r)
              | None => is_terminal (tk_status (tr_task r)) = false /\ exists t, fst (ts_terminal a s) = Won t /\
                   ~ In (at_id a) (map (fun w => at_id (fst w)) (wins s)) /\
                   t = {| tk_id := at_id a; tk_status := at_status a; tk_message := at_message a;
                          tk_created := tk_created (tr_task r); tk_updated := at_now a;
                          tk_ttl := tk_ttl (tr_task r); tk_poll := tk_poll (tr_task r) |}
              end
  end.
Proof.
  intros n s a I. unfold ts_terminal. destruct (aget (at_id a) (ts_recs s)) as [r|] eqn:E.
  - destruct (tr_payload r) as [p|] eqn:Ep; [reflexivity|].
    apply aget_in in E. destruct (si_rec _ _ I _ _ E) as (t & K1 & K2 & K3 & K4). rewrite Ep in K4. destruct K4 as [K4 K5].
    rewrite K4, K3. change (is_terminal WORKING) with false. split; [reflexivity|]. eexists. split; [reflexivity|]. split; [exact K5|].
    now rewrite K2.
  - split; [reflexivity|]. rewrite <- (si_dom _ _ I). now apply aget_none.
Qed.

Lemma sinv_create : forall n s k ttl now, sinv n s -> (N.of_nat (S n) < 2 ^ 64)%N -> sinv (S n) (ts_create k ttl now s).
Proof.
  intros n s k ttl now [I1 I2 I3 I4 I5 I6 I7 I8] Hn.
  assert (ts_next s = N.of_nat n + 1)%N as E.
  { rewrite I1 by lia. rewrite two64_val. apply N.mod_small. lia. }
  assert (task_name (ts_next s) = task_name (N.of_nat (S n))) as E2 by (rewrite E; f_equal; lia).
  assert (~ In (task_name (ts_next s)) (ts_order s)) as Hf.
  { rewrite I2, E2. intro H. apply in_map_iff in H as (m & H1 & H2). apply task_name_inj in H1. apply in_seq in H2. lia. }
  constructor; cbn [ts_create ts_next ts_order ts_recs ts_created].
  - intros _. rewrite E, two64_val. f_equal. lia.
  - rewrite I2. rewrite seq_S, map_app. cbn [map]. cbn [tk_id new_task]. rewrite E2. reflexivity.
  - unfold ids in *. cbn [ts_created ts_create]. rewrite map_app, I3. reflexivity.
  - now apply nodup_aset.
  - intro i. rewrite aset_fst_in, I5, in_app_iff. cbn [In tk_id new_task]. intuition.
  - intros i r H. change (wins (ts_create k ttl now s)) with (wins s). apply in_aset in H; [|exact I4]. destruct H as [H|[H Hne]].
    + injection H as -> ->. cbn [tr_kind tr_payload tr_task]. exists (new_task (ts_next s) now ttl).
      split; [apply in_or_app; right; now left|]. split; [reflexivity|]. split; [reflexivity|]. split; [reflexivity|].
      intro K. apply in_map_iff in K as ([a t] & K1 & K2). apply I8 in K2. cbn [fst tk_id new_task] in K1. rewrite K1 in K2. auto.
    + destruct (I6 i r H) as (t & K1 & K). exists t. split; [apply in_or_app; now left|exact K].
  - exact I7.
  - intros a t H. apply in_or_app. left. now apply I8 with t.
Qed.

Lemma sinv_terminal : forall n s a, sinv n s -> sinv n (snd (ts_terminal a s)).
Proof.
  intros n s a I. pose proof (terminal_cases n s a I) as C. unfold ts_terminal in *.
  assert (forall w, (forall t, w <> Won t) ->
    sinv n {| ts_recs := ts_recs s; ts_order := ts_order s; ts_next := ts_next s; ts_emit := ts_emit s; ts_seen := ts_seen s;
     ts_log := ts_log s ++ [(a, w)]; ts_created := ts_created s; ts_waiting := ts_waiting s; ts_waited := ts_waited s |}) as L.
  { intros w Hw. destruct I as [I1 I2 I3 I4 I5 I6 I7 I8].
    assert (match w with Won t => [(a, t)] | _ => [] end = []) as Ew by (destruct w; [reflexivity|reflexivity|now destruct (Hw t)]).
    constructor; cbn [ts_next ts_order ts_recs ts_created]; rewrite ?wins_log, ?Ew, ?app_nil_r; auto. }
  destruct (aget (at_id a) (ts_recs s)) as [r|] eqn:E; [|apply L; discriminate].
  destruct (tr_payload r) as [p|] eqn:Ep; [apply L; discriminate|].
  destruct C as (C0 & t & C1 & C2 & C3). rewrite C0 in *. cbn [orb fst snd] in *. injection C1 as C1. rewrite C1 in *.
  clear L. destruct I as [I1 I2 I3 I4 I5 I6 I7 I8].
  assert (In (at_id a) (ts_order s)) as Hin.
  { apply I5. apply aget_in in E. exact (in_map fst _ _ E). }
  assert (forall recs em, wins {| ts_recs := recs; ts_order := ts_order s; ts_next := ts_next s; ts_emit := em; ts_seen := ts_seen s;
     ts_log := ts_log s ++ [(a, Won t)]; ts_created := ts_created s; ts_waiting := ts_waiting s; ts_waited := ts_waited s |} =
     wins s ++ [(a, t)]) as W.
  { intros. unfold wins. cbn [ts_log]. rewrite flat_map_app. reflexivity. }
  constructor; cbn [ts_next ts_order ts_recs ts_created]; rewrite ?W; auto.
  - now apply nodup_aset.
  - intro i. rewrite aset_fst_in, I5. intuition. now subst.
  - intros i r1 H. apply in_aset in H; [|exact I4]. destruct H as [H|[H Hne]].
    + injection H as -> ->. cbn [tr_kind tr_payload tr_task tr_error]. apply aget_in in E.
      destruct (I6 _ _ E) as (t0 & K1 & K2 & K3 & K4). rewrite Ep in K4. destruct K4 as [K4 K5].
      exists t0. split; [exact K1|]. split; [exact K2|]. split; [exact K3|]. exists a.
      split; [apply in_or_app; right; now left|]. rewrite C3, K4. auto.
    + destruct (I6 i r1 H) as (t0 & K1 & K2 & K3 & K4). exists t0. split; [exact K1|]. split; [exact K2|]. split; [exact K3|].
      destruct (tr_payload r1) as [p|].
      * destruct K4 as (a0 & K4 & K5). exists a0. split; [apply in_or_app; now left|exact K5].
      * destruct K4 as [K4 K5]. split; [exact K4|]. rewrite map_app, in_app_iff. cbn. cbn in Hne. intuition.
  - rewrite map_app. cbn [map fst]. apply (Permutation_NoDup (l := at_id a :: map (fun w => at_id (fst w)) (wins s))).
    + apply Permutation_cons_append.
    + now constructor.
  - intros a0 t0 H. apply in_app_iff in H as [H|[H|[]]]; [now apply I8 with t0|]. now injection H as <- <-.
Qed.

Lemma set_stop_in : forall i j r m, NoDup (map fst m) -> In (j, r) (set_stop i m) ->
  exists r0, In (j, r0) m /\ tr_task r0 = tr_task r /\ tr_kind r0 = tr_kind r /\ tr_error r0 = tr_error r /\ tr_payload r0 = tr_payload r.
Proof.
  intros i j r m Hn H. unfold set_stop in H. destruct (aget i m) as [r0|] eqn:E.
  - apply in_aset in H; [|exact Hn]. destruct H as [H|[H _]].
    + injection H as -> ->. exists r0. apply aget_in in E. auto.
    + exists r. auto.
  - exists r. auto.
Qed.

Lemma set_stop_keys : forall i m, map fst (set_stop i m) = map fst m.
Proof.
  intros i m. unfold set_stop. destruct (aget i m) as [r|] eqn:E; [|reflexivity].
  generalize ({| tr_task := tr_task r; tr_kind := tr_kind r; tr_stop := true; tr_error := tr_error r; tr_payload := tr_payload r |}).
  intro x. revert E. generalize r. clear r. intro r. induction m as [|[k v] m IH]; cbn; [discriminate|]. destruct (beq i k) eqn:B; cbn.
  - apply beq_eq in B. now subst.
  - intro E. now rewrite IH.
Qed.

Lemma sinv_rest : forall n s recs em seen wt wd, sinv n s ->
  map fst recs = map fst (ts_recs s) ->
  (forall j r, In (j, r) recs -> exists r0, In (j, r0) (ts_recs s) /\ tr_task r0 = tr_task r /\ tr_kind r0 = tr_kind r /\
     tr_error r0 = tr_error r /\ tr_payload r0 = tr_payload r) ->
  sinv n {| ts_recs := recs; ts_order := ts_order s; ts_next := ts_next s; ts_emit := em; ts_seen := seen;
     ts_log := ts_log s; ts_created := ts_created s; ts_waiting := wt; ts_waited := wd |}.
Proof.
  intros n s recs em seen wt wd [I1 I2 I3 I4 I5 I6 I7 I8] Hk Hr. constructor; cbn [ts_next ts_order ts_recs ts_created]; auto.
  - now rewrite Hk.
  - now rewrite Hk.
  - intros i r H. destruct (Hr i r H) as (r0 & A & B & C & D & E). rewrite <- B, <- C, <- D, <- E. now apply I6.
Qed.

Lemma sinv_step : forall n s v, sinv n s ->
  (N.of_nat (n + match v with TCreate _ _ _ => 1 | _ => 0 end) < 2 ^ 64)%N ->
  sinv (n + match v with TCreate _ _ _ => 1 | _ => 0 end) (ts_step s v).
Proof.
  intros n s v I H. destruct v; cbn [ts_step].
  - rewrite Nat.add_1_r in *. now apply sinv_create.
  - rewrite Nat.add_0_r. now apply sinv_terminal.
  - rewrite Nat.add_0_r. destruct (take_nth n0 (ts_emit s)) as [[x rest]|]; [|exact I]. unfold ts_emit_one.
    apply sinv_rest; [exact I| |].
    + destruct (fst x); [apply set_stop_keys|reflexivity].
    + intros j r K. destruct (fst x); [apply set_stop_in in K; [exact K|apply (si_keys _ _ I)]|exists r; auto].
  - rewrite Nat.add_0_r. destruct (aget i (ts_recs s)); (apply sinv_rest; [exact I|reflexivity|intros k r K; exists r; auto]).
  - rewrite Nat.add_0_r. destruct (take_nth n0 (ts_waiting s)) as [[i rest]|]; [|exact I].
    destruct (aget i (ts_recs s)) as [r|]; [|exact I]. destruct (tr_payload r); [|exact I].
    apply sinv_rest; [exact I|reflexivity|]. intros k r0 K; exists r0; auto.
Qed.

Lemma sinv_run : forall vs, few vs -> sinv (creations vs) (ts_run tstore0 vs).
Proof.
  induction vs as [|v vs IH] using rev_ind; intro H; [exact sinv0|]. rewrite ts_run_snoc.
  pose proof (few_app _ _ H) as H1. unfold few in H. rewrite creations_snoc in *. apply sinv_step; auto.
Qed.

(** Nothing is ever taken out of the logs. *)
Lemma log_grows : forall s v, exists x, ts_log (ts_step s v) = ts_log s ++ x.
Proof.
  intros s v. destruct v; cbn [ts_step].
  - exists []. cbn. now rewrite app_nil_r.
  - unfold ts_terminal. destruct (aget (at_id a) (ts_recs s)) as [r|]; [|eexists; reflexivity].
    destruct ((match tr_payload r with Some _ => true | None => false end) || is_terminal (tk_status (tr_task r)))%bool; eexists; reflexivity.
  - destruct (take_nth n (ts_emit s)) as [[x rest]|]; exists []; cbn; now rewrite app_nil_r.
  - destruct (aget i (ts_recs s)); exists []; cbn; now rewrite app_nil_r.
  - destruct (take_nth n (ts_waiting s)) as [[i rest]|]; [|exists []; now rewrite app_nil_r].
    destruct (aget i (ts_recs s)) as [r|]; [|exists []; now rewrite app_nil_r]. destruct (tr_payload r); exists []; cbn; now rewrite app_nil_r.
Qed.

Lemma log_grows_run : forall ws s, exists x, ts_log (ts_run s ws) = ts_log s ++ x.
Proof.
  induction ws as [|w ws IH]; intro s; [exists []; now rewrite app_nil_r|]. cbn.
  destruct (IH (ts_step s w)) as [x E]. destruct (log_grows s w) as [y F]. exists (y ++ x). unfold ts_run in E. now rewrite E, F, app_assoc.
Qed.

Lemma wins_grow : forall ws s w, In w (wins s) -> In w (wins (ts_run s ws)).
Proof.
  intros ws s w H. unfold wins in *. destruct (log_grows_run ws s) as [x E]. rewrite E, flat_map_app. apply in_or_app. now left.
Qed.

Lemma created_grows : forall ws s x, In x (ts_created s) -> In x (ts_created (ts_run s ws)).
Proof.
  induction ws as [|w ws IH]; intros s x H; [exact H|]. cbn. apply IH. destruct w; cbn [ts_step]; auto.
  - cbn. apply in_or_app. now left.
  - unfold ts_terminal. destruct (aget (at_id a) (ts_recs s)) as [r|]; [|exact H].
    destruct ((match tr_payload r with Some _ => true | None => false end) || is_terminal (tk_status (tr_task r)))%bool; exact H.
  - destruct (take_nth n (ts_emit s)) as [[y rest]|]; exact H.
  - destruct (aget i (ts_recs s)); exact H.
  - destruct (take_nth n (ts_waiting s)) as [[i rest]|]; [|exact H]. destruct (aget i (ts_recs s)) as [r|]; [|exact H].
    destruct (tr_payload r); exact H.
Qed.

(** A winner fixes the record. *)
Lemma win_unique : forall s a a' t t', NoDup (map (fun w => at_id (fst w)) (wins s)) ->
  In (a, t) (wins s) -> In (a', t') (wins s) -> at_id a = at_id a' -> a = a' /\ t = t'.
Proof.
  intros s a a' t t' Hn. induction (wins s) as [|[x y] l IH]; [easy|]. cbn in Hn. inversion Hn as [|? ? N1 N2]; subst.
  intros [H1|H1] [H2|H2] E.
  - split; congruence.
  - injection H1 as -> ->. exfalso. apply N1. rewrite E. exact (in_map (fun w : attempt * task => at_id (fst w)) _ _ H2).
  - injection H2 as -> ->. exfalso. apply N1. rewrite <- E. exact (in_map (fun w : attempt * task => at_id (fst w)) _ _ H1).
  - now apply IH.
Qed.

Lemma created_unique : forall n s x y, sinv n s -> In x (ts_created s) -> In y (ts_created s) -> tk_id (fst x) = tk_id (fst y) -> x = y.
Proof.
  intros n s x y I. assert (NoDup (ids s)) as N. { rewrite (si_ids _ _ I), (si_order _ _ I). apply seq_names_nodup. }
  unfold ids in N. revert N. generalize (ts_created s). intro l. induction l as [|z l IH]; [easy|]. cbn. intros N [H1|H1] [H2|H2] E; inversion N as [|? ? N1 N2]; subst.
  - reflexivity.
  - exfalso. apply N1. rewrite E. exact (in_map (fun tk : task * task_kind => tk_id (fst tk)) _ _ H2).
  - exfalso. apply N1. rewrite <- E. exact (in_map (fun tk : task * task_kind => tk_id (fst tk)) _ _ H1).
  - now apply IH.
Qed.

Lemma won_record : forall n s a t, sinv n s -> In (a, t) (wins s) ->
  exists r, aget (at_id a) (ts_recs s) = Some r /\ tr_task r = t /\ tr_error r = at_error a /\ tr_payload r = Some (at_payload a).
Proof.
  intros n s a t I H. pose proof (si_wins _ _ I _ _ H) as Hi. apply (si_dom _ _ I) in Hi.
  destruct (aget (at_id a) (ts_recs s)) as [r|] eqn:E; [|apply aget_none in E; easy]. exists r. split; [reflexivity|].
  apply aget_in in E. destruct (si_rec _ _ I _ _ E) as (t0 & K1 & K2 & K3 & K4). destruct (tr_payload r) as [p|].
  - destruct K4 as (a' & A & B & C & D & _). destruct (win_unique s a a' t (tr_task r) (si_once _ _ I) H A (eq_sym B)) as [-> ->]. subst. auto.
  - destruct K4 as [_ K4]. exfalso. apply K4. exact (in_map (fun w : attempt * task => at_id (fst w)) _ _ H).
Qed.

Lemma get_terminal : forall n s i t, sinv n s -> ts_get i s = Some t -> tk_status t <> bs "working" ->
  exists a, at_id a = i /\ In (a, t) (wins s).
Proof.
  intros n s i t I H Ht. unfold ts_get in H. destruct (aget i (ts_recs s)) as [r|] eqn:E; [|discriminate]. cbn in H. injection H as <-.
  apply aget_in in E. destruct (si_rec _ _ I _ _ E) as (t0 & K1 & K2 & K3 & K4). destruct (tr_payload r) as [p|].
  - destruct K4 as (a & A & B & _). now exists a.
  - destruct K4 as [K4 _]. rewrite K4, K3 in Ht. now contradiction Ht.
Qed.

Lemma task_frozen : forall vs ws i t, few (vs ++ ws) ->
  ts_get i (ts_run tstore0 vs) = Some t -> tk_status t <> bs "working" ->
  ts_get i (ts_run tstore0 (vs ++ ws)) = Some t /\
  outcome i (ts_run tstore0 (vs ++ ws)) = outcome i (ts_run tstore0 vs) /\ outcome i (ts_run tstore0 vs) <> None.
Proof.
  intros vs ws i t Hf H Ht. pose proof (sinv_run _ Hf) as J. pose proof (sinv_run _ (few_app _ _ Hf)) as I.
  destruct (get_terminal _ _ _ _ I H Ht) as (a & <- & A).
  pose proof (wins_grow ws _ _ A) as B. rewrite <- ts_run_app in B.
  destruct (won_record _ _ _ _ I A) as (r & R1 & R2 & R3 & R4). destruct (won_record _ _ _ _ J B) as (r' & S1 & S2 & S3 & S4).
  unfold ts_get, outcome. rewrite S1, R1, S4, R4, S3, R3. cbn. rewrite S2. repeat split; discriminate.
Qed.

Lemma outcome_frozen : forall vs ws i x, few (vs ++ ws) -> outcome i (ts_run tstore0 vs) = Some x ->
  outcome i (ts_run tstore0 (vs ++ ws)) = Some x /\ ts_get i (ts_run tstore0 (vs ++ ws)) = ts_get i (ts_run tstore0 vs).
Proof.
  intros vs ws i x Hf H. pose proof (sinv_run _ Hf) as J. pose proof (sinv_run _ (few_app _ _ Hf)) as I.
  unfold outcome in H. destruct (aget i (ts_recs (ts_run tstore0 vs))) as [r|] eqn:E; [|discriminate].
  destruct (tr_payload r) as [p|] eqn:Ep; [|discriminate]. injection H as <-.
  pose proof (aget_in _ _ _ E) as E'. destruct (si_rec _ _ I _ _ E') as (t0 & K1 & K2 & K3 & K4). rewrite Ep in K4.
  destruct K4 as (a & A & <- & C & D & _). pose proof (wins_grow ws _ _ A) as B. rewrite <- ts_run_app in B.
  destruct (won_record _ _ _ _ J B) as (r' & S1 & S2 & S3 & S4). unfold outcome, ts_get. rewrite S1, E, S4, S3, C, D. cbn. now rewrite S2.
Qed.

Lemma task_states : forall vs i t, few vs -> ts_get i (ts_run tstore0 vs) = Some t ->
  (tk_status t = WORKING /\ outcome i (ts_run tstore0 vs) = None) \/
  (exists a, at_id a = i /\ In (a, t) (wins (ts_run tstore0 vs)) /\ tk_status t = at_status a /\ tk_message t = at_message a /\
     outcome i (ts_run tstore0 vs) = Some (at_error a, at_payload a)).
Proof.
  intros vs i t Hf H. pose proof (sinv_run _ Hf) as I. unfold ts_get in H. unfold outcome.
  destruct (aget i (ts_recs (ts_run tstore0 vs))) as [r|] eqn:E; [|discriminate]. cbn in H. injection H as <-.
  apply aget_in in E. destruct (si_rec _ _ I _ _ E) as (t0 & K1 & K2 & K3 & K4). destruct (tr_payload r) as [p|].
  - right. destruct K4 as (a & A & B & C & D & F). exists a. split; [exact B|]. split; [exact A|]. rewrite C, D, F. auto.
  - left. destruct K4 as [K4 _]. now rewrite K4.
Qed.

Lemma one_winner : forall vs, few vs -> NoDup (map (fun w => at_id (fst w)) (wins (ts_run tstore0 vs))).
Proof. intros vs Hf. apply (si_once _ _ (sinv_run _ Hf)). Qed.

Lemma first_wins : forall vs a t, few vs -> ts_get (at_id a) (ts_run tstore0 vs) = Some t ->
  ~ In (at_id a) (map (fun w => at_id (fst w)) (wins (ts_run tstore0 vs))) ->
  fst (ts_terminal a (ts_run tstore0 vs)) =
    Won {| tk_id := at_id a; tk_status := at_status a; tk_message := at_message a; tk_created := tk_created t;
           tk_updated := at_now a; tk_ttl := tk_ttl t; tk_poll := tk_poll t |}.
Proof.
  intros vs a t Hf H Hn. pose proof (sinv_run _ Hf) as I. pose proof (terminal_cases _ _ a I) as C. unfold ts_get in H.
  destruct (aget (at_id a) (ts_recs (ts_run tstore0 vs))) as [r|] eqn:E; [|discriminate]. cbn in H. injection H as <-.
  destruct (tr_payload r) as [p|] eqn:Ep.
  - exfalso. apply Hn. apply aget_in in E. destruct (si_rec _ _ I _ _ E) as (t0 & K1 & K2 & K3 & K4). rewrite Ep in K4.
    destruct K4 as (a' & A & B & _). rewrite <- B. exact (in_map (fun w : attempt * task => at_id (fst w)) _ _ A).
  - destruct C as (_ & t & C1 & _ & ->). exact C1.
Qed.

(** Every entry of the log was made in a reachable state. *)
Lemma log_entry : forall vs l1 a w l2, ts_log (ts_run tstore0 vs) = l1 ++ (a, w) :: l2 ->
  exists vs1 vs2, vs = vs1 ++ TTerminal a :: vs2 /\ ts_log (ts_run tstore0 vs1) = l1 /\ fst (ts_terminal a (ts_run tstore0 vs1)) = w.
Proof.
  induction vs as [|v vs IH] using rev_ind; intros l1 a w l2 H; [destruct l1; discriminate|].
  rewrite ts_run_snoc in H. set (s := ts_run tstore0 vs) in *.
  assert (ts_log s = l1 ++ (a, w) :: l2 -> exists vs1 vs2, vs ++ [v] = vs1 ++ TTerminal a :: vs2 /\
    ts_log (ts_run tstore0 vs1) = l1 /\ fst (ts_terminal a (ts_run tstore0 vs1)) = w) as Old.
  { intro K. destruct (IH _ _ _ _ K) as (x & y & -> & E). exists x, (y ++ [v]). rewrite <- app_assoc. auto. }
  destruct v; cbn [ts_step] in H.
  - now apply Old.
  - assert (ts_log (snd (ts_terminal a0 s)) = ts_log s ++ [(a0, fst (ts_terminal a0 s))]) as L.
    { unfold ts_terminal. destruct (aget (at_id a0) (ts_recs s)) as [r|]; [|reflexivity].
      destruct ((match tr_payload r with Some _ => true | None => false end) || is_terminal (tk_status (tr_task r)))%bool; reflexivity. }
    rewrite L in H. destruct l2 as [|z l2] using rev_ind.
    + apply app_inj_tail in H as [H1 H2]. injection H2 as -> H2. exists vs, []. fold s. auto.
    + clear IHl2. assert (l1 ++ (a, w) :: l2 ++ [z] = (l1 ++ (a, w) :: l2) ++ [z]) as F by now rewrite <- app_assoc.
      rewrite F in H. apply app_inj_tail in H as [H _].
      destruct (IH _ _ _ _ H) as (x & y & -> & E). exists x, (y ++ [TTerminal a0]). rewrite <- app_assoc. auto.
  - destruct (take_nth n (ts_emit s)) as [[x rest]|]; now apply Old.
  - destruct (aget i (ts_recs s)); now apply Old.
  - destruct (take_nth n (ts_waiting s)) as [[i rest]|]; [|now apply Old]. destruct (aget i (ts_recs s)) as [r|]; [|now apply Old].
    destruct (tr_payload r); now apply Old.
Qed.

Lemma losers_told : forall vs l1 a t l2, few vs -> ts_log (ts_run tstore0 vs) = l1 ++ (a, Refused t) :: l2 ->
  exists a', In (a', Won t) l1 /\ at_id a' = at_id a /\
    tk_status t = at_status a' /\ tk_message t = at_message a'.
Proof.
  intros vs l1 a t l2 Hf H. destruct (log_entry _ _ _ _ _ H) as (x & y & -> & E1 & E2).
  pose proof (sinv_run _ (few_app _ _ Hf)) as I. pose proof (terminal_cases _ _ a I) as C.
  destruct (aget (at_id a) (ts_recs (ts_run tstore0 x))) as [r|] eqn:E.
  - destruct (tr_payload r) as [p|] eqn:Ep.
    + rewrite E2 in C. injection C as ->. apply aget_in in E. destruct (si_rec _ _ I _ _ E) as (t0 & K1 & K2 & K3 & K4). rewrite Ep in K4.
      destruct K4 as (a' & A & B & _ & _ & F). exists a'. split; [|rewrite F; auto].
      unfold wins in A. rewrite E1 in A. apply in_flat_map in A as ((a2 & w) & A1 & A2). cbn in A2. destruct w; try easy.
      destruct A2 as [A2|[]]. now injection A2 as -> ->.
    + destruct C as (_ & t0 & C & _). congruence.
  - destruct C as [C _]. rewrite C in E2. discriminate.
Qed.

Lemma unknown_told : forall vs l1 a l2, few vs -> ts_log (ts_run tstore0 vs) = l1 ++ (a, NotFound) :: l2 ->
  exists vs1 vs2, vs = vs1 ++ TTerminal a :: vs2 /\ ~ In (at_id a) (ids (ts_run tstore0 vs1)).
Proof.
  intros vs l1 a l2 Hf H. destruct (log_entry _ _ _ _ _ H) as (x & y & -> & E1 & E2). exists x, y. split; [reflexivity|].
  pose proof (sinv_run _ (few_app _ _ Hf)) as I. pose proof (terminal_cases _ _ a I) as C.
  destruct (aget (at_id a) (ts_recs (ts_run tstore0 x))) as [r|] eqn:E.
  - destruct (tr_payload r) as [p|]; [congruence|]. destruct C as (_ & t0 & C & _). congruence.
  - destruct C as [_ C]. now rewrite (si_ids _ _ I).
Qed.

(** Waiters. *)
Lemma waiters_told : forall vs i e p, few vs -> In (i, Some (e, p)) (ts_waited (ts_run tstore0 vs)) ->
  exists a t, In (a, t) (wins (ts_run tstore0 vs)) /\ at_id a = i /\ at_error a = e /\ at_payload a = p.
Proof.
  induction vs as [|v vs IH] using rev_ind; intros i e p Hf H; [destruct H|].
  pose proof (sinv_run _ (few_app _ _ Hf)) as I.
  assert (In (i, Some (e, p)) (ts_waited (ts_run tstore0 vs)) ->
    exists a t, In (a, t) (wins (ts_run tstore0 (vs ++ [v]))) /\ at_id a = i /\ at_error a = e /\ at_payload a = p) as Old.
  { intro K. destruct (IH _ _ _ (few_app _ _ Hf) K) as (a & t & A & B). exists a, t. split; [|exact B].
    rewrite ts_run_app. now apply wins_grow. }
  rewrite ts_run_snoc in H. set (s := ts_run tstore0 vs) in *. destruct v; cbn [ts_step] in H.
  - now apply Old.
  - apply Old. revert H. unfold ts_terminal. destruct (aget (at_id a) (ts_recs s)) as [r|]; [|auto].
    destruct ((match tr_payload r with Some _ => true | None => false end) || is_terminal (tk_status (tr_task r)))%bool; auto.
  - destruct (take_nth n (ts_emit s)) as [[x rest]|]; now apply Old.
  - destruct (aget i0 (ts_recs s)); [now apply Old|]. cbn in H. apply in_app_iff in H as [H|[H|[]]]; [now apply Old|discriminate].
  - destruct (take_nth n (ts_waiting s)) as [[j rest]|]; [|now apply Old].
    destruct (aget j (ts_recs s)) as [r|] eqn:E; [|now apply Old]. destruct (tr_payload r) as [q|] eqn:Eq; [|now apply Old].
    cbn in H. apply in_app_iff in H as [H|[H|[]]]; [now apply Old|]. injection H as -> <- <-.
    apply aget_in in E. destruct (si_rec _ _ I _ _ E) as (t0 & K1 & K2 & K3 & K4). rewrite Eq in K4. destruct K4 as (a & A & B & C & D & _).
    exists a, (tr_task r). split; [rewrite ts_run_app; now apply wins_grow|auto].
Qed.

Lemma waiter_wakes : forall vs n i rest a t, few vs ->
  take_nth n (ts_waiting (ts_run tstore0 vs)) = Some (i, rest) ->
  In (a, t) (wins (ts_run tstore0 vs)) -> at_id a = i ->
  ts_waited (ts_run tstore0 (vs ++ [TWake n])) = ts_waited (ts_run tstore0 vs) ++ [(i, Some (at_error a, at_payload a))].
Proof.
  intros vs n i rest a t Hf H Hw <-. destruct (won_record _ _ _ _ (sinv_run _ Hf) Hw) as (r & R1 & R2 & R3 & R4).
  rewrite ts_run_snoc. cbn [ts_step]. rewrite H, R1, R4. cbn. now rewrite R3.
Qed.

(** Ids. *)
Lemma created_count : forall vs s, length (ts_created (ts_run s vs)) = length (ts_created s) + creations vs.
Proof.
  induction vs as [|v vs IH] using rev_ind; intro s; [cbn; lia|]. rewrite ts_run_snoc, creations_snoc.
  set (q := ts_run s vs) in *. assert (length (ts_created (ts_step q v)) = length (ts_created q) + match v with TCreate _ _ _ => 1 | _ => 0 end) as ->.
  { destruct v; cbn [ts_step].
    - cbn. rewrite app_length. cbn. lia.
    - unfold ts_terminal. destruct (aget (at_id a) (ts_recs q)) as [r|]; [|cbn; lia].
      destruct ((match tr_payload r with Some _ => true | None => false end) || is_terminal (tk_status (tr_task r)))%bool; cbn; lia.
    - destruct (take_nth n (ts_emit q)) as [[x rest]|]; cbn; lia.
    - destruct (aget i (ts_recs q)); cbn; lia.
    - destruct (take_nth n (ts_waiting q)) as [[i rest]|]; [|cbn; lia]. destruct (aget i (ts_recs q)) as [r|]; [|cbn; lia].
      destruct (tr_payload r); cbn; lia. }
  unfold q. rewrite IH. lia.
Qed.

Lemma ids_unique : forall vs, few vs -> NoDup (ids (ts_run tstore0 vs)) /\ length (ids (ts_run tstore0 vs)) = creations vs.
Proof.
  intros vs Hf. pose proof (sinv_run _ Hf) as I. split.
  - rewrite (si_ids _ _ I), (si_order _ _ I). apply seq_names_nodup.
  - unfold ids. rewrite map_length, created_count. reflexivity.
Qed.

Lemma created_found : forall vs t k, few vs -> In (t, k) (ts_created (ts_run tstore0 vs)) ->
  ts_kind (tk_id t) (ts_run tstore0 vs) = Some k /\
  exists t', ts_get (tk_id t) (ts_run tstore0 vs) = Some t' /\ tk_id t' = tk_id t /\ tk_created t' = tk_created t /\
    tk_ttl t' = tk_ttl t /\ tk_poll t' = tk_poll t.
Proof.
  intros vs t k Hf H. pose proof (sinv_run _ Hf) as I. set (s := ts_run tstore0 vs) in *.
  assert (In (tk_id t) (map fst (ts_recs s))) as Hi.
  { apply (si_dom _ _ I). rewrite <- (si_ids _ _ I). exact (in_map (fun tk : task * task_kind => tk_id (fst tk)) _ _ H). }
  unfold ts_kind, ts_get. destruct (aget (tk_id t) (ts_recs s)) as [r|] eqn:E; [|apply aget_none in E; easy]. cbn.
  apply aget_in in E. destruct (si_rec _ _ I _ _ E) as (t0 & K1 & K2 & K3 & K4).
  assert ((t0, tr_kind r) = (t, k)) as Q by now apply (created_unique _ s) with (1 := I).
  injection Q as -> <-. split; [reflexivity|]. exists (tr_task r). split; [reflexivity|].
  destruct (tr_payload r); [destruct K4 as (a & _ & _ & _ & _ & ->); auto|destruct K4 as [-> _]; auto].
Qed.

Lemma found_created : forall vs i t, few vs -> ts_get i (ts_run tstore0 vs) = Some t -> tk_id t = i /\ In i (ids (ts_run tstore0 vs)).
Proof.
  intros vs i t Hf H. pose proof (sinv_run _ Hf) as I. unfold ts_get in H.
  destruct (aget i (ts_recs (ts_run tstore0 vs))) as [r|] eqn:E; [|discriminate]. cbn in H. injection H as <-. apply aget_in in E. split.
  - destruct (si_rec _ _ I _ _ E) as (t0 & K1 & K2 & K3 & K4). destruct (tr_payload r); [now destruct K4 as (a & _ & _ & _ & _ & ->)|destruct K4 as [-> _]; auto].
  - rewrite (si_ids _ _ I). apply (si_dom _ _ I). exact (in_map fst _ _ E).
Qed.

(** Status reports. *)
Lemma reports : forall vs, Permutation (ts_seen (ts_run tstore0 vs) ++ map snd (ts_emit (ts_run tstore0 vs)))
  (map fst (ts_created (ts_run tstore0 vs)) ++ map snd (wins (ts_run tstore0 vs))).
Proof.
  induction vs as [|v vs IH] using rev_ind; [constructor|]. rewrite ts_run_snoc. set (s := ts_run tstore0 vs) in *.
  destruct v; cbn [ts_step].
  - cbn. rewrite !map_app. cbn. rewrite app_assoc. change (wins (ts_create kind ttl now s)) with (wins s).
    rewrite IH. rewrite <- !app_assoc. apply Permutation_app_head. apply Permutation_app_comm.
  - unfold ts_terminal. destruct (aget (at_id a) (ts_recs s)) as [r|].
    + destruct ((match tr_payload r with Some _ => true | None => false end) || is_terminal (tk_status (tr_task r)))%bool.
      * unfold wins in *. cbn. rewrite flat_map_app. cbn. rewrite app_nil_r. exact IH.
      * unfold wins in *. cbn. rewrite flat_map_app, !map_app. cbn. rewrite !app_assoc. apply Permutation_app_tail. exact IH.
    + unfold wins in *. cbn. rewrite flat_map_app. cbn. rewrite app_nil_r. exact IH.
  - destruct (take_nth n (ts_emit s)) as [[x rest]|] eqn:E; [|exact IH]. change (wins (ts_emit_one x rest s)) with (wins s). cbn.
    rewrite <- IH, <- app_assoc. apply Permutation_app_head. cbn.
    apply take_nth_perm in E. apply (Permutation_map snd) in E. cbn in E. now rewrite E.
  - destruct (aget i (ts_recs s)); exact IH.
  - destruct (take_nth n (ts_waiting s)) as [[i rest]|]; [|exact IH]. destruct (aget i (ts_recs s)) as [r|]; [|exact IH].
    destruct (tr_payload r); exact IH.
Qed.

(** JSON forms. *)
Lemma get_str_same : forall k o o', NoDup (map fst o) -> same (JObj o) (JObj o') -> get_str k o' = get_str k o.
Proof.
  intros k o o' Hn H. pose proof (same_get k o o' Hn H) as G. unfold get_str.
  destruct (obj_get k o) as [v|], (obj_get k o') as [v'|]; try easy. destruct G; reflexivity.
Qed.
Lemma get_int_same : forall k o o', NoDup (map fst o) -> same (JObj o) (JObj o') -> get_int k o' = get_int k o.
Proof.
  intros k o o' Hn H. pose proof (same_get k o o' Hn H) as G. unfold get_int.
  destruct (obj_get k o) as [v|], (obj_get k o') as [v'|]; try easy. destruct G; reflexivity.
Qed.

Lemma nodup_opt_set : forall A k (f : A -> json) v o, NoDup (map fst o) -> NoDup (map fst (opt_set k f v o)).
Proof. intros A k f [x|] o H; [now apply nodup_set|exact H]. Qed.

Lemma parse_task_same : forall o v, NoDup (map fst o) -> same (JObj o) v -> parse_task v = parse_task (JObj o).
Proof.
  intros o v Hn H. destruct (same_obj_inv _ _ H) as (o1 & o' & -> & _). unfold parse_task.
  now rewrite !(get_str_same _ _ _ Hn H), !(get_int_same _ _ _ Hn H).
Qed.

Lemma parse_task_json : forall t v, same (task_json t) v -> parse_task v = t.
Proof.
  intros t v H. unfold task_json in H. rewrite (parse_task_same _ _) with (2 := H).
  - destruct t as [i st [m|] c u [ttl|] [p|]]; reflexivity.
  - apply nodup_opt_set, nodup_set, nodup_opt_set. repeat apply nodup_set. constructor.
Qed.

Lemma parse_created_json : forall t m v, same (created_json t m) v ->
  fst (parse_created v) = t /\
  match m, snd (parse_created v) with Some x, Some y => same x y | None, None => True | _, _ => False end.
Proof.
  intros t m v H. unfold created_json in H. destruct (same_obj_inv _ _ H) as (o1 & o' & -> & _).
  assert (NoDup (map fst (opt_set META (fun x => x) m (obj_set (bs "task") (task_json t) [])))) as N.
  { apply nodup_opt_set, nodup_set. constructor. }
  pose proof (same_get (bs "task") _ _ N H) as G1. pose proof (same_get META _ _ N H) as G2. unfold parse_created. cbn [fst snd].
  assert (obj_get (bs "task") (opt_set META (fun x => x) m (obj_set (bs "task") (task_json t) [])) = Some (task_json t)) as E by (now destruct m).
  rewrite E in G1. split.
  - destruct (obj_get (bs "task") o') as [x|]; [now apply parse_task_json|destruct G1].
  - destruct m as [m|]; cbn [opt_set] in *; [rewrite get_set_same in G2; exact G2|exact G2].
Qed.

Lemma parse_tasks_json : forall l next v, same (tasks_json l next) v -> parse_tasks v = (l, next).
Proof.
  intros l next v H. unfold tasks_json in H. destruct (same_obj_inv _ _ H) as (o1 & o' & -> & _).
  assert (NoDup (map fst (opt_set (bs "nextCursor") JStr next (obj_set (bs "tasks") (JArr (map task_json l)) [])))) as N.
  { apply nodup_opt_set, nodup_set. constructor. }
  unfold parse_tasks. rewrite (get_str_same _ _ _ N H).
  assert (get_str (bs "nextCursor") (opt_set (bs "nextCursor") JStr next (obj_set (bs "tasks") (JArr (map task_json l)) [])) = next) as -> by (now destruct next).
  assert (obj_get (bs "tasks") (opt_set (bs "nextCursor") JStr next (obj_set (bs "tasks") (JArr (map task_json l)) [])) = Some (JArr (map task_json l))) as E by (now destruct next).
  destruct (same_get_some _ _ _ _ N H E) as (v' & E' & S). rewrite E'. inversion S as [| | | | |a b F|]; subst. f_equal.
  clear -F. revert b F. induction l as [|t l IH]; intros b F; inversion F; subst; [reflexivity|]. cbn. f_equal; [now apply parse_task_json|auto].
Qed.

Lemma parse_metadata_json : forall ttl o v d, NoDup (map fst o) -> obj_get (bs "task") o = Some (metadata_json ttl) -> same (JObj o) v ->
  parse_metadata (Some v) d = (true, match ttl with Some z => Some z | None => d end).
Proof.
  intros ttl o v d Hn E H. destruct (same_obj_inv _ _ H) as (o1 & o' & -> & _).
  destruct (same_get_some _ _ _ _ Hn H E) as (v' & E' & S). unfold parse_metadata. rewrite E'. unfold metadata_json in S.
  destruct (same_obj_inv _ _ S) as (o2 & o3 & -> & _).
  rewrite (get_int_same _ _ _) with (2 := S) by (apply nodup_opt_set; constructor). now destruct ttl.
Qed.

Lemma parse_task_id_json : forall i o v, NoDup (map fst o) -> obj_get (bs "taskId") o = Some (JStr i) -> same (JObj o) v ->
  parse_task_id (Some v) = (true, i).
Proof.
  intros i o v Hn E H. destruct (same_obj_inv _ _ H) as (o1 & o' & -> & _). unfold parse_task_id.
  rewrite (get_str_same _ _ _ Hn H). unfold get_str. now rewrite E.
Qed.

(** On the wire. *)
Lemma ok_opt_set : forall A k (f : A -> json) v o, plain k -> (forall x, v = Some x -> ok (f x)) -> ok (JObj o) -> ok (JObj (opt_set k f v o)).
Proof. intros A k f [x|] o Hk Hv Ho; [now apply ok_set; auto|exact Ho]. Qed.

Lemma ok_nil : ok (JObj []).
Proof. constructor; constructor. Qed.

Lemma plain_bs : forall k, plainb k = true -> plain k.
Proof. intros k H. now apply plainb_plain. Qed.

Lemma ok_task_json : forall t, fits (tk_ttl t) -> fits (tk_poll t) -> ok (task_json t).
Proof.
  intros t H1 H2. unfold task_json.
  apply ok_opt_set; [now apply plain_bs| |].
  { intros x E. rewrite E in H2. now constructor. }
  apply ok_set; [now apply plain_bs| |].
  { destruct (tk_ttl t); [now constructor|constructor]. }
  apply ok_opt_set; [now apply plain_bs|intros; constructor|].
  repeat (apply ok_set; [now apply plain_bs|constructor|]). apply ok_nil.
Qed.

Lemma wire_same : forall v v', ok v -> same v v' -> parse_json (ser v') = POk v' [].
Proof.
  intros v v' Hv H. rewrite <- (app_nil_r (ser v')). apply parse_json_ser; [now apply same_ok with v|exact I].
Qed.

Lemma ok_tasks_json : forall l next, Forall (fun t => fits (tk_ttl t) /\ fits (tk_poll t)) l -> ok (tasks_json l next).
Proof.
  intros l next H. unfold tasks_json. apply ok_opt_set; [now apply plain_bs|intros; constructor|].
  apply ok_set; [now apply plain_bs| |apply ok_nil]. constructor. induction H as [|t l [H1 H2] H IH]; constructor; [now apply ok_task_json|exact IH].
Qed.

Lemma ok_created_json : forall t m, fits (tk_ttl t) -> fits (tk_poll t) -> (forall x, m = Some x -> ok x) -> ok (created_json t m).
Proof.
  intros t m H1 H2 H3. unfold created_json. apply ok_opt_set; [now apply plain_bs|exact H3|].
  apply ok_set; [now apply plain_bs|now apply ok_task_json|apply ok_nil].
Qed.

(** Paging. *)
Lemma skipn_skipn' : forall A (l : list A) a b, skipn a (skipn b l) = skipn (b + a) l.
Proof.
  intros A l a b. revert l. induction b as [|b IH]; intro l; [reflexivity|]. destruct l; [now rewrite !skipn_nil|]. apply IH.
Qed.

Lemma page_split : forall A (l x : list A) a b, a <= b -> b <= length l ->
  skipn a (l ++ x) = firstn (b - a) (skipn a l) ++ skipn b (l ++ x).
Proof.
  intros A l x a b H1 H2. rewrite <- (firstn_skipn (b - a) (skipn a (l ++ x))). rewrite skipn_skipn'. replace (a + (b - a)) with b by lia.
  f_equal. rewrite skipn_app, firstn_app, skipn_length. replace (b - a - (length l - a)) with 0 by lia. cbn. now rewrite app_nil_r.
Qed.

Lemma page_ids : forall n s l, sinv n s -> incl l (ts_order s) ->
  map tk_id (flat_map (fun i => match aget i (ts_recs s) with Some r => [tr_task r] | None => [] end) l) = l.
Proof.
  intros n s l I. induction l as [|i l IH]; intro H; [reflexivity|]. cbn.
  assert (In i (ts_order s)) as Hi by (apply H; now left). apply (si_dom _ _ I) in Hi.
  destruct (aget i (ts_recs s)) as [r|] eqn:E; [|now apply aget_none in E]. cbn. rewrite IH by (intros x Hx; apply H; now right). f_equal.
  apply aget_in in E. destruct (si_rec _ _ I _ _ E) as (t0 & K1 & K2 & K3 & K4).
  destruct (tr_payload r); [now destruct K4 as (a & _ & _ & _ & _ & ->)|destruct K4 as [-> _]; auto].
Qed.

Lemma firstn_incl : forall A n (l : list A), incl (firstn n l) l.
Proof. intros A n l x H. rewrite <- (firstn_skipn n l). apply in_or_app. now left. Qed.
Lemma skipn_incl : forall A n (l : list A), incl (skipn n l) l.
Proof. intros A n l x H. rewrite <- (firstn_skipn n l). apply in_or_app. now right. Qed.

Lemma ts_list_spec : forall m s start n, sinv m s -> (N.of_nat (length (ids s)) < 2 ^ 63)%N -> (start <= N.of_nat (length (ids s)))%N ->
  (0 < n < 2 ^ 63)%N ->
  let e := N.min (N.of_nat (length (ids s))) (start + n) in
  exists page, ts_list start (Some n) s = Some (page, if N.ltb e (N.of_nat (length (ids s))) then Some (print_N e) else None) /\
    map tk_id page = firstn (N.to_nat e - N.to_nat start) (skipn (N.to_nat start) (ids s)).
Proof.
  intros m s start n I Hl Hs Hn e. unfold ts_list. rewrite <- (si_ids _ _ I).
  assert ((start + n) mod two64 = start + n)%N as Em by (rewrite two64_val; apply N.mod_small; lia). rewrite Em. fold e.
  destruct (N.leb_spec (N.of_nat (length (ids s))) start) as [L|L].
  - exists []. assert (e = start) as E by (unfold e; lia). split.
    + replace (N.ltb e (N.of_nat (length (ids s)))) with false by lia. reflexivity.
    + rewrite E, Nat.sub_diag. reflexivity.
  - replace (N.ltb e start) with false by (unfold e; lia). eexists. split; [reflexivity|].
    apply (page_ids _ _ _ I). rewrite <- (si_ids _ _ I). intros x Hx. now apply firstn_incl, skipn_incl in Hx.
Qed.

Lemma ids_grow : forall ws s, exists x, ids (ts_run s ws) = ids s ++ x.
Proof.
  induction ws as [|w ws IH] using rev_ind; intro s; [exists []; now rewrite app_nil_r|].
  destruct (IH s) as [x E]. rewrite ts_run_snoc. set (q := ts_run s ws) in *.
  assert (exists y, ids (ts_step q w) = ids q ++ y) as [y F].
  { destruct w; cbn [ts_step].
    - eexists. unfold ids. cbn. rewrite map_app. reflexivity.
    - exists []. rewrite app_nil_r. unfold ts_terminal. destruct (aget (at_id a) (ts_recs q)) as [r|]; [|reflexivity].
      destruct ((match tr_payload r with Some _ => true | None => false end) || is_terminal (tk_status (tr_task r)))%bool; reflexivity.
    - exists []. rewrite app_nil_r. destruct (take_nth n (ts_emit q)) as [[z rest]|]; reflexivity.
    - exists []. rewrite app_nil_r. destruct (aget i (ts_recs q)); reflexivity.
    - exists []. rewrite app_nil_r. destruct (take_nth n (ts_waiting q)) as [[i rest]|]; [|reflexivity].
      destruct (aget i (ts_recs q)) as [r|]; [|reflexivity]. destruct (tr_payload r); reflexivity. }
  exists (x ++ y). rewrite F, E. now rewrite app_assoc.
Qed.

Definition starts (c : option bstr) (start : N) : Prop :=
  match c with None => start = 0%N | Some x => x = print_N start end.

Lemma cursor_print : forall e, (e < 2 ^ 63)%N -> cursor_start (print_N e) = Some e.
Proof.
  intros e H. unfold cursor_start. assert (print_N e = print_Z (Z.of_N e) ++ []) as ->.
  { rewrite app_nil_r. unfold print_Z. rewrite (proj2 (Z.ltb_ge _ _)) by lia. f_equal. lia. }
  rewrite stoll_print_Z; [|exact I|unfold int64; change two63 with (2 ^ 63)%Z; lia]. cbn [option_map].
  rewrite two64_val. rewrite Z.mod_small by lia. f_equal. lia.
Qed.

Lemma tasks_list_asks : forall n c start params s, (0 < n < 2 ^ 63)%Z -> starts c start -> (start < 2 ^ 63)%N -> asks n c params ->
  tasks_list params s = match ts_list start (Some (Z.to_N n)) s with None => ListThrows | Some (ts, next) => ListPage (tasks_json ts next) end.
Proof.
  intros n c start params s Hn Hc Hs (o & -> & E1 & E2). unfold tasks_list. rewrite E1, E2.
  destruct c as [c|]; cbn [option_map starts] in *; subst; [rewrite cursor_print by exact Hs|];
    replace (Z.leb n 0) with false by lia; reflexivity.
Qed.

Lemma few_mono : forall vs ws, creations vs <= creations (vs ++ ws).
Proof. intros. unfold creations. rewrite filter_app, app_length. lia. Qed.

Lemma ids_length : forall vs, length (ids (ts_run tstore0 vs)) = creations vs.
Proof. intro vs. unfold ids. rewrite map_length, created_count. reflexivity. Qed.

Lemma walk_extends : forall n vs c pages us, walk n vs c pages us -> exists ws, us = vs ++ ws.
Proof.
  intros n vs c pages us H. induction H as [|vs ws us c params v page c' pages A B C H [x ->]]; [exists []; now rewrite app_nil_r|].
  exists (ws ++ x). now rewrite app_assoc.
Qed.

Lemma walk_all_from : forall n vs c pages us, walk n vs c pages us -> (0 < n < 2 ^ 63)%Z -> (N.of_nat (creations us) < 2 ^ 63)%N ->
  forall start, starts c start -> (start <= N.of_nat (creations vs))%N ->
  concat pages = skipn (N.to_nat start) (ids (ts_run tstore0 us)) /\
  Forall (fun page => (Z.of_nat (length page) <= n)%Z) pages.
Proof.
  intros n vs c pages us H Hn Hu. induction H as [vs c params v page A B C|vs ws us c params v page c' pages A B C H IH]; intros start Hc Hs.
  - rewrite (tasks_list_asks n c start) in B by (auto; lia).
    destruct (ts_list_spec (creations vs) (ts_run tstore0 vs) start (Z.to_N n)) as (page' & E & F).
    { apply sinv_run. unfold few. lia. } { rewrite ids_length. lia. } { rewrite ids_length. lia. } { lia. }
    rewrite E in B. injection B as B. rewrite (parse_tasks_json _ _ v) in C by (rewrite B; apply same_refl). injection C as -> C.
    rewrite ids_length in *. split.
    + cbn [concat]. rewrite app_nil_r, F.
      destruct (N.ltb_spec (N.min (N.of_nat (creations vs)) (start + Z.to_N n)) (N.of_nat (creations vs))) as [L|L]; [discriminate|].
      rewrite firstn_all2; [reflexivity|]. rewrite skipn_length, ids_length. lia.
    + constructor; [|constructor]. rewrite F, firstn_length. lia.
  - destruct (walk_extends _ _ _ _ _ H) as [x Hx].
    assert (creations vs <= creations us) as Hm by (rewrite Hx; unfold creations; rewrite !filter_app, !app_length; lia).
    rewrite (tasks_list_asks n c start) in B by (auto; lia).
    destruct (ts_list_spec (creations vs) (ts_run tstore0 vs) start (Z.to_N n)) as (page' & E & F).
    { apply sinv_run. unfold few. lia. } { rewrite ids_length. lia. } { rewrite ids_length. lia. } { lia. }
    rewrite E in B. injection B as B. rewrite (parse_tasks_json _ _ v) in C by (rewrite B; apply same_refl). injection C as -> C.
    rewrite ids_length in *.
    destruct (N.ltb_spec (N.min (N.of_nat (creations vs)) (start + Z.to_N n)) (N.of_nat (creations vs))) as [L|L]; [|discriminate].
    injection C as <-. set (e := N.min (N.of_nat (creations vs)) (start + Z.to_N n)) in *.
    destruct (IH Hu e eq_refl) as [J1 J2].
    { pose proof (few_mono vs ws). lia. }
    split.
    + cbn [concat]. rewrite J1, F. rewrite Hx. rewrite <- app_assoc, ts_run_app.
      destruct (ids_grow (ws ++ x) (ts_run tstore0 vs)) as [y ->]. symmetry.
      rewrite (page_split _ _ _ (N.to_nat start) (N.to_nat e)); [reflexivity|unfold e; lia|rewrite ids_length; lia].
    + constructor; [|exact J2]. rewrite F, firstn_length. lia.
Qed.

Lemma walk_all : forall n vs pages us, walk n vs None pages us -> (0 < n < 2 ^ 63)%Z -> (N.of_nat (creations us) < 2 ^ 63)%N ->
  concat pages = ids (ts_run tstore0 us) /\ Forall (fun page => (Z.of_nat (length page) <= n)%Z) pages.
Proof.
  intros n vs pages us H Hn Hu. destruct (walk_all_from _ _ _ _ _ H Hn Hu 0%N eq_refl) as [A B]; [lia|]. split; [exact A|exact B].
Qed.

Definition ask_params (n : Z) (c : option bstr) : option json :=
  Some (JObj (opt_set (bs "cursor") JStr c [(bs "limit", JInt n)])).

Lemma ask_params_asks : forall n c, asks n c (ask_params n c).
Proof. intros n c. eexists. split; [reflexivity|]. destruct c; split; reflexivity. Qed.

Lemma walk_exists_from : forall n vs, (0 < n < 2 ^ 63)%Z -> (N.of_nat (creations vs) < 2 ^ 63)%N ->
  forall k c start, starts c start -> (start <= N.of_nat (creations vs))%N -> creations vs - N.to_nat start < k ->
  exists pages, walk n vs c pages vs.
Proof.
  intros n vs Hn Hu k. induction k as [|k IH]; intros c start Hc Hs Hk; [lia|].
  destruct (ts_list_spec (creations vs) (ts_run tstore0 vs) start (Z.to_N n)) as (page' & E & F).
  { apply sinv_run. unfold few. lia. } { rewrite ids_length. lia. } { rewrite ids_length. lia. } { lia. }
  pose proof (tasks_list_asks n c start (ask_params n c) (ts_run tstore0 vs) Hn Hc ltac:(lia) (ask_params_asks n c)) as B.
  rewrite E in B. rewrite ids_length in *.
  destruct (N.ltb_spec (N.min (N.of_nat (creations vs)) (start + Z.to_N n)) (N.of_nat (creations vs))) as [L|L].
  - set (e := N.min (N.of_nat (creations vs)) (start + Z.to_N n)) in *.
    destruct (IH (Some (print_N e)) e eq_refl) as [pages W]; [unfold e; lia|unfold e; lia|].
    eexists. apply (walk_more n vs [] vs c _ _ page' (print_N e) pages (ask_params_asks n c) B).
    + apply parse_tasks_json. apply same_refl.
    + now rewrite app_nil_r.
  - eexists. apply (walk_last n vs c _ _ page' (ask_params_asks n c) B). apply parse_tasks_json. apply same_refl.
Qed.

Lemma walk_exists : forall n vs, (0 < n < 2 ^ 63)%Z -> (N.of_nat (creations vs) < 2 ^ 63)%N -> exists pages, walk n vs None pages vs.
Proof. intros n vs Hn Hu. apply (walk_exists_from n vs Hn Hu (S (creations vs)) None 0%N eq_refl); lia. Qed.

Lemma list_all : forall vs, few vs -> exists ts, tasks_list None (ts_run tstore0 vs) = ListPage (tasks_json ts None) /\
  map tk_id ts = ids (ts_run tstore0 vs) /\ forall t, In t ts -> ts_get (tk_id t) (ts_run tstore0 vs) = Some t.
Proof.
  intros vs Hf. pose proof (sinv_run _ Hf) as I. cbn [tasks_list]. unfold ts_list. rewrite <- (si_ids _ _ I).
  set (s := ts_run tstore0 vs) in *.
  assert (forall l t, incl l (ids s) -> In t (flat_map (fun i => match aget i (ts_recs s) with Some r => [tr_task r] | None => [] end) l) ->
    ts_get (tk_id t) s = Some t) as G.
  { intros l t Hl Ht. apply in_flat_map in Ht as (i & Hi & Ht). destruct (aget i (ts_recs s)) as [r|] eqn:E; [|destruct Ht].
    destruct Ht as [<- |[]]. assert (tk_id (tr_task r) = i) as ->.
    { apply aget_in in E. destruct (si_rec _ _ I _ _ E) as (t0 & K1 & K2 & K3 & K4).
      destruct (tr_payload r); [now destruct K4 as (a & _ & _ & _ & _ & ->)|destruct K4 as [-> _]; auto]. }
    unfold ts_get. now rewrite E. }
  destruct (N.leb_spec (N.of_nat (length (ids s))) 0) as [L|L].
  - exists []. assert (ids s = []) as -> by (apply length_zero_iff_nil; lia). now repeat split.
  - rewrite (proj2 (N.ltb_ge _ _)) by lia. eexists. split; [reflexivity|]. rewrite Nat2N.id, Nat.sub_0_r. cbn [N.to_nat skipn]. rewrite firstn_all. split.
    + apply (page_ids _ _ _ I). rewrite <- (si_ids _ _ I). apply incl_refl.
    + intros t Ht. apply (G (ids s)); [apply incl_refl|exact Ht].
Qed.

(** Related-task metadata. *)
Lemma attach_result_obj : forall o i, exists o', attach_result (JObj o) i = JObj o' /\
  (forall k, k <> META -> obj_get k o' = obj_get k o) /\
  exists m, obj_get META o' = Some (JObj m) /\ (exists r, obj_get RELATED m = Some (JObj r) /\ obj_get (bs "taskId") r = Some (JStr i)) /\
    (forall k, k <> RELATED -> obj_get k m = obj_get k (obj_at META o)).
Proof.
  intros o i. eexists. split; [reflexivity|]. split; [intros k Hk; now apply get_set_other|].
  eexists. split; [apply get_set_same|]. split; [eexists; split; [apply get_set_same|reflexivity]|]. intros k Hk. now apply get_set_other.
Qed.

Lemma attach_error_obj : forall o i, exists o', attach_error (JObj o) i = JObj o' /\
  (forall k, k <> DATA -> obj_get k o' = obj_get k o) /\
  exists d, obj_get DATA o' = Some (JObj d) /\
  (forall k, k <> META -> obj_get k d = obj_get k (obj_at DATA o)) /\
  exists m, obj_get META d = Some (JObj m) /\ (exists r, obj_get RELATED m = Some (JObj r) /\ obj_get (bs "taskId") r = Some (JStr i)) /\
    (forall k, k <> RELATED -> obj_get k m = obj_get k (obj_at META (obj_at DATA o))).
Proof.
  intros o i. eexists. split; [reflexivity|]. split; [intros k Hk; now apply get_set_other|].
  eexists. split; [apply get_set_same|]. split; [intros k Hk; now apply get_set_other|].
  eexists. split; [apply get_set_same|]. split; [eexists; split; [apply get_set_same|reflexivity]|]. intros k Hk. now apply get_set_other.
Qed.
