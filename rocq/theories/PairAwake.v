(** Start on a started in-memory transport returns if the earlier thread is awake. *)
From Coq Require Import List Arith Bool Lia.
From Verif Require Import PairModel PairSpec PairProofs.
Import ListNotations.
Local Open Scope nat_scope.

Definition orank (s : pside) : nat :=
  5 * length (en_queue s) +
  match en_old s with
  | None | Some WEnded => 0 | Some WTop | Some WAwake => 1 | Some WDrain => 2 | Some WRelock => 3 | Some (WBusy _) => 4 | Some (WTaken _) => 5
  | Some WChecked | Some WBlocked => 0
  end.
Definition leaving (s : pside) : Prop :=
  holds (en_worker s) = false /\ en_ostop s = true /\ en_pc s = SJoin /\ en_old s <> Some WChecked /\ en_old s <> Some WBlocked.

Lemma leaving_work s : leaving s -> leaving (work true s) /\ (en_old s = None \/ en_old s = Some WEnded \/ orank (work true s) < orank s).
Proof.
  intros (H & O & P & N1 & N2). unfold leaving, orank, work. cbn [thread negb stopped]. rewrite H. cbn [negb].
  destruct (en_old s) as [[| | | | |m|[]| |]|] eqn:E; try (now destruct N1); try (now destruct N2).
  - rewrite O, andb_false_r. cbn. rewrite O, H, P. repeat split; try discriminate. right. right. lia.
  - unfold look. cbn [stopped]. rewrite O. cbn. rewrite O, H, P. repeat split; try discriminate. right. right. lia.
  - destruct (en_queue s) as [|x q] eqn:Q.
    + cbn. rewrite O, H, P, Q. repeat split; try discriminate. right. right. cbn. lia.
    + destruct (en_conn s); cbn; rewrite O, H, P; repeat split; try discriminate; right; right; rewrite ?Q; cbn; lia.
  - cbn. rewrite O, H, P. repeat split; try discriminate. right. right. lia.
  - cbn. rewrite O, H, P. repeat split; try discriminate. right. right. lia.
  - cbn. rewrite O, H, P. repeat split; try discriminate. right. right. lia.
  - cbn. rewrite O, H, P. repeat split; try discriminate. right. right. lia.
  - cbn. rewrite O, H, P. repeat split; try discriminate. right. right. lia.
  - rewrite E, O, H, P. repeat split; try discriminate. auto.
  - rewrite E, O, H, P. repeat split; try discriminate. auto.
Qed.

Lemma step_own p e : pr_fate p = None -> side e (pstep p (AStep e)) = own_step (side e p) /\ pr_fate (pstep p (AStep e)) = None.
Proof. intro F. unfold pstep. rewrite F, side_put, fate_put. auto. Qed.
Lemma step_work p e old : pr_fate p = None -> side e (pstep p (AWorker e old)) = work old (side e p) /\ pr_fate (pstep p (AWorker e old)) = None.
Proof. intro F. unfold pstep. rewrite F, side_put, fate_put. auto. Qed.

Lemma leaves : forall k p e, pr_fate p = None -> leaving (side e p) -> orank (side e p) <= k ->
  exists n, let q := prun p (repeat (AWorker e true) n) in
    pr_fate q = None /\ leaving (side e q) /\ (en_old (side e q) = None \/ en_old (side e q) = Some WEnded).
Proof.
  induction k as [|k IH]; intros p e F L K; destruct (leaving_work _ L) as [L' D]; destruct D as [D|[D|D]];
    try (exists 0; cbn; auto; fail); [lia|].
  destruct (step_work p e true F) as [SS F']. rewrite <- SS in L', D.
  destruct (IH (pstep p (AWorker e true)) e F' L') as [n H]; [lia|]. exists (S n). exact H.
Qed.

Lemma released s : holds (en_worker s) = true -> holds (en_old s) = false -> holds (en_worker (work false s)) = false /\
  en_ostop (work false s) = en_ostop s /\ en_pc (work false s) = en_pc s /\ en_old (work false s) = en_old s.
Proof.
  intros H H'. rewrite work_pc, work_false_old. unfold work. cbn [thread].
  destruct (en_worker s) as [[| | | | |m|[]| |]|] eqn:E; try discriminate; cbn; auto.
  destruct (en_queue s); [cbn; auto|]. destruct (en_conn s); cbn; auto.
Qed.

(** Whoever the mutex belongs to. *)
Lemma returns : forall p e, pr_fate p = None -> en_pc (side e p) = SStop ->
  en_old (side e p) <> Some WChecked -> en_old (side e p) <> Some WBlocked -> (holds (en_worker (side e p)) && holds (en_old (side e p)))%bool = false ->
  exists m n, let q := prun p ([AStep e] ++ repeat (AWorker e false) m ++ repeat (AWorker e true) n ++ [AStep e]) in
    pr_fate q = None /\ en_pc (side e q) = EOut /\ en_old (side e q) = None.
Proof.
  intros p e F P N1 N2 M. destruct (step_own p e F) as [SS F1]. set (p1 := pstep p (AStep e)) in *.
  assert (exists m, let r := prun p1 (repeat (AWorker e false) m) in pr_fate r = None /\ leaving (side e r)) as (m & F2 & L).
  { assert (en_ostop (side e p1) = true /\ en_pc (side e p1) = SJoin /\ en_old (side e p1) = en_old (side e p) /\
            en_worker (side e p1) = en_worker (side e p)) as (O & P1 & O1 & W).
    { rewrite SS. unfold own_step. rewrite P. cbn. auto. }
    destruct (holds (en_worker (side e p1))) eqn:H.
    - exists 1. cbn [repeat prun fold_left]. destruct (step_work p1 e false F1) as [S2 F2]. split; [exact F2|].
      assert (holds (en_old (side e p1)) = false) as HO.
      { rewrite O1. rewrite W in H. rewrite H in M. exact M. }
      destruct (released _ H HO) as (R1 & R2 & R3 & R4). unfold leaving. rewrite S2, R1, R2, R3, R4, O, P1, O1. auto.
    - exists 0. cbn. split; [exact F1|]. unfold leaving. rewrite H, O, P1, O1. auto. }
  set (r := prun p1 (repeat (AWorker e false) m)) in *.
  destruct (leaves _ r e F2 L (le_n _)) as (n & F3 & L3 & D). set (q := prun r (repeat (AWorker e true) n)) in *.
  exists m, n. change ([AStep e] ++ repeat (AWorker e false) m ++ repeat (AWorker e true) n ++ [AStep e]) with
    (AStep e :: repeat (AWorker e false) m ++ repeat (AWorker e true) n ++ [AStep e]).
  rewrite prun_cons. fold p1. rewrite prun_app. fold r. rewrite prun_app. fold q. cbn [prun fold_left].
  destruct (step_own q e F3) as [S4 F4]. cbv zeta. split; [exact F4|]. rewrite S4. destruct L3 as (_ & _ & P3 & _ & _).
  unfold own_step. rewrite P3. destruct D as [-> | ->]; auto.
Qed.

(** One mutex: never do both threads hold it. *)
Lemma mutex_move s s' : move true s s' -> (holds (en_worker s) && holds (en_old s))%bool = false -> (holds (en_worker s') && holds (en_old s'))%bool = false.
Proof.
  intros M H. destruct M; cbn; auto.
  - unfold own_step. destruct (en_pc s); cbn; auto.
    all: revert H; destruct (en_worker s) as [[]|] eqn:E, (en_old s) as [[]|] eqn:E'; cbn; intros; rewrite ?E, ?E'; try reflexivity; discriminate.
  - revert H. unfold work, look, stopped, thread, set_thread.
    destruct old, (en_worker s) as [[| | | | |m|[]| |]|] eqn:E, (en_old s) as [[| | | | |m'|[]| |]|] eqn:E'; cbn; intros H; try discriminate;
      rewrite ?E, ?E'; try reflexivity;
      destruct (en_conn s), (en_queue s), (en_stop s), (en_ostop s); cbn; rewrite ?E, ?E'; reflexivity.
  - clear - H. revert H. unfold notify_one, notify_all, set_thread, set_queue; cbn [en_worker en_old].
    destruct (en_worker s) as [[]|] eqn:E, (en_old s) as [[]|] eqn:E'; destruct pick; cbn; rewrite ?E, ?E'; cbn; auto.
  - clear - H. revert H. destruct (en_worker s) as [[]|] eqn:E, (en_old s) as [[]|] eqn:E'; cbn; auto.
Qed.

Lemma mutex_run h e : pr_fate (prun pair0 h) = None -> (holds (en_worker (side e (prun pair0 h))) && holds (en_old (side e (prun pair0 h))))%bool = false.
Proof.
  intro F. apply (run_inv (fun s => (holds (en_worker s) && holds (en_old s))%bool = false) (fun s s' I M => mutex_move s s' M I) e h pair0 F).
  destruct e; reflexivity.
Qed.

Lemma awake_returns : forall h e, let p := prun pair0 h in
  pr_fate p = None -> en_pc (side e p) = SStop -> en_old (side e p) <> Some WChecked -> en_old (side e p) <> Some WBlocked ->
  exists m n, let q := prun p ([AStep e] ++ repeat (AWorker e false) m ++ repeat (AWorker e true) n ++ [AStep e]) in
    pr_fate q = None /\ en_pc (side e q) = EOut /\ en_old (side e q) = None.
Proof. intros h e p F P N1 N2. apply returns; auto. now apply mutex_run. Qed.
