From Coq Require Import List Arith Bool Lia.
From Verif Require Import PairModel PairSpec.
Import ListNotations.
Local Open Scope nat_scope.

Lemma side_put e s p : side e (put e s p) = s.
Proof. destruct e; reflexivity. Qed.
Lemma side_put_neg e s p : side (negb e) (put e s p) = side (negb e) p.
Proof. destruct e; reflexivity. Qed.
Lemma side_put_other e s p : side e (put (negb e) s p) = side e p.
Proof. destruct e; reflexivity. Qed.
Lemma fate_put e s p : pr_fate (put e s p) = pr_fate p.
Proof. destruct e; reflexivity. Qed.
Lemma side_doom e f p : side e (doom f p) = side e p.
Proof. destruct e; reflexivity. Qed.

Lemma prun_cons p v h : prun p (v :: h) = prun (pstep p v) h.
Proof. reflexivity. Qed.
Lemma prun_app p h h' : prun p (h ++ h') = prun (prun p h) h'.
Proof. apply fold_left_app. Qed.

Lemma fated_step p v : pr_fate p <> None -> pstep p v = p.
Proof. intros F. unfold pstep. destruct (pr_fate p); [reflexivity|contradiction]. Qed.
Lemma fated_run h : forall p, pr_fate p <> None -> prun p h = p.
Proof. induction h as [|v h IH]; intros p F; [reflexivity|]. cbn. rewrite (fated_step p v F). apply IH, F. Qed.
Lemma unfated_head p v h : pr_fate (prun (pstep p v) h) = None -> pr_fate (pstep p v) = None.
Proof. intros F. destruct (pr_fate (pstep p v)) eqn:E; [|reflexivity]. rewrite fated_run in F; congruence. Qed.
Lemma unfated_before p h : pr_fate (prun p h) = None -> pr_fate p = None.
Proof. intros F. destruct (pr_fate p) eqn:E; [|reflexivity]. rewrite fated_run in F; congruence. Qed.

(** What one step can do to one end. *)
(** ok: Start may be called. *)
Inductive move (ok : bool) (s : pside) : pside -> Prop :=
| MvSame : move ok s s
| MvStart : ok = true -> en_pc s = EOut -> move ok s
   {| en_conn := true; en_queue := en_queue s; en_worker := en_worker s; en_stop := en_stop s; en_old := en_old s;
      en_ostop := en_ostop s; en_jobs := en_jobs s; en_pc := SSpawn; en_starts := S (en_starts s); en_begun := en_begun s |}
| MvClose : en_pc s = EOut -> move ok s (set_pc CNotify (set_conn false s))
| MvDestroy : en_pc s = EOut -> move ok s (set_pc DNotify (set_conn false s))
| MvOwn : move ok s (own_step s)
| MvWork : forall old, move ok s (work old s)
| MvEnqueue : forall pick m, en_conn s = true -> holds (en_worker s) = false -> holds (en_old s) = false -> en_pc s <> EFreed ->
    move ok s (notify_one pick (set_queue (en_queue s ++ [(m, en_starts s)]) s))
| MvJob : forall n, en_jobs s = S n -> move ok s (set_jobs n s)
| MvIn : en_worker s = Some (WBusy MNote) -> move ok s (notify_all (set_conn false s)).

Lemma send_side e e' pick m p q : send_peer pick m e p = Some q ->
  q = p \/ q = doom PCorrupt p \/
  exists s', q = put (negb e) s' p /\ s' = notify_one pick (set_queue (en_queue (side (negb e) p) ++ [(m, en_starts (side (negb e) p))]) (side (negb e) p)) /\
    en_conn (side (negb e) p) = true /\ holds (en_worker (side (negb e) p)) = false /\ holds (en_old (side (negb e) p)) = false /\
    en_pc (side (negb e) p) <> EFreed /\ (e' = e \/ e' = negb e).
Proof.
  unfold send_peer. intros H.
  assert (e' = e \/ e' = negb e) as EE by (destruct e, e'; auto).
  destruct (en_pc (side (negb e) p)) eqn:P; (destruct (en_conn (side (negb e) p)) eqn:C; [|try (injection H as <-; auto)]);
    try (injection H as <-; auto; fail); unfold enqueue in H;
    destruct (holds (en_worker (side (negb e) p)) || holds (en_old (side (negb e) p)))%bool eqn:L; try discriminate;
    apply orb_false_iff in L as [L1 L2]; injection H as <-; right; right; eexists; (split; [reflexivity|]); repeat split; auto; discriminate.
Qed.

Lemma doom_fate f p : pr_fate (doom f p) = None -> False.
Proof. discriminate. Qed.

Lemma step_moves p v e : pr_fate (pstep p v) = None ->
  match v with
  | AStart e' => if Bool.eqb e e' then True else side e (pstep p v) = side e p
  | AStep e' => side e (pstep p v) = if Bool.eqb e e' then own_step (side e p) else side e p
  | AWorker e' o => side e (pstep p v) = if Bool.eqb e e' then work o (side e p) else side e p
  | _ => True
  end.
Proof.
  intros F. unfold pstep in *. destruct (pr_fate p) eqn:E; [congruence|]. clear E F.
  destruct v as [e'|e'|e'|e'|e' o|e' pk m|e' pk|e'|e']; try exact I.
  - destruct (Bool.eqb e e') eqn:Q; [exact I|]. destruct (en_pc (side e' p)); try reflexivity. destruct e, e'; try discriminate; reflexivity.
  - destruct e, e'; reflexivity.
  - destruct e, e'; reflexivity.
Qed.

Definition starts (e : bool) (v : pact) : bool := match v with AStart e' => Bool.eqb e e' | _ => false end.
Lemma move_local ok p e s : move ok (side e p) s -> forall e', move ok (side e' p) (side e' (put e s p)).
Proof. intros M e'. destruct e, e'; cbn in *; try exact M; apply MvSame. Qed.

Lemma step_move p v e : pr_fate (pstep p v) = None -> move (starts e v) (side e p) (side e (pstep p v)).
Proof.
  intros F. unfold pstep in *. destruct (pr_fate p) eqn:E; [congruence|].
  destruct v as [e'|e'|e'|e'|e' o|e' pk m|e' pk|e'|e'].
  - destruct (en_pc (side e' p)) eqn:P; try apply MvSame. destruct e, e'; cbn in *; first [apply MvStart; [reflexivity|exact P]|apply MvSame].
  - destruct (en_pc (side e' p)) eqn:P; try apply MvSame. apply move_local. apply MvClose. exact P.
  - destruct (en_pc (side e' p)) eqn:P; try apply MvSame. apply move_local. apply MvDestroy. exact P.
  - apply move_local. apply MvOwn.
  - apply move_local. apply MvWork.
  - destruct (en_pc (side e' p)) eqn:P; try apply MvSame; destruct (send_peer pk m e' p) as [q|] eqn:S; try apply MvSame;
      (destruct (send_side e' e' pk m p q S) as [-> | [-> |(s' & -> & -> & C & L1 & L2 & NF & _)]];
       [apply MvSame|discriminate F|]; apply move_local; apply MvEnqueue; auto).
  - destruct (en_jobs (side e' p)) as [|n] eqn:J; [apply MvSame|].
    destruct (en_pc (side e' p)) eqn:P; try discriminate F; destruct (send_peer pk MResp e' p) as [q|] eqn:S; try apply MvSame;
      (destruct (send_side e' e' pk MResp p q S) as [-> | [-> |(s' & -> & -> & C & L1 & L2 & NF & _)]];
       [apply move_local, MvJob, J
       |rewrite fate_put in F; discriminate F
       |destruct e, e'; cbn in *; first [apply MvJob; exact J|apply MvEnqueue; auto; fail|apply MvSame]]).
  - destruct (en_worker (side e' p)) as [[]|] eqn:W; try apply MvSame. destruct m; try apply MvSame. apply move_local, MvIn. exact W.
  - destruct (en_worker (side e' p)) as [[]|]; try apply MvSame. destruct m; apply MvSame.
Qed.

(** The old thread exists only while Start runs. *)
Definition lone (s : pside) : Prop := en_old s = None \/ starting s.

Lemma thread_set old w s o : thread o (set_thread old w s) = if Bool.eqb o old then Some w else thread o s.
Proof. destruct old, o; reflexivity. Qed.

Lemma work_pc old s : en_pc (work old s) = en_pc s.
Proof.
  unfold work. destruct (thread old s) as [w|] eqn:T; [|reflexivity]. destruct w as [| | | | |m|m| |]; try (destruct old; reflexivity).
  - destruct (en_conn s && negb (stopped old s))%bool; [destruct (negb (holds (thread (negb old) s)))|]; destruct old; reflexivity.
  - destruct (negb (holds (thread (negb old) s))); destruct old; reflexivity.
  - destruct (en_queue s); [|destruct (en_conn s)]; destruct old; reflexivity.
  - destruct m; destruct old; reflexivity.
  - destruct (negb (holds (thread (negb old) s))); destruct old; reflexivity.
Qed.
Lemma work_conn old s : en_conn (work old s) = en_conn s.
Proof.
  unfold work. destruct (thread old s) as [w|] eqn:T; [|reflexivity]. destruct w as [| | | | |m|m| |]; try (destruct old; reflexivity).
  - destruct (en_conn s && negb (stopped old s))%bool; [destruct (negb (holds (thread (negb old) s)))|]; destruct old; reflexivity.
  - destruct (negb (holds (thread (negb old) s))); destruct old; reflexivity.
  - destruct (en_queue s); [|destruct (en_conn s) eqn:C]; destruct old; cbn; congruence.
  - destruct m; destruct old; reflexivity.
  - destruct (negb (holds (thread (negb old) s))); destruct old; reflexivity.
Qed.
Lemma work_true_none s : en_old s = None -> work true s = s.
Proof. intros H. unfold work. cbn. rewrite H. reflexivity. Qed.
Lemma work_false_old s : en_old (work false s) = en_old s.
Proof.
  unfold work. destruct (thread false s) as [w|] eqn:T; [|reflexivity]. destruct w as [| | | | |m|m| |]; try reflexivity.
  - destruct (en_conn s && negb (stopped false s))%bool; [destruct (negb (holds (thread (negb false) s)))|]; reflexivity.
  - destruct (negb (holds (thread (negb false) s))); reflexivity.
  - destruct (en_queue s); [|destruct (en_conn s)]; reflexivity.
  - destruct m; reflexivity.
  - destruct (negb (holds (thread (negb false) s))); reflexivity.
Qed.
Lemma roused_none w : roused w = None <-> w = None.
Proof. destruct w as [[]|]; cbn; split; congruence. Qed.
Lemma notify_one_pc pick s : en_pc (notify_one pick s) = en_pc s.
Proof. unfold notify_one. destruct (en_worker s) as [[]|], (en_old s) as [[]|]; try reflexivity. destruct pick; reflexivity. Qed.
Lemma notify_one_old pick s : en_old s = None -> notify_one pick s = notify_all s.
Proof. intros H. unfold notify_one. rewrite H. destruct (en_worker s) as [[]|]; reflexivity. Qed.

Lemma lone_move s s' : lone s -> move true s s' -> lone s'.
Proof.
  intros L M. unfold lone, starting in *. destruct M as [|_ P|P|P| |old|pick m C H1 H2 NF|n J|B].
  - exact L.
  - destruct L as [L|L]; [left; exact L|rewrite P in L; cbn in L; intuition discriminate].
  - destruct L as [L|L]; [left; exact L|rewrite P in L; cbn in L; intuition discriminate].
  - destruct L as [L|L]; [left; exact L|rewrite P in L; cbn in L; intuition discriminate].
  - unfold own_step. destruct (en_pc s) eqn:P; cbn in L.
    + left. intuition discriminate.
    + right. cbn. auto.
    + right. cbn. auto.
    + destruct (en_old s) as [[]|] eqn:O; cbn; auto; right; rewrite P; cbn; auto.
    + left. cbn. destruct L as [-> | L]; [reflexivity|intuition discriminate].
    + left. cbn. destruct L as [-> | L]; [reflexivity|intuition discriminate].
    + destruct (en_worker s); left; cbn; (destruct L as [L|L]; [exact L|intuition discriminate]).
    + destruct (en_worker s) as [[]|]; left; cbn; (destruct L as [L|L]; [exact L|intuition discriminate]).
    + left. destruct L as [L|L]; [exact L|intuition discriminate].
  - rewrite work_pc. destruct L as [L|L]; [|right; exact L]. left. destruct old; [rewrite work_true_none; exact L|rewrite work_false_old; exact L].
  - rewrite notify_one_pc. destruct L as [L|L]; [|right; exact L]. left. rewrite notify_one_old by exact L. cbn. rewrite L. reflexivity.
  - exact L.
  - destruct L as [L|L]; [|right; exact L]. left. cbn. rewrite L. reflexivity.
Qed.

Lemma move_any ok s s' : move ok s s' -> move true s s'.
Proof. intros []; constructor; auto. Qed.

(** An invariant of one end that every move keeps holds in every run that has not failed. *)
Lemma run_inv (I : pside -> Prop) (K : forall s s', I s -> move true s s' -> I s') e : forall h p,
  pr_fate (prun p h) = None -> I (side e p) -> I (side e (prun p h)).
Proof.
  induction h as [|v h IH]; intros p F H; [exact H|]. cbn in *. apply IH; [exact F|].
  apply (K (side e p)); [exact H|]. apply (move_any (starts e v)), step_move. exact (unfated_head p v h F).
Qed.

Lemma lone_run h e : pr_fate (prun pair0 h) = None -> lone (side e (prun pair0 h)).
Proof. intros F. apply (run_inv lone lone_move e h pair0 F). destruct e; left; reflexivity. Qed.

(** ** A closed end whose worker is awake: the worker ends *)
Definition wrank (w : option wk) : nat :=
  match w with
  | None | Some WEnded => 0 | Some WTop => 1 | Some WDrain => 2 | Some WAwake | Some WRelock => 3 | Some (WBusy _) => 4 | Some (WTaken _) => 5
  | Some WChecked | Some WBlocked => 6
  end.

Record down (s : pside) : Prop :=
  { dn_conn : en_conn s = false; dn_old : en_old s = None; dn_awake : ~ asleep s; dn_pc : ~ In (en_pc s) [SSpawn; SStop; SJoin] }.

Ltac downs := repeat split; cbn; auto; unfold asleep; cbn; intuition discriminate.

Lemma down_work s : down s -> down (work false s) /\ wrank (en_worker (work false s)) <= pred (wrank (en_worker s)).
Proof.
  intros [C O A P]. unfold asleep in A. unfold work. cbn [thread negb]. rewrite O. cbn [holds negb].
  destruct s as [conn q w st o ost jobs pc starts begun]. cbn in *. subst conn o.
  destruct w as [w|]; [|split; [constructor; auto|cbn; lia]]. destruct w as [| | | | |m|m| |]; cbn; try (exfalso; tauto).
  - split; [constructor; downs|cbn; lia].
  - unfold look. cbn. destruct st; cbn; [split; [constructor; downs|cbn; lia]|].
    destruct q; cbn; (split; [constructor; downs|cbn; lia]).
  - destruct q; cbn; (split; [constructor; downs|cbn; lia]).
  - split; [constructor; downs|cbn; lia].
  - destruct m; cbn; (split; [constructor; downs|cbn; lia]).
  - split; [constructor; downs|cbn; lia].
  - split; [constructor; downs|cbn; lia].
Qed.

Lemma rouse_awake s : ~ asleep s -> roused (en_worker s) = en_worker s.
Proof. unfold asleep. destruct (en_worker s) as [[]|]; cbn; intuition congruence. Qed.

(** Every move but Start keeps a closed end closed, and its worker does not go back. *)
Lemma down_move s s' : down s -> move false s s' -> down s' /\ wrank (en_worker s') <= wrank (en_worker s).
Proof.
  intros D M. pose proof D as [C O A P]. pose proof (rouse_awake s A) as R. unfold asleep in A.
  destruct M as [|X E|E|E| |old|pick m Cn H1 H2 NF|n J|B].
  - auto.
  - discriminate X.
  - split; [constructor; auto; cbn; intuition discriminate|]; cbn; lia.
  - split; [constructor; auto; cbn; intuition discriminate|]; cbn; lia.
  - unfold own_step in *. cbn in P. destruct (en_pc s) eqn:E; try (exfalso; tauto).
    + auto.
    + split; [constructor|]; unfold asleep; cbn; rewrite ?R, ?O; auto; intuition discriminate.
    + split; [constructor|]; unfold asleep; cbn; rewrite ?R, ?O; auto; intuition discriminate.
    + destruct (en_worker s) as [w|] eqn:W; (split; [constructor|]); unfold asleep; cbn; rewrite ?W; auto; intuition discriminate.
    + destruct (en_worker s) as [[]|] eqn:W; (split; [constructor|]); unfold asleep; cbn; rewrite ?W; auto; rewrite ?E; cbn; intuition discriminate.
    + auto.
  - destruct old; [rewrite work_true_none by exact O; auto|]. destruct (down_work s D) as [D' L]. split; [exact D'|lia].
  - congruence.
  - split; [constructor; auto|cbn; lia].
  - split; [constructor|]; unfold asleep; cbn; rewrite ?R, ?O; auto.
Qed.


(** ** Rounds *)
Lemma wrank_ended s : wrank (en_worker s) = 0 <-> ended s.
Proof. unfold ended. destruct (en_worker s) as [[]|]; cbn; split; intros H; auto; try discriminate; exfalso; destruct H; congruence. Qed.
Lemma wrank_awake s : ~ asleep s -> wrank (en_worker s) <= 5.
Proof. unfold asleep. destruct (en_worker s) as [[]|]; cbn; intros H; try lia; exfalso; tauto. Qed.

Definition unstarted (e : bool) (h : list pact) : Prop := ~ In (AStart e) h.

Lemma down_step p v e : pr_fate (pstep p v) = None -> v <> AStart e -> down (side e p) ->
  down (side e (pstep p v)) /\ wrank (en_worker (side e (pstep p v))) <= wrank (en_worker (side e p)).
Proof.
  intros F N D. apply down_move; [exact D|]. pose proof (step_move p v e F) as M.
  replace (starts e v) with false in M; [exact M|]. destruct v as [e'| | | | | | | |]; try reflexivity. cbn. destruct e, e'; try reflexivity; exfalso; apply N; reflexivity.
Qed.

Lemma eqb_self e : Bool.eqb e e = true.
Proof. destruct e; reflexivity. Qed.

Lemma down_block e : forall b p, pr_fate (prun p b) = None -> unstarted e b -> down (side e p) ->
  down (side e (prun p b)) /\ wrank (en_worker (side e (prun p b))) <= wrank (en_worker (side e p)) /\
  (In (AWorker e false) b -> wrank (en_worker (side e (prun p b))) <= pred (wrank (en_worker (side e p)))).
Proof.
  induction b as [|v b IH]; intros p F N D; [cbn; split; [exact D|]; split; [lia|intros []]|]. rewrite prun_cons in *.
  pose proof (unfated_head p v b F) as F1. destruct (down_step p v e F1) as [D1 L1]; [intros ->; apply N; cbn; auto|exact D|].
  destruct (IH (pstep p v) F) as (D2 & L2 & K); [intros H; apply N; cbn; auto|exact D1|]. split; [exact D2|]. split; [lia|].
  intros [-> |H]; [|specialize (K H); lia].
  pose proof (step_moves p (AWorker e false) e F1) as S. cbn iota in S. rewrite eqb_self in S. rewrite S in L2. destruct (down_work _ D) as [_ W]. lia.
Qed.

Lemma down_turns vs e (H : In (AWorker e false) vs) : forall k h, turns vs k h -> forall p, pr_fate (prun p h) = None -> unstarted e h -> down (side e p) ->
  down (side e (prun p h)) /\ wrank (en_worker (side e (prun p h))) <= wrank (en_worker (side e p)) - k.
Proof.
  intros k h T. induction T as [h|k b h I T IH]; intros p F N D.
  - destruct (down_block e h p F N D) as (D1 & L1 & _). split; [exact D1|lia].
  - rewrite prun_app in *. pose proof (unfated_before _ _ F) as F1.
    destruct (down_block e b p F1) as (D1 & L1 & K); [intros X; apply N, in_or_app; auto|exact D|].
    destruct (IH _ F) as (D2 & L2); [intros X; apply N, in_or_app; auto|exact D1|]. split; [exact D2|]. specialize (K (I _ H)). lia.
Qed.

(** ** The destructor, once it has told the worker *)
Definition prank (c : epc) : nat := match c with DStop => 2 | DJoin => 1 | _ => 0 end.
Definition doomed (s : pside) : Prop := In (en_pc s) [DStop; DJoin; EFreed].

Lemma doomed_step p v e : pr_fate (pstep p v) = None -> down (side e p) -> doomed (side e p) ->
  down (side e (pstep p v)) /\ wrank (en_worker (side e (pstep p v))) <= wrank (en_worker (side e p)) /\
  doomed (side e (pstep p v)) /\ prank (en_pc (side e (pstep p v))) <= prank (en_pc (side e p)).
Proof.
  intros F D Q.
  assert (move false (side e p) (side e (pstep p v))) as M.
  { pose proof (step_move p v e F) as M. unfold doomed in Q. destruct M as [|X P|P|P| |old|pick m Cn H1 H2 NF|n J|B];
      try (rewrite P in Q; cbn in Q; intuition discriminate).
    - constructor. - constructor. - constructor. - constructor; auto. - econstructor; eauto. - constructor; auto. }
  destruct (down_move _ _ D M) as [D' L]. split; [exact D'|]. split; [exact L|]. unfold doomed in *. destruct D as [C O A P'].
  destruct M as [|X P|P|P| |old|pick m Cn H1 H2 NF|n J|B]; try (rewrite P in Q; cbn in Q; intuition discriminate); auto.
  - unfold own_step. cbn in Q. destruct Q as [Q|[Q|[Q|[]]]]; rewrite <- Q.
    + destruct (en_worker (side e p)); cbn; auto.
    + destruct (en_worker (side e p)) as [[]|]; cbn; rewrite <- ?Q; cbn; auto 6.
    + rewrite <- Q. cbn. auto.
  - rewrite work_pc. auto.
  - congruence.
Qed.

Lemma doomed_own s : doomed s -> ended s -> prank (en_pc (own_step s)) <= pred (prank (en_pc s)).
Proof.
  intros Q E. unfold own_step, doomed, ended in *. cbn in Q. destruct Q as [Q|[Q|[Q|[]]]]; rewrite <- Q; cbn.
  - destruct (en_worker s); cbn; lia.
  - destruct E as [-> | ->]; cbn; lia.
  - rewrite <- Q. cbn. lia.
Qed.

Lemma doomed_down s : doomed s -> prank (en_pc (own_step s)) <= 1.
Proof.
  intros Q. unfold own_step, doomed in *. cbn in Q. destruct Q as [Q|[Q|[Q|[]]]]; rewrite <- Q; cbn.
  - destruct (en_worker s); cbn; lia.
  - destruct (en_worker s) as [[]|]; cbn; rewrite <- ?Q; cbn; lia.
  - rewrite <- Q. cbn. lia.
Qed.

Lemma doomed_block e : forall b p, pr_fate (prun p b) = None -> down (side e p) -> doomed (side e p) ->
  down (side e (prun p b)) /\ doomed (side e (prun p b)) /\
  wrank (en_worker (side e (prun p b))) <= wrank (en_worker (side e p)) /\ prank (en_pc (side e (prun p b))) <= prank (en_pc (side e p)) /\
  (In (AWorker e false) b -> wrank (en_worker (side e (prun p b))) <= pred (wrank (en_worker (side e p)))) /\
  (wrank (en_worker (side e p)) = 0 -> In (AStep e) b -> prank (en_pc (side e (prun p b))) <= pred (prank (en_pc (side e p)))) /\
  (In (AStep e) b -> prank (en_pc (side e (prun p b))) <= 1).
Proof.
  induction b as [|v b IH]; intros p F D Q; [cbn; repeat split; auto; try apply D; intros; contradiction|]. rewrite prun_cons in *.
  pose proof (unfated_head p v b F) as F1. destruct (doomed_step p v e F1 D Q) as (D1 & L1 & Q1 & R1).
  destruct (IH (pstep p v) F D1 Q1) as (D2 & Q2 & L2 & R2 & K & K' & K''). split; [exact D2|]. split; [exact Q2|]. split; [lia|]. split; [lia|]. split; [|split].
  - intros [-> |H]; [|specialize (K H); lia].
    pose proof (step_moves p (AWorker e false) e F1) as S. cbn iota in S. rewrite eqb_self in S. rewrite S in L2. destruct (down_work _ D) as [_ W]. lia.
  - intros Z [-> |H]; [|specialize (K' ltac:(lia) H); lia].
    pose proof (step_moves p (AStep e) e F1) as S. cbn iota in S. rewrite eqb_self in S. rewrite S in R2.
    pose proof (doomed_own _ Q (proj1 (wrank_ended _) Z)). lia.
  - intros [-> |H]; [|specialize (K'' H); lia].
    pose proof (step_moves p (AStep e) e F1) as S. cbn iota in S. rewrite eqb_self in S. rewrite S in R2.
    pose proof (doomed_down _ Q). lia.
Qed.

Lemma doomed_turns e : forall k h, turns [AStep e; AWorker e false] k h -> forall p, pr_fate (prun p h) = None -> down (side e p) -> doomed (side e p) ->
  doomed (side e (prun p h)) /\ (prank (en_pc (side e (prun p h))) + wrank (en_worker (side e (prun p h))) <= prank (en_pc (side e p)) + wrank (en_worker (side e p)) - k \/
    prank (en_pc (side e (prun p h))) = 0).
Proof.
  intros k h T. induction T as [h|k b h I T IH]; intros p F D Q.
  - destruct (doomed_block e h p F D Q) as (D1 & Q1 & L & R & _ & _ & _). split; [exact Q1|left; lia].
  - rewrite prun_app in *. pose proof (unfated_before _ _ F) as F1.
    destruct (doomed_block e b p F1 D Q) as (D1 & Q1 & L & R & K & K' & _).
    specialize (K (I (AWorker e false) ltac:(cbn; auto))).
    destruct (IH _ F D1 Q1) as (Q2 & X). split; [exact Q2|].
    destruct (wrank (en_worker (side e p))) eqn:W; [|destruct X as [X|X]; [left; lia|right; exact X]].
    specialize (K' eq_refl (I (AStep e) ltac:(cbn; auto))).
    destruct X as [X|X]; [|right; exact X]. left. lia.
Qed.

Lemma destroy_returns h e h' : let p := prun pair0 h in pr_fate p = None -> told (side e p) -> en_conn (side e p) = false -> ~ asleep (side e p) ->
  turns [AStep e; AWorker e false] 6 h' -> pr_fate (prun p h') = None -> en_pc (side e (prun p h')) = EFreed.
Proof.
  intros p F Q C A T F'. assert (doomed (side e p)) as Q1 by (unfold told, doomed in *; cbn in *; tauto).
  assert (down (side e p)) as D.
  { constructor; auto.
    - destruct (lone_run h e F) as [L|L]; [exact L|]. fold p in L. unfold starting, told in *. cbn in *.
      exfalso. destruct Q as [Q|[Q|[]]], L as [L|[L|[]]]; congruence.
    - unfold told in Q. cbn in *. intros X. destruct Q as [Q|[Q|[]]], X as [X|[X|[X|[]]]]; congruence. }
  inversion T as [|k b h1 I T1 E1 E2]. subst k h'. rewrite prun_app in *.
  destruct (doomed_block e b p (unfated_before _ _ F') D Q1) as (Db & Qb & L & R & K & _ & K').
  specialize (K (I (AWorker e false) ltac:(cbn; auto))). specialize (K' (I (AStep e) ltac:(cbn; auto))).
  destruct (doomed_turns e 5 h1 T1 _ F' Db Qb) as [Q2 X].
  assert (prank (en_pc (side e (prun (prun p b) h1))) = 0) as Z.
  { destruct X as [X|X]; [|exact X]. pose proof (wrank_awake _ A). lia. }
  unfold doomed in Q2. cbn in Q2. destruct Q2 as [Q2|[Q2|[Q2|[]]]]; rewrite <- Q2 in Z; try discriminate Z. auto.
Qed.

(** After Close, or once the destructor has begun, connected is false until the next Start. *)
Lemma conn_move s s' : move false s s' -> en_conn s = false -> en_conn s' = false.
Proof.
  intros M C. destruct M as [|X P|P|P| |old|pick m Cn H1 H2 NF|n J|B]; auto.
  - unfold own_step. destruct (en_pc s); auto; try (destruct (en_old s) as [[]|]; auto); try (destruct (en_worker s) as [[]|]; auto).
  - rewrite work_conn. exact C.
  - congruence.
Qed.

(** ** A lost notification *)
Definition missed (s : pside) : Prop := en_conn s = false /\ en_old s = None /\ asleep s /\ In (en_pc s) [DStop; DJoin].
Lemma missed_move s s' : move true s s' -> missed s -> missed s'.
Proof.
  intros M (C & O & A & P). unfold missed, asleep in *. destruct M as [|X Q|Q|Q| |old|pick m Cn H1 H2 NF|n J|B]; auto;
    try (rewrite Q in P; cbn in P; intuition discriminate).
  - unfold own_step. cbn in P. destruct P as [P|[P|[]]]; rewrite <- P.
    + destruct (en_worker s) as [w|]; [|destruct A; discriminate]. cbn. auto 6.
    + destruct A as [A|A]; rewrite A; cbn; rewrite <- P; auto 6.
  - rewrite work_pc, work_conn. split; [exact C|]. destruct old; [rewrite work_true_none by exact O; auto|].
    rewrite work_false_old. split; [exact O|]. split; [|exact P]. unfold work. cbn [thread]. destruct A as [A|A]; rewrite A; cbn; auto.
  - congruence.
  - rewrite B in A. destruct A; discriminate.
Qed.

Lemma missed_run e h p : pr_fate (prun p h) = None -> missed (side e p) -> missed (side e (prun p h)).
Proof. intros F M. exact (run_inv missed (fun s s' A B => missed_move s s' B A) e h p F M). Qed.

(** ** What is handed over after Close *)
Definition taken (s : pside) : nat := match en_worker s with Some (WTaken _) => 1 | _ => 0 end.

Lemma work_begun s : en_conn s = false -> length (en_begun (work false s)) + taken (work false s) = length (en_begun s) + taken s.
Proof.
  intros C. unfold work, taken. cbn [thread]. destruct s as [conn q w st o ost jobs pc starts begun]. cbn in *. subst conn.
  destruct w as [w|]; [|reflexivity]. destruct w as [| | | | |m|m| |]; try reflexivity.
  - cbn. destruct (negb (holds o)); [|reflexivity]. unfold look. cbn. destruct st, q; reflexivity.
  - cbn. destruct q; reflexivity.
  - cbn. rewrite app_length. cbn. lia.
  - cbn. destruct m; reflexivity.
  - cbn. destruct (negb (holds o)); reflexivity.
Qed.

Record shut (s : pside) : Prop := { sh_conn : en_conn s = false; sh_old : en_old s = None; sh_pc : ~ In (en_pc s) [SSpawn; SStop; SJoin] }.

Lemma taken_roused w : match roused w with Some (WTaken _) => 1 | _ => 0 end = match w with Some (WTaken _) => 1 | _ => 0 end.
Proof. destruct w as [[]|]; reflexivity. Qed.

Lemma shut_move s s' : move false s s' -> shut s -> shut s' /\ length (en_begun s') + taken s' = length (en_begun s) + taken s.
Proof.
  intros M S. pose proof S as [C O P]. destruct M as [|X E|E|E| |old|pick m Cn H1 H2 NF|n J|B].
  - auto.
  - discriminate X.
  - split; [|reflexivity]. constructor; auto. cbn. intuition discriminate.
  - split; [|reflexivity]. constructor; auto. cbn. intuition discriminate.
  - unfold own_step. cbn in P. destruct (en_pc s) eqn:E; try (exfalso; tauto).
    + auto.
    + split; [constructor; cbn; rewrite ?O; auto; intuition discriminate|]. unfold taken. cbn. rewrite taken_roused. reflexivity.
    + split; [constructor; cbn; rewrite ?O; auto; intuition discriminate|]. unfold taken. cbn. rewrite taken_roused. reflexivity.
    + unfold taken. destruct (en_worker s) as [w|] eqn:W; (split; [constructor; cbn; auto; intuition discriminate|]); cbn; rewrite ?W; reflexivity.
    + unfold taken. destruct (en_worker s) as [[]|] eqn:W; (split; [constructor; cbn; auto; rewrite ?E; cbn; intuition discriminate|]); cbn; rewrite ?W; reflexivity.
    + auto.
  - destruct old; [rewrite work_true_none by exact O; auto|]. split; [constructor|apply work_begun, C].
    + rewrite work_conn. exact C.
    + rewrite work_false_old. exact O.
    + rewrite work_pc. exact P.
  - congruence.
  - split; [constructor; auto|reflexivity].
  - split; [constructor; cbn; rewrite ?O; auto|]. unfold taken. cbn. rewrite taken_roused. reflexivity.
Qed.

Lemma shut_run e : forall h p, pr_fate (prun p h) = None -> ~ In (AStart e) h -> shut (side e p) ->
  shut (side e (prun p h)) /\ length (en_begun (side e (prun p h))) + taken (side e (prun p h)) = length (en_begun (side e p)) + taken (side e p).
Proof.
  induction h as [|v h IH]; intros p F N S; [auto|]. rewrite prun_cons in *. pose proof (unfated_head p v h F) as F1.
  destruct (shut_move (side e p) (side e (pstep p v))) as [S1 E1]; [|exact S|].
  - pose proof (step_move p v e F1) as M. replace (starts e v) with false in M; [exact M|].
    destruct v as [e'| | | | | | | |]; try reflexivity. cbn. destruct e, e'; try reflexivity; exfalso; apply N; left; reflexivity.
  - destruct (IH (pstep p v) F ltac:(intros H; apply N; right; exact H) S1) as [S2 E2]. split; [exact S2|lia].
Qed.

(** ** A careful application *)
Record tidy (p : pair) : Prop := {
  td_fate : pr_fate p = None;
  td_lone : forall e, lone (side e p);
  td_quiet : forall e, dying (side e p) -> quiet (side e p) /\ quiet (side (negb e) p) }.

Lemma quiet_move s s' : move false s s' -> quiet s -> lone s -> quiet s'.
Proof.
  intros M (J & E & P) L. assert (en_old s = None) as O.
  { destruct L as [L|L]; [exact L|]. exfalso. apply P. unfold starting in L. cbn in *. tauto. }
  unfold quiet, ended in *. destruct M as [|X Q|Q|Q| |old|pick m Cn H1 H2 NF|n J'|B].
  - auto.
  - discriminate X.
  - repeat split; auto. cbn. intuition discriminate.
  - repeat split; auto. cbn. intuition discriminate.
  - unfold own_step. cbn in P. destruct (en_pc s) eqn:Q; try (exfalso; tauto); destruct E as [E|E]; rewrite ?E; cbn; rewrite ?E, ?Q; cbn; intuition discriminate.
  - destruct old; [rewrite work_true_none by exact O; auto|]. rewrite work_pc. unfold work. cbn [thread]. destruct E as [E|E]; rewrite E; auto.
  - rewrite notify_one_pc. rewrite notify_one_old by exact O. cbn. destruct E as [E|E]; rewrite ?E; auto.
  - congruence.
  - destruct E as [E|E]; congruence.
Qed.

Lemma starts_false e v : v <> AStart e -> starts e v = false.
Proof. destruct v as [e'| | | | | | | |]; try reflexivity. destruct e, e'; intros H; try reflexivity; exfalso; apply H; reflexivity. Qed.

Lemma quiet_step p v e : pr_fate (pstep p v) = None -> lone (side e p) -> v <> AStart e -> quiet (side e p) -> quiet (side e (pstep p v)).
Proof. intros F L N Q. pose proof (step_move p v e F) as M. rewrite (starts_false e v N) in M. exact (quiet_move _ _ M Q L). Qed.

Lemma dying_start p e : dying (side e p) -> pstep p (AStart e) = p.
Proof. intros D. unfold pstep. destruct (pr_fate p); [reflexivity|]. unfold dying in D. cbn in D. destruct D as [D|[D|[D|[D|[]]]]]; rewrite <- D; reflexivity. Qed.

Lemma freed_dying s : en_pc s = EFreed -> dying s.
Proof. intros H. unfold dying. rewrite H. cbn. auto. Qed.

Lemma safe_send pick m e p : pr_fate p = None -> en_pc (side (negb e) p) <> EFreed -> forall q, send_peer pick m e p = Some q -> pr_fate q = None.
Proof.
  intros F N q S. unfold send_peer in S. destruct (en_pc (side (negb e) p)); try (exfalso; apply N; reflexivity);
    (destruct (en_conn (side (negb e) p)); [destruct (enqueue pick m (side (negb e) p)); [|discriminate]|]; injection S as <-; rewrite ?fate_put; exact F).
Qed.

Lemma tidy_fate p v : tidy p -> careful p [v] -> pr_fate (pstep p v) = None.
Proof.
  intros [F L Q] [C _]. unfold pstep. rewrite F.
  destruct v as [e|e|e|e|e o|e pk m|e pk|e|e].
  - destruct (en_pc (side e p)); rewrite ?fate_put; exact F.
  - destruct (en_pc (side e p)); rewrite ?fate_put; exact F.
  - destruct (en_pc (side e p)); rewrite ?fate_put; exact F.
  - rewrite fate_put. exact F.
  - rewrite fate_put. exact F.
  - assert (en_pc (side (negb e) p) <> EFreed) as N by (intros X; apply C, freed_dying, X).
    destruct (send_peer pk m e p) as [q|] eqn:S; [|destruct (en_pc (side e p)); exact F].
    pose proof (safe_send pk m e p F N q S). destruct (en_pc (side e p)); auto.
  - destruct (en_jobs (side e p)) as [|n] eqn:J; [exact F|].
    assert (forall e', en_pc (side e' p) = EFreed -> False) as N.
    { intros e' X. destruct (Q e' (freed_dying _ X)) as [(J1 & _) (J2 & _)]. destruct e, e'; cbn in *; congruence. }
    destruct (en_pc (side e p)) eqn:P; try (exfalso; exact (N e P));
      (destruct (send_peer pk MResp e p) as [q|] eqn:S; [|exact F]; rewrite fate_put; exact (safe_send pk MResp e p F (fun X => N _ X) q S)).
  - destruct (en_worker (side e p)) as [[]|]; try exact F. destruct m; rewrite ?fate_put; exact F.
  - contradiction.
Qed.

Lemma pc_put e e' s p : en_pc s = en_pc (side e p) -> en_pc (side e' (put e s p)) = en_pc (side e' p).
Proof. intros H. destruct e, e'; cbn in *; auto. Qed.
Lemma pc_send pk m e p q e' : send_peer pk m e p = Some q -> en_pc (side e' q) = en_pc (side e' p).
Proof.
  intros S. destruct (send_side e e' pk m p q S) as [-> | [-> |(s' & -> & -> & _)]]; [reflexivity|rewrite side_doom; reflexivity|].
  apply pc_put. rewrite notify_one_pc. reflexivity.
Qed.

Lemma pc_kept p v e : match v with AStart _ | AClose _ | ADestroy _ | AStep _ => False | _ => True end -> en_pc (side e (pstep p v)) = en_pc (side e p).
Proof.
  intros K. unfold pstep. destruct (pr_fate p); [reflexivity|]. destruct v as [e'|e'|e'|e'|e' o|e' pk m|e' pk|e'|e']; try contradiction.
  - apply pc_put, work_pc.
  - destruct (send_peer pk m e' p) as [q|] eqn:S; [|destruct (en_pc (side e' p)); reflexivity].
    pose proof (pc_send pk m e' p q e S). destruct (en_pc (side e' p)); auto.
  - destruct (en_jobs (side e' p)) as [|n]; [reflexivity|].
    destruct (send_peer pk MResp e' p) as [q|] eqn:S.
    + assert (en_pc (side e (put e' (set_jobs n (side e' q)) q)) = en_pc (side e p)) as X.
      { rewrite pc_put by reflexivity. apply (pc_send pk MResp e' p q e S). }
      destruct (en_pc (side e' p)); auto; rewrite ?side_doom; auto.
    + destruct (en_pc (side e' p)); auto; rewrite ?side_doom; auto.
  - destruct (en_worker (side e' p)) as [[]|]; try reflexivity. destruct m; try reflexivity. apply pc_put. reflexivity.
  - destruct (en_worker (side e' p)) as [[]|]; try reflexivity. destruct m; try reflexivity; rewrite side_doom; reflexivity.
Qed.

Lemma dying_new p v e : pr_fate (pstep p v) = None -> dying (side e (pstep p v)) -> dying (side e p) \/ v = ADestroy e.
Proof.
  intros F D.
  destruct v as [e'|e'|e'|e'|e' o|e' pk m|e' pk|e'|e'];
    try (left; unfold dying in *; rewrite pc_kept in D by exact I; exact D).
  - unfold pstep in D. destruct (pr_fate p); [auto|]. left. destruct (en_pc (side e' p)) eqn:P; auto. destruct e, e'; cbn in *; auto; unfold dying in D; cbn in D; intuition discriminate.
  - unfold pstep in D. destruct (pr_fate p); [auto|]. left. destruct (en_pc (side e' p)) eqn:P; auto. destruct e, e'; cbn in *; auto; unfold dying in D; cbn in D; intuition discriminate.
  - destruct (Bool.bool_dec e e') as [-> |N]; [right; reflexivity|left]. unfold pstep in D. destruct (pr_fate p); [auto|].
    destruct (en_pc (side e' p)); auto. destruct e, e'; auto; exfalso; apply N; reflexivity.
  - left. pose proof (step_moves p (AStep e') e F) as S. cbn iota in S. rewrite S in D. destruct (Bool.eqb e e'); [|exact D].
    unfold own_step, dying in *. destruct (en_pc (side e p)) eqn:P; cbn in *; auto; try (rewrite P in D; cbn in D); try (intuition discriminate).
    destruct (en_old (side e p)) as [[]|]; cbn in D; rewrite ?P in D; intuition discriminate.
Qed.

Lemma tidy_step p v : tidy p -> careful p [v] -> tidy (pstep p v).
Proof.
  intros T C. pose proof (tidy_fate p v T C) as F. destruct T as [F0 L Q]. constructor; [exact F| |].
  - intros e. apply (lone_move (side e p)); [apply L|]. apply (move_any (starts e v)), step_move, F.
  - intros e D. assert (quiet (side e p) /\ quiet (side (negb e) p) /\ (dying (side e p) \/ v = ADestroy e)) as (Q1 & Q2 & W).
    { destruct (dying_new p v e F D) as [D0| ->]; [destruct (Q e D0); auto|]. destruct C as [[C1 C2] _]. auto. }
    destruct W as [W| ->]; [|split; apply quiet_step; auto; discriminate].
    destruct (starts e v) eqn:S.
    + destruct v as [e'| | | | | | | |]; try discriminate. cbn in S. apply Bool.eqb_prop in S. subst e'. rewrite dying_start by exact W. auto.
    + split; apply quiet_step; auto; intros ->.
      * cbn in S. rewrite eqb_self in S. discriminate.
      * destruct C as [C _]. rewrite Bool.negb_involutive in C. exact (C W).
Qed.

Lemma careful_run : forall h p, tidy p -> careful p h -> tidy (prun p h).
Proof.
  induction h as [|v h IH]; intros p T C; [exact T|]. rewrite prun_cons. destruct C as [C1 C2]. apply IH; [|exact C2].
  apply tidy_step; [exact T|]. split; [exact C1|exact I].
Qed.

Lemma tidy0 : tidy pair0.
Proof.
  constructor; [reflexivity| |].
  - intros []; left; reflexivity.
  - intros [] D; unfold dying in D; cbn in D; intuition discriminate.
Qed.

(** ** Start when nothing is left of the last one *)
Lemma fresh_start p e : pr_fate p = None -> en_pc (side e p) = EOut -> ended (side e p) ->
  let q := prun p [AStart e; AStep e; AStep e; AStep e] in
  pr_fate q = None /\ en_pc (side e q) = EOut /\ en_conn (side e q) = true /\ en_worker (side e q) = Some WTop /\ en_old (side e q) = None.
Proof.
  intros F P E q. destruct p as [a b f]. cbn in F. subst f. unfold q. unfold ended in E. destruct e; cbn in *.
  - destruct a as [c q0 w st o ost j pc n g]. cbn in *. subst pc. destruct E as [-> | ->]; cbn; auto 6.
  - destruct b as [c q0 w st o ost j pc n g]. cbn in *. subst pc. destruct E as [-> | ->]; cbn; auto 6.
Qed.

(** ** Start when the last worker sleeps *)
(** Only a message can wake the old worker. *)
Definition stuck (s : pside) : Prop :=
  en_conn s = true /\ en_queue s = [] /\ en_pc s = SJoin /\ (en_old s = Some WChecked \/ en_old s = Some WBlocked) /\
  match en_worker s with Some WTop | Some WChecked | Some WBlocked | Some WAwake => True | _ => False end /\ en_stop s = false.

Lemma stuck_step p v e : pr_fate (pstep p v) = None -> silent e [v] -> stuck (side e p) -> stuck (side e (pstep p v)).
Proof.
  intros F S (C & Q & P & O & W & St). pose proof (S v (or_introl eq_refl)) as Sv.
  assert (forall s', s' = side e p -> stuck s') as Same by (intros s' ->; repeat split; auto).
  unfold pstep in *. destruct (pr_fate p) eqn:F0; [apply Same; reflexivity|].
  destruct v as [e'|e'|e'|e'|e' o|e' pk m|e' pk|e'|e'].
  - destruct (en_pc (side e' p)) eqn:P'; try (apply Same; reflexivity). destruct e, e'; cbn in *; try (apply Same; reflexivity); congruence.
  - destruct (en_pc (side e' p)) eqn:P'; try (apply Same; reflexivity). destruct e, e'; cbn in *; try (apply Same; reflexivity); congruence.
  - destruct (en_pc (side e' p)) eqn:P'; try (apply Same; reflexivity). destruct e, e'; cbn in *; try (apply Same; reflexivity); congruence.
  - assert (own_step (side e p) = side e p) as E by (unfold own_step; rewrite P; destruct O as [-> | ->]; reflexivity).
    destruct e, e'; cbn in *; rewrite ?E; apply Same; reflexivity.
  - assert (stuck (work o (side e p))) as E.
    { unfold stuck. destruct (side e p) as [c q w st ol ost j pc n g]. cbn in C, Q, P, O, W, St. subst c q pc st.
      unfold work. destruct o; cbn [thread en_old en_worker negb].
      - destruct O as [-> | ->]; cbn; auto 10.
      - destruct w as [[]|]; try contradiction; cbn; unfold look; cbn; try (destruct (negb (holds ol))); cbn; auto 10. }
    destruct e, e'; cbn in *; first [exact E|apply Same; reflexivity].
  - subst e'. destruct (en_pc (side e p)) eqn:P'; try (apply Same; reflexivity);
      (destruct (send_peer pk m e p) as [q|] eqn:Sq; [|apply Same; reflexivity];
       destruct (send_side e e pk m p q Sq) as [-> | [-> |(s' & -> & -> & _)]]; apply Same; [reflexivity|rewrite side_doom; reflexivity|apply side_put_other]).
  - subst e'. destruct (en_jobs (side e p)) as [|n] eqn:J; [apply Same; reflexivity|]. rewrite P in *.
    destruct (send_peer pk MResp e p) as [q|] eqn:Sq; [|apply Same; reflexivity].
    assert (side e q = side e p) as E.
    { destruct (send_side e e pk MResp p q Sq) as [-> | [-> |(s' & -> & -> & _)]]; [reflexivity|rewrite side_doom; reflexivity|apply side_put_other]. }
    rewrite side_put. rewrite E. repeat split; auto.
  - destruct (en_worker (side e' p)) as [[]|] eqn:W'; try (apply Same; reflexivity). destruct m; try (apply Same; reflexivity).
    destruct e, e'; cbn in *; try (apply Same; reflexivity); rewrite W' in W; contradiction.
  - destruct (en_worker (side e' p)) as [[]|] eqn:W'; try (apply Same; reflexivity). destruct m; try (apply Same; reflexivity); discriminate F.
Qed.

Lemma stuck_run e : forall h p, pr_fate (prun p h) = None -> silent e h -> stuck (side e p) -> stuck (side e (prun p h)).
Proof.
  induction h as [|v h IH]; intros p F S H; [exact H|]. rewrite prun_cons in *. apply IH; [exact F| |].
  - intros u I. apply S. right. exact I.
  - apply stuck_step; [exact (unfated_head p v h F)| |exact H]. intros u [-> |[]]. apply S. left. reflexivity.
Qed.

Lemma dying_conn_move s s' : (dying s -> en_conn s = false) -> move true s s' -> dying s' -> en_conn s' = false.
Proof.
  intros K M D. unfold dying in *. destruct M as [|X Q|Q|Q| |old|pick m Cn H1 H2 NF|n J|B]; auto.
  - cbn in D. intuition discriminate.
  - unfold own_step in *. destruct (en_pc s) eqn:P; cbn in *; rewrite ?P in D; cbn in D; auto; try (intuition discriminate).
    + destruct (en_old s) as [[]|]; cbn in D; rewrite ?P in D; intuition discriminate.
    + destruct (en_worker s); cbn; apply K; auto.
    + destruct (en_worker s) as [[]|]; cbn; apply K; auto.
  - rewrite work_pc in D. rewrite work_conn. auto.
  - exfalso. rewrite notify_one_pc in D. cbn in D. specialize (K D). congruence.
Qed.

Lemma dying_conn h e : pr_fate (prun pair0 h) = None -> dying (side e (prun pair0 h)) -> en_conn (side e (prun pair0 h)) = false.
Proof.
  intros F. apply (run_inv (fun s => dying s -> en_conn s = false) dying_conn_move e h pair0 F). destruct e; reflexivity.
Qed.

Lemma told_dying s : told s -> dying s.
Proof. unfold told, dying. cbn. tauto. Qed.

Lemma destroy_ends h e h' : let p := prun pair0 h in pr_fate p = None -> told (side e p) -> ~ asleep (side e p) ->
  turns [AStep e; AWorker e false] 6 h' -> pr_fate (prun p h') = None -> en_pc (side e (prun p h')) = EFreed.
Proof. intros p F T. apply destroy_returns; auto. apply dying_conn; auto. apply told_dying, T. Qed.

(** The worker of a closed end ends, unless it fell asleep. *)
Lemma closed_ends h e h' : let p := prun pair0 h in pr_fate p = None -> en_pc (side e p) = EOut -> en_conn (side e p) = false -> ~ asleep (side e p) ->
  turns [AWorker e false] 5 h' -> ~ In (AStart e) h' -> pr_fate (prun p h') = None -> ended (side e (prun p h')).
Proof.
  intros p F P C A T N F'. assert (down (side e p)) as D.
  { constructor; auto.
    - destruct (lone_run h e F) as [L|L]; [exact L|]. fold p in L. unfold starting in L. rewrite P in L. cbn in L. intuition discriminate.
    - rewrite P. cbn. intuition discriminate. }
  destruct (down_turns [AWorker e false] e (or_introl eq_refl) 5 h' T p F' N D) as [_ L]. apply wrank_ended. pose proof (wrank_awake _ A). lia.
Qed.

Lemma late_at_most h e h' : let p := prun pair0 h in pr_fate p = None -> en_pc (side e p) = EOut -> en_conn (side e p) = false ->
  ~ In (AStart e) h' -> pr_fate (prun p h') = None -> length (en_begun (side e (prun p h'))) <= S (length (en_begun (side e p))).
Proof.
  intros p F P C N F'. destruct (shut_run e h' p F' N) as [_ E].
  - constructor; auto; [|rewrite P; cbn; intuition discriminate].
    destruct (lone_run h e F) as [L|L]; [exact L|]. fold p in L. unfold starting in L. rewrite P in L. cbn in L. intuition discriminate.
  - assert (taken (side e p) <= 1) by (unfold taken; destruct (en_worker (side e p)) as [[]|]; lia). lia.
Qed.

Lemma one_thread h e : pr_fate (prun pair0 h) = None -> ~ starting (side e (prun pair0 h)) -> en_old (side e (prun pair0 h)) = None.
Proof. intros F N. destruct (lone_run h e F); tauto. Qed.
