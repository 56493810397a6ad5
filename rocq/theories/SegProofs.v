From Coq Require Import List Arith Bool Lia.
From Verif Require Import SegModel SegSpec.
Import ListNotations.
Local Open Scope nat_scope.

Local Arguments Nat.ltb : simpl never.

Lemma nth_upd {A} i (x : A) : forall l j, nth_error (upd i x l) j = if Nat.eqb i j then match nth_error l j with Some _ => Some x | None => None end else nth_error l j.
Proof.
  induction i as [|i IH]; intros [|y l] [|j]; cbn; try reflexivity.
  - destruct (Nat.eqb i j); reflexivity.
  - apply IH.
Qed.
Lemma length_upd {A} i (x : A) : forall l, length (upd i x l) = length l.
Proof. induction i as [|i IH]; intros [|y l]; cbn; auto. Qed.

Lemma grun_app w h h' : grun w (h ++ h') = grun (grun w h) h'.
Proof. apply fold_left_app. Qed.
Lemma grun_cons w v h : grun w (v :: h) = grun (gstep w v) h.
Proof. reflexivity. Qed.
Lemma gfated_step w v : gw_fate w <> None -> gstep w v = w.
Proof. intros F. unfold gstep. destruct (gw_fate w); [reflexivity|contradiction]. Qed.
Lemma gfated_run h : forall w, gw_fate w <> None -> grun w h = w.
Proof. induction h as [|v h IH]; intros w F; [reflexivity|]. rewrite grun_cons, (gfated_step w v F). apply IH, F. Qed.
Lemma unfated w h : gw_fate (grun w h) = None -> gw_fate w = None.
Proof. intros F. destruct (gw_fate w) eqn:E; [|reflexivity]. rewrite gfated_run in F; congruence. Qed.

(** ** What one step does to one transport *)
(** The owner's step, when it does not depend on the channel. *)
Definition own_next (s : seg) : seg :=
  match sg_pc s with
  | KOut | KFreed | SOpen => s
  | SConn => g_pc SSpawn (g_conn true s)
  | SSpawn => g_pc SStop (g_threads (Some KTop) false (sg_thread s) (sg_stop s) s)
  | SStop => g_pc SJoin (g_threads (sg_thread s) (sg_stop s) (sg_old s) true s)
  | SJoin => match sg_old s with None | Some KEnded => g_pc KOut (g_threads (sg_thread s) (sg_stop s) None false s) | Some _ => s end
  | CBye => g_pc CConn s
  | CConn => g_pc CStop (g_conn false s)
  | CStop => match sg_thread s with None => g_pc CRemove s | Some _ => g_pc CJoin (g_threads (sg_thread s) true (sg_old s) (sg_ostop s) s) end
  | CJoin => match sg_thread s with None | Some KEnded => g_pc CRemove (g_threads None false (sg_old s) (sg_ostop s) s) | Some _ => s end
  | CRemove => g_pc CFail s
  | CFail => g_finish KOut (g_pend 0 s)
  | DStop => match sg_thread s with None => g_pc DRemove s | Some _ => g_pc DJoin (g_threads (sg_thread s) true (sg_old s) (sg_ostop s) s) end
  | DJoin => match sg_thread s with None | Some KEnded => g_pc DRemove (g_threads None false (sg_old s) (sg_ostop s) s) | Some _ => s end
  | DRemove => g_finish KFreed s
  end.

Inductive ownrel (s : seg) : seg -> Prop :=
| OwNext : sg_pc s <> SOpen -> ownrel s (own_next s)
| OwOpen : forall rx tx, sg_pc s = SOpen -> ownrel s (g_pc SConn (g_open rx tx s))
| OwNone : sg_pc s = SOpen -> sg_creator s = false -> ownrel s (g_pc KOut s).

Inductive workrel (old : bool) (s : seg) : seg -> Prop :=
| WkIdle : (g_thread old s = None \/ g_thread old s = Some KEnded) -> workrel old s s
| WkNoRx : g_thread old s = Some KTop -> sg_conn s = true -> sg_rx s = None -> workrel old s s
| WkRecv : forall q, g_thread old s = Some KTop -> sg_conn s = true -> g_stopped old s = false -> workrel old s (g_set old (KRecv q) s)
| WkEpi : g_thread old s = Some KTop -> sg_conn s = false \/ g_stopped old s = true -> workrel old s (g_set old KEpi s)
| WkGot : forall q m, g_thread old s = Some (KRecv q) -> workrel old s (g_set old (KBusy m) s)
| WkTime : forall q, g_thread old s = Some (KRecv q) -> workrel old s (g_set old KTop s)
| WkNote : g_thread old s = Some (KBusy GNote) -> workrel old s (g_set old KTop s)
| WkReq : g_thread old s = Some (KBusy GRequest) -> workrel old s (g_jobs (S (sg_jobs s)) (g_set old KTop s))
| WkRep : g_thread old s = Some (KBusy GReply) -> workrel old s (g_pend (pred (sg_pend s)) (g_set old KTop s))
| WkBye : g_thread old s = Some (KBusy GBye) -> workrel old s (g_pend 0 (g_conn false (g_set old KTop s)))
| WkEnd : g_thread old s = Some KEpi -> workrel old s (g_pend 0 (g_conn false (g_set old KEnded s))).

Inductive gmv (i : nat) (v : gact) (s : seg) : seg -> Prop :=
| GmSame : v <> GOwn i -> v <> GWork i false -> v <> GWork i true -> gmv i v s s
| GmStart : v = GStart i -> sg_pc s = KOut -> gmv i v s (g_start s)
| GmClose : v = GClose i -> sg_pc s = KOut -> gmv i v s (g_pc CBye s)
| GmDestroy : v = GDestroy i -> sg_pc s = KOut -> gmv i v s (g_pc DStop (g_conn false s))
| GmOwn : forall s', v = GOwn i -> ownrel s s' -> gmv i v s s'
| GmWork : forall old s', v = GWork i old -> workrel old s s' -> gmv i v s s'
| GmAsk : v = GAsk i -> sg_conn s = true -> gmv i v s (g_pend (S (sg_pend s)) s)
| GmJob : forall n, v = GAnswer i -> sg_jobs s = S n -> sg_pc s <> KFreed -> gmv i v s (g_jobs n s)
| GmIn : v = GInClose i -> sg_thread s = Some (KBusy GNote) ->
    gmv i v s (g_pend 0 (g_conn false (g_threads (sg_thread s) true (sg_old s) (sg_ostop s) s))).

Lemma at_set i s s' w : at_ i w s -> at_ i (set_end i s' w) s'.
Proof. unfold at_, set_end. cbn. intros H. rewrite nth_upd, Nat.eqb_refl, H. reflexivity. Qed.
Lemma at_other i j s s' w : i <> j -> at_ i w s -> at_ i (set_end j s' w) s.
Proof. unfold at_, set_end. cbn. intros N H. rewrite nth_upd. destruct (Nat.eqb_spec j i); [congruence|exact H]. Qed.

Lemma own_at i s w : at_ i w s -> exists s', at_ i (g_own i s w) s' /\ ownrel s s'.
Proof.
  intros A. unfold g_own. destruct (sg_pc s) eqn:P.
  all: try (exists (own_next s); split; [unfold own_next; rewrite P; first [exact A | apply at_set with s; exact A | idtac]|constructor; rewrite P; discriminate]).
  - destruct (sg_creator s) eqn:C.
    + eexists. split; [apply at_set with s; exact A|]. constructor. exact P.
    + destruct (gw_chan w) as [[c d]|]; (eexists; split; [apply at_set with s; exact A|]); constructor; auto.
  - destruct (sg_old s) as [[]|]; first [exact A|apply at_set with s; exact A].
  - destruct (sg_creator s); apply at_set with s; exact A.
  - destruct (sg_thread s) as [[]|]; first [exact A|apply at_set with s; exact A].
  - destruct (sg_thread s) as [[]|]; first [exact A|apply at_set with s; exact A].
  - destruct (sg_creator s); apply at_set with s; exact A.
  - destruct (sg_thread s) as [[]|]; first [exact A|apply at_set with s; exact A].
  - destruct (sg_thread s) as [[]|]; first [exact A|apply at_set with s; exact A].
  - destruct (sg_creator s); apply at_set with s; exact A.
Qed.

Lemma work_at i old s w : at_ i w s -> gw_fate (g_work i old s w) = None -> exists s', at_ i (g_work i old s w) s' /\ workrel old s s'.
Proof.
  intros A F. unfold g_work in *. destruct (g_thread old s) as [k|] eqn:T; [|exists s; split; [exact A|constructor; auto]].
  destruct k as [|q|m| |].
  - destruct (sg_conn s) eqn:C; [destruct (g_stopped old s) eqn:S; [|destruct (sg_rx s) eqn:R]|].
    + eexists. split; [apply at_set with s; exact A|]. constructor; auto.
    + eexists. split; [apply at_set with s; exact A|]. constructor; auto.
    + exists s. split; [exact A|]. apply WkNoRx; auto.
    + eexists. split; [apply at_set with s; exact A|]. constructor; auto.
  - destruct (match sg_rx s with Some q' => Nat.eqb q q' | None => false end); [|discriminate F].
    destruct (nth_error (gw_qs w) q) as [[|m l]|]; (eexists; split; [apply at_set with s; exact A|]); econstructor; eauto.
  - destruct m; (eexists; split; [apply at_set with s; exact A|]); constructor; auto.
  - eexists. split; [apply at_set with s; exact A|]. constructor; auto.
  - exists s. split; [exact A|constructor; auto].
Qed.

Lemma own_other i j s s' w : i <> j -> at_ i w s -> at_ i (g_own j s' w) s.
Proof.
  intros N A. unfold g_own. destruct (sg_pc s'); try exact A; try (apply at_other; [exact N|exact A]).
  - destruct (sg_creator s'); [apply at_other; [exact N|exact A]|]. destruct (gw_chan w) as [[c d]|]; apply at_other; auto.
  - destruct (sg_old s') as [[]|]; first [exact A|apply at_other; [exact N|exact A]].
  - destruct (sg_creator s'); apply at_other; auto.
  - destruct (sg_thread s') as [[]|]; first [exact A|apply at_other; [exact N|exact A]].
  - destruct (sg_thread s') as [[]|]; first [exact A|apply at_other; [exact N|exact A]].
  - destruct (sg_creator s'); apply at_other; auto.
  - destruct (sg_thread s') as [[]|]; first [exact A|apply at_other; [exact N|exact A]].
  - destruct (sg_thread s') as [[]|]; first [exact A|apply at_other; [exact N|exact A]].
  - destruct (sg_creator s'); apply at_other; auto.
Qed.
Lemma work_other i j old s s' w : i <> j -> at_ i w s -> at_ i (g_work j old s' w) s.
Proof.
  intros N A. unfold g_work. destruct (g_thread old s') as [[|q|m| |]|]; try exact A; try (apply at_other; [exact N|exact A]).
  - destruct (sg_conn s'); [destruct (g_stopped old s'); [|destruct (sg_rx s')]|]; first [exact A|apply at_other; [exact N|exact A]].
  - destruct (match sg_rx s' with Some q' => Nat.eqb q q' | None => false end); [|exact A].
    destruct (nth_error (gw_qs w) q) as [[|m l]|]; apply at_other; auto.
  - destruct m; apply at_other; auto.
Qed.

Lemma step_other i v s w : i <> actor v -> at_ i w s -> at_ i (gstep w v) s.
Proof.
  intros N A. unfold gstep. destruct (gw_fate w); [exact A|]. destruct (nth_error (gw_ends w) (actor v)) as [t|]; [|exact A].
  destruct v as [j|j|j|j|j o|j|j|j|j|j]; cbn in N.
  - destruct (sg_pc t); first [exact A|apply at_other; [exact N|exact A]].
  - destruct (sg_pc t); first [exact A|apply at_other; [exact N|exact A]].
  - destruct (sg_pc t); first [exact A|apply at_other; [exact N|exact A]].
  - apply own_other; auto.
  - apply work_other; auto.
  - destruct (sg_pc t); exact A.
  - destruct (g_send GRequest t w) as [qs ok]. destruct (sg_pc t); try exact A; (destruct (sg_conn t); [|exact A]; destruct ok; first [exact A|apply (at_other i j s); [exact N|exact A]]).
  - destruct (sg_jobs t); [exact A|]. destruct (sg_pc t); first [exact A|apply (at_other i j s); [exact N|exact A]].
  - destruct (sg_thread t) as [[|q|[]| |]|]; try exact A. apply at_other; [exact N|]. destruct (sg_creator t); exact A.
  - destruct (sg_thread t) as [[|q|[]| |]|]; exact A.
Qed.

Lemma step_at i v w s : at_ i w s -> gw_fate (gstep w v) = None -> exists s', at_ i (gstep w v) s' /\ gmv i v s s'.
Proof.
  intros A F. destruct (Nat.eq_dec i (actor v)) as [E|N].
  2: { exists s. split; [apply step_other; auto|]. constructor; intros ->; apply N; reflexivity. }
  unfold gstep in *. destruct (gw_fate w) eqn:Fw; [congruence|]. rewrite <- E in *. unfold at_ in A. rewrite A in F |- *.
  destruct v as [j|j|j|j|j o|j|j|j|j|j]; cbn in E; subst j.
  - destruct (sg_pc s) eqn:P; try (exists s; split; [exact A|constructor; discriminate]). eexists. split; [apply at_set with s; exact A|]. apply GmStart; auto.
  - destruct (sg_pc s) eqn:P; try (exists s; split; [exact A|constructor; discriminate]). eexists. split; [apply at_set with s; exact A|]. apply GmClose; auto.
  - destruct (sg_pc s) eqn:P; try (exists s; split; [exact A|constructor; discriminate]). eexists. split; [apply at_set with s; exact A|]. apply GmDestroy; auto.
  - destruct (own_at i s w A) as (s' & A' & R). exists s'. split; [exact A'|]. apply GmOwn; auto.
  - destruct (work_at i o s w A F) as (s' & A' & R). exists s'. split; [exact A'|]. apply GmWork with o; auto.
  - exists s. split; [destruct (sg_pc s); exact A|constructor; discriminate].
  - destruct (g_send GRequest s w) as [qs ok]. destruct (sg_pc s) eqn:P; try (exists s; split; [exact A|constructor; discriminate]);
      (destruct (sg_conn s) eqn:C; [|exists s; split; [exact A|constructor; discriminate]]; destruct ok;
       [eexists; split; [apply (at_set i s); exact A|]; apply GmAsk; auto|exists s; split; [exact A|constructor; discriminate]]).
  - destruct (sg_jobs s) as [|n] eqn:J; [exists s; split; [exact A|constructor; discriminate]|].
    destruct (sg_pc s) eqn:P; try discriminate F; (eexists; split; [apply (at_set i s); exact A|]; apply GmJob; auto; rewrite P; discriminate).
  - destruct (sg_thread s) as [[|q|[]| |]|] eqn:T; try (exists s; split; [exact A|constructor; discriminate]).
    eexists. split; [apply at_set with s; destruct (sg_creator s); exact A|]. rewrite <- T. apply GmIn; auto.
  - exists s. split; [destruct (sg_thread s) as [[|q|[]| |]|]; exact A|constructor; discriminate].
Qed.

Definition gact_eq (u v : gact) : {u = v} + {u <> v}.
Proof. decide equality; try apply Nat.eq_dec; apply Bool.bool_dec. Defined.

(** An invariant of one transport that every step keeps. *)
Lemma grun_inv (I : seg -> Prop) (K : forall i v s s', I s -> gmv i v s s' -> I s') i : forall h w s,
  gw_fate (grun w h) = None -> at_ i w s -> I s -> exists s', at_ i (grun w h) s' /\ I s'.
Proof.
  induction h as [|v h IH]; intros w s F A H; [exists s; auto|]. rewrite grun_cons in *.
  destruct (step_at i v w s A (unfated _ _ F)) as (s1 & A1 & M). apply (IH _ s1 F A1). exact (K i v s s1 H M).
Qed.
Lemma at_fun i w s s' : at_ i w s -> at_ i w s' -> s = s'.
Proof. unfold at_. congruence. Qed.
Lemma at_start cap kinds i w s h : w = grun (segs0 cap kinds) h -> gw_fate w = None -> at_ i w s -> exists k, at_ i (segs0 cap kinds) (seg0 k).
Proof.
  intros -> F A. destruct (nth_error kinds i) as [k|] eqn:E.
  - exists k. unfold at_, segs0. cbn. rewrite nth_error_map, E. reflexivity.
  - exfalso. assert (length (gw_ends (grun (segs0 cap kinds) h)) = length kinds) as L.
    { clear. assert (forall h w, length (gw_ends (grun w h)) = length (gw_ends w)) as K.
      { induction h0 as [|v h0 IH]; intros w; [reflexivity|]. rewrite grun_cons, IH. unfold gstep. destruct (gw_fate w); [reflexivity|].
        destruct (nth_error (gw_ends w) (actor v)) as [t|]; [|reflexivity].
        destruct v as [j|j|j|j|j o|j|j|j|j|j]; unfold g_own, g_work;
          repeat match goal with
          | |- context [match ?x with _ => _ end] => destruct x
          end; cbn; rewrite ?length_upd; reflexivity. }
      rewrite K. cbn. apply map_length. }
    apply nth_error_None in E. unfold at_ in A. assert (nth_error (gw_ends (grun (segs0 cap kinds) h)) i <> None) as X by congruence. apply nth_error_Some in X. lia.
Qed.

(** ** Close and the destructor return *)
Definition krank (k : option kwk) : nat :=
  match k with None | Some KEnded => 0 | Some KEpi => 1 | Some KTop => 2 | Some (KBusy _) => 3 | Some (KRecv _) => 4 end.
Definition crank (c : kpc) : nat :=
  match c with CBye => 6 | CConn => 5 | CStop => 4 | CJoin => 3 | CRemove => 2 | CFail => 1 | DStop => 3 | DJoin => 2 | DRemove => 1 | _ => 0 end.
Definition early (c : kpc) : bool := match c with CBye | CConn => true | _ => false end.
Definition joins (c : kpc) : bool := match c with CJoin | DJoin => true | _ => false end.
Definition grank (s : seg) : nat := crank (sg_pc s) + if early (sg_pc s) then 4 else krank (sg_thread s).
Definition gready (s : seg) : bool := (negb (joins (sg_pc s)) || Nat.eqb (krank (sg_thread s)) 0)%bool.

(** What holds of every transport. *)
Record sane (s : seg) : Prop := {
  sn_old : sg_old s = None \/ In (sg_pc s) [SStop; SJoin];
  sn_conn : In (sg_pc s) [CStop; CJoin; CRemove; CFail; DStop; DJoin; DRemove; KFreed] -> sg_conn s = false;
  sn_gone : In (sg_pc s) [CRemove; CFail; DRemove; KFreed] -> sg_thread s = None }.

Ltac inl H := cbn in H; repeat match type of H with _ \/ _ => destruct H as [H|H] end; try contradiction; try discriminate.

Lemma workrel_none s s' : sg_old s = None -> workrel true s s' -> s' = s.
Proof. intros O W. destruct W as [H|H|q H|H|q m H|q H|H|H|H|H|H]; auto; cbn in H; congruence. Qed.
Lemma workrel_old s s' : workrel false s s' -> sg_old s' = sg_old s.
Proof. intros []; reflexivity. Qed.
Lemma workrel_pc old s s' : workrel old s s' -> sg_pc s' = sg_pc s /\ sg_done s' = sg_done s /\ sg_starts s' = sg_starts s /\ sg_creator s' = sg_creator s /\ sg_rx s' = sg_rx s /\ sg_tx s' = sg_tx s.
Proof. intros []; destruct old; repeat split; reflexivity. Qed.
Lemma workrel_conn old s s' : workrel old s s' -> sg_conn s = false -> sg_conn s' = false.
Proof. intros [] C; destruct old; cbn; auto. Qed.
Lemma workrel_thread s s' : workrel false s s' -> sg_thread s = None -> sg_thread s' = None.
Proof. intros W T. destruct W as [H|H|q H|H|q m H|q H|H|H|H|H|H]; auto; cbn in H; congruence. Qed.

Lemma sane_step i v s s' : sane s -> gmv i v s s' -> sane s'.
Proof.
  intros [O C G] M. destruct M as [|E P|E P|E P|s' E R|old s' E W|E P|n E J P|E T].
  - constructor; auto.
  - rewrite P in *. constructor; cbn; [left; destruct O as [O|O]; [exact O|inl O]| |]; intros H; inl H.
  - rewrite P in *. constructor; cbn; [left; destruct O as [O|O]; [exact O|inl O]| |]; intros H; inl H.
  - rewrite P in *. constructor; cbn; [left; destruct O as [O|O]; [exact O|inl O]|auto|]; intros H; inl H.
  - destruct R as [NP|rx tx P|P Cr].
    + unfold own_next. destruct (sg_pc s) eqn:P; cbn in O, C, G; try congruence.
      all: try (assert (sg_old s = None) as O' by (destruct O as [O|O]; [exact O|inl O])).
      * constructor; rewrite ?P; auto.
      * constructor; cbn; auto 15; intros H; inl H.
      * constructor; cbn; auto 15; intros H; inl H.
      * constructor; cbn; auto 15; intros H; inl H.
      * destruct (sg_old s) as [[]|] eqn:OO; (constructor; cbn; rewrite ?P; cbn; auto 15; intros H; inl H).
      * constructor; cbn; auto 15; intros H; inl H.
      * constructor; cbn; auto 15; intros H; inl H.
      * destruct (sg_thread s) as [k|] eqn:T; constructor; cbn; auto 15; intros H; inl H.
      * destruct (sg_thread s) as [[]|] eqn:T; constructor; cbn; rewrite ?P; cbn; auto 15; intros H; inl H.
      * constructor; cbn; auto 15.
      * constructor; cbn; auto 15; intros H; inl H.
      * destruct (sg_thread s) as [k|] eqn:T; constructor; cbn; auto 15; intros H; inl H.
      * destruct (sg_thread s) as [[]|] eqn:T; constructor; cbn; rewrite ?P; cbn; auto 15; intros H; inl H.
      * constructor; cbn; auto 15.
      * constructor; rewrite ?P; auto.
    + rewrite P in *. constructor; cbn; [left; destruct O as [O|O]; [exact O|inl O]| |]; intros H; inl H.
    + rewrite P in *. constructor; cbn; [left; destruct O as [O|O]; [exact O|inl O]| |]; intros H; inl H.
  - destruct (workrel_pc _ _ _ W) as (P & _). constructor; rewrite P.
    + destruct O as [O|O]; [left|right; exact O]. destruct old; [rewrite (workrel_none _ _ O W); exact O|rewrite (workrel_old _ _ W); exact O].
    + intros H. apply (workrel_conn _ _ _ W), C, H.
    + intros H. destruct old; [|apply (workrel_thread _ _ W), G, H].
      assert (sg_old s = None) as O' by (destruct O as [O|O]; [exact O|exfalso; inl H; rewrite <- H in O; inl O]).
      rewrite (workrel_none _ _ O' W). apply G, H.
  - constructor; auto.
  - constructor; auto.
  - constructor; cbn; auto.
Qed.

Lemma sane0 k : sane (seg0 k).
Proof. constructor; cbn; auto. Qed.

Lemma sane_run cap kinds h i s : let w := grun (segs0 cap kinds) h in gw_fate w = None -> at_ i w s -> sane s.
Proof.
  intros w F A. destruct (at_start cap kinds i w s h eq_refl F A) as (k & A0).
  destruct (grun_inv sane sane_step i h _ _ F A0 (sane0 k)) as (s' & A' & S). rewrite (at_fun i w s s' A A'). exact S.
Qed.

(** A call of Close or of the destructor that was under way when sg_done was c. *)
Record going (c : nat) (s : seg) : Prop := { go_sane : sane s; go_done : c < sg_done s \/ sg_done s = c /\ leaving s }.
Definition gleft (c : nat) (s : seg) : nat := if Nat.ltb c (sg_done s) then 0 else grank s.

Lemma done_step i v s s' : gmv i v s s' -> sg_done s <= sg_done s'.
Proof.
  intros M. destruct M as [|E P|E P|E P|s' E R|old s' E W|E P|n E J P|E T]; cbn; auto.
  - destruct R as [NP|rx tx P|P Cr]; cbn; auto. unfold own_next. destruct (sg_pc s); cbn; auto;
      try (destruct (sg_old s) as [[]|]; cbn; auto); try (destruct (sg_thread s) as [[]|]; cbn; auto).
  - destruct (workrel_pc _ _ _ W) as (_ & -> & _). auto.
Qed.

(** A thread that is to end comes nearer to its end. *)
Lemma end_nearer s s' : workrel false s s' -> sg_conn s = false -> krank (sg_thread s') <= pred (krank (sg_thread s)).
Proof.
  intros W C. destruct W as [H|H C'|q H C'|H|q m H|q H|H|H|H|H|H]; try congruence; cbn in H |- *; rewrite ?H; cbn; try lia.
  destruct H as [-> | ->]; cbn; lia.
Qed.

Lemma leaving_cases s : leaving s -> early (sg_pc s) = true \/ early (sg_pc s) = false /\ In (sg_pc s) [CStop; CJoin; CRemove; CFail; DStop; DJoin; DRemove].
Proof. unfold leaving. cbn. intros H. repeat (destruct H as [H|H]); try contradiction; rewrite <- H; cbn; auto 10. Qed.

Lemma going_step c i v s s' : going c s -> gmv i v s s' ->
  going c s' /\ gleft c s' <= gleft c s /\
  (gready s = true -> v = GOwn i -> gleft c s' <= pred (gleft c s)) /\
  (gready s = true -> v <> GOwn i -> gleft c s' <= pred (gleft c s) \/ gready s' = true) /\
  (gready s = false -> v = GWork i false -> gleft c s' <= pred (gleft c s)) /\
  (gready s = false -> v <> GWork i false -> gleft c s' <= pred (gleft c s) \/ gready s' = false).
Proof.
  intros [S D] M. pose proof (sane_step i v s s' S M) as S'. pose proof (done_step i v s s' M) as DM.
  destruct D as [D|[D L]].
  { unfold gleft. replace (c <? sg_done s) with true by (symmetry; apply Nat.ltb_lt; lia).
    replace (c <? sg_done s') with true by (symmetry; apply Nat.ltb_lt; lia).
    split; [constructor; [exact S'|left; lia]|]. repeat split; intros; lia || (left; lia). }
  unfold gleft. replace (c <? sg_done s) with false by (symmetry; apply Nat.ltb_ge; lia). cbn iota.
  pose proof (leaving_cases s L) as LC.
  destruct M as [N1 N2 N3|E P|E P|E P|s' E R|old s' E W|E P|n E J P|E T].
  - rewrite D, Nat.ltb_irrefl. split; [constructor; [exact S'|right; auto]|]. repeat split; intros; try congruence; auto.
  - exfalso. unfold leaving in L. rewrite P in L. inl L.
  - exfalso. unfold leaving in L. rewrite P in L. inl L.
  - exfalso. unfold leaving in L. rewrite P in L. inl L.
  - destruct R as [NP|rx tx P|P Cr]; [|exfalso; unfold leaving in L; rewrite P in L; inl L|exfalso; unfold leaving in L; rewrite P in L; inl L].
    assert (krank (sg_thread s) <= 4) as K4 by (destruct (sg_thread s) as [[]|]; cbn; lia).
    assert (going c (own_next s) /\ ((if c <? sg_done (own_next s) then 0 else grank (own_next s)) <= pred (grank s) /\ gready s = true \/
       own_next s = s /\ gready s = false)) as [G' X].
    { pose proof (sn_gone s S) as SG. unfold own_next, grank, gready in *. unfold leaving in L. cbn in L.
      destruct L as [P|[P|[P|[P|[P|[P|[P|[P|[P|[]]]]]]]]]]; rewrite <- P in *; cbn in *.
      - split; [constructor; [exact S'|right; split; [exact D|unfold leaving; cbn; auto 10]]|]. left. rewrite D, Nat.ltb_irrefl. cbn. auto.
      - split; [constructor; [exact S'|right; split; [exact D|unfold leaving; cbn; auto 10]]|]. left. rewrite D, Nat.ltb_irrefl. cbn. split; [lia|reflexivity].
      - destruct (sg_thread s) as [k|] eqn:T; (split; [constructor; [exact S'|right; split; [exact D|unfold leaving; cbn; auto 10]]|]); left; cbn; rewrite D, Nat.ltb_irrefl; cbn; rewrite ?T; (split; [cbn [krank]; lia|reflexivity]).
      - destruct (sg_thread s) as [[]|] eqn:T; try (split; [constructor; [exact S'|right; split; [exact D|unfold leaving; cbn; rewrite <- ?P; cbn; auto 10]]|]);
          first [left; cbn; rewrite D, Nat.ltb_irrefl; cbn; split; [lia|reflexivity]|right; split; reflexivity].
      - split; [constructor; [exact S'|right; split; [exact D|unfold leaving; cbn; auto 10]]|]. left. rewrite D, Nat.ltb_irrefl. cbn. split; [lia|reflexivity].
      - split; [constructor; [exact S'|left; cbn; lia]|]. left. replace (c <? Datatypes.S (sg_done s)) with true by (symmetry; apply Nat.ltb_lt; lia). split; [lia|reflexivity].
      - destruct (sg_thread s) as [k|] eqn:T; (split; [constructor; [exact S'|right; split; [exact D|unfold leaving; cbn; auto 10]]|]); left; cbn; rewrite D, Nat.ltb_irrefl; cbn; rewrite ?T; (split; [cbn [krank]; lia|reflexivity]).
      - destruct (sg_thread s) as [[]|] eqn:T; try (split; [constructor; [exact S'|right; split; [exact D|unfold leaving; cbn; rewrite <- ?P; cbn; auto 10]]|]);
          first [left; cbn; rewrite D, Nat.ltb_irrefl; cbn; split; [lia|reflexivity]|right; split; reflexivity].
      - split; [constructor; [exact S'|left; cbn; lia]|]. left. replace (c <? Datatypes.S (sg_done s)) with true by (symmetry; apply Nat.ltb_lt; lia). split; [lia|reflexivity]. }
    split; [exact G'|]. destruct X as [[X Y]|[X Y]].
    + repeat split; intros; try congruence; try lia; auto.
    + rewrite X. rewrite D, Nat.ltb_irrefl. repeat split; intros; try congruence; auto.
  - destruct (workrel_pc _ _ _ W) as (P & Dn & _).
    assert (going c s') as G' by (constructor; [exact S'|right; split; [congruence|unfold leaving in *; rewrite P; exact L]]).
    split; [exact G'|]. replace (sg_done s') with (sg_done s) by congruence. rewrite D, Nat.ltb_irrefl.
    destruct old.
    { assert (sg_old s = None) as O by (destruct (sn_old s S) as [O|O]; [exact O|exfalso; unfold leaving in L; inl L; rewrite <- L in O; inl O]).
      rewrite (workrel_none _ _ O W). repeat split; intros; try congruence; auto. }
    unfold grank, gready. rewrite P. destruct LC as [LC|[LC LC2]]; rewrite LC.
    + replace (joins (sg_pc s)) with false by (destruct (sg_pc s); try discriminate; reflexivity). cbn. repeat split; intros; try congruence; auto.
    + pose proof (end_nearer _ _ W (sn_conn s S ltac:(cbn in *; tauto))) as K. split; [lia|]. split; [intros _ X; congruence|]. split; [|split].
      * intros X _. destruct (joins (sg_pc s)); [|right; reflexivity]. cbn in *. apply Nat.eqb_eq in X. right. apply Nat.eqb_eq. lia.
      * intros X _. destruct (joins (sg_pc s)); [|discriminate]. cbn in X. apply Nat.eqb_neq in X. lia.
      * intros _ X. congruence.
  - cbn. rewrite D, Nat.ltb_irrefl. split; [constructor; [exact S'|right; auto]|]. unfold grank, gready. cbn. repeat split; intros; try congruence; auto.
  - cbn. rewrite D, Nat.ltb_irrefl. split; [constructor; [exact S'|right; auto]|]. unfold grank, gready. cbn. repeat split; intros; try congruence; auto.
  - cbn. rewrite D, Nat.ltb_irrefl. split; [constructor; [exact S'|right; auto]|]. unfold grank, gready. cbn. repeat split; intros; try congruence; auto.
Qed.

Lemma going_block c i : forall b w s, gw_fate (grun w b) = None -> at_ i w s -> going c s ->
  exists s', at_ i (grun w b) s' /\ going c s' /\ gleft c s' <= gleft c s /\
  (In (GOwn i) b -> gready s = true -> gleft c s' <= pred (gleft c s)) /\
  (In (GWork i false) b -> gready s = false -> gleft c s' <= pred (gleft c s)).
Proof.
  induction b as [|v b IH]; intros w s F A G.
  - exists s. repeat split; try apply G; auto; intros [].
  - rewrite grun_cons in *. destruct (step_at i v w s A (unfated _ _ F)) as (s1 & A1 & M).
    destruct (going_step c i v s s1 G M) as (G1 & L1 & R1 & R2 & R3 & R4).
    destruct (IH _ s1 F A1 G1) as (s2 & A2 & G2 & L2 & K1 & K2). exists s2. split; [exact A2|]. split; [exact G2|]. split; [lia|]. split.
    + intros H R. destruct (gact_eq v (GOwn i)) as [E|E]; [specialize (R1 R E); lia|].
      destruct (R2 R E) as [X|X]; [lia|]. destruct H as [H|H]; [congruence|]. specialize (K1 H X). lia.
    + intros H R. destruct (gact_eq v (GWork i false)) as [E|E]; [specialize (R3 R E); lia|].
      destruct (R4 R E) as [X|X]; [lia|]. destruct H as [H|H]; [congruence|]. specialize (K2 H X). lia.
Qed.

Lemma going_rounds c i : forall k h, rounds [GOwn i; GWork i false] k h -> forall w s, gw_fate (grun w h) = None -> at_ i w s -> going c s ->
  exists s', at_ i (grun w h) s' /\ going c s' /\ gleft c s' <= gleft c s - k.
Proof.
  intros k h T. induction T as [h|k b h I T IH]; intros w s F A G.
  - destruct (going_block c i h w s F A G) as (s' & A' & G' & L & _). exists s'. repeat split; try apply G'; auto. lia.
  - rewrite grun_app in *. destruct (going_block c i b w s (unfated _ _ F) A G) as (s1 & A1 & G1 & L & K1 & K2).
    destruct (IH _ s1 F A1 G1) as (s2 & A2 & G2 & L2). exists s2. split; [exact A2|]. split; [exact G2|].
    destruct (gready s) eqn:R; [specialize (K1 (I (GOwn i) ltac:(cbn; auto)) eq_refl)|specialize (K2 (I (GWork i false) ltac:(cbn; auto)) eq_refl)]; lia.
Qed.

Lemma grank_pos s : leaving s -> 0 < grank s.
Proof. unfold leaving, grank. cbn. intros H. repeat (destruct H as [H|H]); try contradiction; rewrite <- H; cbn; lia. Qed.

Lemma close_returns cap kinds h i s h' : let w := grun (segs0 cap kinds) h in gw_fate w = None -> at_ i w s -> leaving s ->
  rounds [GOwn i; GWork i false] 10 h' -> gw_fate (grun w h') = None ->
  exists s', at_ i (grun w h') s' /\ sg_done s < sg_done s'.
Proof.
  intros w F A L T F'.
  assert (going (sg_done s) s) as G by (constructor; [exact (sane_run cap kinds h i s F A)|right; auto]).
  destruct (going_rounds (sg_done s) i 10 h' T w s F' A G) as (s' & A' & [S' G'] & X). exists s'. split; [exact A'|].
  assert (gleft (sg_done s) s <= 10) as B.
  { unfold gleft. rewrite Nat.ltb_irrefl. unfold grank. unfold leaving in L. cbn in L.
    assert (krank (sg_thread s) <= 4) as K4 by (destruct (sg_thread s) as [[]|]; cbn; lia).
    repeat (destruct L as [L|L]); try contradiction; rewrite <- L; cbn; lia. }
  destruct G' as [G'|[E L']]; [exact G'|]. exfalso. unfold gleft in X at 1. rewrite E, Nat.ltb_irrefl in X. pose proof (grank_pos s' L'). lia.
Qed.

(** When such a call returns. *)
Lemma closed_state cap kinds h i s v s' : let w := grun (segs0 cap kinds) h in gw_fate w = None -> at_ i w s ->
  gw_fate (gstep w v) = None -> at_ i (gstep w v) s' -> sg_done s < sg_done s' ->
  sg_conn s' = false /\ sg_thread s' = None /\ sg_old s' = None /\ (sg_pc s' = KOut /\ sg_pend s' = 0 \/ sg_pc s' = KFreed).
Proof.
  intros w F A F' A' D. pose proof (sane_run cap kinds h i s F A) as S. destruct (step_at i v w s A F') as (s1 & A1 & M).
  rewrite <- (at_fun _ _ _ _ A' A1) in M. clear s1 A1. destruct S as [O C G].
  destruct M as [|E P|E P|E P|s' E R|old s' E W|E P|n E J P|E T]; cbn in D; try lia.
  - destruct R as [NP|rx tx P|P Cr]; cbn in D; try lia. unfold own_next in *. destruct (sg_pc s) eqn:P; cbn in D; try lia;
      try (destruct (sg_old s) as [[]|]; cbn in D; lia); try (destruct (sg_thread s) as [[]|]; cbn in D; lia).
    + cbn. rewrite C, G by (cbn; auto 10). repeat split; auto. destruct O as [O|O]; [exact O|inl O].
    + cbn. rewrite C, G by (cbn; auto 10). repeat split; auto. destruct O as [O|O]; [exact O|inl O].
  - destruct (workrel_pc _ _ _ W) as (_ & Dn & _). lia.
Qed.
