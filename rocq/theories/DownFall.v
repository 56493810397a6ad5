(** Proofs on stopping and destroying a Server or a Client: safety of the destructor, and progress. *)
From Coq Require Import List Arith Bool Lia.
From Verif Require Import DownModel DownSpec DownProofs.
Import ListNotations.
Local Open Scope nat_scope.

Lemma drun_app : forall o h k s, drun o s (h ++ k) = drun o (drun o s h) k.
Proof. intros o h. induction h as [|e r IH]; intros k s; [reflexivity|]. cbn. apply IH. Qed.

(** ** Before the destructor every part is there *)
Lemma there_all : forall o s p, dn_left s = length (ob_parts o) -> therein p (ob_parts o) = true -> there o s p = true.
Proof. intros o s p L H. unfold there. rewrite L, firstn_all. exact H. Qed.

Lemma there_some : forall o s p, W <= dn_left s -> therein p (firstn W (ob_parts o)) = true -> there o s p = true.
Proof. intros o s p L H. apply therein_in. apply (in_firstn_le _ _ W); [exact L|]. now apply therein_in. Qed.

Lemma use_there : forall o w p s, there o s p = true -> use o w p s = s.
Proof. intros o w p s H. unfold use. now rewrite H. Qed.

Lemma hand_safe : forall o i s, inv o s -> dn_left s = length (ob_parts o) -> dn_fate (hand o i s) = dn_fate s.
Proof.
  intros o i s I L. unfold hand. destruct (nth_error (dn_calls s) i) as [(l & h)|] eqn:E; [|reflexivity].
  destruct (proj1 (Forall_forall _ _) (i_calls o s I) (l, h) (nth_error_In _ i E)) as [_ F]. cbn [fst] in F.
  destruct l as [|[p|w t|] r]; try reflexivity. cbn in F. apply andb_true_iff in F as [F _]. rewrite use_there; [reflexivity|]. now apply there_all.
Qed.

Lemma work_safe : forall o n s, inv o s -> W <= dn_left s \/ dn_work s = [] -> dn_fate (work o n s) = dn_fate s.
Proof.
  intros o n s I L. unfold work. destruct (is_self s n); [reflexivity|]. destruct (find_work n s) as [[|p r]|] eqn:E; try reflexivity.
  apply find_work_in in E. destruct L as [L|L]; [|rewrite L in E; destruct E].
  pose proof (proj1 (Forall_forall _ _) (i_work o s I) _ E) as F. cbn in F. apply andb_true_iff in F as [F _].
  rewrite use_there; [reflexivity|]. now apply there_some.
Qed.

Lemma keep_safe : forall o s, inv o s -> dn_left s = length (ob_parts o) \/ dn_keep s = None -> dn_fate (keep o s) = dn_fate s.
Proof.
  intros o s I L. unfold keep. destruct (dn_keep s) as [[|p r]|] eqn:E; try reflexivity; [destruct (dn_kstop s); reflexivity|].
  destruct L as [L|L]; [|discriminate]. destruct (i_keep o s I _ E) as [F _]. cbn in F. apply andb_true_iff in F as [F _].
  rewrite use_there; [reflexivity|]. now apply there_all.
Qed.

Lemma own_fate : forall o s, dn_fate (own o s) = dn_fate s.
Proof.
  intros o s. unfold own. destruct (dn_pc s); try reflexivity.
  - destruct (dn_keep s); reflexivity.
  - destruct (negb (ob_close o) || no_calls s)%bool; reflexivity.
  - destruct (none_of s ws); reflexivity.
  - destruct (dn_keep s); reflexivity.
  - destruct (dn_left s) as [|m]; [reflexivity|]. destruct (nth_error (ob_parts o) m) as [p|]; [|reflexivity]. cbv zeta. destruct (part_beq p PTransport); reflexivity.
  - destruct (part_beq p PTaskWorkers); [destruct (none_of s (dn_group s)); reflexivity|]. destruct (part_beq p PTransport); [|reflexivity].
    destruct (negb (ob_drop o) || no_calls s)%bool; reflexivity.
Qed.

(** ** The destructor, from a quiet state *)
Record fall (o : object) (s : down) : Prop := {
  f_fate : dn_fate s = None; f_calls : dn_calls s = []; f_open : dn_open s = false;
  f_le : dn_left s <= length (ob_parts o);
  f_pos : match dn_pc s with
          | FallKeep => dn_left s = length (ob_parts o)
          | FallNext => W < dn_left s \/ dn_work s = []
          | FallWait p => nth_error (ob_parts o) (dn_left s) = Some p /\ (W <= dn_left s \/ dn_work s = [])
          | FallEnd => dn_left s = 0 /\ dn_work s = []
          | _ => False
          end
}.

Lemma fall_falling : forall o s, fall o s -> falling s = true.
Proof. intros o s F. destruct F. unfold falling. destruct (dn_pc s); try contradiction; reflexivity. Qed.

Lemma fall_work : forall o s, made o -> fall o s -> W <= dn_left s \/ dn_work s = [].
Proof.
  intros o s M F. pose proof (made_length o M) as ML. destruct F. destruct (dn_pc s); try contradiction.
  - left. rewrite f_pos0. apply Nat.lt_le_incl. exact ML.
  - destruct f_pos0 as [L|L]; [left; now apply Nat.lt_le_incl|now right].
  - apply f_pos0.
  - now right.
Qed.

Lemma set_worker_nil : forall n x s, dn_work s = [] -> dn_work (set_worker n x s) = [].
Proof. intros n x s E. cbn. rewrite E. reflexivity. Qed.

Lemma work_frame : forall o n s, let t := work o n s in
  dn_calls t = dn_calls s /\ dn_open t = dn_open s /\ dn_left t = dn_left s /\ dn_pc t = dn_pc s /\ (dn_work s = [] -> dn_work t = []).
Proof.
  intros o n s. cbv zeta. unfold work. destruct (is_self s n); [auto 6|]. destruct (find_work n s) as [[|p r]|]; [| |auto 6].
  - repeat split. now apply set_worker_nil.
  - destruct (use_cases o ByWorker p (set_worker n (Some r) s)) as [-> | ->]; repeat split; now apply set_worker_nil.
Qed.

Lemma keep_frame : forall o s, let t := keep o s in
  dn_calls t = dn_calls s /\ dn_open t = dn_open s /\ dn_left t = dn_left s /\ dn_pc t = dn_pc s /\ dn_work t = dn_work s.
Proof.
  intros o s. cbv zeta. unfold keep. destruct (dn_keep s) as [[|p r]|]; [destruct (dn_kstop s); auto 6| |auto 6].
  destruct (use_cases o ByKeeper p (set_keep (Some r) (dn_kstop s) s)) as [-> | ->]; auto 6.
Qed.

Lemma no_work : forall s, (forall n, running s n = false) -> dn_work s = [].
Proof.
  intros s H. destruct (dn_work s) as [|(n & l) r] eqn:E; [reflexivity|]. specialize (H n).
  assert (running s n = true) as R by (apply running_in; exists l; rewrite E; now left). congruence.
Qed.

Lemma group_all : forall o s, inv o s -> fall o s -> none_of s (dn_group s) = true -> dn_work s = [].
Proof.
  intros o s I F N. apply no_work. intros n. destruct (running s n) eqn:R; [|reflexivity]. exfalso.
  destruct (i_known o s I n R) as [G|[G|(c & C & _)]].
  - pose proof (proj1 (none_of_spec _ _) N n G). congruence.
  - apply fall_falling in F. unfold waited in G. unfold falling in F. destruct (dn_pc s); try discriminate; destruct G.
  - rewrite (f_calls o s F) in C. destruct C.
Qed.

Lemma fall_own : forall o s, made o -> inv o s -> fall o s -> fall o (own o s).
Proof.
  intros o s M I F. pose proof (made_length o M) as ML. pose proof (group_all o s I F) as GA. destruct F as [F1 F2 F3 F4 F5]. unfold own.
  destruct (dn_pc s) eqn:P; try contradiction.
  - destruct (dn_keep s) eqn:E; [constructor; auto; now rewrite P|]. constructor; auto. cbn. left. rewrite F5. exact ML.
  - destruct (dn_left s) as [|m] eqn:L.
    + destruct F5 as [F5|F5]; [unfold W in F5; lia|]. constructor; auto. cbn. rewrite L. lia. cbn. rewrite L. auto.
    + assert (m < length (ob_parts o)) as LT by lia. apply nth_error_Some in LT. destruct (nth_error (ob_parts o) m) as [p|] eqn:N; [|contradiction].
      cbv zeta. destruct (part_beq p PTransport); constructor; auto; cbn; try lia; (split; [exact N|]); destruct F5 as [F5|F5]; [left; lia|now right|left; lia|now right].
  - destruct F5 as [N F5]. destruct (part_beq p PTaskWorkers) eqn:PB.
    + destruct (none_of s (dn_group s)) eqn:G; [|constructor; auto; rewrite P; auto]. constructor; auto. cbn. right. now apply GA.
    + assert (W < dn_left s \/ dn_work s = []) as D.
      { destruct F5 as [F5|F5]; [|now right]. left. apply Nat.lt_eq_cases in F5 as [F5|F5]; [exact F5|]. exfalso.
        rewrite <- F5, (made_workers o M) in N. injection N as <-. now rewrite part_beq_refl in PB. }
      assert (fall o (set_pc FallNext s)) as J by (constructor; auto).
      destruct (part_beq p PTransport); [|exact J]. destruct (negb (ob_drop o) || no_calls s)%bool; [exact J|]. constructor; auto. rewrite P. auto.
  - constructor; auto. now rewrite P.
Qed.

Lemma fall_step : forall o s e, made o -> inv o s -> fall o s -> fall o (dstep o s e).
Proof.
  intros o s e M I F. assert (FF := fall_falling o s F). unfold dstep. rewrite (f_fate o s F).
  assert (forall t, dn_fate t = None -> dn_calls t = dn_calls s -> dn_open t = dn_open s -> dn_left t = dn_left s -> dn_pc t = dn_pc s ->
          (dn_work s = [] -> dn_work t = []) -> fall o t) as K.
  { intros t T1 T2 T3 T4 T5 T6. destruct F as [F1 F2 F3 F4 F5]. constructor; [exact T1|congruence|congruence|now rewrite T4|].
    rewrite T5, T4. clear - F5 T6. destruct (dn_pc s); intuition. }
  destruct e as [| |k t|i|n| |self| |].
  - unfold falling in FF. destruct (dn_pc s); try discriminate; exact F.
  - unfold falling in FF. destruct (dn_pc s); try discriminate; exact F.
  - rewrite (f_open o s F). exact F.
  - unfold hand. rewrite (f_calls o s F). destruct i; exact F.
  - destruct (work_frame o n s) as (T2 & T3 & T4 & T5 & T6). apply K; auto. rewrite work_safe; [apply F|exact I|exact (fall_work o s M F)].
  - destruct (keep_frame o s) as (T2 & T3 & T4 & T5 & T6). apply K; auto; [|congruence]. rewrite keep_safe; [apply F|exact I|].
    destruct (dn_keep s) eqn:E; [|now right]. left. assert (joined s = false) as J.
    { destruct (joined s) eqn:J; [|reflexivity]. pose proof (i_joined o s I J). congruence. }
    destruct F. unfold joined in J. destruct (dn_pc s); try discriminate; try contradiction. exact f_pos0.
  - unfold falling in FF. destruct (dn_pc s); try discriminate; exact F.
  - unfold falling in FF. destruct (dn_pc s); try discriminate; exact F.
  - now apply fall_own.
Qed.

Lemma fall_run : forall o h s, made o -> inv o s -> fall o s -> fall o (drun o s h).
Proof. intros o h. induction h as [|e r IH]; intros s M I F; [exact F|]. cbn. apply IH; [exact M|now apply inv_step|now apply fall_step]. Qed.

Lemma safe_step : forall o s e, made o -> inv o s -> dn_fate s = None -> falling s = false -> dn_fate (dstep o s e) = None.
Proof.
  intros o s e M I F N. assert (L := i_left o s I N). unfold dstep. rewrite F. destruct e as [| |k t|i|n| |self| |].
  - destruct (dn_pc s); exact F.
  - destruct (dn_pc s); try exact F. destruct (dn_keep s); try exact F. destruct (ob_keeps o); exact F.
  - destruct (dn_open s && has o k)%bool; exact F.
  - now rewrite hand_safe.
  - rewrite work_safe; [exact F|exact I|]. left. rewrite L. apply Nat.lt_le_incl. now apply made_length.
  - rewrite keep_safe; auto.
  - destruct (dn_pc s); try exact F. destruct self as [n|]; [destruct (running s n)|]; exact F.
  - destruct (dn_pc s); exact F.
  - now rewrite own_fate.
Qed.

Lemma falling_step : forall o s e, falling s = true -> falling (dstep o s e) = true.
Proof.
  intros o s e F. unfold dstep. destruct (dn_fate s); [exact F|]. destruct e as [| |k t|i|n| |self| |].
  - unfold falling in *. destruct (dn_pc s) eqn:P; try discriminate; cbn; now rewrite P.
  - unfold falling in *. destruct (dn_pc s) eqn:P; try discriminate; cbn; now rewrite P.
  - destruct (dn_open s && has o k)%bool; exact F.
  - unfold hand. destruct (nth_error (dn_calls s) i) as [([|[p|w t|] r] & h)|]; try exact F.
    destruct (use_cases o ByHandler p (set_calls (put_nth (dn_calls s) i (Some (r, h))) s)) as [-> | ->]; exact F.
  - destruct (work_frame o n s) as (_ & _ & _ & E & _). unfold falling in *. now rewrite E.
  - destruct (keep_frame o s) as (_ & _ & _ & E & _). unfold falling in *. now rewrite E.
  - unfold falling in *. destruct (dn_pc s) eqn:P; try discriminate; cbn; now rewrite P.
  - unfold falling in *. destruct (dn_pc s) eqn:P; try discriminate; cbn; now rewrite P.
  - unfold own. unfold falling in F. destruct (dn_pc s) eqn:P; try discriminate; unfold falling.
    + destruct (dn_keep s); [now rewrite P|reflexivity].
    + destruct (dn_left s) as [|m]; [reflexivity|]. destruct (nth_error (ob_parts o) m) as [p|]; [|now rewrite P]. cbv zeta. destruct (part_beq p PTransport); reflexivity.
    + destruct (part_beq p PTaskWorkers); [destruct (none_of s (dn_group s)); [reflexivity|now rewrite P]|].
      destruct (part_beq p PTransport); [|reflexivity]. destruct (negb (ob_drop o) || no_calls s)%bool; [reflexivity|now rewrite P].
    + now rewrite P.
Qed.

Lemma falling_run : forall o h s, falling s = true -> falling (drun o s h) = true.
Proof. intros o h. induction h as [|e r IH]; intros s F; [exact F|]. cbn. apply IH. now apply falling_step. Qed.

Lemma alive_safe : forall o h s, made o -> inv o s -> dn_fate s = None -> falling (drun o s h) = false -> dn_fate (drun o s h) = None.
Proof.
  intros o h. induction h as [|e r IH]; intros s M I F N; [exact F|]. cbn in *. apply IH; [exact M|now apply inv_step| |exact N].
  apply safe_step; auto. destruct (falling s) eqn:G; [|reflexivity]. exfalso.
  pose proof (falling_run o r _ (falling_step o s e G)). congruence.
Qed.

Lemma until_fall : forall o h, made o -> falling (after o h) = false -> dn_fate (after o h) = None.
Proof. intros o h M N. apply alive_safe; auto. apply inv0. Qed.

Lemma begin_fall : forall o h, made o -> outside (after o h) -> quiet (after o h) ->
  let s := dstep o (after o h) EFall in inv o s /\ fall o s.
Proof.
  intros o h M O (Q1 & Q2). pose proof (inv_after o h M) as I.
  assert (falling (after o h) = false) as N by (unfold falling; now rewrite O).
  pose proof (until_fall o h M N) as F. cbv zeta. split; [now apply inv_step|]. unfold dstep. rewrite F, O.
  constructor; auto; cbn; rewrite (i_left o _ I N); auto.
Qed.

Lemma quiet_safe : forall o h h', made o -> outside (after o h) -> quiet (after o h) -> ~ broken (after o (h ++ EFall :: h')).
Proof.
  intros o h h' M O Q B. apply B. unfold after. rewrite drun_app. fold (after o h). cbn [drun].
  destruct (begin_fall o h M O Q) as [I F]. now apply (fall_run o h' _ M I F).
Qed.

(** ** Progress *)
Lemma find_work_set : forall n x s, running s n = true -> find_work n (set_worker n (Some x) s) = Some x.
Proof.
  intros n x s R. unfold find_work. cbn [dn_work set_worker set_work]. apply running_in in R as (l & R).
  induction (dn_work s) as [|(m & y) r IH]; [destruct R|]. cbn [flat_map fst]. destruct (Nat.eqb_spec m n) as [-> |D].
  - cbn. now rewrite Nat.eqb_refl.
  - cbn. apply Nat.eqb_neq in D. rewrite D. apply IH. destruct R as [[= <- <-]|R]; [now rewrite Nat.eqb_refl in D|exact R].
Qed.

Lemma set_work_work : forall a b s, set_work a (set_work b s) = set_work a s. Proof. reflexivity. Qed.

Definition others (n : nat) (l : list (nat * list part)) : list (nat * list part) := filter (fun w => negb (Nat.eqb (fst w) n)) l.

Lemma drop_worker : forall n s, dn_work (set_worker n None s) = others n (dn_work s).
Proof.
  intros n s. cbn. unfold others. induction (dn_work s) as [|(m & y) r IH]; [reflexivity|]. cbn [flat_map filter fst].
  destruct (Nat.eqb m n); cbn; [exact IH|]. now rewrite IH.
Qed.

Lemma others_set : forall n x s, others n (dn_work (set_worker n x s)) = others n (dn_work s).
Proof.
  intros n x s. cbn. unfold others. induction (dn_work s) as [|(m & y) r IH]; [reflexivity|]. cbn [flat_map filter fst].
  destruct (Nat.eqb m n) eqn:E; [|cbn; rewrite E; cbn; now rewrite IH]. destruct x; cbn; rewrite ?Nat.eqb_refl; cbn; exact IH.
Qed.

Lemma down_eta : forall s, set_work (dn_work s) s = s. Proof. now intros []. Qed.

Lemma worker_ends : forall o n l s, dn_fate s = None -> dn_self s = None -> (forall p, In p l -> there o s p = true) -> find_work n s = Some l ->
  drun o s (repeat (EWork n) (S (length l))) = set_work (others n (dn_work s)) s.
Proof.
  intros o n l. induction l as [|p r IH]; intros s F S T E.
  - cbn. unfold dstep. rewrite F. unfold work, is_self. rewrite S, E. rewrite <- drop_worker. reflexivity.
  - cbn [length repeat]. change (EWork n :: EWork n :: repeat (EWork n) (length r)) with ([EWork n] ++ repeat (EWork n) (Datatypes.S (length r))).
    rewrite drun_app. assert (drun o s [EWork n] = set_worker n (Some r) s) as H.
    { cbn. unfold dstep. rewrite F. unfold work, is_self. rewrite S, E. apply use_there. apply (T p). now left. }
    rewrite H, IH; try assumption.
    + unfold set_worker at 2. rewrite set_work_work. now rewrite others_set.
    + intros q Q. apply (T q). now right.
    + apply find_work_set. apply running_in. exists (p :: r). now apply find_work_in.
Qed.

Lemma others_shorter : forall n y r, length (others n ((n, y) :: r)) < length ((n, y) :: r).
Proof.
  intros n y r. unfold others. cbn. rewrite Nat.eqb_refl. cbn. apply Nat.lt_succ_r.
  induction r as [|w r IH]; cbn; [lia|]. destruct (negb (fst w =? n)); cbn; lia.
Qed.

Lemma workers_end : forall o k s, length (dn_work s) <= k -> dn_fate s = None -> dn_self s = None ->
  (forall n l p, In (n, l) (dn_work s) -> In p l -> there o s p = true) ->
  exists h, Forall inner h /\ drun o s h = set_work [] s.
Proof.
  intros o k. induction k as [|k IH]; intros s L F S T.
  - exists []. split; [constructor|]. cbn. destruct (dn_work s) eqn:E; [|cbn in L; lia]. rewrite <- E. now rewrite down_eta.
  - destruct (dn_work s) as [|(n & y) r] eqn:E.
    + exists []. split; [constructor|]. cbn. rewrite <- E. now rewrite down_eta.
    + assert (find_work n s = Some y) as FW by (unfold find_work; rewrite E; cbn; now rewrite Nat.eqb_refl).
      assert (drun o s (repeat (EWork n) (Datatypes.S (length y))) = set_work (others n (dn_work s)) s) as D.
      { apply worker_ends; auto. intros p P. apply (T n y p); [now left|exact P]. }
      destruct (IH (set_work (others n (dn_work s)) s)) as (h & H1 & H2); auto.
      * cbn [dn_work set_work]. pose proof (others_shorter n y r). rewrite E. lia.
      * cbn [dn_work set_work]. intros m l p M P. unfold others in M. apply filter_In in M as [M _]. rewrite E in M. exact (T m l p M P).
      * exists (repeat (EWork n) (Datatypes.S (length y)) ++ h). split.
        -- apply Forall_app. split; [|exact H1]. apply Forall_forall. intros e I. apply repeat_spec in I. subst e. exact Logic.I.
        -- rewrite drun_app, D, H2. reflexivity.
Qed.

Lemma keeper_ends : forall o l s, dn_fate s = None -> dn_keep s = Some l -> dn_kstop s = true -> (forall p, In p l -> there o s p = true) ->
  drun o s (repeat EKeep (S (length l))) = set_keep None true s.
Proof.
  intros o l. induction l as [|p r IH]; intros s F K S T.
  - cbn. unfold dstep. rewrite F. unfold keep. now rewrite K, S.
  - cbn [length repeat]. change (EKeep :: EKeep :: repeat EKeep (length r)) with ([EKeep] ++ repeat EKeep (Datatypes.S (length r))).
    rewrite drun_app. assert (drun o s [EKeep] = set_keep (Some r) true s) as H.
    { cbn. unfold dstep. rewrite F. unfold keep. rewrite K, S. apply use_there. apply (T p). now left. }
    rewrite H, IH; try assumption; try reflexivity. intros q Q. apply (T q). now right.
Qed.

Lemma keeper_joined : forall o s, made o -> inv o s -> dn_fate s = None -> dn_kstop s = true -> dn_left s = length (ob_parts o) ->
  exists h, Forall inner h /\ let t := drun o s h in dn_keep t = None /\ dn_fate t = None /\ dn_pc t = dn_pc s /\ dn_self t = dn_self s /\ dn_stops t = dn_stops s.
Proof.
  intros o s M I F S L. destruct (dn_keep s) as [l|] eqn:K.
  - exists (repeat EKeep (Datatypes.S (length l))). split.
    + apply Forall_forall. intros e J. apply repeat_spec in J. subst e. exact Logic.I.
    + cbv zeta. rewrite (keeper_ends o l s F K S); [auto 6|]. intros p P. destruct (i_keep o s I l K) as [A _].
      apply there_all; [exact L|]. exact (proj1 (forallb_forall _ _) A p P).
  - exists []. split; [constructor|]. cbn. auto.
Qed.

Fixpoint csize (l : list (list act * option nat)) : nat := match l with [] => 0 | c :: r => S (length (fst c)) + csize r end.

Lemma handlers_end : forall o k s, made o -> csize (dn_calls s) <= k -> inv o s -> dn_fate s = None -> dn_left s = length (ob_parts o) ->
  exists h, Forall inner h /\ let t := drun o s h in dn_calls t = [] /\ dn_fate t = None /\ dn_pc t = dn_pc s /\ dn_self t = dn_self s /\ dn_stops t = dn_stops s.
Proof.
  intros o k. induction k as [|k IH]; intros s M L I F A.
  - exists []. split; [constructor|]. cbn. destruct (dn_calls s) as [|c r]; [auto 6|cbn in L; lia].
  - destruct (dn_calls s) as [|(l & x) r] eqn:C.
    + exists []. split; [constructor|]. cbn. auto 6.
    + set (t := dstep o s (EHand 0)). assert (inv o t) as IT by now apply inv_step.
      assert (dn_fate t = None /\ dn_left t = dn_left s /\ dn_pc t = dn_pc s /\ dn_self t = dn_self s /\ dn_stops t = dn_stops s /\ csize (dn_calls t) <= k) as (T1 & T2 & T3 & T4 & T5 & T6).
      { split; [unfold t, dstep; rewrite F; now rewrite hand_safe|]. unfold t, dstep. rewrite F. unfold hand. rewrite C. cbn [nth_error].
        cbn in L. destruct l as [|[p|w b|] l].
        - cbn. repeat split. lia.
        - destruct (use_cases o ByHandler p (set_calls (put_nth ((Touch p :: l, x) :: r) 0 (Some (l, x))) s)) as [-> | ->]; cbn in *; repeat split; lia.
        - cbn in *. repeat split. lia.
        - cbn in *. repeat split. lia. }
      destruct (IH t M T6 IT T1) as (h & H & G); [congruence|]. exists (EHand 0 :: h). split; [constructor; [exact Logic.I|exact H]|].
      cbv zeta in *. cbn [drun]. fold t. destruct G as (G1 & G2 & G3 & G4 & G5). repeat split; congruence.
Qed.

Lemma own_step : forall o s, dn_fate s = None -> drun o s [EOwn] = own o s.
Proof. intros o s F. cbn. unfold dstep. now rewrite F. Qed.

(** Stop returns. *)
Definition returns_from (o : object) (s : down) : Prop :=
  exists h, Forall inner h /\ let t := drun o s h in dn_pc t = Free /\ dn_fate t = None /\ dn_stops t = S (dn_stops s).

Lemma returns_after : forall o s h, Forall inner h -> dn_stops (drun o s h) = dn_stops s -> returns_from o (drun o s h) -> returns_from o s.
Proof.
  intros o s h H E (k & K & R). exists (h ++ k). split; [apply Forall_app; auto|]. cbv zeta in *. rewrite drun_app. now rewrite <- E.
Qed.

Lemma work_there : forall o s, made o -> inv o s -> W <= dn_left s -> forall n l p, In (n, l) (dn_work s) -> In p l -> there o s p = true.
Proof.
  intros o s M I L n l p N P. pose proof (proj1 (Forall_forall _ _) (i_work o s I) _ N) as F. cbn in F.
  apply there_some; [exact L|]. exact (proj1 (forallb_forall _ _) F p P).
Qed.

Lemma not_falling : forall o s, inv o s -> made o -> falling s = false -> dn_left s = length (ob_parts o) /\ W <= dn_left s.
Proof. intros o s I M N. pose proof (i_left o s I N) as L. split; [exact L|]. rewrite L. apply Nat.lt_le_incl. now apply made_length. Qed.

Lemma none_of_nil : forall s ws, none_of (set_work [] s) ws = true.
Proof. intros s ws. apply none_of_spec. intros n _. reflexivity. Qed.

Ltac one_own := exists [EOwn]; split; [constructor; [exact Logic.I|constructor]|].

Lemma from_wait : forall o s ws, made o -> inv o s -> dn_fate s = None -> dn_self s = None -> dn_pc s = StopWait ws -> returns_from o s.
Proof.
  intros o s ws M I F S P. assert (falling s = false) as N by (unfold falling; now rewrite P).
  destruct (not_falling o s I M N) as [L LW]. destruct (workers_end o _ s (le_n _) F S (work_there o s M I LW)) as (h & H & E).
  apply (returns_after o s h H); rewrite E; [reflexivity|]. one_own. cbv zeta. rewrite own_step by exact F. unfold own. cbn [dn_pc set_work]. rewrite P.
  rewrite none_of_nil. repeat split. exact F.
Qed.

Lemma from_swap : forall o s, made o -> inv o s -> dn_fate s = None -> dn_self s = None -> dn_pc s = StopSwap -> returns_from o s.
Proof.
  intros o s M I F S P. pose proof (inv_step o s EOwn M I) as J. apply (returns_after o s [EOwn]); [constructor; [exact Logic.I|constructor]| |].
  - rewrite own_step by exact F. unfold own. now rewrite P.
  - cbn [drun]. unfold dstep in *. rewrite F in *. unfold own in *. rewrite P in *. apply (from_wait o _ (dn_group s)); auto.
Qed.

Lemma from_await : forall o s, made o -> inv o s -> dn_fate s = None -> dn_self s = None -> dn_pc s = StopAwait -> returns_from o s.
Proof.
  intros o s M I F S P. assert (falling s = false) as N by (unfold falling; now rewrite P). destruct (not_falling o s I M N) as [L _].
  destruct (handlers_end o _ s M (le_n _) I F L) as (h & H & G). cbv zeta in G. set (t := drun o s h) in *. destruct G as (G1 & G2 & G3 & G4 & G5).
  apply (returns_after o s h H); fold t; [exact G5|]. assert (inv o t) as IT by now apply inv_run.
  pose proof (inv_step o t EOwn M IT) as J. apply (returns_after o t [EOwn]); [constructor; [exact Logic.I|constructor]| |].
  - rewrite own_step by exact G2. unfold own. rewrite G3, P. destruct (_ || _)%bool; reflexivity.
  - cbn [drun]. unfold dstep in *. rewrite G2 in *. unfold own in *. rewrite G3, P in *. rewrite (proj2 (no_calls_nil t) G1), orb_true_r in *.
    apply from_swap; auto. cbn. congruence.
Qed.

Lemma from_close : forall o s, made o -> inv o s -> dn_fate s = None -> dn_self s = None -> dn_pc s = StopClose -> returns_from o s.
Proof.
  intros o s M I F S P. pose proof (inv_step o s EOwn M I) as J. apply (returns_after o s [EOwn]); [constructor; [exact Logic.I|constructor]| |].
  - rewrite own_step by exact F. unfold own. now rewrite P.
  - cbn [drun]. unfold dstep in *. rewrite F in *. unfold own in *. rewrite P in *. apply from_await; auto.
Qed.

Lemma from_keep : forall o s, made o -> inv o s -> dn_fate s = None -> dn_self s = None -> dn_pc s = StopKeep -> returns_from o s.
Proof.
  intros o s M I F S P. assert (falling s = false) as N by (unfold falling; now rewrite P). destruct (not_falling o s I M N) as [L _].
  destruct (keeper_joined o s M I F (i_stop o s I (or_intror P)) L) as (h & H & G). cbv zeta in G. set (t := drun o s h) in *. destruct G as (G1 & G2 & G3 & G4 & G5).
  apply (returns_after o s h H); fold t; [exact G5|]. assert (inv o t) as IT by now apply inv_run.
  pose proof (inv_step o t EOwn M IT) as J. apply (returns_after o t [EOwn]); [constructor; [exact Logic.I|constructor]| |].
  - rewrite own_step by exact G2. unfold own. rewrite G3, P. destruct (dn_keep t); reflexivity.
  - cbn [drun]. unfold dstep in *. rewrite G2 in *. unfold own in *. rewrite G3, P, G1 in *. apply from_close; auto. cbn. congruence.
Qed.

Lemma stop_returns : forall o h, made o -> stopping (after o h) -> dn_self (after o h) = None -> returns_from o (after o h).
Proof.
  intros o h M P S. pose proof (inv_after o h M) as I.
  assert (falling (after o h) = false) as N by (unfold falling; destruct P as [-> |[-> |[-> |[-> |(ws & ->)]]]]; reflexivity).
  pose proof (until_fall o h M N) as F.
  destruct P as [P|[P|[P|[P|(ws & P)]]]]; [now apply from_keep|now apply from_close|now apply from_await|now apply from_swap|now apply (from_wait o _ ws)].
Qed.

(** The destructor ends. *)
Definition ends_from (o : object) (s : down) : Prop := exists h, Forall inner h /\ gone (drun o s h).

Lemma ends_after : forall o s h, Forall inner h -> ends_from o (drun o s h) -> ends_from o s.
Proof. intros o s h H (k & K & E). exists (h ++ k). split; [apply Forall_app; auto|]. now rewrite drun_app. Qed.

Lemma fall_ends_own : forall o s, made o -> inv o s -> fall o s -> ends_from o (dstep o s EOwn) -> ends_from o s.
Proof. intros o s M I F E. apply (ends_after o s [EOwn]); [constructor; [exact Logic.I|constructor]|exact E]. Qed.

Lemma fall_ends_next : forall o k s, made o -> inv o s -> fall o s -> dn_pc s = FallNext -> dn_left s <= k -> ends_from o s.
Proof.
  intros o k. induction k as [|k IH]; intros s M I F P L.
  - apply fall_ends_own; auto. exists []. split; [constructor|]. cbn. unfold dstep. rewrite (f_fate o s F). unfold own. rewrite P.
    destruct (dn_left s) eqn:E; [|lia]. split; [reflexivity|exact E].
  - destruct (dn_left s) as [|m] eqn:E; [apply IH; auto; lia|].
    set (t := dstep o s EOwn). assert (inv o t) as IT by now apply inv_step. assert (fall o t) as FT by now apply fall_step.
    apply fall_ends_own; auto. fold t.
    assert (m < length (ob_parts o)) as LT by (pose proof (f_le o s F); lia). apply nth_error_Some in LT.
    destruct (nth_error (ob_parts o) m) as [p|] eqn:N; [|contradiction].
    assert (dn_pc t = FallWait p /\ dn_left t = m) as (TP & TL).
    { unfold t, dstep. rewrite (f_fate o s F). unfold own. rewrite P, E, N. cbv zeta. destruct (part_beq p PTransport); split; reflexivity. }
    assert (forall u, inv o u -> fall o u -> dn_pc u = FallWait p -> dn_left u = m -> (part_beq p PTaskWorkers = true -> dn_work u = []) -> ends_from o u) as K.
    { intros u IU FU UP UL UW. apply fall_ends_own; auto. apply IH; auto; [now apply inv_step|now apply fall_step| |].
      - unfold dstep. rewrite (f_fate o u FU). unfold own. rewrite UP. destruct (part_beq p PTaskWorkers).
        + rewrite (proj2 (none_of_spec u (dn_group u))); [reflexivity|]. intros n _. unfold running. rewrite UW; reflexivity.
        + destruct (part_beq p PTransport); [|reflexivity]. now rewrite (proj2 (no_calls_nil u) (f_calls o u FU)), orb_true_r.
      - unfold dstep. rewrite (f_fate o u FU). unfold own. rewrite UP. destruct (part_beq p PTaskWorkers).
        + destruct (none_of u (dn_group u)); cbn; lia.
        + destruct (part_beq p PTransport); [destruct (_ || _)%bool|]; cbn; lia. }
    destruct (part_beq p PTaskWorkers) eqn:PB; [|apply K; auto; discriminate].
    apply internal_part_dec_bl in PB. subst p. assert (m = W) as MW by now apply (made_only o).
    assert (W <= dn_left t) as LW by (rewrite TL, MW; apply le_n).
    assert (dn_self t = None) as TS by (apply (i_self o t IT); right; now apply (fall_falling o)).
    destruct (workers_end o _ t (le_n _) (f_fate o t FT) TS (work_there o t M IT LW)) as (h & H & EQ).
    apply (ends_after o t h H). apply K; rewrite ?EQ; auto.
    + rewrite <- EQ. now apply inv_run.
    + rewrite <- EQ. now apply fall_run.
Qed.

Lemma fall_ends : forall o s, made o -> inv o s -> fall o s -> ends_from o s.
Proof.
  intros o s M I F. destruct (dn_pc s) eqn:P.
  1-6: exfalso; pose proof (fall_falling o s F) as FF; unfold falling in FF; rewrite P in FF; discriminate.
  - pose proof (f_pos o s F) as L. rewrite P in L. assert (dn_kstop s = true) as KS by (apply (i_stop o s I); left; now apply (fall_falling o)).
    destruct (keeper_joined o s M I (f_fate o s F) KS L) as (h & H & G). cbv zeta in G. destruct G as (G1 & G2 & G3 & _). apply (ends_after o s h H).
    set (t := drun o s h) in *. assert (inv o t) as IT by now apply inv_run. assert (fall o t) as FT by now apply fall_run.
    apply fall_ends_own; auto. apply (fall_ends_next o _ _ M (inv_step o t EOwn M IT) (fall_step o t EOwn M IT FT)) with (2 := le_n _).
    unfold dstep. rewrite G2. unfold own. now rewrite G3, P, G1.
  - now apply (fall_ends_next o (dn_left s)).
  - destruct (fall_work o s M F) as [LW|NW].
    + assert (dn_self s = None) as TS by (apply (i_self o s I); right; now apply (fall_falling o)).
      destruct (workers_end o _ s (le_n _) (f_fate o s F) TS (work_there o s M I LW)) as (h & H & EQ). apply (ends_after o s h H).
      set (t := drun o s h) in *. assert (inv o t) as IT by now apply inv_run. assert (fall o t) as FT by now apply fall_run.
      apply fall_ends_own; auto. apply (fall_ends_next o _ _ M (inv_step o t EOwn M IT) (fall_step o t EOwn M IT FT)) with (2 := le_n _).
      unfold dstep. rewrite (f_fate o t FT). unfold own. rewrite EQ. cbn [dn_pc set_work]. rewrite P. destruct (part_beq p PTaskWorkers).
      * change (dn_group (set_work [] s)) with (dn_group s). rewrite none_of_nil. reflexivity.
      * destruct (part_beq p PTransport); [|reflexivity]. rewrite (proj2 (no_calls_nil (set_work [] s)) (f_calls o s F)), orb_true_r. reflexivity.
    + apply fall_ends_own; auto. apply (fall_ends_next o _ _ M (inv_step o s EOwn M I) (fall_step o s EOwn M I F)) with (2 := le_n _).
      unfold dstep. rewrite (f_fate o s F). unfold own. rewrite P. destruct (part_beq p PTaskWorkers).
      * rewrite (proj2 (none_of_spec s (dn_group s))); [reflexivity|]. intros n _. unfold running. now rewrite NW.
      * destruct (part_beq p PTransport); [|reflexivity]. rewrite (proj2 (no_calls_nil s) (f_calls o s F)), orb_true_r. reflexivity.
  - exists []. split; [constructor|]. split; [exact P|]. pose proof (f_pos o s F) as L. rewrite P in L. apply L.
Qed.

Lemma quiet_ends : forall o h h', made o -> outside (after o h) -> quiet (after o h) -> exists h'', Forall inner h'' /\ gone (after o ((h ++ EFall :: h') ++ h'')).
Proof.
  intros o h h' M O Q. destruct (begin_fall o h M O Q) as [I F]. cbv zeta in I, F. set (s := dstep o (after o h) EFall) in *.
  destruct (fall_ends o (drun o s h') M (inv_run o h' s M I) (fall_run o h' s M I F)) as (h'' & H & G). exists h''. split; [exact H|].
  unfold after. rewrite drun_app, drun_app. fold (after o h). cbn [drun]. exact G.
Qed.

(** ** When Stop has returned *)
Lemma stop_rest : forall o h ws, made o -> ob_close o = true -> dn_pc (after o h) = StopWait ws -> outside (after o (h ++ [EOwn])) ->
  at_rest (after o (h ++ [EOwn])).
Proof.
  intros o h ws M C P O. pose proof (inv_after o h M) as I. unfold after in *. rewrite drun_app in *. fold (after o h) in *.
  assert (falling (after o h) = false) as N by (unfold falling; now rewrite P). pose proof (until_fall o h M N) as F.
  rewrite own_step in * by exact F. unfold own in *. rewrite P in *. destruct (none_of (after o h) ws) eqn:E; [|unfold outside in O; congruence].
  assert (dn_calls (after o h) = []) as NC by (apply (i_awaited o _ I); [unfold awaited; now rewrite P|exact C]).
  refine (conj (conj _ _) (conj _ _)); cbn.
  - apply (i_shut o _ I). unfold shut. now rewrite P.
  - exact NC.
  - apply no_work. intros n. destruct (running (after o h) n) eqn:R; [|reflexivity]. exfalso.
    destruct (i_known o _ I n R) as [G|[G|(c & D & _)]]; [|unfold waited in G; rewrite P in G; pose proof (proj1 (none_of_spec _ _) E n G); congruence|rewrite NC in D; destruct D].
    assert (dn_group (after o h) = []) as GN; [|rewrite GN in G; destruct G]. clear - P NC M C.
    (* the group stays empty after the swap *)
    assert (forall k s, inv o s -> (forall vs, dn_pc s = StopWait vs -> dn_calls s = [] /\ dn_group s = []) ->
            (forall vs, dn_pc (drun o s k) = StopWait vs -> dn_calls (drun o s k) = [] /\ dn_group (drun o s k) = [])) as K.
    { induction k as [|e r IH]; intros s IS H; [exact H|]. cbn [drun]. apply IH; [now apply inv_step|]. intros vs.
      unfold dstep. destruct (dn_fate s) eqn:FT; [exact (H vs)|]. destruct e as [| |k t|i|n| |self| |].
      - destruct (dn_pc s) eqn:PS; solve [rewrite <- PS in H; exact (H vs) | discriminate].
      - destruct (dn_pc s) eqn:PS; try solve [rewrite <- PS in H; exact (H vs)]; destruct (dn_keep s), (ob_keeps o); solve [rewrite <- PS in H; exact (H vs) | discriminate].
      - destruct (dn_open s && has o k)%bool eqn:OP; [|exact (H vs)]. intros V. cbn in V. exfalso.
        assert (dn_open s = false) as SO by (apply (i_shut o s IS); unfold shut; now rewrite V). rewrite SO in OP. discriminate.
      - intros V. assert (dn_pc (hand o i s) = dn_pc s) as HP.
        { unfold hand. destruct (nth_error (dn_calls s) i) as [([|[p|w t|] q] & x)|]; try reflexivity.
          destruct (use_cases o ByHandler p (set_calls (put_nth (dn_calls s) i (Some (q, x))) s)) as [-> | ->]; reflexivity. }
        rewrite HP in V. destruct (H vs V) as [A B]. unfold hand. rewrite A. destruct i; cbn; rewrite A; auto.
      - intros V. destruct (work_frame o n s) as (A & _ & _ & B & _). rewrite B in V. destruct (H vs V) as [D G]. split; [congruence|].
        unfold work. destruct (is_self s n); [exact G|]. destruct (find_work n s) as [[|p q]|]; try exact G.
        destruct (use_cases o ByWorker p (set_worker n (Some q) s)) as [-> | ->]; exact G.
      - intros V. destruct (keep_frame o s) as (A & _ & _ & B & _). rewrite B in V. destruct (H vs V) as [D G]. split; [congruence|].
        unfold keep. destruct (dn_keep s) as [[|p q]|]; [destruct (dn_kstop s); exact G| |exact G].
        destruct (use_cases o ByKeeper p (set_keep (Some q) (dn_kstop s) s)) as [-> | ->]; exact G.
      - destruct (dn_pc s) eqn:PS; try solve [rewrite <- PS in H; exact (H vs)]; destruct self as [m|]; [destruct (running s m)|]; solve [rewrite <- PS in H; exact (H vs) | discriminate].
      - destruct (dn_pc s) eqn:PS; solve [rewrite <- PS in H; exact (H vs) | discriminate].
      - unfold own. destruct (dn_pc s) eqn:PS; try (rewrite PS; discriminate).
        + destruct (dn_keep s); cbn; rewrite ?PS; discriminate.
        + cbn. discriminate.
        + destruct (negb (ob_close o) || no_calls s)%bool; cbn; rewrite ?PS; discriminate.
        + intros _. split; [|reflexivity]. cbn. apply (i_awaited o s IS); [unfold awaited; now rewrite PS|exact C].
        + destruct (none_of s ws0); [cbn; discriminate|]. intros _. exact (H ws0 eq_refl).
        + destruct (dn_keep s); cbn; rewrite ?PS; discriminate.
        + destruct (dn_left s) as [|m]; [cbn; discriminate|]. destruct (nth_error (ob_parts o) m) as [p|]; [|rewrite PS; discriminate].
          cbv zeta. destruct (part_beq p PTransport); cbn; discriminate.
        + destruct (part_beq p PTaskWorkers); [destruct (none_of s (dn_group s)); cbn; rewrite ?PS; discriminate|].
          destruct (part_beq p PTransport); [destruct (_ || _)%bool|]; cbn; rewrite ?PS; discriminate. }
    apply (K h (down0 o) (inv0 o)) with (vs := ws); [|exact P]. cbn. discriminate.
  - apply (i_joined o _ I). unfold joined. now rewrite P.
Qed.

Lemma quiet_step : forall o s e, e <> EStart -> quiet s -> quiet (dstep o s e).
Proof.
  intros o s e N (Q1 & Q2). unfold dstep. destruct (dn_fate s); [split; assumption|]. destruct e as [| |k t|i|n| |self| |].
  - contradiction.
  - destruct (dn_pc s), (dn_keep s), (ob_keeps o); split; assumption.
  - rewrite Q1. split; assumption.
  - unfold hand. rewrite Q2. destruct i; split; assumption.
  - destruct (work_frame o n s) as (A & B & _). split; congruence.
  - destruct (keep_frame o s) as (A & B & _). split; congruence.
  - destruct (dn_pc s); try (split; assumption). destruct self as [m|]; [destruct (running s m)|]; split; assumption.
  - destruct (dn_pc s); split; assumption.
  - unfold own. destruct (dn_pc s); try (split; assumption); try (split; [reflexivity|assumption]).
    + destruct (dn_keep s); split; assumption.
    + destruct (negb (ob_close o) || no_calls s)%bool; split; assumption.
    + destruct (none_of s ws); split; assumption.
    + destruct (dn_keep s); split; assumption.
    + destruct (dn_left s) as [|m]; [split; assumption|]. destruct (nth_error (ob_parts o) m) as [p|]; [|split; assumption]. cbv zeta.
      destruct (part_beq p PTransport); split; auto.
    + destruct (part_beq p PTaskWorkers); [destruct (none_of s (dn_group s)); split; assumption|].
      destruct (part_beq p PTransport); [|split; assumption]. destruct (negb (ob_drop o) || no_calls s)%bool; split; assumption.
Qed.

Lemma quiet_run : forall o h s, no_start h -> quiet s -> quiet (drun o s h).
Proof.
  intros o h. induction h as [|e r IH]; intros s N Q; [exact Q|]. cbn. apply IH; [intro I; apply N; now right|].
  apply quiet_step; [intros ->; apply N; now left|exact Q].
Qed.

(** ** Stop called by a background task and waited for *)
Lemma running_hand : forall o i s n, running s n = true -> running (hand o i s) n = true.
Proof.
  intros o i s n R. unfold hand. destruct (nth_error (dn_calls s) i) as [([|[p|w t|] q] & x)|]; try exact R.
  - destruct (use_cases o ByHandler p (set_calls (put_nth (dn_calls s) i (Some (q, x))) s)) as [-> | ->]; exact R.
  - apply running_in in R as (l & R). apply running_in. exists l. cbn. apply in_or_app. now left.
Qed.

Lemma running_work : forall o m s n, m <> n -> running s n = true -> running (work o m s) n = true.
Proof.
  intros o m s n D R. assert (forall x, running (set_worker m x s) n = true) as K.
  { intros x. apply running_in in R as (l & R). apply running_in. exists l. cbn. apply in_flat_map. exists (n, l). split; [exact R|]. cbn.
    destruct (Nat.eqb_spec n m); [congruence|]. now left. }
  unfold work. destruct (is_self s m); [exact R|]. destruct (find_work m s) as [[|p q]|]; [apply K| |exact R].
  destruct (use_cases o ByWorker p (set_worker m (Some q) s)) as [-> | ->]; exact (K (Some q)).
Qed.

Lemma self_stuck : forall o ws n h s, dn_pc s = StopWait ws -> dn_self s = Some n -> In n ws -> running s n = true -> dn_pc (drun o s h) = StopWait ws.
Proof.
  intros o ws n h. induction h as [|e r IH]; intros s P S W R; [exact P|]. cbn [drun].
  assert (dn_pc (dstep o s e) = StopWait ws /\ dn_self (dstep o s e) = Some n /\ running (dstep o s e) n = true) as (A & B & C); [|now apply IH].
  unfold dstep. destruct (dn_fate s); [auto|]. destruct e as [| |k t|i|m| |self| |]; rewrite ?P.
  - auto.
  - auto.
  - destruct (dn_open s && has o k)%bool; auto.
  - split; [|split; [|now apply running_hand]]; unfold hand; destruct (nth_error (dn_calls s) i) as [([|[p|w t|] q] & x)|]; try assumption;
      destruct (use_cases o ByHandler p (set_calls (put_nth (dn_calls s) i (Some (q, x))) s)) as [-> | ->]; assumption.
  - destruct (Nat.eq_dec m n) as [-> |D].
    + unfold work, is_self. rewrite S, Nat.eqb_refl. auto.
    + split; [|split; [|now apply running_work]]; unfold work; destruct (is_self s m); try assumption; destruct (find_work m s) as [[|p q]|]; try assumption;
        destruct (use_cases o ByWorker p (set_worker m (Some q) s)) as [-> | ->]; assumption.
  - unfold keep. destruct (dn_keep s) as [[|p q]|]; [destruct (dn_kstop s); auto| |auto].
    destruct (use_cases o ByKeeper p (set_keep (Some q) (dn_kstop s) s)) as [-> | ->]; auto.
  - auto.
  - auto.
  - unfold own. rewrite P. destruct (none_of s ws) eqn:E; [|auto]. pose proof (proj1 (none_of_spec _ _) E n W). congruence.
Qed.

(** ** The forms the theorems have *)
Lemma free_step : forall o s e, e <> EFall -> falling s = false -> falling (dstep o s e) = false.
Proof.
  intros o s e N F. unfold dstep. destruct (dn_fate s); [exact F|]. destruct e as [| |k t|i|n| |self| |]; try contradiction.
  - unfold falling in *. destruct (dn_pc s) eqn:P; try discriminate; cbn; now rewrite P.
  - unfold falling in *. destruct (dn_pc s) eqn:P; try discriminate; cbn; try (now rewrite P). destruct (dn_keep s), (ob_keeps o); cbn; now rewrite P.
  - destruct (dn_open s && has o k)%bool; exact F.
  - unfold hand. destruct (nth_error (dn_calls s) i) as [([|[p|w t|] r] & h)|]; try exact F.
    destruct (use_cases o ByHandler p (set_calls (put_nth (dn_calls s) i (Some (r, h))) s)) as [-> | ->]; exact F.
  - destruct (work_frame o n s) as (_ & _ & _ & E & _). unfold falling in *. now rewrite E.
  - destruct (keep_frame o s) as (_ & _ & _ & E & _). unfold falling in *. now rewrite E.
  - unfold falling in *. destruct (dn_pc s) eqn:P; try discriminate; cbn; try (now rewrite P). destruct self as [m|]; [destruct (running s m)|]; cbn; now rewrite ?P.
  - unfold own. unfold falling in F. destruct (dn_pc s) eqn:P; try discriminate; unfold falling; try (now rewrite P); try reflexivity.
    + destruct (dn_keep s); [now rewrite P|reflexivity].
    + destruct (_ || _)%bool; [reflexivity|now rewrite P].
    + destruct (none_of s ws); [reflexivity|now rewrite P].
Qed.

Lemma no_fall_safe : forall o h, made o -> ~ In EFall h -> ~ broken (after o h).
Proof.
  intros o h M N B. apply B. apply until_fall; [exact M|]. unfold after. clear B.
  assert (falling (down0 o) = false) as F by reflexivity. revert F. generalize (down0 o). induction h as [|e r IH]; intros s F; [exact F|]. cbn. apply IH.
  - intros I. apply N. now right.
  - apply free_step; [|exact F]. intros ->. apply N. now left.
Qed.

Lemma stopped_safe : forall o h ws k h', made o -> ob_close o = true ->
  dn_pc (after o h) = StopWait ws -> outside (after o (h ++ [EOwn])) ->
  no_start k -> outside (after o ((h ++ [EOwn]) ++ k)) -> ~ broken (after o (((h ++ [EOwn]) ++ k) ++ EFall :: h')).
Proof.
  intros o h ws k h' M C P O N O2. apply quiet_safe; [exact M|exact O2|]. destruct (stop_rest o h ws M C P O) as [Q _].
  unfold after in *. rewrite drun_app. now apply quiet_run.
Qed.

Lemma rest_step : forall o s e, e <> EStart -> e <> EKeepOn -> at_rest s -> at_rest (dstep o s e).
Proof.
  intros o s e N1 N2 (Q & Wn & K). split; [now apply quiet_step|]. destruct Q as [Q1 Q2]. unfold dstep. destruct (dn_fate s); [auto|].
  destruct e as [| |k t|i|n| |self| |]; try contradiction.
  - rewrite Q1. auto.
  - unfold hand. rewrite Q2. destruct i; auto.
  - unfold work. destruct (is_self s n); [auto|]. unfold find_work. rewrite Wn. auto.
  - unfold keep. rewrite K. auto.
  - destruct (dn_pc s); auto. destruct self as [m|]; [destruct (running s m)|]; auto.
  - destruct (dn_pc s); auto.
  - unfold own. destruct (dn_pc s); auto.
    + rewrite K. auto.
    + destruct (_ || _)%bool; auto.
    + destruct (none_of s ws); auto.
    + rewrite K. auto.
    + destruct (dn_left s) as [|m]; [auto|]. destruct (nth_error (ob_parts o) m) as [p|]; [|auto]. cbv zeta. destruct (part_beq p PTransport); auto.
    + destruct (part_beq p PTaskWorkers); [destruct (none_of s (dn_group s)); auto|].
      destruct (part_beq p PTransport); [|auto]. destruct (_ || _)%bool; auto.
Qed.

Lemma rest_stays : forall o h h', made o -> at_rest (after o h) -> no_start h' -> ~ In EKeepOn h' -> at_rest (after o (h ++ h')).
Proof.
  intros o h h' _ R N1 N2. unfold after. rewrite drun_app. fold (after o h). revert R. generalize (after o h). induction h' as [|e r IH]; intros s R; [exact R|].
  cbn. apply IH; [intros I; apply N1; now right|intros I; apply N2; now right|]. apply rest_step; [intros ->; apply N1; now left|intros ->; apply N2; now left|exact R].
Qed.

Lemma stop_returns_after : forall o h, made o -> stopping (after o h) -> dn_self (after o h) = None ->
  exists h', Forall inner h' /\ outside (after o (h ++ h')) /\ ~ broken (after o (h ++ h')) /\ dn_stops (after o (h ++ h')) = S (dn_stops (after o h)).
Proof.
  intros o h M P S. destruct (stop_returns o h M P S) as (k & K & A & B & C). exists k. split; [exact K|]. unfold after in *. rewrite drun_app.
  split; [exact A|]. split; [intros X; now apply X|exact C].
Qed.

Lemma self_never : forall close drop, let o := a_server close drop in
  let h := ([EStart; ECall HToolTask false] ++ repeat (EHand 0) 15) ++ [EStop (Some 0); EOwn; EOwn; EOwn; EOwn] in
  running (after o h) 0 = true /\ forall h', dn_pc (after o (h ++ h')) = StopWait [0].
Proof.
  intros close drop o h. split; [destruct close; vm_compute; reflexivity|]. intros h'. unfold after. rewrite drun_app.
  apply (self_stuck o [0] 0); [destruct close; vm_compute; reflexivity|destruct close; vm_compute; reflexivity|now left|destruct close; vm_compute; reflexivity].
Qed.
