From Coq Require Import Ascii String List Arith NArith ZArith Bool Lia.
From Verif Require Import StrModel DoubleModel JsonModel RpcModel MapModel TaskModel SubModel SubSpec SubProofs LogModel LogSpec LogProofs
  FreshModel FreshProofs TuneModel TuneSpec.
Import ListNotations.
Local Open Scope nat_scope.

Lemma trun_app : forall s a b, trun s (a ++ b) = trun (trun s a) b.
Proof. intros. unfold trun. apply fold_left_app. Qed.
Lemma trun_snoc : forall s a e, trun s (a ++ [e]) = tstep (trun s a) e.
Proof. intros. rewrite trun_app. reflexivity. Qed.
Lemma pick_len : forall (A : Type) k (l : list A) x r, pick k l = Some (x, r) -> length l = S (length r).
Proof. intros A k l x r H. apply pick_split in H. destruct H as (a & b & -> & ->). rewrite !app_length. cbn. lia. Qed.

Definition answers (l : list tdown) : nat := length (filter is_answer l).
Arguments answers : simpl never.
Lemma answers_app : forall a b, answers (a ++ b) = answers a + answers b.
Proof. intros. unfold answers. now rewrite filter_app, app_length. Qed.

Lemma asked_app : forall a b, asked_for (a ++ b) = asked_for a ++ asked_for b.
Proof. intros. apply flat_map_app. Qed.
Lemma called_app : forall a b, called (a ++ b) = called a ++ called b.
Proof. intros. apply flat_map_app. Qed.

(** Every request is sent, carried out, its answer under way or received. *)
Lemma count_run : forall h, let s := trun tune0 h in
  length (asked_for h) = length (tu_up s) + length (tu_done s) + answers (tu_down s) + answers (tu_got s) /\ tu_calls s = length (called h).
Proof.
  intro h. induction h as [|e h IH] using rev_ind; [split; reflexivity|]. cbv zeta in *. rewrite trun_snoc.
  rewrite asked_app, called_app, !app_length. set (s := trun tune0 h) in *. destruct IH as [I J].
  set (n := length (asked_for h)) in *. set (c := length (called h)) in *. clearbody n c.
  destruct e as [a|k|k|m|k|]; cbn.
  - rewrite app_length. cbn. lia.
  - destruct (pick k (tu_up s)) as [[a r]|] eqn:P; cbn; [|lia]. apply pick_len in P. rewrite app_length. cbn. lia.
  - destruct (pick k (tu_done s)) as [[a r]|] eqn:P; cbn; [|lia]. apply pick_len in P. rewrite answers_app. change (answers [TAns a]) with 1. lia.
  - lia.
  - destruct (pick k (tu_go s)) as [[[i m] r]|] eqn:P; cbn; [|lia]. rewrite answers_app. change (answers [TMsg i m]) with 0. lia.
  - destruct (tu_down s) as [|d r] eqn:D; cbn; [rewrite ?D; cbn; lia|]. rewrite answers_app.
    change (answers (d :: r)) with (answers ([d] ++ r)) in I. rewrite answers_app in I. lia.
Qed.

Lemma answered_none : forall h, answered h -> tu_up (trun tune0 h) = [] /\ tu_done (trun tune0 h) = [].
Proof.
  intros h A. destruct (count_run h) as [C _]. unfold answered in A. fold (answers (tu_got (trun tune0 h))) in A. cbv zeta in C. split; apply length_zero_iff_nil; lia.
Qed.

(** While no request is there to be carried out, what is chosen stays. *)
Lemma still : forall h' s, sends_none h' -> tu_up s = [] -> tu_choice (trun s h') = tu_choice s /\ tu_up (trun s h') = [].
Proof.
  induction h' as [|e h' IH]; intros s N U; [split; [reflexivity|exact U]|].
  unfold sends_none, asked_for in N. cbn [flat_map] in N. apply app_eq_nil in N. destruct N as [N1 N2].
  assert (Q : tu_choice (tstep s e) = tu_choice s /\ tu_up (tstep s e) = []).
  { destruct e as [a|k|k|m|k|]; cbn.
    - discriminate.
    - rewrite U. destruct k; cbn; auto.
    - destruct (pick k (tu_done s)) as [[a r]|]; cbn; auto.
    - auto.
    - destruct (pick k (tu_go s)) as [[[i m] r]|]; cbn; auto.
    - destruct (tu_down s); cbn; auto. }
  destruct Q as [Q1 Q2]. destruct (IH (tstep s e) N2 Q2) as [R1 R2]. cbn. unfold trun in *. split; congruence.
Qed.

(** The numbers of the notifications that passed the decision. *)
Definition msg_no (d : tdown) : list nat := match d with TMsg i _ => [i] | TAns _ => [] end.
Definition passed (s : tune) (i : nat) : Prop := In i (map fst (tu_go s)) \/ In i (flat_map msg_no (tu_down s)) \/ In i (flat_map msg_no (tu_got s)).

Lemma passed_step : forall s e i, passed (tstep s e) i <->
  passed s i \/ (exists m, e = UCall m /\ i = tu_calls s /\ allows (tu_choice s) m = true).
Proof.
  intros s e i. unfold passed. assert (X : forall P : Prop, (exists m, e = UCall m /\ P) -> exists m, e = UCall m) by (intros P (m & H & _); eauto).
  destruct e as [a|k|k|m|k|]; cbn.
  - split; [tauto|]. intros [H|(m & H & _)]; [exact H|discriminate].
  - assert (Q : forall P : Prop, P <-> P \/ exists m, UHandle k = UCall m /\ i = tu_calls s /\ allows (tu_choice s) m = true).
    { intro P. split; [tauto|]. intros [H|(m & H & _)]; [exact H|discriminate]. }
    rewrite <- Q. destruct (pick k (tu_up s)) as [[a r]|]; cbn; tauto.
  - assert (Q : forall P : Prop, P <-> P \/ exists m, UAnswer k = UCall m /\ i = tu_calls s /\ allows (tu_choice s) m = true).
    { intro P. split; [tauto|]. intros [H|(m & H & _)]; [exact H|discriminate]. }
    rewrite <- Q. destruct (pick k (tu_done s)) as [[a r]|]; cbn; [|tauto]. rewrite flat_map_app. cbn. rewrite app_nil_r. tauto.
  - destruct (allows (tu_choice s) m) eqn:L.
    + rewrite map_app, in_app_iff. cbn. split.
      * intros [[H|[H|[]]]|H]; [tauto| |tauto]. right. exists m. auto.
      * intros [H|(m' & _ & -> & _)]; tauto.
    + split; [tauto|]. intros [H|(m' & H & _ & Z)]; [exact H|]. injection H as ->. congruence.
  - assert (Q : forall P : Prop, P <-> P \/ exists m, UPost k = UCall m /\ i = tu_calls s /\ allows (tu_choice s) m = true).
    { intro P. split; [tauto|]. intros [H|(m & H & _)]; [exact H|discriminate]. }
    rewrite <- Q. destruct (pick k (tu_go s)) as [[[j m] r]|] eqn:P; cbn; [|tauto].
    apply pick_split in P. destruct P as (a & b & -> & ->). rewrite flat_map_app, !map_app, !in_app_iff. cbn. tauto.
  - assert (Q : forall P : Prop, P <-> P \/ exists m, UHear = UCall m /\ i = tu_calls s /\ allows (tu_choice s) m = true).
    { intro P. split; [tauto|]. intros [H|(m & H & _)]; [exact H|discriminate]. }
    rewrite <- Q. destruct (tu_down s) as [|d r] eqn:D; cbn; [rewrite D; cbn; tauto|]. rewrite flat_map_app, !in_app_iff. cbn. rewrite app_nil_r. tauto.
Qed.

Lemma calls_step : forall s e, tu_calls (tstep s e) = tu_calls s + length (called [e]).
Proof.
  intros s e. destruct e as [a|k|k|m|k|]; cbn; try lia.
  - destruct (pick k (tu_up s)) as [[a r]|]; cbn; lia.
  - destruct (pick k (tu_done s)) as [[a r]|]; cbn; lia.
  - destruct (pick k (tu_go s)) as [[[i m] r]|]; cbn; lia.
  - destruct (tu_down s); cbn; lia.
Qed.

Lemma passed_old : forall h i, passed (trun tune0 h) i -> i < tu_calls (trun tune0 h).
Proof.
  intro h. induction h as [|e h IH] using rev_ind; intros i H.
  - destruct H as [[]|[[]|[]]].
  - rewrite trun_snoc in *. rewrite calls_step. apply passed_step in H. destruct H as [H|(m & -> & -> & _)]; [apply IH in H; lia|cbn; lia].
Qed.

(** From a state where what is chosen stays, a call passes exactly when it is allowed. *)
Lemma passed_later : forall h' s, sends_none h' -> tu_up s = [] -> (forall i, passed s i -> i < tu_calls s) ->
  forall i m, nth_error (called h') i = Some m -> (passed (trun s h') (tu_calls s + i) <-> allows (tu_choice s) m = true).
Proof.
  intro h'. induction h' as [|e h' IH] using rev_ind; intros s N U O i m E; [destruct i; discriminate|].
  unfold sends_none, asked_for, called in *. rewrite flat_map_app in N, E. apply app_eq_nil in N. destruct N as [N1 N2].
  rewrite trun_snoc, passed_step.
  assert (K : tu_calls (trun s h') = tu_calls s + length (called h')).
  { clear. induction h' as [|e h' IH] using rev_ind; [cbn; lia|]. rewrite trun_snoc, calls_step, IH. unfold called. rewrite flat_map_app, app_length. lia. }
  unfold called in K. destruct (Nat.lt_ge_cases i (length (called h'))) as [L|L]; unfold called in L.
  - rewrite nth_error_app1 in E by exact L. rewrite (IH s N1 U O i m E). split; [|tauto].
    intros [H|(m' & _ & H & _)]; [exact H|lia].
  - rewrite nth_error_app2 in E by exact L. destruct e as [a|k|k|m'|k|]; cbn in E; try (destruct (i - _); discriminate).
    destruct (i - length (flat_map (fun e => match e with UCall m => [m] | _ => [] end) h')) as [|d] eqn:D; cbn in E; [|destruct d; discriminate].
    injection E as ->. destruct (still h' s N1 U) as [Q _]. rewrite Q. split.
    + intros [H|(m' & X & _ & H)]; [|injection X as ->; exact H]. exfalso.
      assert (B : forall l t j, (forall x, passed t x -> x < tu_calls t) -> passed (trun t l) j -> j < tu_calls (trun t l)).
      { clear. intro l. induction l as [|e l IH] using rev_ind; intros t j B H; [now apply B|]. rewrite trun_snoc in *. rewrite calls_step.
        apply passed_step in H. destruct H as [H|(m & -> & -> & _)]; [apply IH in H; [lia|exact B]|cbn; lia]. }
      apply (B h' s _ O) in H. rewrite K in H. lia.
    + intro H. right. exists m. split; [reflexivity|]. split; [lia|exact H].
Qed.

Lemma received_in : forall s i, received s i <-> In i (flat_map msg_no (tu_got s)).
Proof.
  intros s i. unfold received. rewrite in_flat_map. split.
  - intros [m H]. exists (TMsg i m). split; [exact H|now left].
  - intros ([a|j m] & H & X); cbn in X; [contradiction|]. destruct X as [->|[]]. now exists m.
Qed.

Lemma in_force : forall h h' i m, answered h -> sends_none h' -> nth_error (called h') i = Some m ->
  let n := length (called h) + i in let s' := trun tune0 (h ++ h') in
  (received s' n -> allows (tu_choice (trun tune0 h)) m = true) /\
  (drained s' -> allows (tu_choice (trun tune0 h)) m = true -> received s' n).
Proof.
  intros h h' i m A N E. cbv zeta. rewrite trun_app. destruct (count_run h) as [_ K]. cbv zeta in K. rewrite <- K.
  pose proof (passed_later h' (trun tune0 h) N (proj1 (answered_none h A)) (passed_old h) i m E) as P. split.
  - intro R. apply P. apply received_in in R. unfold passed. tauto.
  - intros [D1 D2] L. apply P in L. apply received_in. unfold passed in L. rewrite D1, D2 in L. cbn in L. tauto.
Qed.

(** Each notification is received once at most. *)
Definition all_no (s : tune) : list nat := map fst (tu_go s) ++ flat_map msg_no (tu_down s) ++ flat_map msg_no (tu_got s).
Lemma all_no_in : forall s i, In i (all_no s) <-> passed s i.
Proof. intros. unfold all_no, passed. now rewrite !in_app_iff. Qed.
Lemma once : forall h, NoDup (all_no (trun tune0 h)).
Proof.
  intro h. induction h as [|e h IH] using rev_ind; [constructor|]. rewrite trun_snoc. pose proof (passed_old h) as O.
  set (s := trun tune0 h) in *. unfold all_no in *. destruct e as [a|k|k|m|k|]; cbn.
  - exact IH.
  - destruct (pick k (tu_up s)) as [[a r]|]; exact IH.
  - destruct (pick k (tu_done s)) as [[a r]|]; cbn; [|exact IH]. rewrite flat_map_app. cbn. now rewrite app_nil_r.
  - destruct (allows (tu_choice s) m); [|exact IH]. rewrite map_app, <- app_assoc. cbn. apply nodup_mid. split; [exact IH|].
    intro I. apply (Nat.lt_irrefl (tu_calls s)). apply O. apply all_no_in. exact I.
  - destruct (pick k (tu_go s)) as [[[j m] r]|] eqn:P; cbn; [|exact IH].
    apply pick_split in P. destruct P as (a & b & E & ->). rewrite E in IH. rewrite flat_map_app, !map_app in *. cbn in *.
    rewrite <- !app_assoc in *. cbn in *. apply nodup_mid in IH. rewrite !app_assoc in *. apply nodup_mid. exact IH.
  - destruct (tu_down s) as [|d r] eqn:D; cbn; [now rewrite ?D|]. cbn in IH. rewrite flat_map_app. cbn. rewrite app_nil_r.
    destruct d as [a|j m]; cbn in *; [now rewrite app_nil_r|]. apply nodup_mid in IH. destruct IH as [H1 H2].
    replace (map fst (tu_go s) ++ flat_map msg_no r ++ flat_map msg_no (tu_got s) ++ [j]) with
      ((map fst (tu_go s) ++ flat_map msg_no r ++ flat_map msg_no (tu_got s)) ++ j :: []) by (rewrite <- !app_assoc; reflexivity).
    apply nodup_mid. rewrite app_nil_r. now split.
Qed.
Lemma got_once : forall h, NoDup (flat_map msg_no (tu_got (trun tune0 h))).
Proof.
  intro h. pose proof (once h) as H. unfold all_no in H. revert H. generalize (map fst (tu_go (trun tune0 h))), (flat_map msg_no (tu_down (trun tune0 h))).
  intros a b. rewrite app_assoc. generalize (a ++ b). intro l. induction l as [|x l IH]; cbn; intro H; [exact H|]. inversion H; subst. now apply IH.
Qed.

(** Requests sent one by one are carried out in their order. *)
Lemma in_turn : forall h, one_by_one h -> length (tu_up (trun tune0 h)) <= 1 /\
  fold_left apply_ask (asked_for h) choice0 = fold_left apply_ask (tu_up (trun tune0 h)) (tu_choice (trun tune0 h)).
Proof.
  intro h. induction h as [|e h IH] using rev_ind; intro O; [split; [cbn; lia|reflexivity]|].
  assert (O' : one_by_one h) by (intros a x b ->; apply (O a x (b ++ [e])); rewrite <- app_assoc; reflexivity).
  destruct (IH O') as [I1 I2]. rewrite trun_snoc. unfold asked_for in *. rewrite flat_map_app, fold_left_app, I2.
  set (s := trun tune0 h) in *. destruct e as [a|k|k|m|k|]; cbn.
  - assert (A : answered h) by (apply (O h a []); reflexivity). apply answered_none in A. destruct A as [A _]. fold s in A. rewrite A in *. cbn. split; [lia|reflexivity].
  - destruct (tu_up s) as [|a [|b r]] eqn:U; cbn in I1; [|  |lia].
    + destruct k; cbn; rewrite U; split; try (cbn; lia); reflexivity.
    + destruct k as [|[|k]]; cbn; rewrite ?U; split; try (cbn; lia); reflexivity.
  - destruct (pick k (tu_done s)) as [[a r]|]; cbn; split; try exact I1; reflexivity.
  - split; [exact I1|reflexivity].
  - destruct (pick k (tu_go s)) as [[[i m] r]|]; cbn; split; try exact I1; reflexivity.
  - destruct (tu_down s); cbn; split; try exact I1; reflexivity.
Qed.

Lemma in_line : forall h, (forall k, In (UHandle k) h -> k = 0) ->
  fold_left apply_ask (asked_for h) choice0 = fold_left apply_ask (tu_up (trun tune0 h)) (tu_choice (trun tune0 h)).
Proof.
  intro h. induction h as [|e h IH] using rev_ind; intro O; [reflexivity|].
  assert (O' : forall k, In (UHandle k) h -> k = 0) by (intros k I; apply O, in_or_app; now left).
  rewrite trun_snoc, asked_app, fold_left_app, (IH O').
  set (s := trun tune0 h) in *. destruct e as [a|k|k|m|k|]; cbn.
  - now rewrite fold_left_app.
  - assert (k = 0) by (apply O, in_or_app; right; now left). subst k. destruct (tu_up s) as [|a r] eqn:U; cbn; rewrite ?U; reflexivity.
  - destruct (pick k (tu_done s)) as [[a r]|]; reflexivity.
  - reflexivity.
  - destruct (pick k (tu_go s)) as [[[i m] r]|]; reflexivity.
  - destruct (tu_down s); reflexivity.
Qed.

Lemma chosen : forall h, in_order h -> answered h -> tu_choice (trun tune0 h) = fold_left apply_ask (asked_for h) choice0.
Proof.
  intros h O A. assert (E : fold_left apply_ask (asked_for h) choice0 = fold_left apply_ask (tu_up (trun tune0 h)) (tu_choice (trun tune0 h))).
  { destruct O as [O|O]; [exact (proj2 (in_turn h O))|exact (in_line h O)]. } rewrite (proj1 (answered_none h A)) in E. cbn in E. now symmetry. Qed.

Lemma chosen_subs : forall l, ch_subs (fold_left apply_ask l choice0) = sub_run (sub_ops l).
Proof.
  intro l. induction l as [|a l IH] using rev_ind; [reflexivity|]. rewrite fold_left_app. cbn [fold_left]. unfold sub_ops in *. rewrite flat_map_app.
  destruct a as [p|p|p]; cbn [flat_map List.app apply_ask ch_subs]; rewrite ?sub_run_snoc, ?app_nil_r; congruence.
Qed.
Lemma chosen_min : forall l, ch_min (fold_left apply_ask l choice0) = lg_min (log_run (logger0 0) (level_acts l)).
Proof.
  intro l. induction l as [|a l IH] using rev_ind; [reflexivity|]. rewrite fold_left_app. cbn [fold_left]. unfold level_acts in *. rewrite flat_map_app.
  destruct a as [p|p|p]; cbn [flat_map List.app apply_ask ch_min]; rewrite ?run_snoc, ?app_nil_r; [exact IH|exact IH|].
  cbn [log_step lg_min]. now rewrite IH.
Qed.
