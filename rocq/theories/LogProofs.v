From Coq Require Import Ascii String List Permutation Arith NArith ZArith Bool Lia ZifyBool ZifyNat ZifyN.
From Verif Require Import StrModel StrProofs DoubleModel JsonModel JsonSpec JsonProofs RpcModel MapModel TaskModel LogModel LogSpec.
Import ListNotations.
Local Open Scope nat_scope.

Lemma run_app : forall s a b, log_run s (a ++ b) = log_run (log_run s a) b.
Proof. intros. unfold log_run. apply fold_left_app. Qed.
Lemma run_snoc : forall s a x, log_run s (a ++ [x]) = log_step (log_run s a) x.
Proof. intros. now rewrite run_app. Qed.

(** Calls have one outcome. *)
Definition linv (s : logger) : Prop :=
  NoDup (map fst (lg_out s) ++ map fst (lg_calls s)) /\ Forall (fun i => i < lg_next s) (map fst (lg_out s) ++ map fst (lg_calls s)).

Lemma find_call_in : forall i l x, find_call i l = Some x -> In (i, x) l.
Proof.
  intros i l x. induction l as [|[j y] l IH]; cbn; [discriminate|]. destruct (Nat.eqb i j) eqn:E; [|intro H; right; auto].
  intro H. injection H as ->. left. f_equal. lia.
Qed.

Lemma drop_perm : forall i l x, NoDup (map fst l) -> find_call i l = Some x -> Permutation (map fst l) (i :: map fst (drop_call i l)).
Proof.
  intros i l x. induction l as [|[j y] l IH]; cbn; [discriminate|]. intros N F. inversion N; subst. destruct (Nat.eqb i j) eqn:E; cbn.
  - assert (i = j) by lia. subst j. apply perm_skip. assert (filter (fun e => negb (Nat.eqb i (fst e))) l = l) as ->; [|reflexivity].
    clear - H1. induction l as [|[k z] l IH]; [reflexivity|]. cbn in *. destruct (Nat.eqb i k) eqn:E; cbn.
    + exfalso. apply H1. left. lia.
    + rewrite IH; [reflexivity|]. tauto.
  - rewrite perm_swap. apply perm_skip. now apply IH.
Qed.

Lemma linv_step : forall s a, linv s -> linv (log_step s a).
Proof.
  assert (forall s i x o, linv s -> find_call i (lg_calls s) = Some x ->
    forall s', lg_next s' = lg_next s ->
    (map fst (lg_out s') ++ map fst (lg_calls s') = (map fst (lg_out s) ++ [i]) ++ map fst (drop_call i (lg_calls s)) \/
     map fst (lg_out s') ++ map fst (lg_calls s') = map fst (lg_out s) ++ map fst (drop_call i (lg_calls s)) ++ [i]) -> o = 0 -> linv s') as K.
  { intros s i x o [N F] E s' Hn Hs _.
    assert (Permutation (map fst (lg_out s) ++ map fst (lg_calls s)) (map fst (lg_out s') ++ map fst (lg_calls s'))) as P.
    { assert (NoDup (map fst (lg_calls s))) as Nc.
      { clear - N. revert N. generalize (map fst (lg_calls s)). intro l. induction (map fst (lg_out s)) as [|y r IH]; cbn; [trivial|]. intro H. apply IH. now inversion H. }
      pose proof (drop_perm i _ x Nc E) as P. destruct Hs as [-> | ->].
      - rewrite <- app_assoc. apply Permutation_app_head. exact P.
      - apply Permutation_app_head. rewrite P. apply Permutation_cons_append. }
    split; [apply (Permutation_NoDup P N)|]. rewrite Hn. rewrite Forall_forall in F |- *. intros y I. apply F.
    apply (Permutation_in y (Permutation_sym P) I). }
  assert (forall s i, linv s -> forall s' : logger, lg_next s' = S i -> i = lg_next s ->
    Permutation (map fst (lg_out s') ++ map fst (lg_calls s')) (i :: map fst (lg_out s) ++ map fst (lg_calls s)) -> linv s') as K2.
  { intros s i [N F] s' Hn -> P. split.
    - apply (Permutation_NoDup (Permutation_sym P)). constructor; [|exact N]. intro I. rewrite Forall_forall in F. specialize (F _ I). lia.
    - rewrite Hn. rewrite Forall_forall in F |- *. intros y I. apply (Permutation_in y P) in I. destruct I as [<- |I]; [lia|]. specialize (F _ I). lia. }
  intros s a I. destruct a as [d|p|n| |name message data|i|i]; cbn [log_step]; try exact I.
  - destruct (suppressed (level_of name) (lg_min s)); (apply (K2 s (lg_next s) I); [reflexivity|reflexivity|]); cbn [lg_out lg_calls]; rewrite map_app; cbn [map fst].
    + rewrite <- app_assoc. cbn [app]. symmetry. apply Permutation_middle.
    + rewrite app_assoc. symmetry. apply Permutation_cons_append.
  - destruct (find_call i (lg_calls s)) as [[p|p l]|] eqn:E; try exact I. destruct (N.eqb (lg_limit s) 0);
      (apply (K s i _ 0 I E); [reflexivity| |reflexivity]); cbn [with_calls lg_out lg_calls]; rewrite map_app; cbn [map fst]; [left|right]; reflexivity.
  - destruct (find_call i (lg_calls s)) as [[p|p l]|] eqn:E; try exact I.
    (apply (K s i _ 0 I E); [reflexivity| |reflexivity]); cbn [lg_out lg_calls]; rewrite map_app; cbn [map fst]. left. reflexivity.
Qed.
Lemma linv_run : forall l s, linv s -> linv (log_run s l).
Proof. induction l as [|a l IH]; intros s I; [exact I|]. apply (IH (log_step s a)). now apply linv_step. Qed.
Lemma linv0 : forall now, linv (logger0 now).
Proof. intro. split; cbn; constructor. Qed.

Lemma out_grows : forall l s, exists more, lg_out (log_run s l) = lg_out s ++ more.
Proof.
  induction l as [|a l IH]; intro s; [exists []; symmetry; apply app_nil_r|]. cbn [log_run fold_left]. fold (log_run (log_step s a) l).
  destruct (IH (log_step s a)) as (m & ->).
  assert (exists x, lg_out (log_step s a) = lg_out s ++ x) as (x & ->); [|exists (x ++ m); now rewrite app_assoc].
  assert (exists x : list (nat * outcome), lg_out s = lg_out s ++ x) as Z by (exists []; symmetry; apply app_nil_r).
  destruct a as [d|p|n| |name message data|i|i]; cbn [log_step]; try exact Z.
  - destruct (suppressed (level_of name) (lg_min s)); cbn [lg_out]; [eauto|exact Z].
  - destruct (find_call i (lg_calls s)) as [[p|p l0]|] eqn:E; try exact Z. destruct (N.eqb (lg_limit s) 0); cbn [with_calls lg_out]; [eauto|exact Z].
  - destruct (find_call i (lg_calls s)) as [[p|p l0]|] eqn:E; try exact Z. cbn [lg_out]. eauto.
Qed.

Lemma nodup_one : forall (l : list (nat * outcome)) r i a b, NoDup (map fst l ++ r) -> In (i, a) l -> In (i, b) l -> a = b.
Proof.
  intros l r i a b. induction l as [|[j x] l IH]; intros N Ia Ib; [destruct Ia|]. cbn in N. inversion N as [|? ? N1 N2]; subst.
  assert (forall y, In (i, y) l -> j <> i) as D by (intros y Iy ->; apply N1; apply in_or_app; left; now apply (in_map fst) in Iy).
  destruct Ia as [Ea|Ia], Ib as [Eb|Ib].
  - congruence.
  - injection Ea as -> ->. now apply D in Ib.
  - injection Eb as -> ->. now apply D in Ia.
  - now apply IH.
Qed.

(** A suppressed call stays so. *)
Lemma suppressed_final : forall s name message data l x, linv s -> suppressed (level_of name) (lg_min s) = true ->
  In (lg_next s, x) (lg_out (log_run s (GCall name message data :: l))) -> x = Suppressed.
Proof.
  intros s name message data l x I E H. cbn [log_run fold_left] in H. fold (log_run (log_step s (GCall name message data)) l) in H.
  pose proof (linv_run l _ (linv_step s (GCall name message data) I)) as [N _].
  destruct (out_grows l (log_step s (GCall name message data))) as (m & G).
  assert (In (lg_next s, Suppressed) (lg_out (log_run (log_step s (GCall name message data)) l))) as H'.
  { rewrite G. apply in_or_app. left. cbn [log_step]. rewrite E. cbn [lg_out]. apply in_or_app. right. now left. }
  exact (nodup_one _ _ _ _ _ N H H').
Qed.

(** A call let through is not suppressed later, and is sent with its own payload. *)
Definition carried (i : nat) (p : json) (s : logger) : Prop :=
  (forall x, In (i, x) (lg_calls s) -> x = Passed p \/ exists n, x = Limited p n) /\
  (forall x, In (i, x) (lg_out s) -> x = Throttled \/ exists t, x = Sent t p).

Lemma carried_step : forall i p s a, i < lg_next s -> carried i p s -> carried i p (log_step s a).
Proof.
  intros i p s a Hi [C O]. destruct a as [d|q|n| |name message data|j|j]; cbn [log_step]; try (now split).
  - destruct (suppressed (level_of name) (lg_min s)); split; cbn [lg_calls lg_out]; intros x I; try (now apply C); try (now apply O).
    + apply in_app_iff in I. destruct I as [I|[I|[]]]; [now apply O|]. injection I as E _. lia.
    + apply in_app_iff in I. destruct I as [I|[I|[]]]; [now apply C|]. injection I as E _. lia.
  - destruct (find_call j (lg_calls s)) as [[q|q l]|] eqn:E; try (now split). apply find_call_in in E.
    assert (forall y x, In (y, x) (drop_call j (lg_calls s)) -> In (y, x) (lg_calls s)) as D by (intros y x I; unfold drop_call in I; now apply filter_In in I).
    destruct (N.eqb (lg_limit s) 0); split; cbn [with_calls lg_calls lg_out]; intros x I; try (now apply O).
    + apply C. now apply D.
    + apply in_app_iff in I. destruct I as [I|[I|[]]]; [now apply O|]. injection I as <- <-. destruct (C _ E) as [X|(m & X)]; [|discriminate].
      injection X as ->. right. eauto.
    + apply in_app_iff in I. destruct I as [I|[I|[]]]; [apply C; now apply D|]. injection I as <- <-. destruct (C _ E) as [X|(m & X)]; [|discriminate].
      injection X as ->. right. eauto.
  - destruct (find_call j (lg_calls s)) as [[q|q l]|] eqn:E; try (now split). apply find_call_in in E.
    split; cbn [lg_calls lg_out]; intros x I.
    + apply C. unfold drop_call in I. now apply filter_In in I.
    + apply in_app_iff in I. destruct I as [I|[I|[]]]; [now apply O|]. injection I as <- <-. destruct (C _ E) as [X|(m & X)]; [discriminate|].
      injection X as -> <-. match goal with |- context [if ?b then _ else _] => destruct b end; [now left|right; eauto].
Qed.

Lemma next_mono : forall s a, lg_next s <= lg_next (log_step s a).
Proof.
  intros s a. destruct a as [d|p|n| |name message data|i|i]; cbn [log_step]; try (cbn; lia).
  - destruct (suppressed (level_of name) (lg_min s)); cbn; lia.
  - destruct (find_call i (lg_calls s)) as [[p|p l0]|]; try lia. destruct (N.eqb (lg_limit s) 0); cbn; lia.
  - destruct (find_call i (lg_calls s)) as [[p|p l0]|]; cbn; lia.
Qed.

Lemma carried_run : forall l i p s, i < lg_next s -> carried i p s -> carried i p (log_run s l).
Proof.
  induction l as [|a l IH]; intros i p s Hi C; [exact C|]. apply (IH i p (log_step s a)); [pose proof (next_mono s a); lia|now apply carried_step].
Qed.

Lemma passed_final : forall s name message data l x, linv s -> suppressed (level_of name) (lg_min s) = false ->
  In (lg_next s, x) (lg_out (log_run s (GCall name message data :: l))) ->
  x = Throttled \/ exists t, x = Sent t (log_payload (level_of name) message data).
Proof.
  intros s name message data l x [N F] E H. cbn [log_run fold_left] in H. fold (log_run (log_step s (GCall name message data)) l) in H.
  assert (carried (lg_next s) (log_payload (level_of name) message data) (log_step s (GCall name message data))) as C.
  { cbn [log_step]. rewrite E. rewrite Forall_forall in F.
    assert (forall z, In z (map fst (lg_out s) ++ map fst (lg_calls s)) -> z <> lg_next s) as D by (intros z I; specialize (F z I); lia).
    split; cbn [lg_calls lg_out]; intros y I.
    - apply in_app_iff in I. destruct I as [I|[I|[]]].
      + exfalso. apply (in_map fst) in I. apply (D (lg_next s)); [apply in_or_app; now right|reflexivity].
      + injection I as <-. now left.
    - exfalso. apply (in_map fst) in I. apply (D (lg_next s)); [apply in_or_app; now left|reflexivity]. }
  apply (carried_run l _ _ _) in C; [now apply C|]. cbn [log_step]. rewrite E. cbn. lia.
Qed.

(** The threshold is the last choice. *)
Lemma threshold_level : forall s l, threshold_of s = Some l -> exists r, at_rank (lower s) r.
Proof.
  intros s l. unfold threshold_of. set (x := lower s).
  assert (forall y r, nth_error LEVELS r = Some y -> beq x y = true -> exists r, at_rank x r) as K.
  { intros y r H E. apply beq_eq in E. exists r. now rewrite E. }
  destruct (beq x (bs "debug")) eqn:E; [intros _; exact (K _ 0 eq_refl E)|].
  destruct (beq x (bs "info")) eqn:E1; [intros _; exact (K _ 1 eq_refl E1)|].
  destruct (beq x (bs "notice")) eqn:E2; [intros _; exact (K _ 2 eq_refl E2)|].
  destruct (beq x (bs "warning")) eqn:E3; [intros _; exact (K _ 3 eq_refl E3)|].
  destruct (beq x (bs "error")) eqn:E4; [intros _; exact (K _ 4 eq_refl E4)|].
  destruct (beq x (bs "critical")) eqn:E5; [intros _; exact (K _ 5 eq_refl E5)|].
  destruct (beq x (bs "alert")) eqn:E6; [intros _; exact (K _ 6 eq_refl E6)|].
  destruct (beq x (bs "emergency")) eqn:E7; [intros _; exact (K _ 7 eq_refl E7)|]. discriminate.
Qed.

Lemma step_min_other : forall s a, no_choice a -> lg_min (log_step s a) = lg_min s.
Proof.
  intros s a H. destruct a as [d|p|n| |name message data|i|i]; cbn [log_step]; try reflexivity.
  - cbn [lg_min]. unfold set_level. destruct p as [[| | | | | |o]|]; try reflexivity. destruct (obj_get (bs "level") o) as [[| | | |x| |]|] eqn:E; try reflexivity.
    destruct (threshold_of x) as [l|] eqn:T; [|reflexivity]. exfalso. destruct (threshold_level x l T) as (r & R). apply (H _ r R). exists x. split; [|reflexivity].
    exists o. now split.
  - destruct (suppressed (level_of name) (lg_min s)); reflexivity.
  - destruct (find_call i (lg_calls s)) as [[p|p l0]|]; try reflexivity. destruct (N.eqb (lg_limit s) 0); reflexivity.
  - destruct (find_call i (lg_calls s)) as [[p|p l0]|]; reflexivity.
Qed.
Lemma run_min_other : forall l s, Forall no_choice l -> lg_min (log_run s l) = lg_min s.
Proof. induction l as [|a l IH]; intros s F; [reflexivity|]. inversion F; subst. cbn [log_run fold_left]. fold (log_run (log_step s a) l). rewrite IH by assumption. now apply step_min_other. Qed.

Lemma rank_cases : forall (P : bstr -> nat -> Prop),
  P (bs "debug") 0 -> P (bs "info") 1 -> P (bs "notice") 2 -> P (bs "warning") 3 -> P (bs "error") 4 -> P (bs "critical") 5 ->
  P (bs "alert") 6 -> P (bs "emergency") 7 -> forall name r, at_rank name r -> P name r.
Proof.
  intros P H0 H1 H2 H3 H4 H5 H6 H7 name r. unfold at_rank, LEVELS.
  destruct r as [|[|[|[|[|[|[|[|r]]]]]]]]; cbn [nth_error]; try (intro E; assert (forall a b : bstr, Some a = Some b -> a = b) as K by congruence; apply K in E; subst name; assumption).
  destruct r; discriminate.
Qed.

Lemma threshold_same : forall s t, lower s = lower t -> threshold_of s = threshold_of t.
Proof. intros s t H. unfold threshold_of. now rewrite H. Qed.

Definition thr (r : nat) : level := match r with 0 => LDebug | 1 | 2 => LInfo | 3 => LWarn | _ => LError end.
Lemma rank_threshold : forall name r, at_rank name r -> lower name = name /\ threshold_of name = Some (thr r).
Proof. apply rank_cases; split; reflexivity. Qed.

Lemma min_is : forall now hist name r, last_choice hist name -> at_rank name r -> lg_min (log_run (logger0 now) hist) = thr r.
Proof.
  intros now hist name r H R. destruct (rank_threshold name r R) as [L T]. destruct H as [[-> F]|(before & p & s & after & -> & (o & -> & G) & Es & F)].
  - rewrite run_min_other by exact F. change (lg_min (logger0 now)) with LDebug. change (threshold_of (bs "debug")) with (Some LDebug) in T. congruence.
  - rewrite run_app. cbn [log_run fold_left]. fold (log_run (logger0 now) before).
    fold (log_run (log_step (log_run (logger0 now) before) (GSetLevel (Some (JObj o)))) after). rewrite run_min_other by exact F.
    cbn [log_step lg_min set_level]. rewrite G. rewrite (threshold_same s name), T by congruence. reflexivity.
Qed.

Lemma upper_lower : forall c, upper (to_lower c) = upper c.
Proof. intro c. apply Ascii.eqb_eq. revert c. apply (all_ascii (fun c => Ascii.eqb (upper (to_lower c)) (upper c))). vm_compute. reflexivity. Qed.

Lemma level_lower : forall s, level_of (lower s) = level_of s.
Proof. intro s. unfold level_of, lower. rewrite map_map. now rewrite (map_ext _ _ upper_lower). Qed.

Lemma never_below : forall name m c rm rc, lower name = m -> at_rank m rm -> at_rank c rc -> plain c -> rm < rc ->
  suppressed (level_of name) (thr rc) = true.
Proof.
  intros name m c rm rc Em Rm Rc Pc H. rewrite <- level_lower, Em. clear Em name. revert m rm Rm H. revert c rc Rc Pc.
  apply (rank_cases (fun c rc => plain c -> forall m rm, at_rank m rm -> rm < rc -> suppressed (level_of m) (thr rc) = true));
    intros Pc; try (exfalso; vm_compute in Pc; repeat destruct Pc as [Pc|Pc]; (discriminate || exact Pc));
    apply (rank_cases (fun m rm => rm < _ -> suppressed (level_of m) _ = true)); intros; try reflexivity; lia.
Qed.

Lemma not_lost : forall name m c rm rc, lower name = m -> at_rank m rm -> at_rank c rc -> plain m -> rc <= rm ->
  suppressed (level_of name) (thr rc) = false /\ spec_level (level_of name) = m.
Proof.
  intros name m c rm rc Em Rm Rc Pm H. rewrite <- level_lower, Em. clear Em name. revert c rc Rc H. revert m rm Rm Pm.
  apply (rank_cases (fun m rm => plain m -> forall c rc, at_rank c rc -> rc <= rm -> suppressed (level_of m) (thr rc) = false /\ spec_level (level_of m) = m));
    intros Pm; try (exfalso; vm_compute in Pm; repeat destruct Pm as [Pm|Pm]; (discriminate || exact Pm));
    apply (rank_cases (fun c rc => rc <= _ -> suppressed (level_of _) (thr rc) = false /\ _ = _)); intros; try lia; split; reflexivity.
Qed.

(** Pacing. *)
Definition times (ws : list (Z * list Z)) : list Z := concat (map snd (rev ws)).

Lemma sent_app : forall a b, sent_times (a ++ b) = sent_times a ++ sent_times b.
Proof. intros. unfold sent_times. apply flat_map_app. Qed.

Definition rinv (n : N) (old : list Z) (s : logger) : Prop :=
  lg_limit s = n /\ (lg_start s <= lg_now s)%Z /\
  Forall (fun e => match snd e with Limited _ m => m = n | Passed _ => True end) (lg_calls s) /\
  exists w ws, sent_times (lg_out s) = old ++ times ((lg_start s, w) :: ws) /\ paced n ((lg_start s, w) :: ws) /\ lg_count s = N.of_nat (length w) /\
    Forall (fun t => (t <= lg_now s)%Z) w.

Lemma times_cons : forall st w ws, times ((st, w) :: ws) = times ws ++ w.
Proof. intros. unfold times. cbn [rev]. rewrite map_app, concat_app. cbn. now rewrite app_nil_r. Qed.

Lemma rinv_step : forall n old s a, (0 < n < 2 ^ 32)%N -> keeps_limit a -> rinv n old s -> rinv n old (log_step s a).
Proof.
  intros n old s a Hn Ha (L & T & C & w & ws & E & P & K & B). destruct a as [d|p|m| |name message data|i|i]; try (destruct Ha); cbn [log_step].
  - split; [exact L|]. cbn [lg_start lg_now lg_calls lg_out lg_count]. split; [lia|]. split; [exact C|]. exists w, ws. split; [exact E|]. split; [exact P|]. split; [exact K|].
    apply (Forall_impl _ (P := fun t => (t <= lg_now s)%Z)); [intros; lia|exact B].
  - split; [exact L|]. split; [exact T|]. split; [exact C|]. exists w, ws. exact (conj E (conj P (conj K B))).
  - destruct (suppressed (level_of name) (lg_min s)).
    + split; [exact L|]. split; [exact T|]. split; [exact C|]. exists w, ws. cbn [lg_out lg_start lg_count lg_now]. split; [|exact (conj P (conj K B))]. rewrite sent_app. cbn. now rewrite app_nil_r.
    + split; [exact L|]. split; [exact T|]. split; [|exists w, ws; exact (conj E (conj P (conj K B)))]. apply Forall_app. split; [exact C|]. constructor; [exact I|constructor].
  - destruct (find_call i (lg_calls s)) as [[p|p l]|] eqn:F; try (split; [exact L|]; split; [exact T|]; split; [exact C|]; exists w, ws; exact (conj E (conj P (conj K B)))).
    assert (N.eqb (lg_limit s) 0 = false) as -> by lia. split; [exact L|]. split; [exact T|]. split; [|exists w, ws; exact (conj E (conj P (conj K B)))].
    cbn [with_calls lg_calls]. apply Forall_app. split; [|constructor; [exact L|constructor]]. unfold drop_call. rewrite Forall_forall in C |- *. intros x Ix. apply C. now apply filter_In in Ix.
  - destruct (find_call i (lg_calls s)) as [[p|p l]|] eqn:F; try (split; [exact L|]; split; [exact T|]; split; [exact C|]; exists w, ws; exact (conj E (conj P (conj K B)))).
    assert (l = n) as -> by (apply find_call_in in F; rewrite Forall_forall in C; exact (C _ F)).
    assert (Forall (fun e => match snd e with Limited _ m => m = n | Passed _ => True end) (drop_call i (lg_calls s))) as C'.
    { unfold drop_call. rewrite Forall_forall in C |- *. intros x Ix. apply C. now apply filter_In in Ix. }
    destruct (Z.leb SECOND (lg_now s - lg_start s)) eqn:Fr.
    + assert (N.leb n 0 = false) as -> by lia. split; [exact L|]. cbn [lg_start lg_now lg_calls lg_out lg_count]. split; [lia|]. split; [exact C'|].
      exists [lg_now s], ((lg_start s, w) :: ws). split; [|split; [|split]].
      * rewrite sent_app, E, (times_cons (lg_now s)), app_assoc. reflexivity.
      * split; [cbn [length]; lia|]. split; [constructor; [unfold SECOND; lia|constructor]|]. split; [unfold SECOND in *; lia|exact P].
      * reflexivity.
      * constructor; [lia|constructor].
    + destruct (N.leb n (lg_count s)) eqn:Th.
      * split; [exact L|]. cbn [lg_start lg_now lg_calls lg_out lg_count]. split; [exact T|]. split; [exact C'|]. exists w, ws. split; [|exact (conj P (conj K B))].
        rewrite sent_app. cbn. now rewrite app_nil_r.
      * split; [exact L|]. cbn [lg_start lg_now lg_calls lg_out lg_count]. split; [exact T|]. split; [exact C'|].
        destruct P as (P1 & P2 & P3 & P4). exists (w ++ [lg_now s]), ws. split; [|split; [|split]].
        -- rewrite sent_app, E, !times_cons, <- !app_assoc. reflexivity.
        -- split; [rewrite app_length; cbn [length]; lia|]. split; [apply Forall_app; split; [exact P2|constructor; [lia|constructor]]|]. now split.
        -- rewrite app_length, N.mod_small by lia. cbn [length]. lia.
        -- apply Forall_app. split; [exact B|]. constructor; [lia|constructor].
Qed.

Lemma rinv_run : forall n old l s, (0 < n < 2 ^ 32)%N -> Forall keeps_limit l -> rinv n old s -> rinv n old (log_run s l).
Proof. induction l as [|a l IH]; intros s Hn F R; [exact R|]. inversion F; subst. apply (IH (log_step s a)); [exact Hn|assumption|]. now apply rinv_step. Qed.

Lemma rinv_set : forall n s, lg_calls s = [] -> rinv n (sent_times (lg_out s)) (set_limit n s).
Proof.
  intros n s C. split; [reflexivity|]. cbn [set_limit log_run fold_left log_step lg_start lg_now lg_calls lg_out lg_count]. split; [lia|]. rewrite C. split; [constructor|].
  exists [], []. split; [cbn; now rewrite app_nil_r|]. split; [cbn; split; [lia|now repeat split]|]. split; [reflexivity|constructor].
Qed.

(** A second meets at most two windows. *)
Lemma in_second_app : forall a l m, in_second a (l ++ m) = in_second a l + in_second a m.
Proof. intros. unfold in_second. now rewrite filter_app, app_length. Qed.
Lemma in_second_le : forall a l, in_second a l <= length l.
Proof. intros a l. unfold in_second. induction l as [|x l IH]; [cbn; lia|]. cbn [filter]. destruct (_ && _)%bool; cbn [length]; lia. Qed.
Lemma in_second_zero : forall a l, Forall (fun t => (t < a \/ a + SECOND <= t)%Z) l -> in_second a l = 0.
Proof. intros a l F. unfold in_second. induction F as [|x l H F IH]; [reflexivity|]. cbn [filter]. destruct (_ && _)%bool eqn:E; [lia|exact IH]. Qed.

Lemma older : forall n a st w ws, paced n ((st, w) :: ws) -> (st <= a)%Z -> in_second a (times ws) = 0.
Proof.
  intros n a st w ws. revert st w. induction ws as [|[st' w'] ws IH]; intros st w (P1 & P2 & P3 & P4) H; [reflexivity|].
  rewrite times_cons, in_second_app. rewrite (IH st' w' P4) by (unfold SECOND in *; lia).
  rewrite in_second_zero; [reflexivity|]. destruct P4 as (_ & Q & _). apply (Forall_impl _ (P := fun t => (st' <= t < st' + SECOND)%Z)); [intros; lia|exact Q].
Qed.

Lemma two_windows : forall n a ws, paced n ws -> (N.of_nat (in_second a (times ws)) <= 2 * n)%N.
Proof.
  intros n a ws. induction ws as [|[st w] ws IH]; intro P; [cbn; lia|]. pose proof P as (P1 & P2 & P3 & P4).
  rewrite times_cons, in_second_app. destruct (Z.leb (a + SECOND) st) eqn:E.
  - rewrite (in_second_zero a w); [specialize (IH P4); lia|]. apply (Forall_impl _ (P := fun t => (st <= t < st + SECOND)%Z)); [intros; lia|exact P2].
  - pose proof (in_second_le a w) as Lw. destruct (Z.leb st a) eqn:E2; [rewrite (older n a st w ws P) by lia; lia|].
    destruct ws as [|[st' w'] ws]; [change (in_second a (times [])) with 0; lia|]. rewrite times_cons, in_second_app. rewrite (older n a st' w' ws P4) by (unfold SECOND in *; lia).
    pose proof (in_second_le a w'). destruct P4 as (Q & _). lia.
Qed.

(** A message is held back only when the limit is used up. *)
Lemma throttled_full : forall n old s i p, (0 < n < 2 ^ 32)%N -> rinv n old s -> find_call i (lg_calls s) = Some (Limited p n) ->
  In (i, Throttled) (lg_out (log_step s (GEnter i))) -> ~ In i (map fst (lg_out s)) ->
  exists w rest, sent_times (lg_out s) = rest ++ w /\ (n <= N.of_nat (length w))%N /\ Forall (fun t => (lg_now s - SECOND < t <= lg_now s)%Z) w.
Proof.
  intros n old s i p Hn (L & T & C & w & ws & E & P & K & B) F H Nin. cbn [log_step] in H. rewrite F in H. cbn [lg_out] in H.
  apply in_app_iff in H. destruct H as [H|[H|[]]]; [exfalso; apply Nin; now apply (in_map fst) in H|].
  destruct (Z.leb SECOND (lg_now s - lg_start s)) eqn:Fr; [assert (N.leb n 0 = false) as X by lia; rewrite X in H; discriminate|].
  destruct (N.leb n (lg_count s)) eqn:Th; [|discriminate]. exists w, (old ++ times ws). split; [rewrite E, times_cons; now rewrite app_assoc|].
  split; [lia|]. destruct P as (_ & P2 & _). clear - Fr P2 B. induction P2 as [|t l Ht P2 IH]; [constructor|]. inversion B; subst. constructor; [lia|]. now apply IH.
Qed.

(** Without a limit nothing is held back. *)
Definition free (s : logger) : Prop :=
  lg_limit s = 0%N /\ Forall (fun e => match snd e with Limited _ _ => False | Passed _ => True end) (lg_calls s) /\ Forall (fun e => snd e <> Throttled) (lg_out s).
Lemma free_step : forall s a, (forall n, a = GLimit n -> n = 0%N) -> free s -> free (log_step s a).
Proof.
  intros s a Ha (L & C & O). destruct a as [d|p|m| |name message data|i|i]; cbn [log_step]; try (now repeat split).
  - split; [now apply Ha|now split].
  - destruct (suppressed (level_of name) (lg_min s)); (split; [exact L|]); split; cbn [lg_calls lg_out]; try assumption; apply Forall_app; split; try assumption.
    + constructor; [discriminate|constructor].
    + constructor; [exact I|constructor].
  - destruct (find_call i (lg_calls s)) as [[p|p l]|] eqn:F; try (now repeat split). rewrite L. cbn [N.eqb]. split; [exact L|].
    cbn [with_calls lg_calls lg_out]. split; [unfold drop_call; rewrite Forall_forall in C |- *; intros x Ix; apply C; now apply filter_In in Ix|].
    apply Forall_app. split; [exact O|]. constructor; [discriminate|constructor].
  - destruct (find_call i (lg_calls s)) as [[p|p l]|] eqn:F; try (now repeat split). apply find_call_in in F. rewrite Forall_forall in C. now apply C in F.
Qed.
Lemma free_run : forall l s, Forall (fun a => forall n, a = GLimit n -> n = 0%N) l -> free s -> free (log_run s l).
Proof. induction l as [|a l IH]; intros s F R; [exact R|]. inversion F; subst. apply (IH (log_step s a)); [assumption|]. now apply free_step. Qed.

(** Names of messages. *)
Lemma lower_upper : forall c, to_lower (upper c) = to_lower c.
Proof. intro c. apply Ascii.eqb_eq. revert c. apply (all_ascii (fun c => Ascii.eqb (to_lower (upper c)) (to_lower c))). vm_compute. reflexivity. Qed.

Lemma upper_is : forall s t, map upper (lower t) = t -> lower (map upper t) = lower t ->
  beq (map upper s) t = beq (lower s) (lower t).
Proof.
  intros s t Ht Ht'. destruct (beq (lower s) (lower t)) eqn:E.
  - apply beq_eq in E. apply beq_eq. rewrite <- Ht, <- E. unfold lower. rewrite map_map.
    apply map_ext. intro c. now rewrite upper_lower.
  - apply beq_neq in E. apply beq_neq. intro X. apply E. rewrite <- X. unfold lower. rewrite map_map.
    apply map_ext. intro c. now rewrite lower_upper.
Qed.

Lemma spec_level_name : forall name, sent_as name (spec_level (level_of name)).
Proof.
  intro name. unfold sent_as, level_of.
  rewrite (upper_is name (bs "DEBUG")), (upper_is name (bs "INFO")), (upper_is name (bs "WARN")),
    (upper_is name (bs "WARNING")), (upper_is name (bs "ERROR")), (upper_is name (bs "FATAL")) by reflexivity.
  change (lower (bs "DEBUG")) with (bs "debug"). change (lower (bs "INFO")) with (bs "info").
  change (lower (bs "WARN")) with (bs "warn"). change (lower (bs "WARNING")) with (bs "warning").
  change (lower (bs "ERROR")) with (bs "error"). change (lower (bs "FATAL")) with (bs "fatal").
  destruct (beq (lower name) (bs "debug")) eqn:E1; [apply beq_eq in E1; rewrite E1; left; cbn; tauto|].
  destruct (beq (lower name) (bs "info")) eqn:E2; [apply beq_eq in E2; rewrite E2; left; cbn; tauto|].
  destruct (beq (lower name) (bs "warn")) eqn:E3; [apply beq_eq in E3; rewrite E3; left; cbn; tauto|].
  destruct (beq (lower name) (bs "warning")) eqn:E4; [apply beq_eq in E4; rewrite E4; left; cbn; tauto|].
  destruct (beq (lower name) (bs "error")) eqn:E5; [apply beq_eq in E5; rewrite E5; left; cbn; tauto|].
  destruct (beq (lower name) (bs "fatal")) eqn:E6; [apply beq_eq in E6; rewrite E6; left; cbn; tauto|].
  right. split; [|reflexivity]. apply beq_neq in E1, E2, E3, E4, E5, E6. cbn [map fst MESSAGE_NAMES In].
  intros [H|[H|[H|[H|[H|[H|[]]]]]]]; congruence.
Qed.

(** The answer to setLevel. *)
Lemma rank_lower_threshold : forall s r, at_rank (lower s) r -> exists l, threshold_of s = Some l.
Proof.
  intros s r H. destruct (rank_threshold _ _ H) as [E T]. exists (thr r). rewrite <- T. apply threshold_same. now symmetry.
Qed.

Lemma set_level_answer : forall params,
  match set_level params with
  | inr _ => exists s r, asks_level params s /\ at_rank (lower s) r
  | inl (code, _) => code = (-32602)%Z /\ forall s r, asks_level params s -> ~ at_rank (lower s) r
  end.
Proof.
  intros params. unfold set_level.
  assert ((forall o, params <> Some (JObj o)) \/ exists o, params = Some (JObj o)) as [N|[o ->]].
  { destruct params as [[]|]; try (left; intros; discriminate). right. eexists. reflexivity. }
  { assert (forall s r, asks_level params s -> ~ at_rank (lower s) r) as K by (intros s r (o & E & _); now destruct (N o)).
    destruct params as [[]|]; try (split; [reflexivity|exact K]). now destruct (N l). }
  destruct (obj_get (bs "level") o) as [[| | | |s| |]|] eqn:G;
    try (split; [reflexivity|intros s' r (o' & E & G'); injection E as <-; rewrite G in G'; discriminate]).
  destruct (threshold_of s) as [l|] eqn:T.
  - destruct (threshold_level s l T) as [r R]. exists s, r. split; [|exact R]. exists o. auto.
  - split; [reflexivity|]. intros s' r (o' & E & G') R. injection E as <-. rewrite G in G'. injection G' as <-.
    destruct (rank_lower_threshold s r R) as [l X]. congruence.
Qed.
