(** Proofs on stopping and destroying a Server or a Client. *)
From Coq Require Import List Arith Bool Lia.
From Verif Require Import DownModel DownSpec.
Import ListNotations.
Local Open Scope nat_scope.

(** ** The parts *)
Definition therein (p : part) (l : list part) : bool := existsb (part_beq p) l.
Definition W : nat := 19.

Lemma part_beq_refl : forall p, part_beq p p = true. Proof. intros p. now apply internal_part_dec_lb. Qed.

Lemma therein_in : forall p l, therein p l = true <-> In p l.
Proof.
  intros p l. unfold therein. rewrite existsb_exists. split.
  - intros (q & I & E). apply internal_part_dec_bl in E. now subst.
  - intros I. exists p. split; [exact I|apply part_beq_refl].
Qed.

Lemma in_firstn_le : forall (p : part) l a b, a <= b -> In p (firstn a l) -> In p (firstn b l).
Proof.
  intros p l a b L I. replace a with (Nat.min a b) in I by lia. rewrite <- firstn_firstn in I.
  rewrite <- (firstn_skipn a (firstn b l)). apply in_or_app. now left.
Qed.

Lemma made_workers : forall o, made o -> nth_error (ob_parts o) W = Some PTaskWorkers.
Proof. intros o (c & d & [-> | ->]); reflexivity. Qed.
Lemma made_transport : forall o, made o -> nth_error (ob_parts o) 0 = Some PTransport.
Proof. intros o (c & d & [-> | ->]); reflexivity. Qed.
Lemma made_length : forall o, made o -> W < length (ob_parts o).
Proof. intros o M. apply nth_error_Some. rewrite (made_workers o M). discriminate. Qed.
Lemma made_only : forall o n, made o -> nth_error (ob_parts o) n = Some PTaskWorkers -> n = W.
Proof.
  intros o n M H. assert (N : NoDup (ob_parts o)).
  { destruct M as (c & d & [-> | ->]); cbn [ob_parts a_server a_client]; repeat constructor; cbn; intuition discriminate. }
  apply (proj1 (NoDup_nth_error (ob_parts o)) N).
  - apply nth_error_Some. congruence.
  - rewrite H. symmetry. now apply made_workers.
Qed.

(** ** What handlers and background tasks do *)
Fixpoint owes (b : bool) (l : list act) : bool :=
  match l with
  | [] => negb b
  | Touch _ :: r => owes b r
  | Launch _ _ :: r => (negb b && owes true r)%bool
  | Put :: r => owes false r
  end.
Definition fits (o : object) (a : act) : bool :=
  match a with
  | Touch p => therein p (ob_parts o)
  | Launch w t => forallb (fun p => therein p (firstn W (ob_parts o))) (wtouches w t)
  | Put => true
  end.
Definition held (h : option nat) : bool := match h with Some _ => true | None => false end.

Lemma handlers_fit : forall o k t, made o -> has o k = true -> forallb (fits o) (htouches k t) = true /\ owes false (htouches k t) = true.
Proof. intros o k t (c & d & [-> | ->]) H; destruct k, t; try discriminate H; split; reflexivity. Qed.

Lemma keeper_fits : forall o, made o -> ob_keeps o = true -> forallb (fun p => therein p (ob_parts o)) ktouches = true.
Proof. intros o (c & d & [-> | ->]) H; [reflexivity|discriminate H]. Qed.

Definition waited (s : down) : list nat := match dn_pc s with StopWait ws => ws | _ => [] end.
Definition falling (s : down) : bool := match dn_pc s with FallKeep | FallNext | FallWait _ | FallEnd => true | _ => false end.
Definition joined (s : down) : bool := match dn_pc s with Free | StopKeep | FallKeep => false | _ => true end.
Definition shut (s : down) : bool := match dn_pc s with StopAwait | StopSwap | StopWait _ => true | _ => false end.
Definition awaited (s : down) : bool := match dn_pc s with StopSwap | StopWait _ => true | _ => false end.

Record inv (o : object) (s : down) : Prop := {
  i_calls : Forall (fun c => owes (held (snd c)) (fst c) = true /\ forallb (fits o) (fst c) = true) (dn_calls s);
  i_work : Forall (fun w => forallb (fun p => therein p (firstn W (ob_parts o))) (snd w) = true) (dn_work s);
  i_known : forall n, running s n = true -> In n (dn_group s) \/ In n (waited s) \/ exists c, In c (dn_calls s) /\ snd c = Some n;
  i_left : falling s = false -> dn_left s = length (ob_parts o);
  i_keep : forall l, dn_keep s = Some l -> forallb (fun p => therein p (ob_parts o)) l = true /\ ob_keeps o = true;
  i_joined : joined s = true -> dn_keep s = None;
  i_shut : shut s = true -> dn_open s = false;
  i_awaited : awaited s = true -> ob_close o = true -> dn_calls s = [];
  i_self : dn_pc s = Free \/ falling s = true -> dn_self s = None;
  i_stop : falling s = true \/ dn_pc s = StopKeep -> dn_kstop s = true
}.

Lemma inv0 : forall o, inv o (down0 o).
Proof. intros o. constructor; cbn; try discriminate; try constructor; try reflexivity. intuition discriminate. Qed.

(** ** Lists *)
Lemma put_nth_in : forall (A : Type) (l : list A) i x y, In y (put_nth l i x) -> In y l \/ x = Some y.
Proof.
  induction l as [|a r IH]; intros i x y H; destruct i; cbn in H; try contradiction.
  - destruct x as [b|]; [destruct H as [-> |H]; [now right|left; now right]|left; now right].
  - destruct H as [-> |H]; [left; now left|]. destruct (IH i x y H) as [D|D]; [left; now right|now right].
Qed.

Lemma put_nth_keeps : forall (A : Type) (l : list A) i x y, In y l -> nth_error l i = Some y \/ In y (put_nth l i x).
Proof.
  induction l as [|a r IH]; intros i x y H; [destruct H|]. destruct H as [-> |H].
  - destruct i; cbn; [now left|right; now left].
  - destruct i; cbn.
    + right. destruct x; [now right|exact H].
    + destruct (IH i x y H) as [D|D]; [now left|right; now right].
Qed.

Lemma put_nth_new : forall (A : Type) (l : list A) i z x, nth_error l i = Some z -> In x (put_nth l i (Some x)).
Proof. induction l as [|a r IH]; intros i z x H; destruct i; cbn in *; try discriminate; [now left|right; now apply (IH i z)]. Qed.

Lemma Forall_put : forall (A : Type) (P : A -> Prop) l i x, Forall P l -> (forall y, x = Some y -> P y) -> Forall P (put_nth l i x).
Proof.
  intros A P l i x F H. apply Forall_forall. intros y I. destruct (put_nth_in A l i x y I) as [J|E]; [|auto].
  now apply (proj1 (Forall_forall P l) F).
Qed.

Lemma running_in : forall s n, running s n = true <-> exists l, In (n, l) (dn_work s).
Proof.
  intros s n. unfold running. rewrite existsb_exists. split.
  - intros ((m & l) & I & E). cbn in E. apply Nat.eqb_eq in E. subst. eauto.
  - intros (l & I). exists (n, l). split; [exact I|]. cbn. apply Nat.eqb_refl.
Qed.

Lemma find_work_in : forall n s l, find_work n s = Some l -> In (n, l) (dn_work s).
Proof.
  intros n s l H. unfold find_work in H. destruct (find _ _) as [(m & x)|] eqn:E; [|discriminate]. injection H as <-.
  apply find_some in E as [I E]. cbn in E. apply Nat.eqb_eq in E. now subst.
Qed.

Lemma set_worker_in : forall n x s m l, In (m, l) (dn_work (set_worker n x s)) ->
  (m <> n /\ In (m, l) (dn_work s)) \/ (m = n /\ x = Some l /\ running s n = true).
Proof.
  intros n x s m l H. cbn in H. apply in_flat_map in H as ((k & y) & I & J). cbn [fst] in J. destruct (Nat.eqb_spec k n) as [-> |D].
  - destruct x as [z|]; [|destruct J]. destruct J as [[= <- <-]|[]]. right. split; [reflexivity|]. split; [reflexivity|]. apply running_in. eauto.
  - destruct J as [[= <- <-]|[]]. left. split; [exact D|exact I].
Qed.

Lemma set_worker_runs : forall n x s m, running (set_worker n x s) m = true -> running s m = true.
Proof.
  intros n x s m H. apply running_in in H as (l & I). apply set_worker_in in I as [(_ & I)|(-> & _ & R)]; [|exact R]. apply running_in. eauto.
Qed.

Lemma use_cases : forall o w p s, use o w p s = s \/ use o w p s = set_fate w p s.
Proof. intros o w p s. unfold use. destruct (there o s p); auto. Qed.

Lemma inv_fate : forall o w p s, inv o s -> inv o (set_fate w p s).
Proof. intros o w p s I. destruct I. constructor; assumption. Qed.

Lemma inv_use : forall o w p s, inv o s -> inv o (use o w p s).
Proof. intros o w p s I. destruct (use_cases o w p s) as [-> | ->]; [exact I|now apply inv_fate]. Qed.

Lemma inv_hand : forall o i s, inv o s -> inv o (hand o i s).
Proof.
  intros o i s I. unfold hand. destruct (nth_error (dn_calls s) i) as [(l & h)|] eqn:E; [|exact I].
  assert (In (l, h) (dn_calls s)) as J by now apply (nth_error_In _ i).
  destruct (proj1 (Forall_forall _ _) (i_calls o s I) (l, h) J) as [O F]. cbn [fst snd] in O, F.
  assert (forall x, awaited s = true -> ob_close o = true -> put_nth (dn_calls s) i x = []) as AW.
  { intros x A B. rewrite (i_awaited o s I A B) in J. destruct J. }
  destruct l as [|[p|w t|] r].
  - destruct h; [discriminate|]. destruct I. constructor; try assumption.
    + cbn. apply Forall_put; [assumption|discriminate].
    + intros n R. destruct (i_known0 n R) as [D|[D|(c & C & N)]]; [auto|auto|]. right. right. exists c. split; [|exact N]. cbn.
      destruct (put_nth_keeps _ (dn_calls s) i None c C) as [K|K]; [|exact K]. rewrite E in K. injection K as <-. discriminate N.
    + intros A B. now apply AW.
  - apply inv_use. cbn in O, F. apply andb_true_iff in F as [_ F]. destruct I. constructor; try assumption.
    + cbn. apply Forall_put; [assumption|]. intros y [= <-]. split; assumption.
    + intros n R. destruct (i_known0 n R) as [D|[D|(c & C & N)]]; [auto|auto|]. right. right. cbn.
      destruct (put_nth_keeps _ (dn_calls s) i (Some (r, h)) c C) as [K|K]; [|eauto]. rewrite E in K. injection K as <-. cbn in N. subst h.
      exists (r, Some n). split; [|reflexivity]. now apply (put_nth_new _ _ i _ _ E).
    + intros A B. now apply AW.
  - cbn in O, F. apply andb_true_iff in F as [G F]. apply andb_true_iff in O as [H O]. destruct h; [discriminate|]. destruct I.
    constructor; try assumption.
    + cbn. apply Forall_put; [assumption|]. intros y [= <-]. split; assumption.
    + cbn. apply Forall_app. split; [assumption|]. constructor; [exact G|constructor].
    + intros n R. apply running_in in R as (l & R). cbn in R. apply in_app_or in R as [R|[[= <- <-]|[]]].
      * assert (running s n = true) as R' by (apply running_in; eauto).
        destruct (i_known0 n R') as [D|[D|(c & C & N)]]; [auto|auto|]. right. right. cbn.
        destruct (put_nth_keeps _ (dn_calls s) i (Some (r, Some (dn_next s))) c C) as [K|K]; [|eauto]. rewrite E in K. injection K as <-. discriminate N.
      * right. right. cbn. exists (r, Some (dn_next s)). split; [|reflexivity]. now apply (put_nth_new _ _ i _ _ E).
    + intros A B. now apply AW.
  - cbn in O, F. destruct I. constructor; try assumption.
    + cbn. apply Forall_put; [assumption|]. intros y [= <-]. split; assumption.
    + intros n R. change (running s n = true) in R. cbn [dn_group set_group]. destruct (i_known0 n R) as [D|[D|(c & C & N)]].
      * left. apply in_or_app. left. now apply filter_In.
      * right. now left.
      * cbn. destruct (put_nth_keeps _ (dn_calls s) i (Some (r, None)) c C) as [K|K]; [|right; right; eauto].
        rewrite E in K. injection K as <-. cbn in N. subst h. left. apply in_or_app. right. now left.
    + intros A B. now apply AW.
Qed.

Lemma inv_worker : forall o n x s, inv o s -> (forall l, x = Some l -> forallb (fun p => therein p (firstn W (ob_parts o))) l = true) ->
  inv o (set_worker n x s).
Proof.
  intros o n x s I H. destruct I. constructor; try assumption.
  - apply Forall_forall. intros (m & l) J. apply set_worker_in in J as [(_ & J)|(_ & E & _)]; [|cbn; auto].
    now apply (proj1 (Forall_forall _ _) i_work0 (m, l)).
  - intros m R. apply set_worker_runs in R. exact (i_known0 m R).
Qed.

Lemma inv_work : forall o n s, inv o s -> inv o (work o n s).
Proof.
  intros o n s I. unfold work. destruct (is_self s n); [exact I|]. destruct (find_work n s) as [[|p r]|] eqn:E; [| |exact I].
  - apply inv_worker; [exact I|discriminate].
  - apply inv_use. apply inv_worker; [exact I|]. intros l [= <-]. apply find_work_in in E.
    pose proof (proj1 (Forall_forall _ _) (i_work o s I) _ E) as F. cbn in F. now apply andb_true_iff in F as [_ F].
Qed.

Lemma inv_keep : forall o s, made o -> inv o s -> inv o (keep o s).
Proof.
  intros o s M I. unfold keep. destruct (dn_keep s) as [[|p r]|] eqn:E; [| |exact I].
  - destruct (i_keep o s I [] E) as [_ K]. destruct (dn_kstop s) eqn:S; destruct I; constructor; try assumption; cbn.
    + discriminate.
    + reflexivity.
    + reflexivity.
    + intros l [= <-]. split; [now apply keeper_fits|exact K].
    + intros J. specialize (i_joined0 J). congruence.
    + intros J. specialize (i_stop0 J). congruence.
  - apply inv_use. destruct (i_keep o s I _ E) as [F K]. cbn in F. apply andb_true_iff in F as [_ F]. destruct I. constructor; try assumption; cbn.
    + intros l [= <-]. split; assumption.
    + intros J. specialize (i_joined0 J). congruence.
Qed.

Lemma none_of_spec : forall s ws, none_of s ws = true <-> forall n, In n ws -> running s n = false.
Proof.
  intros s ws. unfold none_of. rewrite forallb_forall. split; intros H n I; specialize (H n I); [now apply negb_true_iff|now rewrite H].
Qed.

Lemma no_calls_nil : forall s, no_calls s = true <-> dn_calls s = [].
Proof. intros s. unfold no_calls. destruct (dn_calls s); split; try reflexivity; discriminate. Qed.

Ltac known := let n := fresh in let R := fresh in intros n R;
  match goal with K : forall n, running ?s n = true -> _ |- _ =>
    change (running s n = true) in R; destruct (K n R) as [?|[?|?]]; auto end.

Lemma inv_own : forall o s, made o -> inv o s -> inv o (own o s).
Proof.
  intros o s M I. unfold own. destruct (dn_pc s) eqn:P; try exact I.
  - destruct (dn_keep s) eqn:E; [exact I|]. destruct I. unfold waited, falling, joined, shut, awaited in *. rewrite P in *.
    constructor; unfold waited, falling, joined, shut, awaited in *; cbn in *; try assumption; try discriminate; auto; try (intuition discriminate).
  - destruct I. unfold waited, falling, joined, shut, awaited in *. rewrite P in *.
    constructor; unfold waited, falling, joined, shut, awaited in *; cbn in *; try assumption; try discriminate; auto; try (intuition discriminate).
  - destruct (negb (ob_close o) || no_calls s)%bool eqn:E; [|exact I]. destruct I. unfold waited, falling, joined, shut, awaited in *. rewrite P in *.
    constructor; unfold waited, falling, joined, shut, awaited in *; cbn in *; try assumption; try discriminate; auto; try (intuition discriminate).
    intros _ C. rewrite C in E. now apply no_calls_nil.
  - destruct I. unfold waited, falling, joined, shut, awaited in *. rewrite P in *.
    constructor; unfold waited, falling, joined, shut, awaited in *; cbn in *; try assumption; try discriminate; auto; try (intuition discriminate).
    intros n R. change (running s n = true) in R. destruct (i_known0 n R) as [D|[D|D]]; auto.
  - destruct (none_of s ws) eqn:E; [|exact I]. destruct I. unfold waited, falling, joined, shut, awaited in *. rewrite P in *.
    constructor; unfold waited, falling, joined, shut, awaited in *; cbn in *; try assumption; try discriminate; auto; try (intuition discriminate).
    intros n R. change (running s n = true) in R. destruct (i_known0 n R) as [D|[D|D]]; auto.
    pose proof (proj1 (none_of_spec s ws) E n D). congruence.
  - destruct (dn_keep s) eqn:E; [exact I|]. destruct I. unfold waited, falling, joined, shut, awaited in *. rewrite P in *.
    constructor; unfold waited, falling, joined, shut, awaited in *; cbn in *; try assumption; try discriminate; auto; try (intuition discriminate).
  - destruct (dn_left s) as [|m] eqn:L.
    + destruct I. unfold waited, falling, joined, shut, awaited in *. rewrite P in *.
      constructor; unfold waited, falling, joined, shut, awaited in *; cbn in *; try assumption; try discriminate; auto; try (intuition discriminate).
    + destruct (nth_error (ob_parts o) m) as [p|]; [|exact I]. cbv zeta. destruct (part_beq p PTransport); destruct I; unfold waited, falling, joined, shut, awaited in *; rewrite P in *;
      constructor; unfold waited, falling, joined, shut, awaited in *; cbn in *; try assumption; try discriminate; auto; try (intuition discriminate).
  - destruct (part_beq p PTaskWorkers).
    + destruct (none_of s (dn_group s)) eqn:E; [|exact I]. destruct I; unfold waited, falling, joined, shut, awaited in *; rewrite P in *;
      constructor; unfold waited, falling, joined, shut, awaited in *; cbn in *; try assumption; try discriminate; auto; try (intuition discriminate).
      intros n R. change (running s n = true) in R. destruct (i_known0 n R) as [D|[D|D]]; auto.
      pose proof (proj1 (none_of_spec s _) E n D). congruence.
    + assert (inv o (set_pc FallNext s)) as J.
      { destruct I; unfold waited, falling, joined, shut, awaited in *; rewrite P in *;
        constructor; unfold waited, falling, joined, shut, awaited in *; cbn in *; try assumption; try discriminate; auto; try (intuition discriminate). }
      destruct (part_beq p PTransport); [|exact J]. destruct (negb (ob_drop o) || no_calls s)%bool; [exact J|exact I].
Qed.

Lemma inv_step : forall o s e, made o -> inv o s -> inv o (dstep o s e).
Proof.
  intros o s e M I. unfold dstep. destruct (dn_fate s); [exact I|]. destruct e as [| |k t|i|n| |self| |].
  - destruct (dn_pc s) eqn:P; try exact I. destruct I; unfold waited, falling, joined, shut, awaited in *; rewrite P in *;
    constructor; unfold waited, falling, joined, shut, awaited in *; cbn in *; rewrite ?P; try assumption; try discriminate; auto; try (intuition discriminate).
  - destruct (dn_pc s) eqn:P; try exact I. destruct (dn_keep s) eqn:E; [exact I|]. destruct (ob_keeps o) eqn:K; [|exact I].
    destruct I; unfold waited, falling, joined, shut, awaited in *; rewrite P in *;
    constructor; unfold waited, falling, joined, shut, awaited in *; cbn in *; rewrite ?P; try assumption; try discriminate; auto; try (intuition discriminate).
    intros l [= <-]. split; [now apply (keeper_fits o)|exact K].
  - destruct (dn_open s) eqn:O; cbn [andb]; [|exact I]. destruct (has o k) eqn:K; [|exact I]. destruct (handlers_fit o k t M K) as [F G].
    destruct I. constructor; try assumption.
    + cbn. apply Forall_app. split; [assumption|]. constructor; [|constructor]. split; assumption.
    + intros n R. destruct (i_known0 n R) as [D|[D|(c & C & N)]]; auto. right. right. exists c. split; [|exact N]. cbn. apply in_or_app. now left.
    + intros A B. exfalso. assert (shut s = true) as S by (clear - A; unfold awaited in A; cbn in A; unfold shut; destruct (dn_pc s); try discriminate A; reflexivity). specialize (i_shut0 S). congruence.
  - now apply inv_hand.
  - now apply inv_work.
  - now apply inv_keep.
  - destruct (dn_pc s) eqn:P; try exact I. cbv zeta.
    assert (inv o (set_keep (dn_keep s) true (set_self self (dn_stops s) (set_pc StopKeep s)))) as J.
    { destruct I; unfold waited, falling, joined, shut, awaited in *; rewrite P in *;
      constructor; unfold waited, falling, joined, shut, awaited in *; cbn in *; rewrite ?P; try assumption; try discriminate; auto; try (intuition discriminate). }
    destruct self as [n|]; [|exact J]. destruct (running s n); [exact J|exact I].
  - destruct (dn_pc s) eqn:P; try exact I.
    destruct I; unfold waited, falling, joined, shut, awaited in *; rewrite P in *;
    constructor; unfold waited, falling, joined, shut, awaited in *; cbn in *; rewrite ?P; try assumption; try discriminate; auto; try (intuition discriminate).
  - now apply inv_own.
Qed.

Lemma inv_run : forall o h s, made o -> inv o s -> inv o (drun o s h).
Proof. intros o h. induction h as [|e r IH]; intros s M I; [exact I|]. cbn. apply IH; [exact M|]. now apply inv_step. Qed.

Lemma inv_after : forall o h, made o -> inv o (after o h).
Proof. intros o h M. apply inv_run; [exact M|apply inv0]. Qed.
