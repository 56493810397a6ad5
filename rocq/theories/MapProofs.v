From Coq Require Import Ascii String List Permutation Arith Bool Lia.
From Verif Require Import StrModel StrProofs MapModel.
Import ListNotations.
Local Open Scope nat_scope.

Section Map.
Context {A : Type}.
Implicit Types m : list (bstr * A).

Lemma aget_in : forall k v m, aget k m = Some v -> In (k, v) m.
Proof.
  intros k v m. induction m as [|[k' v'] m IH]; intro H; [discriminate|]. cbn in H.
  destruct (beq k k') eqn:E; [|right; auto]. apply beq_eq in E. left. congruence.
Qed.

Lemma aget_none : forall k m, aget k m = None <-> ~ In k (map fst m).
Proof.
  intros k m. induction m as [|[k' v'] m IH]; cbn; [tauto|]. destruct (beq k k') eqn:E.
  - apply beq_eq in E. subst. split; [discriminate|tauto].
  - apply beq_neq in E. rewrite IH. intuition congruence.
Qed.

Lemma in_aget : forall k v m, NoDup (map fst m) -> In (k, v) m -> aget k m = Some v.
Proof.
  intros k v m. induction m as [|[k' v'] m IH]; intros Hn Hi; [easy|]. cbn in *. inversion Hn; subst.
  destruct Hi as [E|Hi].
  - injection E as -> ->. now rewrite beq_refl.
  - destruct (beq k k') eqn:E; [|auto]. apply beq_eq in E. subst. exfalso.
    apply H1. apply in_map_iff. now exists (k', v).
Qed.

Lemma aget_aset_same : forall k v m, aget k (aset k v m) = Some v.
Proof.
  intros k v m. induction m as [|[k' v'] m IH]; cbn; [now rewrite beq_refl|].
  destruct (beq k k') eqn:E; cbn; [now rewrite beq_refl|now rewrite E].
Qed.

Lemma aget_aset_other : forall k k' v m, k <> k' -> aget k (aset k' v m) = aget k m.
Proof.
  intros k k' v m H. apply beq_neq in H. induction m as [|[k2 v2] m IH]; cbn; [now rewrite H|].
  destruct (beq k' k2) eqn:E; cbn.
  - apply beq_eq in E. subst. now rewrite H.
  - destruct (beq k k2); auto.
Qed.

Lemma aget_adel_same : forall k m, aget k (adel k m) = None.
Proof.
  intros k m. induction m as [|[k' v'] m IH]; cbn; [easy|].
  destruct (beq k k') eqn:E; cbn; [easy|now rewrite E].
Qed.

Lemma aget_adel_other : forall k k' m, k <> k' -> aget k (adel k' m) = aget k m.
Proof.
  intros k k' m H. apply beq_neq in H. induction m as [|[k2 v2] m IH]; cbn; [easy|].
  destruct (beq k' k2) eqn:E; cbn.
  - apply beq_eq in E. subst. now rewrite H.
  - destruct (beq k k2); auto.
Qed.

Lemma in_adel : forall k x m, In x (adel k m) <-> In x m /\ fst x <> k.
Proof.
  intros k x m. induction m as [|[k2 v2] m IH]; cbn; [tauto|].
  destruct (beq k k2) eqn:E.
  - apply beq_eq in E. subst. rewrite IH. split; [tauto|]. intros [[<-|H] Hn]; [easy|tauto].
  - apply beq_neq in E. cbn. rewrite IH. split; [|tauto]. intros [<-|H]; [|tauto]. cbn. split; [now left|congruence].
Qed.

Lemma in_aset : forall k v x m, NoDup (map fst m) ->
  In x (aset k v m) <-> x = (k, v) \/ (In x m /\ fst x <> k).
Proof.
  intros k v x m Hn. induction m as [|[k2 v2] m IH]; cbn; [intuition|].
  cbn in Hn. inversion Hn as [|? ? Hni Hnd]; subst. destruct (beq k k2) eqn:E.
  - apply beq_eq in E. subst. cbn. split.
    + intros [<-|H]; [now left|]. right. split; [now right|]. intro K. apply Hni. rewrite <- K. now apply in_map.
    + intros [->|[[<-|H] K]]; [now left|easy|now right].
  - apply beq_neq in E. cbn. rewrite (IH Hnd). split.
    + intros [<-|[->|[H K]]]; [right|now left|tauto]. cbn. split; [now left|congruence].
    + intros [->|[[<-|H] K]]; [tauto|now left|tauto].
Qed.

Lemma adel_fst_in : forall k k' m, In k' (map fst (adel k m)) -> In k' (map fst m) /\ k' <> k.
Proof.
  intros k k' m H. apply in_map_iff in H as (x & <- & Hx). apply in_adel in Hx as [Hx Hne].
  split; [now apply in_map|easy].
Qed.

Lemma nodup_adel : forall k m, NoDup (map fst m) -> NoDup (map fst (adel k m)).
Proof.
  intros k m. induction m as [|[k2 v2] m IH]; intro H; [constructor|]. cbn in H. inversion H; subst.
  cbn. destruct (beq k k2); [auto|]. cbn. constructor; [|auto].
  intro K. apply H2. now apply adel_fst_in in K.
Qed.

Lemma aset_fst_in : forall k v k' m, In k' (map fst (aset k v m)) <-> k' = k \/ In k' (map fst m).
Proof.
  intros k v k' m. induction m as [|[k2 v2] m IH]; cbn; [intuition congruence|].
  destruct (beq k k2) eqn:E; cbn.
  - apply beq_eq in E. subst. intuition congruence.
  - rewrite IH. intuition congruence.
Qed.

Lemma nodup_aset : forall k v m, NoDup (map fst m) -> NoDup (map fst (aset k v m)).
Proof.
  intros k v m. induction m as [|[k2 v2] m IH]; intro H; cbn; [repeat constructor; easy|].
  cbn in H. inversion H; subst. destruct (beq k k2) eqn:E; cbn.
  - apply beq_eq in E. subst. now constructor.
  - constructor; [|auto]. rewrite aset_fst_in. apply beq_neq in E. intuition congruence.
Qed.

Lemma adel_perm : forall k v m, NoDup (map fst m) -> aget k m = Some v -> Permutation m ((k, v) :: adel k m).
Proof.
  intros k v m. induction m as [|[k2 v2] m IH]; intros Hn H; [discriminate|]. cbn in *. inversion Hn; subst.
  destruct (beq k k2) eqn:E.
  - apply beq_eq in E. subst. injection H as ->. apply perm_skip.
    assert (adel k2 m = m) as ->; [|reflexivity].
    clear - H2. induction m as [|[k3 v3] m IH]; [reflexivity|]. cbn in *.
    destruct (beq k2 k3) eqn:E; [apply beq_eq in E; subst; tauto|]. f_equal. apply IH. tauto.
  - rewrite IH at 1 by auto. apply perm_swap.
Qed.

Lemma aset_perm_new : forall k v m, aget k m = None -> Permutation (aset k v m) ((k, v) :: m).
Proof.
  intros k v m. induction m as [|[k2 v2] m IH]; intros H; [reflexivity|]. cbn in *.
  destruct (beq k k2) eqn:E; [discriminate|]. rewrite IH by auto. apply perm_swap.
Qed.

Lemma aset_perm_old : forall k v w m, NoDup (map fst m) -> aget k m = Some w ->
  Permutation ((k, w) :: aset k v m) ((k, v) :: m).
Proof.
  intros k v w m. induction m as [|[k2 v2] m IH]; intros Hn H; [discriminate|]. cbn in *. inversion Hn; subst.
  destruct (beq k k2) eqn:E.
  - apply beq_eq in E. subst. injection H as ->. apply perm_swap.
  - rewrite perm_swap, IH by auto. apply perm_swap.
Qed.

End Map.

Lemma take_nth_perm : forall (A : Type) n (l : list A) x r, take_nth n l = Some (x, r) -> Permutation l (x :: r).
Proof.
  intros A n l. revert n. induction l as [|y l IH]; intros n x r H; [destruct n; discriminate|].
  destruct n as [|n]; cbn in H.
  - injection H as <- <-. reflexivity.
  - destruct (take_nth n l) as [[z s]|] eqn:E; [|discriminate]. injection H as <- <-.
    rewrite (IH _ _ _ E). apply perm_swap.
Qed.

Lemma take_nth_in : forall (A : Type) n (l : list A) x r, take_nth n l = Some (x, r) ->
  In x l /\ (forall y, In y r -> In y l).
Proof.
  intros A n l x r H. apply take_nth_perm in H. split.
  - eapply Permutation_in; [apply Permutation_sym, H|now left].
  - intros y Hy. eapply Permutation_in; [apply Permutation_sym, H|now right].
Qed.
