(** Lemmas on the pending table. *)
From Coq Require Import Ascii String List Permutation Arith NArith ZArith Bool Lia.
From Verif Require Import StrModel StrProofs DoubleModel JsonModel RpcModel MapModel MapProofs PendModel.
Import ListNotations.
Local Open Scope nat_scope.

Record pt_inv (p : ptab) : Prop := {
  pi_keys : NoDup (map fst (pt_pend p));
  pi_tickets : Permutation (seq 0 (pt_next p)) (map snd (pt_pend p) ++ map fst (pt_done p));
  pi_issued : map fst (pt_keys p) = seq 0 (pt_next p);
  pi_pend : forall k t, In (k, t) (pt_pend p) -> In (t, k) (pt_keys p)
}.

Lemma pt_inv0 : pt_inv ptab0.
Proof. constructor; cbn; try easy. constructor. Qed.

Lemma seq_snoc : forall n, seq 0 (S n) = seq 0 n ++ [n].
Proof. intro n. now rewrite seq_S. Qed.

Lemma perm_shift : forall (A : Type) (a b c : list A) x, Permutation a (b ++ c) -> Permutation (a ++ [x]) (b ++ c ++ [x]).
Proof. intros A a b c x H. rewrite app_assoc. now apply Permutation_app_tail. Qed.

Lemma pt_inv_register : forall k p, pt_inv p -> pt_inv (pt_register k p).
Proof.
  intros k p [I1 I2 I3 I4]. constructor; cbn [pt_register pt_pend pt_next pt_keys pt_done].
  - now apply nodup_aset.
  - rewrite seq_snoc. destruct (aget k (pt_pend p)) as [t|] eqn:E.
    + pose proof (Permutation_map snd (aset_perm_old k (pt_next p) t _ I1 E)) as P. cbn [map snd] in P.
      rewrite map_app. cbn [map fst].
      transitivity ((map snd (pt_pend p) ++ map fst (pt_done p)) ++ [pt_next p]); [now apply Permutation_app_tail|].
      transitivity (pt_next p :: map snd (pt_pend p) ++ map fst (pt_done p)); [symmetry; apply Permutation_cons_append|].
      change (pt_next p :: map snd (pt_pend p) ++ map fst (pt_done p)) with
        ((pt_next p :: map snd (pt_pend p)) ++ map fst (pt_done p)).
      transitivity ((t :: map snd (aset k (pt_next p) (pt_pend p))) ++ map fst (pt_done p)); [apply Permutation_app_tail; now symmetry|].
      cbn [app]. rewrite app_assoc. apply Permutation_cons_append.
    + rewrite app_nil_r.
      pose proof (Permutation_map snd (aset_perm_new k (pt_next p) _ E)) as P. cbn [map snd] in P.
      transitivity ((map snd (pt_pend p) ++ map fst (pt_done p)) ++ [pt_next p]); [now apply Permutation_app_tail|].
      transitivity (pt_next p :: map snd (pt_pend p) ++ map fst (pt_done p)); [symmetry; apply Permutation_cons_append|].
      change (pt_next p :: map snd (pt_pend p) ++ map fst (pt_done p)) with
        ((pt_next p :: map snd (pt_pend p)) ++ map fst (pt_done p)).
      apply Permutation_app_tail. now symmetry.
  - rewrite map_app, seq_snoc, I3. reflexivity.
  - intros k0 t H. apply in_aset in H; [|exact I1]. apply in_or_app. destruct H as [H|[H _]].
    + injection H as -> ->. right. now left.
    + left. now apply I4.
Qed.

Lemma adel_perm' : forall k t (m : list (bstr * nat)), NoDup (map fst m) -> aget k m = Some t ->
  Permutation (map snd m) (t :: map snd (adel k m)).
Proof. intros k t m Hn E. exact (Permutation_map snd (adel_perm k t m Hn E)). Qed.

Lemma pt_inv_complete : forall k r p, pt_inv p -> pt_inv (pt_complete k r p).
Proof.
  intros k r p [I1 I2 I3 I4]. unfold pt_complete. destruct (aget k (pt_pend p)) as [t|] eqn:E; [|now constructor].
  constructor; cbn [pt_pend pt_next pt_keys pt_done].
  - now apply nodup_adel.
  - rewrite I2, (adel_perm' k t _ I1 E), map_app. cbn. rewrite app_assoc. apply Permutation_cons_append.
  - exact I3.
  - intros k0 t0 H. apply in_adel in H as [H _]. now apply I4.
Qed.

Lemma pt_inv_immediate : forall k r p, pt_inv p -> pt_inv (pt_immediate k r p).
Proof.
  intros k r p [I1 I2 I3 I4]. constructor; cbn [pt_immediate pt_pend pt_next pt_keys pt_done].
  - exact I1.
  - rewrite seq_snoc, map_app. cbn [map fst]. now apply perm_shift.
  - rewrite map_app, seq_snoc, I3. reflexivity.
  - intros k0 t H. apply in_or_app. left. now apply I4.
Qed.

Lemma pt_inv_fail_all : forall f p, pt_inv p -> pt_inv (pt_fail_all f p).
Proof.
  intros f p [I1 I2 I3 I4]. constructor; cbn [pt_fail_all pt_pend pt_next pt_keys pt_done].
  - constructor.
  - cbn. rewrite map_app, map_map. cbn. rewrite I2. apply Permutation_app_comm.
  - exact I3.
  - intros k t [].
Qed.

Lemma pt_inv_complete_list : forall f ks p, pt_inv p -> pt_inv (pt_complete_list f ks p).
Proof.
  intros f ks. induction ks as [|k ks IH]; intros p H; [exact H|]. cbn. apply IH. now apply pt_inv_complete.
Qed.

(** The done log and the issue log only grow. *)
Definition pt_grows (p q : ptab) : Prop :=
  (exists a, pt_keys q = pt_keys p ++ a) /\ (exists b, pt_done q = pt_done p ++ b).

Lemma pt_grows_refl : forall p, pt_grows p p.
Proof. intro p. split; exists []; now rewrite app_nil_r. Qed.
Lemma pt_grows_trans : forall p q r, pt_grows p q -> pt_grows q r -> pt_grows p r.
Proof.
  intros p q r [[a Ea] [b Eb]] [[c Ec] [d Ed]]. split; [exists (a ++ c)|exists (b ++ d)].
  - now rewrite Ec, Ea, app_assoc.
  - now rewrite Ed, Eb, app_assoc.
Qed.
Lemma pt_grows_register : forall k p, pt_grows p (pt_register k p).
Proof. intros k p. split; eexists; reflexivity. Qed.
Lemma pt_grows_complete : forall k r p, pt_grows p (pt_complete k r p).
Proof.
  intros k r p. unfold pt_complete. destruct (aget k (pt_pend p)); [|apply pt_grows_refl].
  split; cbn; [exists []; now rewrite app_nil_r|eexists; reflexivity].
Qed.
Lemma pt_grows_immediate : forall k r p, pt_grows p (pt_immediate k r p).
Proof. intros k r p. split; eexists; reflexivity. Qed.
Lemma pt_grows_fail_all : forall f p, pt_grows p (pt_fail_all f p).
Proof. intros f p. split; cbn; [exists []; now rewrite app_nil_r|eexists; reflexivity]. Qed.
Lemma pt_grows_complete_list : forall f ks p, pt_grows p (pt_complete_list f ks p).
Proof.
  intros f ks. induction ks as [|k ks IH]; intro p; [apply pt_grows_refl|]. cbn.
  eapply pt_grows_trans; [apply pt_grows_complete|apply IH].
Qed.

(** Consequences. *)
Lemma pt_once : forall p, pt_inv p -> NoDup (map fst (pt_done p)).
Proof.
  intros p I. assert (NoDup (map snd (pt_pend p) ++ map fst (pt_done p))) as N.
  { eapply Permutation_NoDup; [apply (pi_tickets p I)|apply seq_NoDup]. }
  induction (map snd (pt_pend p)) as [|a l IH]; [exact N|]. inversion N. now apply IH.
Qed.

Lemma pt_pending_or_done : forall p t k, pt_inv p -> In (t, k) (pt_keys p) ->
  In (k, t) (pt_pend p) \/ exists o, In (t, o) (pt_done p).
Proof.
  intros p t k I H.
  assert (In t (map fst (pt_keys p))) as Ht by exact (in_map fst _ _ H).
  rewrite (pi_issued p I) in Ht. eapply Permutation_in in Ht; [|apply (pi_tickets p I)].
  apply in_app_iff in Ht as [Ht|Ht].
  - left. apply in_map_iff in Ht as ([k' t'] & E & Hp). cbn in E. subst t'.
    pose proof (pi_pend p I _ _ Hp) as H2.
    assert (k' = k) as ->; [|exact Hp].
    assert (NoDup (map fst (pt_keys p))) as Hn by (rewrite (pi_issued p I); apply seq_NoDup).
    clear - Hn H H2. induction (pt_keys p) as [|[a b] l IH]; [easy|]. cbn in Hn. inversion Hn as [|? ? N1 N2]; subst.
    destruct H as [H|H]; destruct H2 as [H2|H2].
    + congruence.
    + injection H as -> ->. exfalso. apply N1. exact (in_map fst _ _ H2).
    + injection H2 as -> ->. exfalso. apply N1. exact (in_map fst _ _ H).
    + auto.
  - right. apply in_map_iff in Ht as ([t' o] & E & Hp). cbn in E. subst t'. now exists o.
Qed.

Lemma pt_done_not_pending : forall p k t o, pt_inv p -> In (t, o) (pt_done p) -> ~ In (k, t) (pt_pend p).
Proof.
  intros p k t o I Hd Hp.
  assert (NoDup (map snd (pt_pend p) ++ map fst (pt_done p))) as N.
  { eapply Permutation_NoDup; [apply (pi_tickets p I)|apply seq_NoDup]. }
  assert (In t (map snd (pt_pend p))) as H1 by exact (in_map snd _ _ Hp).
  assert (In t (map fst (pt_done p))) as H2 by exact (in_map fst _ _ Hd).
  apply in_split in H1 as (a & b & E). rewrite E, <- app_assoc in N. cbn in N. apply NoDup_remove_2 in N.
  apply N. rewrite in_app_iff. right. rewrite in_app_iff. now right.
Qed.

Lemma in_pend_aget : forall p k t, pt_inv p -> In (k, t) (pt_pend p) -> aget k (pt_pend p) = Some t.
Proof. intros p k t I H. apply in_aget; [apply I|exact H]. Qed.

Lemma in_complete_pend : forall k r p kt, In kt (pt_pend (pt_complete k r p)) <-> In kt (pt_pend p) /\ fst kt <> k.
Proof.
  intros k r p kt. unfold pt_complete. destruct (aget k (pt_pend p)) as [t|] eqn:E; cbn.
  - apply in_adel.
  - split; [|tauto]. intro H. split; [exact H|]. intro E2. apply aget_none in E. apply E. rewrite <- E2.
    exact (in_map fst _ _ H).
Qed.

Lemma in_complete_done : forall k r p t o, In (t, o) (pt_done (pt_complete k r p)) <->
  In (t, o) (pt_done p) \/ (aget k (pt_pend p) = Some t /\ o = Some r).
Proof.
  intros k r p t o. unfold pt_complete. destruct (aget k (pt_pend p)) as [t'|] eqn:E; cbn.
  - rewrite in_app_iff. cbn. split.
    + intros [H|[H|[]]]; [now left|]. injection H as -> ->. now right.
    + intros [H|[H ->]]; [now left|]. injection H as ->. right. now left.
  - split; [now left|]. intros [H|[H _]]; [exact H|discriminate].
Qed.

Lemma in_complete_list_pend : forall f ks p kt,
  In kt (pt_pend (pt_complete_list f ks p)) <-> In kt (pt_pend p) /\ ~ In (fst kt) ks.
Proof.
  intros f ks. induction ks as [|k ks IH]; intros p kt; cbn; [tauto|].
  fold (pt_complete_list f ks (pt_complete k (f k) p)). rewrite IH, in_complete_pend. intuition.
Qed.

Lemma in_complete_list_done : forall f ks p t o, pt_inv p ->
  In (t, o) (pt_done (pt_complete_list f ks p)) <->
  In (t, o) (pt_done p) \/ exists k, In k ks /\ In (k, t) (pt_pend p) /\ o = Some (f k).
Proof.
  intros f ks. induction ks as [|k ks IH]; intros p t o I; cbn.
  - split; [now left|]. intros [H|(k & [] & _)]. exact H.
  - fold (pt_complete_list f ks (pt_complete k (f k) p)). rewrite IH by now apply pt_inv_complete.
    rewrite in_complete_done. split.
    + intros [[H|[H ->]]|(k' & H1 & H2 & ->)].
      * now left.
      * right. exists k. split; [now left|]. split; [now apply aget_in|reflexivity].
      * right. exists k'. split; [now right|]. apply in_complete_pend in H2 as [H2 _]. auto.
    + intros [H|(k' & [<-|H1] & H2 & ->)].
      * left. now left.
      * left. right. split; [now apply in_pend_aget|reflexivity].
      * destruct (list_eq_dec ascii_dec k' k) as [->|Hk].
        -- left. right. split; [now apply in_pend_aget|reflexivity].
        -- right. exists k'. split; [exact H1|]. split; [|reflexivity]. apply in_complete_pend. now split.
Qed.
