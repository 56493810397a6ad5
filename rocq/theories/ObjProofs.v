(** Objects as maps, and sameness. *)
From Coq Require Import Ascii String List Permutation Arith NArith ZArith Bool Lia ZifyBool ZifyNat ZifyN.
From Verif Require Import StrModel StrProofs DoubleModel JsonModel JsonSpec JsonProofs RpcProofs ObjSpec.
Import ListNotations.
Local Open Scope nat_scope.

Lemma get_set_same : forall k v o, obj_get k (obj_set k v o) = Some v.
Proof.
  intros k v o. induction o as [|[k1 v1] o IH]; cbn; [now rewrite beq_refl|].
  destruct (beq k k1) eqn:E; cbn; [now rewrite beq_refl|now rewrite E].
Qed.

Lemma get_set_other : forall k k' v o, k <> k' -> obj_get k (obj_set k' v o) = obj_get k o.
Proof.
  intros k k' v o H. apply beq_neq in H. induction o as [|[k1 v1] o IH]; cbn; [now rewrite H|].
  destruct (beq k' k1) eqn:E; cbn.
  - apply beq_eq in E. subst k1. now rewrite H.
  - now rewrite IH.
Qed.

Lemma get_set : forall k k' v o, obj_get k (obj_set k' v o) = if beq k k' then Some v else obj_get k o.
Proof.
  intros k k' v o. destruct (beq k k') eqn:E.
  - apply beq_eq in E. subst. apply get_set_same.
  - apply beq_neq in E. now apply get_set_other.
Qed.

Lemma get_none : forall k o, obj_get k o = None <-> ~ In k (map fst o).
Proof.
  intros k o. induction o as [|[k1 v1] o IH]; cbn; [intuition|]. destruct (beq k k1) eqn:E.
  - apply beq_eq in E. subst. split; [discriminate|]. intro H. exfalso. apply H. now left.
  - apply beq_neq in E. rewrite IH. intuition.
Qed.

Lemma get_in : forall k v o, obj_get k o = Some v -> In (k, v) o.
Proof.
  intros k v o. induction o as [|[k1 v1] o IH]; cbn; [discriminate|]. destruct (beq k k1) eqn:E; [|auto].
  apply beq_eq in E. subst. intro H. injection H as ->. now left.
Qed.

Lemma in_get : forall k v o, NoDup (map fst o) -> In (k, v) o -> obj_get k o = Some v.
Proof.
  intros k v o. induction o as [|[k1 v1] o IH]; cbn; [easy|]. intros Hn [H|H]; inversion Hn; subst.
  - injection H as -> ->. now rewrite beq_refl.
  - destruct (beq k k1) eqn:E; [|auto]. apply beq_eq in E. subst. exfalso. apply H2. exact (in_map fst _ _ H).
Qed.

Lemma set_keys : forall k k' v o, In k' (map fst (obj_set k v o)) <-> k' = k \/ In k' (map fst o).
Proof.
  intros k k' v o. induction o as [|[k1 v1] o IH]; cbn; [intuition|]. destruct (beq k k1) eqn:E; cbn.
  - apply beq_eq in E. subst. intuition.
  - rewrite IH. intuition.
Qed.

Lemma nodup_set : forall k v o, NoDup (map fst o) -> NoDup (map fst (obj_set k v o)).
Proof.
  intros k v o. induction o as [|[k1 v1] o IH]; cbn; intro H.
  - constructor; [easy|constructor].
  - inversion H; subst. destruct (beq k k1) eqn:E; cbn.
    + apply beq_eq in E. subst. now constructor.
    + constructor; [|now apply IH]. rewrite set_keys. apply beq_neq in E. intuition.
Qed.

Lemma set_in : forall k v x o, In x (obj_set k v o) -> x = (k, v) \/ In x o.
Proof.
  intros k v x o. induction o as [|[k1 v1] o IH]; cbn; [intuition|]. destruct (beq k k1); cbn; intuition.
Qed.

Lemma ok_obj_inv : forall o, ok (JObj o) -> NoDup (map fst o) /\ Forall plain (map fst o) /\ Forall ok (map snd o).
Proof. intros o H. inversion H; subst. auto. Qed.

Lemma ok_set : forall k v o, plain k -> ok v -> ok (JObj o) -> ok (JObj (obj_set k v o)).
Proof.
  intros k v o Hk Hv Ho. apply ok_obj_inv in Ho as (N1 & N2 & N3). rewrite Forall_forall in N2, N3. constructor.
  - now apply nodup_set.
  - apply Forall_forall. intros x Hx. apply set_keys in Hx as [-> |Hx]; [exact Hk|]. now apply N2.
  - apply Forall_forall. intros x Hx. apply in_map_iff in Hx as ((k1 & x1) & <- & Hx). apply set_in in Hx as [Hx|Hx].
    + injection Hx as -> ->. exact Hv.
    + apply N3. exact (in_map snd _ _ Hx).
Qed.

Lemma ok_get : forall k v o, ok (JObj o) -> obj_get k o = Some v -> ok v.
Proof.
  intros k v o H E. apply get_in in E. apply ok_obj_inv in H as (_ & _ & N3). rewrite Forall_forall in N3.
  apply N3. exact (in_map snd _ _ E).
Qed.

Lemma same_refl : forall v, same v v.
Proof.
  apply json_ind'; try (now (intros; constructor)).
  - intros l H. constructor. induction H; constructor; auto.
  - intros l H. apply same_obj with l; [apply Permutation_refl|].
    induction l as [|[k x] l IH]; constructor; inversion H; subst; [now constructor|auto].
Qed.

Lemma same_members_keys : forall o o', Forall2 same_member o o' -> map fst o' = map fst o.
Proof. intros o o' H. induction H as [|? ? ? ? [k v v' S] H IH]; [reflexivity|]. cbn. now rewrite IH. Qed.

Lemma same_members_get : forall k o o', Forall2 same_member o o' ->
  match obj_get k o, obj_get k o' with
  | Some v, Some v' => same v v'
  | None, None => True
  | _, _ => False
  end.
Proof.
  intros k o o' H. induction H as [|? ? ? ? [k1 v v' S] H IH]; cbn; [exact I|]. destruct (beq k k1); [exact S|exact IH].
Qed.

Lemma same_obj_inv : forall o v, same (JObj o) v -> exists o1 o', v = JObj o' /\ Permutation o o1 /\ Forall2 same_member o1 o'.
Proof. intros o v H. inversion H; subst. now exists o1, o'. Qed.

Lemma same_get : forall k o o', NoDup (map fst o) -> same (JObj o) (JObj o') ->
  match obj_get k o, obj_get k o' with
  | Some v, Some v' => same v v'
  | None, None => True
  | _, _ => False
  end.
Proof.
  intros k o o' Hn H. apply same_obj_inv in H as (o1 & o2 & E & P & F). injection E as <-.
  rewrite (obj_get_perm o o1 k Hn P). now apply same_members_get.
Qed.

Lemma same_ok : forall v, ok v -> forall v', same v v' -> ok v'.
Proof.
  apply (json_ind' (fun v => ok v -> forall v', same v v' -> ok v')); try (intros; match goal with H : same _ _ |- _ => inversion H; subst end; assumption).
  - intros l IH Ho v' H. inversion H; subst. constructor. inversion Ho; subst.
    clear H Ho. induction H1 as [|x y l l' Hs H IHl]; constructor.
    + inversion IH; inversion H2; subst. auto.
    + inversion IH; inversion H2; subst. auto.
  - intros l IH Ho v' H. apply same_obj_inv in H as (o1 & o' & -> & P & F).
    pose proof (ok_perm _ _ Ho P) as O1.
    assert (Forall (fun v => ok v -> forall v', same v v' -> ok v') (map snd o1)) as IH1
      by (eapply Permutation_Forall; [apply Permutation_map; exact P|exact IH]).
    apply ok_obj_inv in O1 as (N1 & N2 & N3). constructor.
    + now rewrite (same_members_keys _ _ F).
    + now rewrite (same_members_keys _ _ F).
    + clear - F IH1 N3. induction F as [|? ? ? ? [k v v' S] F IHF]; cbn; constructor.
      * inversion IH1 as [|? ? A B]; subst. inversion N3 as [|? ? C D]; subst. cbn in *. now apply A.
      * inversion IH1; inversion N3; subst. auto.
Qed.

(** Reading members of a reordered object. *)
Lemma same_get_some : forall k o o' v, NoDup (map fst o) -> same (JObj o) (JObj o') -> obj_get k o = Some v ->
  exists v', obj_get k o' = Some v' /\ same v v'.
Proof.
  intros k o o' v Hn H E. pose proof (same_get k o o' Hn H) as G. rewrite E in G.
  destruct (obj_get k o') as [v'|]; [now exists v'|destruct G].
Qed.

Lemma same_get_none : forall k o o', NoDup (map fst o) -> same (JObj o) (JObj o') -> obj_get k o = None -> obj_get k o' = None.
Proof.
  intros k o o' Hn H E. pose proof (same_get k o o' Hn H) as G. rewrite E in G. now destruct (obj_get k o').
Qed.

Lemma same_get_str : forall k o o' s, NoDup (map fst o) -> same (JObj o) (JObj o') -> obj_get k o = Some (JStr s) ->
  obj_get k o' = Some (JStr s).
Proof. intros k o o' s Hn H E. destruct (same_get_some _ _ _ _ Hn H E) as (v' & E' & S). inversion S; now subst. Qed.
Lemma same_get_int : forall k o o' s, NoDup (map fst o) -> same (JObj o) (JObj o') -> obj_get k o = Some (JInt s) ->
  obj_get k o' = Some (JInt s).
Proof. intros k o o' s Hn H E. destruct (same_get_some _ _ _ _ Hn H E) as (v' & E' & S). inversion S; now subst. Qed.
Lemma same_get_bool : forall k o o' s, NoDup (map fst o) -> same (JObj o) (JObj o') -> obj_get k o = Some (JBool s) ->
  obj_get k o' = Some (JBool s).
Proof. intros k o o' s Hn H E. destruct (same_get_some _ _ _ _ Hn H E) as (v' & E' & S). inversion S; now subst. Qed.
Lemma same_get_null : forall k o o', NoDup (map fst o) -> same (JObj o) (JObj o') -> obj_get k o = Some JNull ->
  obj_get k o' = Some JNull.
Proof. intros k o o' Hn H E. destruct (same_get_some _ _ _ _ Hn H E) as (v' & E' & S). inversion S; now subst. Qed.
