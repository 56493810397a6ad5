From Coq Require Import Ascii String List Permutation Sorted Arith NArith ZArith Bool Lia ZifyBool ZifyNat ZifyN.
From Verif Require Import StrModel StrProofs DoubleModel JsonModel JsonSpec JsonProofs ObjSpec ObjProofs MapModel MapProofs TaskModel TaskSpec TaskProofs DescModel DescSpec DescProofs RegModel RegSpec.
Import ListNotations.
Local Open Scope nat_scope.

(** Byte order. *)
Lemma code_inj : forall a b, code a = code b -> a = b.
Proof. intros a b H. unfold code in H. rewrite <- (ascii_N_embedding a), <- (ascii_N_embedding b). now rewrite H. Qed.

Lemma before_cons : forall c a b, before a b -> before (c :: a) (c :: b).
Proof.
  intros c a b H. destruct H as [p d s|p d e s t H].
  - exact (before_prefix (c :: p) d s).
  - exact (before_byte (c :: p) d e s t H).
Qed.

Lemma blt_before : forall a b, blt a b = true <-> before a b.
Proof.
  split.
  - revert b. induction a as [|x a IH]; intros [|y b] H; try discriminate H.
    + exact (before_prefix [] y b).
    + cbn in H. destruct (N.ltb (code x) (code y)) eqn:E1.
      * apply (before_byte [] x y a b). now apply N.ltb_lt.
      * destruct (N.ltb (code y) (code x)) eqn:E2; [discriminate|]. assert (x = y) as -> by (apply code_inj; lia). now apply before_cons, IH.
  - intros [p c s|p c d s t H]; induction p as [|x p IH]; cbn.
    + reflexivity.
    + now rewrite N.ltb_irrefl.
    + apply N.ltb_lt in H. now rewrite H.
    + now rewrite N.ltb_irrefl.
Qed.

Lemma blt_irrefl : forall a, blt a a = false.
Proof. induction a as [|x a IH]; [reflexivity|]. cbn. now rewrite N.ltb_irrefl. Qed.

Lemma blt_trans : forall a b c, blt a b = true -> blt b c = true -> blt a c = true.
Proof.
  induction a as [|x a IH]; intros [|y b] [|z c] H1 H2; try discriminate; try reflexivity. cbn in *.
  destruct (N.ltb (code x) (code y)) eqn:E1, (N.ltb (code y) (code z)) eqn:E2;
  destruct (N.ltb (code y) (code x)) eqn:E3, (N.ltb (code z) (code y)) eqn:E4; try discriminate;
  destruct (N.ltb (code x) (code z)) eqn:E5; try reflexivity; destruct (N.ltb (code z) (code x)) eqn:E6; try lia.
  now apply IH with b.
Qed.

Lemma blt_total : forall a b, a <> b -> blt a b = true \/ blt b a = true.
Proof.
  induction a as [|x a IH]; intros [|y b] H; [contradiction|now left|now right|]. cbn.
  destruct (N.ltb (code x) (code y)) eqn:E1; [now left|]. destruct (N.ltb (code y) (code x)) eqn:E2; [now right|].
  assert (x = y) as -> by (apply code_inj; lia). apply IH. intros ->. now apply H.
Qed.

(** Sorting. *)
Section Sorting.
Context {A : Type} (key : A -> bstr).
Local Notation le := (fun x y : A => before (key x) (key y)).

Lemma insert_perm : forall x l, Permutation (x :: l) (insert_by key x l).
Proof.
  intros x l. induction l as [|y l IH]; [reflexivity|]. cbn. destruct (blt (key y) (key x)); [|reflexivity].
  rewrite perm_swap. now constructor.
Qed.

Lemma sort_perm : forall l, Permutation l (sort_by key l).
Proof.
  induction l as [|x l IH]; [reflexivity|]. cbn. rewrite <- insert_perm. now constructor.
Qed.

Lemma insert_sorted : forall x l, ~ In (key x) (map key l) -> in_order key l -> in_order key (insert_by key x l).
Proof.
  intros x l. induction l as [|y l IH]; intros N S; [repeat constructor|]. cbn.
  inversion S as [|y' l' S' F]; subst. destruct (blt (key y) (key x)) eqn:E.
  - constructor; [apply IH; [intro H; apply N; now right|exact S']|].
    apply Forall_forall. intros z Hz. apply (Permutation_in _ (Permutation_sym (insert_perm x l))) in Hz.
    destruct Hz as [<- |Hz]; [now apply blt_before|]. rewrite Forall_forall in F. now apply F.
  - assert (blt (key x) (key y) = true) as B.
    { destruct (blt_total (key x) (key y)) as [H|H]; [|exact H|congruence]. intro H. apply N. left. now symmetry. }
    constructor; [exact S|]. constructor; [now apply blt_before|]. rewrite Forall_forall in F |- *.
    intros z Hz. apply blt_before. apply blt_trans with (key y); [exact B|]. now apply blt_before, F.
Qed.

Lemma sort_sorted : forall l, NoDup (map key l) -> in_order key (sort_by key l).
Proof.
  induction l as [|x l IH]; intro N; [constructor|]. cbn in N. inversion N as [|k r H1 H2]; subst.
  cbn. apply insert_sorted; [|now apply IH]. intro H. apply H1.
  apply (Permutation_in _ (Permutation_map key (Permutation_sym (sort_perm l)))), H.
Qed.

Lemma in_order_nodup : forall l, in_order key l -> NoDup (map key l).
Proof.
  induction 1 as [|x l S IH F]; constructor; [|exact IH]. intro H. apply in_map_iff in H. destruct H as (y & E & Hy).
  rewrite Forall_forall in F. specialize (F y Hy). apply blt_before in F. rewrite E, blt_irrefl in F. discriminate.
Qed.

(** Two lists in order with the same elements are equal. *)
Lemma in_order_unique : forall l l', in_order key l -> in_order key l' -> (forall x, In x l <-> In x l') -> l = l'.
Proof.
  intros l l' S. revert l'. induction S as [|x l S IH F]; intros l' S' H.
  - destruct l' as [|y l']; [reflexivity|]. exfalso. apply (proj2 (H y)). now left.
  - destruct l' as [|y l']; [exfalso; apply (proj1 (H x)); now left|].
    inversion S' as [|y' l'' S2 F2]; subst. rewrite Forall_forall in F, F2.
    assert (forall a b, before (key a) (key b) -> before (key b) (key a) -> False) as NO.
    { intros a b H1 H2. apply blt_before in H1, H2. pose proof (blt_trans _ _ _ H1 H2) as H3. rewrite blt_irrefl in H3. discriminate. }
    assert (x = y) as ->.
    { destruct (proj1 (H x) (or_introl eq_refl)) as [E|Hx]; [now symmetry|].
      destruct (proj2 (H y) (or_introl eq_refl)) as [E|Hy]; [exact E|].
      exfalso. exact (NO x y (F y Hy) (F2 x Hx)). }
    f_equal. apply IH; [exact S2|]. intro z. split; intro Hz.
    + destruct (proj1 (H z) (or_intror Hz)) as [E|Hz']; [|exact Hz']. subst z. exfalso. exact (NO y y (F y Hz) (F y Hz)).
    + destruct (proj2 (H z) (or_intror Hz)) as [E|Hz']; [|exact Hz']. subst z. exfalso. exact (NO y y (F2 y Hz) (F2 y Hz)).
Qed.

(** std::sort may use any algorithm. *)
Lemma sort_unique : forall l l', Permutation l l' -> in_order key l' -> sort_by key l = l'.
Proof.
  intros l l' P S. apply in_order_unique; [|exact S|].
  - apply sort_sorted. apply (Permutation_NoDup (l := map key l')); [now apply Permutation_map, Permutation_sym|now apply in_order_nodup].
  - intro x. split; intro H.
    + apply (Permutation_in _ P), (Permutation_in _ (Permutation_sym (sort_perm l))), H.
    + apply (Permutation_in _ (sort_perm l)), (Permutation_in _ (Permutation_sym P)), H.
Qed.
End Sorting.

(** Registries. *)
Lemma reg_run_snoc : forall ops o, reg_run (ops ++ [o]) = reg_step (reg_run ops) o.
Proof. intros ops o. unfold reg_run. now rewrite fold_left_app. Qed.

Lemma aget_set : forall A k k' (v : A) m, aget k (aset k' v m) = if beq k k' then Some v else aget k m.
Proof.
  intros A k k' v m. destruct (beq k k') eqn:E.
  - apply beq_eq in E. subst k'. apply aget_aset_same.
  - apply aget_aset_other. intros ->. rewrite beq_refl in E. discriminate.
Qed.
Lemma aget_del : forall A k k' (m : list (bstr * A)), aget k (adel k' m) = if beq k k' then None else aget k m.
Proof.
  intros A k k' m. destruct (beq k k') eqn:E.
  - apply beq_eq in E. subst k'. apply aget_adel_same.
  - apply aget_adel_other. intros ->. rewrite beq_refl in E. discriminate.
Qed.

Definition tinv (past : list reg_op) (g : registry) : Prop :=
  NoDup (map fst (rg_tm g)) /\
  (forall n, aget n (rg_th g) = option_map snd (tool_now n past)) /\
  (forall n, aget n (rg_tm g) = option_map fst (tool_now n past)) /\
  (forall n t h, tool_now n past = Some (t, h) -> tl_name t = n).

Lemma tinv_run : forall ops, tinv (rev ops) (reg_run ops).
Proof.
  intro ops. induction ops as [|o ops (N & H1 & H2 & H3)] using rev_ind.
  { repeat split; [constructor|intros n t h E; discriminate E]. }
  rewrite reg_run_snoc, rev_unit. revert N H1 H2 H3. generalize (rev ops) (reg_run ops). intros past g N H1 H2 H3.
  destruct o; try exact (conj N (conj H1 (conj H2 H3))).
  - (* by name *)
    unfold tinv. cbn [reg_step reg_tool_name set_tools rg_th rg_tm tool_now]. split; [|split; [|split]].
    + destruct (aget n (rg_tm g)); [exact N|now apply nodup_aset].
    + intro m. rewrite aget_set. destruct (beq m n) eqn:E; [|apply H1]. reflexivity.
    + intro m. pose proof (H2 n) as Hn. destruct (tool_now n past) as [[t h']|] eqn:E; cbn [option_map fst] in Hn; rewrite Hn.
      * destruct (beq m n) eqn:Em; [|apply H2]. apply beq_eq in Em. subst m. rewrite E, Hn. reflexivity.
      * rewrite aget_set. destruct (beq m n) eqn:Em; [|apply H2]. apply beq_eq in Em. subst m. now rewrite E.
    + intros m t h' E. destruct (beq m n) eqn:Em; [|now apply H3 with h'].
      destruct (tool_now m past) as [[t' h'']|] eqn:Et; injection E as <- <-; [now apply H3 with h''|reflexivity].
  - (* with metadata *)
    unfold tinv. cbn [reg_step reg_tool set_tools rg_th rg_tm tool_now]. split; [|split; [|split]].
    + now apply nodup_aset.
    + intro m. rewrite aget_set. destruct (beq m (tl_name t)) eqn:E; [|apply H1]. reflexivity.
    + intro m. rewrite aget_set. destruct (beq m (tl_name t)) eqn:E; [|apply H2]. reflexivity.
    + intros m t' h' E. destruct (beq m (tl_name t)) eqn:Em; [|now apply H3 with h']. injection E as <- <-. now apply beq_eq in Em.
  - unfold tinv. cbn [reg_step unreg_tool set_tools rg_th rg_tm tool_now]. split; [|split; [|split]].
    + now apply nodup_adel.
    + intro m. rewrite aget_del. destruct (beq m n) eqn:E; [|apply H1]. reflexivity.
    + intro m. rewrite aget_del. destruct (beq m n) eqn:E; [|apply H2]. reflexivity.
    + intros m t' h' E. destruct (beq m n) eqn:Em; [discriminate|now apply H3 with h'].
Qed.

Definition pinv (past : list reg_op) (g : registry) : Prop :=
  NoDup (map fst (rg_pm g)) /\
  (forall n, aget n (rg_ph g) = option_map snd (prompt_now n past)) /\
  (forall n, aget n (rg_pm g) = option_map fst (prompt_now n past)) /\
  (forall n t h, prompt_now n past = Some (t, h) -> pr_name t = n).

Lemma pinv_run : forall ops, pinv (rev ops) (reg_run ops).
Proof.
  intro ops. induction ops as [|o ops (N & H1 & H2 & H3)] using rev_ind.
  { repeat split; [constructor|intros n t h E; discriminate E]. }
  rewrite reg_run_snoc, rev_unit. revert N H1 H2 H3. generalize (rev ops) (reg_run ops). intros past g N H1 H2 H3.
  assert (forall p h past', (forall m, prompt_now m past' = if beq m (pr_name p) then Some (p, h) else prompt_now m past) ->
          pinv past' (reg_prompt p h g)) as K.
  { intros p h past' Q. unfold pinv. cbn [reg_prompt set_prompts rg_ph rg_pm]. split; [|split; [|split]].
    + now apply nodup_aset.
    + intro m. rewrite aget_set, Q. destruct (beq m (pr_name p)) eqn:E; [|apply H1]. reflexivity.
    + intro m. rewrite aget_set, Q. destruct (beq m (pr_name p)) eqn:E; [|apply H2]. reflexivity.
    + intros m t' h' E. rewrite Q in E. destruct (beq m (pr_name p)) eqn:Em; [|now apply H3 with h']. injection E as <- <-. now apply beq_eq in Em. }
  destruct o; try exact (conj N (conj H1 (conj H2 H3))).
  - apply (K (default_prompt n) h). intro m. cbn [prompt_now default_prompt pr_name]. destruct (beq m n) eqn:E; [|reflexivity].
    apply beq_eq in E. now subst m.
  - apply (K p h). reflexivity.
  - unfold pinv. cbn [reg_step unreg_prompt set_prompts rg_ph rg_pm prompt_now]. split; [|split; [|split]].
    + now apply nodup_adel.
    + intro m. rewrite aget_del. destruct (beq m n) eqn:E; [|apply H1]. reflexivity.
    + intro m. rewrite aget_del. destruct (beq m n) eqn:E; [|apply H2]. reflexivity.
    + intros m t' h' E. destruct (beq m n) eqn:Em; [discriminate|now apply H3 with h'].
Qed.

Definition rinv (past : list reg_op) (g : registry) : Prop :=
  NoDup (rg_ru g) /\ (forall u, In u (rg_ru g) <-> aget u (rg_rh g) <> None) /\
  (forall u, aget u (rg_rh g) = option_map snd (resource_now u past)) /\
  (forall u, aget u (rg_rm g) = option_map fst (resource_now u past)) /\
  (forall u r h, resource_now u past = Some (r, h) -> rs_uri r = u).

Lemma rinv_run : forall ops, rinv (rev ops) (reg_run ops).
Proof.
  intro ops. induction ops as [|o ops (N & H0 & H1 & H2 & H3)] using rev_ind.
  { split; [constructor|]. split; [intro u; split; [intros []|intro H; now apply H]|]. repeat split. intros u r h E. discriminate E. }
  rewrite reg_run_snoc, rev_unit. revert N H0 H1 H2 H3. generalize (rev ops) (reg_run ops). intros past g N H0 H1 H2 H3.
  assert (forall p h past', (forall m, resource_now m past' = if beq m (rs_uri p) then Some (p, h) else resource_now m past) ->
          rinv past' (reg_resource p h g)) as K.
  { intros p h past' Q. unfold rinv. cbn [reg_resource set_resources rg_rh rg_rm rg_ru]. split; [|split; [|split; [|split]]].
    + destruct (aget (rs_uri p) (rg_rh g)) eqn:E; [exact N|]. apply (Permutation_NoDup (l := rs_uri p :: rg_ru g)); [apply Permutation_cons_append|].
      constructor; [|exact N]. intro H. now apply H0 in H.
    + intro u. rewrite aget_set. destruct (beq u (rs_uri p)) eqn:E.
      * apply beq_eq in E. subst u. split; [discriminate|]. intros _. destruct (aget (rs_uri p) (rg_rh g)) eqn:E.
        -- apply H0. congruence.
        -- apply in_or_app. right. now left.
      * rewrite <- H0. assert (u <> rs_uri p) as D by (intros ->; rewrite beq_refl in E; discriminate).
        destruct (aget (rs_uri p) (rg_rh g)); [reflexivity|]. rewrite in_app_iff. split; [intros [H|[H|[]]]; [exact H|now subst u]|now left].
    + intro m. rewrite aget_set, Q. destruct (beq m (rs_uri p)) eqn:E; [|apply H1]. reflexivity.
    + intro m. rewrite aget_set, Q. destruct (beq m (rs_uri p)) eqn:E; [|apply H2]. reflexivity.
    + intros m t' h' E. rewrite Q in E. destruct (beq m (rs_uri p)) eqn:Em; [|now apply H3 with h']. injection E as <- <-. now apply beq_eq in Em. }
  destruct o; try exact (conj N (conj H0 (conj H1 (conj H2 H3)))).
  - apply (K (default_resource u) h). intro m. cbn [resource_now default_resource rs_uri]. destruct (beq m u) eqn:E; [|reflexivity].
    apply beq_eq in E. now subst m.
  - apply (K r h). reflexivity.
  - unfold rinv. cbn [reg_step unreg_resource set_resources rg_rh rg_rm rg_ru resource_now]. split; [|split; [|split; [|split]]].
    + now apply NoDup_filter.
    + intro v. rewrite filter_In, aget_del. destruct (beq v u) eqn:E; [split; [intros [_ H]; discriminate H|intro H; now contradiction H]|].
      rewrite <- H0. cbn. split; [now intros [H _]|now split].
    + intro m. rewrite aget_del. destruct (beq m u) eqn:E; [|apply H1]. reflexivity.
    + intro m. rewrite aget_del. destruct (beq m u) eqn:E; [|apply H2]. reflexivity.
    + intros m t' h' E. destruct (beq m u) eqn:Em; [discriminate|now apply H3 with h'].
Qed.

Definition minv (past : list reg_op) (g : registry) : Prop :=
  NoDup (map (fun e => tp_uri (fst e)) (rg_rt g)) /\
  (forall t h, In (t, h) (rg_rt g) <-> template_now (tp_uri t) past = Some (t, h)) /\
  (forall u t h, template_now u past = Some (t, h) -> tp_uri t = u).

Lemma nodup_map_filter : forall A B (f : A -> B) p l, NoDup (map f l) -> NoDup (map f (filter p l)).
Proof.
  intros A B f p l. induction l as [|x l IH]; intro H; [exact H|]. cbn in H |- *. inversion H as [|y r H1 H2]; subst.
  destruct (p x); [|now apply IH]. cbn. constructor; [|now apply IH]. intro Hi. apply H1. apply in_map_iff in Hi. destruct Hi as (z & E & Hz).
  apply filter_In in Hz. rewrite <- E. apply in_map. now destruct Hz.
Qed.

Lemma without_in : forall u l t h, In (t, h) (without_template u l) <-> In (t, h) l /\ beq (tp_uri t) u = false.
Proof. intros u l t h. unfold without_template. rewrite filter_In. cbn. now destruct (beq (tp_uri t) u). Qed.

Lemma minv_run : forall ops, minv (rev ops) (reg_run ops).
Proof.
  intro ops. induction ops as [|o ops (N & H1 & H2)] using rev_ind.
  { split; [constructor|]. split; [intros t h; split; [intros []|discriminate]|discriminate]. }
  rewrite reg_run_snoc, rev_unit. revert N H1 H2. generalize (rev ops) (reg_run ops). intros past g N H1 H2.
  destruct o; try exact (conj N (conj H1 H2)); unfold minv.
  - cbn [reg_step reg_template set_templates rg_rt template_now]. split; [|split].
    + rewrite map_app. cbn [map fst]. apply (Permutation_NoDup (l := tp_uri t :: map (fun e => tp_uri (fst e)) (without_template (tp_uri t) (rg_rt g)))).
      * apply Permutation_cons_append.
      * constructor; [|now apply nodup_map_filter]. intro H. apply in_map_iff in H. destruct H as ((t' & h') & E & H).
        apply without_in in H. cbn in E. destruct H as [_ H]. rewrite E, beq_refl in H. discriminate.
    + intros t' h'. rewrite in_app_iff, without_in. destruct (beq (tp_uri t') (tp_uri t)) eqn:E.
      * split; [intros [[_ H]|[H|[]]]; [discriminate|now injection H as <- <-]|]. intro H. right. left. exact (f_equal (fun x => match x with Some y => y | None => (t, h) end) H).
      * rewrite <- H1. split; [intros [[H _]|[H|[]]]; [exact H|]|intro H; left; now split].
        injection H as <- <-. rewrite beq_refl in E. discriminate.
    + intros u t' h' E. destruct (beq u (tp_uri t)) eqn:Eu; [|now apply H2 with h']. injection E as <- <-. now apply beq_eq in Eu.
  - cbn [reg_step unreg_template set_templates rg_rt template_now]. split; [|split].
    + now apply nodup_map_filter.
    + intros t h. rewrite without_in. destruct (beq (tp_uri t) u) eqn:E; [split; [now intros [_ H]|discriminate]|]. rewrite <- H1. split; [now intros [H _]|now split].
    + intros v t h E. destruct (beq v u); [discriminate|now apply H2 with h].
Qed.

(** The listings. *)
Lemma nodup_key : forall A (m : list (bstr * A)) (f : A -> bstr), (forall k v, In (k, v) m -> f v = k) -> NoDup (map fst m) -> NoDup (map f (map snd m)).
Proof.
  intros A m f H N. rewrite map_map. rewrite (map_ext_in _ fst); [exact N|]. intros (k & v) Hk. now apply H.
Qed.

Lemma tool_list_spec : forall ops, tools_of ops (tool_list (reg_run ops)).
Proof.
  intro ops. destruct (tinv_run ops) as (N & H1 & H2 & H3). unfold tools_of, tool_list.
  assert (forall k t, In (k, t) (rg_tm (reg_run ops)) -> tl_name t = k /\ exists h, tool_now k (rev ops) = Some (t, h)) as K.
  { intros k t H. apply (in_aget _ _ _ N) in H. rewrite H2 in H. destruct (tool_now k (rev ops)) as [[t' h]|] eqn:E; [|discriminate].
    injection H as ->. split; [now apply H3 with h|now exists h]. }
  split.
  - apply sort_sorted. apply nodup_key; [|exact N]. intros k v H. now apply K.
  - intro t. split.
    + intro H. apply (Permutation_in _ (Permutation_sym (sort_perm _ _))) in H. apply in_map_iff in H. destruct H as ((k & t') & E & H).
      cbn in E. subst t'. destruct (K k t H) as (-> & h & E). now exists h.
    + intros (h & E). apply (Permutation_in _ (sort_perm _ _)). apply in_map_iff. exists (tl_name t, t). split; [reflexivity|].
      apply aget_in. rewrite H2, E. reflexivity.
Qed.

Lemma prompt_list_spec : forall ops, prompts_of ops (prompt_list (reg_run ops)).
Proof.
  intro ops. destruct (pinv_run ops) as (N & H1 & H2 & H3). unfold prompts_of, prompt_list.
  assert (forall k t, In (k, t) (rg_pm (reg_run ops)) -> pr_name t = k /\ exists h, prompt_now k (rev ops) = Some (t, h)) as K.
  { intros k t H. apply (in_aget _ _ _ N) in H. rewrite H2 in H. destruct (prompt_now k (rev ops)) as [[t' h]|] eqn:E; [|discriminate].
    injection H as ->. split; [now apply H3 with h|now exists h]. }
  split.
  - apply sort_sorted. apply nodup_key; [|exact N]. intros k v H. now apply K.
  - intro t. split.
    + intro H. apply (Permutation_in _ (Permutation_sym (sort_perm _ _))) in H. apply in_map_iff in H. destruct H as ((k & t') & E & H).
      cbn in E. subst t'. destruct (K k t H) as (-> & h & E). now exists h.
    + intros (h & E). apply (Permutation_in _ (sort_perm _ _)). apply in_map_iff. exists (pr_name t, t). split; [reflexivity|].
      apply aget_in. rewrite H2, E. reflexivity.
Qed.

Lemma template_list_spec : forall ops, templates_of ops (template_list (reg_run ops)).
Proof.
  intro ops. destruct (minv_run ops) as (N & H1 & H2). unfold templates_of, template_list. split.
  - apply sort_sorted. now rewrite map_map.
  - intro t. split.
    + intro H. apply (Permutation_in _ (Permutation_sym (sort_perm _ _))) in H. apply in_map_iff in H. destruct H as ((t' & h) & E & H).
      cbn in E. subst t'. exists h. now apply H1.
    + intros (h & E). apply (Permutation_in _ (sort_perm _ _)). apply in_map_iff. exists (t, h). split; [reflexivity|now apply H1].
Qed.

Lemma starts_with_ui : forall u, starts_with UI u = true <-> exists s, u = bs "ui://" ++ s.
Proof. intro u. apply starts_with_iff. Qed.

Definition show (ui : bool) (r : resource) : list resource :=
  if starts_with UI (rs_uri r) then
    if ui then
      [match rs_mime r with
       | Some _ => r
       | None => {| rs_uri := rs_uri r; rs_name := rs_name r; rs_title := rs_title r; rs_desc := rs_desc r;
                    rs_mime := Some (bs "text/html+mcp"); rs_size := rs_size r; rs_annot := rs_annot r;
                    rs_meta := rs_meta r; rs_icons := rs_icons r |}
       end]
    else []
  else [r].

Lemma show_spec : forall ui r r', In r' (show ui r) <-> shown ui r r'.
Proof.
  intros ui r r'. unfold show. split.
  - destruct (starts_with UI (rs_uri r)) eqn:E.
    + apply starts_with_ui in E. destruct E as (s & E). destruct ui; [|intros []]. intros [H|[]].
      destruct (rs_mime r) eqn:M; [subst r'; apply (shown_ui true r s); [reflexivity|exact E|congruence]|].
      apply (shown_ui_default true r s); [reflexivity|exact E|exact M|now symmetry].
    + intros [<- |[]]. apply shown_plain. intros s Hs. assert (starts_with UI (rs_uri r) = true) by (apply starts_with_ui; now exists s). congruence.
  - intros [r0 H|r0 s -> H M|r0 s r1 -> H M ->].
    + destruct (starts_with UI (rs_uri r0)) eqn:E; [|now left]. apply starts_with_ui in E. destruct E as (s & E). now destruct (H s).
    + assert (starts_with UI (rs_uri r0) = true) as -> by (apply starts_with_ui; now exists s). destruct (rs_mime r0); [now left|now destruct M].
    + assert (starts_with UI (rs_uri r0) = true) as -> by (apply starts_with_ui; now exists s). rewrite M. now left.
Qed.

Lemma shown_uri : forall ui r r', shown ui r r' -> rs_uri r' = rs_uri r.
Proof. now intros ui r r' [r0 H|r0 s -> H M|r0 s r1 -> H M ->]. Qed.

Lemma shown_fun : forall ui r a b, shown ui r a -> shown ui r b -> a = b.
Proof.
  intros ui r a b Ha Hb. apply show_spec in Ha, Hb. unfold show in *. destruct (starts_with UI (rs_uri r)).
  - destruct ui; [|destruct Ha]. destruct Ha as [<- |[]], Hb as [<- |[]]. reflexivity.
  - destruct Ha as [<- |[]], Hb as [<- |[]]. reflexivity.
Qed.

Lemma resource_list_spec : forall ui ops, resources_of ui ops (resource_list ui (reg_run ops)).
Proof.
  intros ui ops. destruct (rinv_run ops) as (N & H0 & H1 & H2 & H3). unfold resources_of, resource_list.
  assert (forall l r, incl l (rg_ru (reg_run ops)) ->
     In r (visible_resources ui {| rg_th := []; rg_tm := []; rg_rh := []; rg_rm := rg_rm (reg_run ops); rg_ru := l; rg_rt := []; rg_ph := []; rg_pm := [] |}) <->
     exists r0 h, In (rs_uri r0) l /\ resource_now (rs_uri r0) (rev ops) = Some (r0, h) /\ shown ui r0 r) as K.
  { intros l r I. unfold visible_resources. cbn [rg_rm rg_ru]. rewrite in_flat_map. split.
    - intros (u & Hu & H). rewrite H2 in H. destruct (resource_now u (rev ops)) as [[r0 h]|] eqn:E; [|destruct H]. cbn [option_map fst] in H.
      assert (rs_uri r0 = u) by (now apply H3 with h). subst u. exists r0, h. split; [exact Hu|]. split; [exact E|]. now apply show_spec.
    - intros (r0 & h & Hi & E & S). exists (rs_uri r0). split; [exact Hi|]. rewrite H2, E. cbn [option_map fst]. now apply show_spec. }
  assert (forall l, incl l (rg_ru (reg_run ops)) -> NoDup l -> NoDup (map rs_uri
     (visible_resources ui {| rg_th := []; rg_tm := []; rg_rh := []; rg_rm := rg_rm (reg_run ops); rg_ru := l; rg_rt := []; rg_ph := []; rg_pm := [] |}))) as K2.
  { induction l as [|u l IH]; intros I ND; [constructor|]. inversion ND as [|u' l' D1 D2]; subst.
    assert (incl l (rg_ru (reg_run ops))) as I' by (intros x Hx; apply I; now right). specialize (IH I' D2).
    pose proof (K (u :: l)) as Ku. pose proof (K l) as Kl. revert IH Kl. unfold visible_resources. cbn [rg_ru rg_rm flat_map]. intros IH Kl.
    rewrite map_app. rewrite H2. destruct (resource_now u (rev ops)) as [[r0 h]|] eqn:E; [|exact IH]. cbn [option_map fst].
    assert (rs_uri r0 = u) as EU by (now apply H3 with h).
    rewrite <- EU at 1. pose proof (show_spec ui r0) as S. fold (show ui r0). destruct (show ui r0) as [|x [|y l0]] eqn:EL.
    - exact IH.
    - cbn [map app]. constructor; [|exact IH]. intro Hx. apply in_map_iff in Hx. destruct Hx as (r & Er & Hr).
      apply (Kl r I') in Hr. destruct Hr as (r1 & h1 & Hi & E1 & S1). apply shown_uri in S1.
      assert (shown ui r0 x) as Sx by (apply S; now left). apply shown_uri in Sx. apply D1. congruence.
    - exfalso. unfold show in EL. destruct (starts_with UI (rs_uri r0)); [destruct ui|]; discriminate EL. }
  assert (visible_resources ui (reg_run ops) = visible_resources ui {| rg_th := []; rg_tm := []; rg_rh := []; rg_rm := rg_rm (reg_run ops); rg_ru := rg_ru (reg_run ops); rg_rt := []; rg_ph := []; rg_pm := [] |}) as EV by reflexivity.
  rewrite EV. split.
  - apply sort_sorted. apply K2; [apply incl_refl|exact N].
  - intro r. split.
    + intro H. apply (Permutation_in _ (Permutation_sym (sort_perm _ _))) in H. apply K in H; [|apply incl_refl].
      destruct H as (r0 & h & _ & E & S). now exists r0, h.
    + intros (r0 & h & E & S). apply (Permutation_in _ (sort_perm _ _)). apply K; [apply incl_refl|]. exists r0, h. split; [|now split].
      apply H0. rewrite H1, E. discriminate.
Qed.

(** Paging. *)
Section Paging.
Context {A : Type} (key : bstr) (js : A -> json) (l : list A).
Context (Hkey : key <> bs "nextCursor") (Hsize : (N.of_nat (length l) < 2 ^ 63)%N).
Local Notation total := (N.of_nat (length l)).

Definition from (start : N) (n : Z) : list json := map js (firstn (Z.to_nat n) (skipn (N.to_nat start) l)).
Definition then_next (start : N) (n : Z) : option bstr :=
  if N.ltb (start + Z.to_N n) total then Some (print_N (start + Z.to_N n)) else None.

Lemma result_parts : forall items next o, JObj (opt_set (bs "nextCursor") JStr next (obj_set key (JArr items) [])) = JObj o ->
  obj_get key o = Some (JArr items) /\ obj_get (bs "nextCursor") o = option_map JStr next.
Proof.
  intros items next o E. assert (o = opt_set (bs "nextCursor") JStr next (obj_set key (JArr items) [])) as -> by congruence. rewrite !get_opt_set, !get_set, beq_refl.
  assert (beq key (bs "nextCursor") = false) as E1 by (apply beq_neq; exact Hkey).
  assert (beq (bs "nextCursor") key = false) as E2 by (apply beq_neq; intro H; now apply Hkey).
  rewrite E1, E2, beq_refl. now destruct next.
Qed.

Lemma page_unique : forall items next v items' next', v = JObj (opt_set (bs "nextCursor") JStr next (obj_set key (JArr items) [])) ->
  page key v items' next' -> items' = items /\ next' = next.
Proof.
  intros items next v items' next' -> (o & E & H1 & H2). destruct (result_parts _ _ _ E) as [G1 G2].
  rewrite G1 in H1. rewrite G2 in H2. split; [congruence|]. destruct next, next'; cbn in H2; congruence.
Qed.

Lemma page_is : forall items next v, v = JObj (opt_set (bs "nextCursor") JStr next (obj_set key (JArr items) [])) -> page key v items next.
Proof. intros items next v ->. eexists. split; [reflexivity|]. now apply result_parts. Qed.

Lemma paging_asks : forall n c start params, (0 < n < 2 ^ 63)%Z -> starts c start -> (start < 2 ^ 63)%N -> asks n c params ->
  paging params = (start, Some (Z.to_N n)).
Proof.
  intros n c start params Hn Hc Hs (o & -> & H1 & H2). unfold paging. rewrite H1, H2.
  assert (Z.ltb 0 n = true) as -> by (apply Z.ltb_lt; lia). f_equal. destruct c as [c|]; cbn [option_map]; unfold starts in Hc.
  - subst c. rewrite cursor_print; [reflexivity|exact Hs].
  - now symmetry.
Qed.

Lemma list_result_at : forall n start params, (0 < n < 2 ^ 63)%Z -> (start <= total)%N -> paging params = (start, Some (Z.to_N n)) ->
  list_result key js l params = JObj (opt_set (bs "nextCursor") JStr (then_next start n) (obj_set key (JArr (from start n)) [])).
Proof.
  intros n start params Hn Hs E. unfold list_result. rewrite E. cbv beta iota zeta.
  assert (N.ltb total start = false) as -> by (apply N.ltb_ge; exact Hs).
  assert ((start + Z.to_N n) mod two64 = start + Z.to_N n)%N as EM by (apply N.mod_small; rewrite two64_val; lia).
  rewrite EM. unfold next_cursor, then_next, from.
  assert (N.ltb (N.min total (start + Z.to_N n)) total = N.ltb (start + Z.to_N n) total) as -> by lia.
  f_equal. f_equal.
  - destruct (N.ltb (start + Z.to_N n) total) eqn:El; [|reflexivity]. f_equal. f_equal. lia.
  - f_equal. f_equal. f_equal. destruct (N.le_gt_cases total (start + Z.to_N n)) as [Hl|Hl].
    + replace (N.min total (start + Z.to_N n)) with total by lia.
      rewrite (firstn_all2 (n := Z.to_nat n)); [|rewrite skipn_length; lia]. rewrite firstn_all2; [reflexivity|]. rewrite skipn_length. lia.
    + replace (N.min total (start + Z.to_N n)) with (start + Z.to_N n)%N by lia. f_equal. lia.
Qed.

Lemma follow_from : forall n c pages, follow (list_result key js l) key n c pages -> (0 < n < 2 ^ 63)%Z ->
  forall start, starts c start -> (start <= total)%N ->
  concat pages = map js (skipn (N.to_nat start) l) /\ Forall (fun p => (Z.of_nat (length p) <= n)%Z) pages.
Proof.
  intros n c pages F Hn. induction F as [c params items Ha Hp|c params items c' rest Ha Hp F IH]; intros start Hc Hs.
  - pose proof (paging_asks n c start params Hn Hc ltac:(lia) Ha) as E.
    destruct (page_unique _ _ _ _ _ (list_result_at n start params Hn Hs E) Hp) as [-> H]. unfold then_next in H.
    destruct (N.ltb (start + Z.to_N n) total) eqn:El; [discriminate|]. apply N.ltb_ge in El. cbn [concat]. rewrite app_nil_r. unfold from. split.
    + f_equal. apply firstn_all2. rewrite skipn_length. lia.
    + constructor; [|constructor]. rewrite map_length, firstn_length. lia.
  - pose proof (paging_asks n c start params Hn Hc ltac:(lia) Ha) as E.
    destruct (page_unique _ _ _ _ _ (list_result_at n start params Hn Hs E) Hp) as [-> H]. unfold then_next in H.
    destruct (N.ltb (start + Z.to_N n) total) eqn:El; [|discriminate]. apply N.ltb_lt in El. injection H as ->.
    destruct (IH (start + Z.to_N n)%N eq_refl ltac:(lia)) as [IH1 IH2]. cbn [concat]. split.
    + rewrite IH1. unfold from. rewrite <- map_app. f_equal.
      rewrite <- (firstn_skipn (Z.to_nat n) (skipn (N.to_nat start) l)) at 2. rewrite skipn_skipn'. f_equal. f_equal. lia.
    + constructor; [|exact IH2]. unfold from. rewrite map_length, firstn_length. lia.
Qed.

Lemma follow_exists_from : forall n, (0 < n < 2 ^ 63)%Z -> forall k c start, starts c start -> (start <= total)%N -> N.to_nat (total - start) <= k ->
  exists pages, follow (list_result key js l) key n c pages.
Proof.
  intros n Hn. induction k as [k IH] using lt_wf_ind. intros c start Hc Hs Hk.
  pose proof (ask_params_asks n c) as Ha. pose proof (paging_asks n c start _ Hn Hc ltac:(lia) Ha) as E.
  pose proof (page_is _ _ _ (list_result_at n start _ Hn Hs E)) as Hp.
  destruct (then_next start n) as [c'|] eqn:En.
  - unfold then_next in En. destruct (N.ltb (start + Z.to_N n) total) eqn:El; [|discriminate]. injection En as <-. apply N.ltb_lt in El.
    destruct (IH (N.to_nat (total - (start + Z.to_N n))) ltac:(lia) (Some (print_N (start + Z.to_N n))) (start + Z.to_N n)%N eq_refl ltac:(lia) ltac:(lia)) as (rest & F).
    eexists. eapply follow_more; eassumption.
  - eexists. eapply follow_last; eassumption.
Qed.

Lemma follow_all : forall n pages, (0 < n < 2 ^ 63)%Z -> follow (list_result key js l) key n None pages ->
  concat pages = map js l /\ Forall (fun p => (Z.of_nat (length p) <= n)%Z) pages.
Proof. intros n pages Hn F. exact (follow_from n None pages F Hn 0%N eq_refl ltac:(lia)). Qed.

Lemma follow_ends : forall n, (0 < n < 2 ^ 63)%Z -> exists pages, follow (list_result key js l) key n None pages.
Proof. intros n Hn. exact (follow_exists_from n Hn _ None 0%N eq_refl ltac:(lia) (le_n _)). Qed.

(** No limit: everything at once. *)
Lemma list_result_nolimit : forall params, paging params = (0%N, None) -> page key (list_result key js l params) (map js l) None.
Proof.
  clear Hsize. intros params E. apply page_is. unfold list_result. rewrite E. cbv beta iota zeta.
  assert (N.ltb total 0 = false) as -> by lia. cbn [next_cursor opt_set N.to_nat skipn]. do 4 f_equal. rewrite firstn_all2; [reflexivity|lia].
Qed.

(** Cursors outside the list. *)
Lemma outside : forall params s limit, paging params = (s, limit) -> (total <= s)%N ->
  (forall n, limit = Some n -> (n < 2 ^ 63)%N) -> page key (list_result key js l params) [] None.
Proof.
  intros params s limit E Hs Hl. apply page_is. unfold list_result. rewrite E. cbv beta iota zeta.
  replace (if N.ltb total s then total else s) with total by (destruct (N.ltb total s) eqn:Q; lia).
  assert (match limit with Some n => N.min total ((total + n) mod two64) | None => total end = total) as ->.
  { destruct limit as [n|]; [|reflexivity]. rewrite N.mod_small; [lia|]. specialize (Hl n eq_refl). rewrite two64_val. lia. }
  rewrite Nat.sub_diag. cbn [firstn map]. f_equal. unfold next_cursor. rewrite N.ltb_irrefl. now destruct limit.
Qed.
End Paging.

(** The client's loop. *)
Lemma paging_same : forall o v, NoDup (map fst o) -> same (JObj o) v -> paging (Some v) = paging (Some (JObj o)).
Proof.
  intros o v N H. destruct (same_obj_inv _ _ H) as (o1 & o' & -> & _). unfold paging.
  pose proof (same_get (bs "cursor") _ _ N H) as G1. pose proof (same_get (bs "limit") _ _ N H) as G2. f_equal.
  - destruct (obj_get (bs "cursor") o), (obj_get (bs "cursor") o'); try easy. now destruct G1.
  - destruct (obj_get (bs "limit") o), (obj_get (bs "limit") o'); try easy. now destruct G2.
Qed.

Section ListAll.
Context {A : Type} (key : bstr) (js : A -> json) (parse : obj -> A) (R : A -> A -> Prop) (l : list A) (net : json -> json).
Context (Hkey : key <> bs "nextCursor") (Hsize : (N.of_nat (length l) < 2 ^ 63)%N).
Context (Hnet : forall v, same v (net v)).
Context (Hback : forall x v, In x l -> same (js x) v -> exists o, v = JObj o /\ R x (parse o)).

Lemma parse_items : forall xs ys, incl xs l -> Forall2 same (map js xs) ys ->
  Forall2 R xs (flat_map (fun x => match x with JObj i => [parse i] | _ => [] end) ys).
Proof.
  induction xs as [|x xs IH]; intros ys I F; inversion F as [|a b r r' S F']; subst; [constructor|].
  destruct (Hback x b) as (o & -> & Hr); [apply I; now left|exact S|]. cbn. constructor; [exact Hr|]. apply IH; [|exact F']. intros y Hy. apply I. now right.
Qed.

Lemma parse_page_result : forall xs next, incl xs l ->
  exists r, parse_page key parse (net (JObj (opt_set (bs "nextCursor") JStr next (obj_set key (JArr (map js xs)) [])))) = (r, next) /\ Forall2 R xs r.
Proof.
  intros xs next I. set (O := opt_set (bs "nextCursor") JStr next (obj_set key (JArr (map js xs)) [])).
  assert (NoDup (map fst O)) as N by (subst O; nodups). pose proof (Hnet (JObj O)) as H.
  destruct (same_obj_inv _ _ H) as (o1 & o' & E & _). rewrite E in H |- *.
  destruct (result_parts key Hkey _ _ O eq_refl) as [G1 G2]. unfold parse_page.
  pose proof (same_get (bs "nextCursor") _ _ N H) as G3. rewrite G2 in G3.
  assert (match obj_get (bs "nextCursor") o' with Some (JStr c) => Some c | Some (JInt z) => Some (print_Z z) | _ => None end = next) as ->.
  { destruct next as [c|]; cbn [option_map] in G3.
    - destruct (obj_get (bs "nextCursor") o') as [x|]; [|destruct G3]. inversion G3; subst. reflexivity.
    - destruct (obj_get (bs "nextCursor") o'); [destruct G3|reflexivity]. }
  destruct (same_get_some _ _ _ _ N H G1) as (v' & E' & S). rewrite E'. inversion S as [| | | | |a b F|]; subst.
  eexists. split; [reflexivity|]. now apply parse_items.
Qed.

Lemma page_params_asks : forall n c, (0 < n)%Z -> exists o, page_params c (Some n) = Some (JObj o) /\ NoDup (map fst o) /\ asks n c (Some (JObj o)).
Proof.
  intros n c Hn. unfold page_params. assert (Z.ltb 0 n = true) as -> by lia.
  destruct c as [c|]; cbn [opt_set]; eexists; (split; [reflexivity|]); (split; [nodups|]); eexists; (split; [reflexivity|]); split; reflexivity.
Qed.

Lemma list_all_from : forall n, (0 < n < 2 ^ 63)%Z -> forall fuel c start, starts c start -> (start <= N.of_nat (length l))%N ->
  N.to_nat (N.of_nat (length l) - start) < fuel ->
  exists r, list_all (remote net key parse (list_result key js l)) (Some n) fuel c = Some r /\ Forall2 R (skipn (N.to_nat start) l) r.
Proof.
  intros n Hn. induction fuel as [|f IH]; intros c start Hc Hs Hf; [lia|]. cbn [list_all].
  destruct (page_params_asks n c ltac:(lia)) as (o & -> & Nd & Ha). unfold remote at 1. cbn [option_map].
  pose proof (paging_asks l Hsize n c start _ Hn Hc ltac:(lia) Ha) as E. rewrite <- (paging_same o _ Nd (Hnet _)) in E.
  rewrite (list_result_at key js l Hsize n start _ Hn Hs E).
  destruct (parse_page_result (firstn (Z.to_nat n) (skipn (N.to_nat start) l)) (then_next l start n)) as (r & Ep & F).
  { intros x Hx. apply (skipn_incl _ (N.to_nat start) l x). exact (firstn_incl _ _ _ x Hx). }
  unfold from. rewrite Ep. unfold then_next. destruct (N.ltb (start + Z.to_N n) (N.of_nat (length l))) eqn:El.
  - apply N.ltb_lt in El.
    destruct (IH (Some (print_N (start + Z.to_N n))) (start + Z.to_N n)%N eq_refl ltac:(lia) ltac:(lia)) as (r' & -> & F').
    exists (r ++ r'). split; [reflexivity|].
    rewrite <- (firstn_skipn (Z.to_nat n) (skipn (N.to_nat start) l)), skipn_skipn'. apply Forall2_app; [exact F|].
    replace (N.to_nat start + Z.to_nat n) with (N.to_nat (start + Z.to_N n)) by lia. exact F'.
  - apply N.ltb_ge in El. exists r. split; [reflexivity|]. rewrite firstn_all2 in F; [exact F|]. rewrite skipn_length. lia.
Qed.

Lemma list_all_spec : forall limit fuel, (forall n, limit = Some n -> (n < 2 ^ 63)%Z) -> length l < fuel ->
  exists r, list_all (remote net key parse (list_result key js l)) limit fuel None = Some r /\ Forall2 R l r.
Proof.
  intros limit fuel Hl Hf.
  assert ((exists n, limit = Some n /\ (0 < n)%Z) \/ page_params None limit = None) as [(n & -> & Hn)|E].
  { destruct limit as [n|]; [|now right]. unfold page_params. destruct (Z.ltb 0 n) eqn:En; [left; exists n; split; [reflexivity|lia]|now right]. }
  - exact (list_all_from n (conj Hn (Hl n eq_refl)) fuel None 0%N eq_refl ltac:(lia) ltac:(lia)).
  - destruct fuel as [|f]; [lia|]. cbn [list_all]. rewrite E. unfold remote at 1. cbn [option_map].
    assert (list_result key js l None = JObj (opt_set (bs "nextCursor") JStr None (obj_set key (JArr (map js l)) []))) as ->.
    { unfold list_result. cbn [paging]. assert (N.ltb (N.of_nat (length l)) 0 = false) as -> by lia. cbn [next_cursor opt_set N.to_nat skipn].
      do 4 f_equal. rewrite firstn_all2; [reflexivity|lia]. }
    destruct (parse_page_result l None (incl_refl l)) as (r & -> & F). now exists r.
Qed.
End ListAll.

(** Sizes. *)
Lemma aset_len : forall A k (v : A) m, length (aset k v m) <= S (length m).
Proof. intros A k v m. induction m as [|[k' v'] m IH]; cbn; [lia|]. destruct (beq k k'); cbn; lia. Qed.
Lemma adel_len : forall A k (m : list (bstr * A)), length (adel k m) <= length m.
Proof. intros A k m. induction m as [|[k' v'] m IH]; cbn; [lia|]. destruct (beq k k'); cbn; lia. Qed.
Lemma filter_len : forall A p (l : list A), length (filter p l) <= length l.
Proof. intros A p l. induction l as [|x l IH]; cbn; [lia|]. destruct (p x); cbn; lia. Qed.

Lemma sizes : forall ops, length (rg_tm (reg_run ops)) <= length ops /\ length (rg_ru (reg_run ops)) <= length ops /\
  length (rg_rt (reg_run ops)) <= length ops /\ length (rg_pm (reg_run ops)) <= length ops.
Proof.
  intro ops. induction ops as [|o ops IH] using rev_ind; [cbn; lia|]. rewrite reg_run_snoc, app_length. cbn [length].
  revert IH. generalize (reg_run ops). intros g IH. destruct o; cbn [reg_step];
  unfold reg_tool_name, reg_tool, unreg_tool, reg_resource_uri, reg_resource, unreg_resource, reg_prompt_name, reg_prompt, unreg_prompt, reg_template, unreg_template, without_template;
  cbn [set_tools set_resources set_templates set_prompts rg_tm rg_ru rg_rt rg_pm].
  - pose proof (aset_len _ n (default_tool n) (rg_tm g)). destruct (aget n (rg_tm g)); lia.
  - pose proof (aset_len _ (tl_name t) t (rg_tm g)). lia.
  - pose proof (adel_len _ n (rg_tm g)). lia.
  - destruct (aget _ (rg_rh g)); rewrite ?app_length; cbn [length]; lia.
  - destruct (aget _ (rg_rh g)); rewrite ?app_length; cbn [length]; lia.
  - pose proof (filter_len _ (fun v => negb (beq v u)) (rg_ru g)). lia.
  - pose proof (aset_len _ n (default_prompt n) (rg_pm g)). cbn [pr_name default_prompt]. lia.
  - pose proof (aset_len _ (pr_name p) p (rg_pm g)). lia.
  - pose proof (adel_len _ n (rg_pm g)). lia.
  - pose proof (filter_len _ (fun e => negb (beq (tp_uri (fst e)) (tp_uri t))) (rg_rt g)). rewrite app_length. cbn [length]. lia.
  - pose proof (filter_len _ (fun e => negb (beq (tp_uri (fst e)) u)) (rg_rt g)). lia.
Qed.

Lemma sort_len : forall A key (l : list A), length (sort_by key l) = length l.
Proof. intros A key l. symmetry. apply Permutation_length, sort_perm. Qed.

Lemma visible_len : forall ui g, length (visible_resources ui g) <= length (rg_ru g).
Proof.
  intros ui g. unfold visible_resources. induction (rg_ru g) as [|u l IH]; [cbn; lia|]. cbn [flat_map]. rewrite app_length. cbn [length].
  destruct (aget u (rg_rm g)) as [r|]; [|cbn [length]; lia]. destruct (starts_with UI u); [destruct ui|]; cbn [length]; lia.
Qed.

Lemma tool_list_len : forall ops, length (tool_list (reg_run ops)) <= length ops.
Proof. intro ops. unfold tool_list. rewrite sort_len, map_length. apply sizes. Qed.
Lemma resource_list_len : forall ui ops, length (resource_list ui (reg_run ops)) <= length ops.
Proof.
  intros ui ops. unfold resource_list. rewrite sort_len. pose proof (visible_len ui (reg_run ops)). destruct (sizes ops) as (_ & H1 & _). lia.
Qed.
Lemma template_list_len : forall ops, length (template_list (reg_run ops)) <= length ops.
Proof. intro ops. unfold template_list. rewrite sort_len, map_length. apply sizes. Qed.
Lemma prompt_list_len : forall ops, length (prompt_list (reg_run ops)) <= length ops.
Proof. intro ops. unfold prompt_list. rewrite sort_len, map_length. apply sizes. Qed.

Lemma tools_of_unique : forall ops l l', tools_of ops l -> tools_of ops l' -> l = l'.
Proof. intros ops l l' [S1 H1] [S2 H2]. apply (in_order_unique tl_name); [exact S1|exact S2|]. intro t. now rewrite H1, H2. Qed.
Lemma resources_of_unique : forall ui ops l l', resources_of ui ops l -> resources_of ui ops l' -> l = l'.
Proof. intros ui ops l l' [S1 H1] [S2 H2]. apply (in_order_unique rs_uri); [exact S1|exact S2|]. intro t. now rewrite H1, H2. Qed.
Lemma templates_of_unique : forall ops l l', templates_of ops l -> templates_of ops l' -> l = l'.
Proof. intros ops l l' [S1 H1] [S2 H2]. apply (in_order_unique tp_uri); [exact S1|exact S2|]. intro t. now rewrite H1, H2. Qed.
Lemma prompts_of_unique : forall ops l l', prompts_of ops l -> prompts_of ops l' -> l = l'.
Proof. intros ops l l' [S1 H1] [S2 H2]. apply (in_order_unique pr_name); [exact S1|exact S2|]. intro t. now rewrite H1, H2. Qed.

(** C28 for one registry. *)
Lemma pages_spec : forall A (P : list A -> Prop) key js l0, key <> bs "nextCursor" -> (N.of_nat (length l0) < 2 ^ 63)%N -> P l0 ->
  exists l, P l /\ forall n, (0 < n < 2 ^ 63)%Z ->
    (exists pages, follow (list_result key js l0) key n None pages) /\
    forall pages, follow (list_result key js l0) key n None pages ->
      concat pages = map js l /\ Forall (fun p => (Z.of_nat (length p) <= n)%Z) pages.
Proof.
  intros A P key js l K S H. exists l. split; [exact H|]. intros n Hn. split; [exact (follow_ends key js l K S n Hn)|]. intros pages F. exact (follow_all key js l K S n pages Hn F).
Qed.

Lemma few_len : forall a b, a <= b -> (N.of_nat b < 2 ^ 63)%N -> (N.of_nat a < 2 ^ 63)%N.
Proof. lia. Qed.

(** C30. *)
Lemma paging_outside : forall o z total, int64 z -> (obj_get (bs "cursor") o = Some (JStr (print_Z z)) \/ obj_get (bs "cursor") o = Some (JInt z)) ->
  (z < 0 \/ Z.of_N total <= z)%Z -> (total < 2 ^ 63)%N -> (forall n, obj_get (bs "limit") o = Some (JInt n) -> (n < 2 ^ 63)%Z) ->
  exists s limit, paging (Some (JObj o)) = (s, limit) /\ (total <= s)%N /\ (forall n, limit = Some n -> (n < 2 ^ 63)%N).
Proof.
  intros o z total Hz Hc Ho Ht Hl. unfold paging. eexists. eexists. split; [reflexivity|]. split.
  - assert (total <= Z.to_N (z mod Z.of_N two64))%N as K.
    { unfold int64 in Hz. change two63 with (2 ^ 63)%Z in Hz. rewrite two64_val. change (Z.of_N (2 ^ 64)) with (2 ^ 64)%Z. destruct Ho as [Ho|Ho].
      - assert (z mod 2 ^ 64 = z + 2 ^ 64)%Z as -> by (symmetry; apply (Z.mod_unique _ _ (-1)); lia). lia.
      - rewrite Z.mod_small by lia. lia. }
    destruct Hc as [-> | ->]; [|exact K]. unfold cursor_start. rewrite <- (app_nil_r (print_Z z)), stoll_print_Z; [|exact I|exact Hz]. exact K.
  - intros n. destruct (obj_get (bs "limit") o) as [[| |m| | | |]|]; try discriminate. specialize (Hl m eq_refl).
    destruct (Z.ltb 0 m) eqn:E; [|discriminate]. intro H. injection H as <-. lia.
Qed.

(** Reading back without a condition on icons: the name is right, and if the icon themes are
    known, so is everything else. *)
Lemma tool_back_any : forall t v, same (tool_json t) v ->
  exists o, v = JObj o /\ tl_name (parse_tool o) = tl_name t /\ (themed (tl_icons t) -> same_tool t (parse_tool o)).
Proof.
  intros t v H. pose proof H as H'. unfold tool_json in H'. destruct (same_obj_inv _ _ H') as (o1 & o' & -> & _). exists o'. split; [reflexivity|]. split.
  - match type of H' with same (JObj ?x) _ => set (O := x) in * end.
    assert (NoDup (map fst O)) as N by (subst O; unfold set_icons; nodups).
    cbn [parse_tool tl_name]. rewrite (get_str_same _ _ _ N H'). unfold get_str, O. objs. reflexivity.
  - intro T. destruct (tool_back t _ T H) as (o & E & S). injection E as <-. exact S.
Qed.

Lemma resource_back_any : forall t v, same (resource_json t) v ->
  exists o, v = JObj o /\ rs_uri (parse_resource o) = rs_uri t /\ (themed (rs_icons t) -> same_resource t (parse_resource o)).
Proof.
  intros t v H. pose proof H as H'. unfold resource_json in H'. destruct (same_obj_inv _ _ H') as (o1 & o' & -> & _). exists o'. split; [reflexivity|]. split.
  - match type of H' with same (JObj ?x) _ => set (O := x) in * end.
    assert (NoDup (map fst O)) as N by (subst O; unfold set_icons; nodups).
    cbn [parse_resource rs_uri]. rewrite (get_str_same _ _ _ N H'). unfold get_str, O. objs. reflexivity.
  - intro T. destruct (resource_back t _ T H) as (o & E & S). injection E as <-. exact S.
Qed.

Lemma template_back_any : forall t v, same (template_json t) v ->
  exists o, v = JObj o /\ tp_uri (parse_template o) = tp_uri t /\ (themed (tp_icons t) -> same_template t (parse_template o)).
Proof.
  intros t v H. pose proof H as H'. unfold template_json in H'. destruct (same_obj_inv _ _ H') as (o1 & o' & -> & _). exists o'. split; [reflexivity|]. split.
  - match type of H' with same (JObj ?x) _ => set (O := x) in * end.
    assert (NoDup (map fst O)) as N by (subst O; unfold set_icons; nodups).
    cbn [parse_template tp_uri]. rewrite (get_str_same _ _ _ N H'). unfold get_str, O. objs. reflexivity.
  - intro T. destruct (template_back t _ T H) as (o & E & S). injection E as <-. exact S.
Qed.

Lemma prompt_back_any : forall t v, same (prompt_json t) v ->
  exists o, v = JObj o /\ pr_name (parse_prompt o) = pr_name t /\ (themed (pr_icons t) -> same_prompt t (parse_prompt o)).
Proof.
  intros t v H. pose proof H as H'. unfold prompt_json in H'. destruct (same_obj_inv _ _ H') as (o1 & o' & -> & _). exists o'. split; [reflexivity|]. split.
  - match type of H' with same (JObj ?x) _ => set (O := x) in * end.
    assert (NoDup (map fst O)) as N by (subst O; unfold set_icons; nodups).
    cbn [parse_prompt pr_name]. rewrite (get_str_same _ _ _ N H'). unfold get_str, O. objs. reflexivity.
  - intro T. destruct (prompt_back t _ T H) as (o & E & S). injection E as <-. exact S.
Qed.

