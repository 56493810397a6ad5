From Coq Require Import Ascii String List Permutation Arith NArith ZArith Bool Lia ZifyBool ZifyNat ZifyN.
From Verif Require Import StrModel StrProofs DoubleModel JsonModel MapModel TaskModel SubModel SubSpec.
Import ListNotations.
Local Open Scope nat_scope.

Lemma mem_iff : forall u l, mem u l = true <-> In u l.
Proof.
  intros u l. unfold mem. rewrite existsb_exists. split; [intros (x & I & E); apply beq_eq in E; now subst x|].
  intro I. exists u. split; [exact I|apply beq_refl].
Qed.
Lemma insert_iff : forall u v l, In v (insert_uri u l) <-> v = u \/ In v l.
Proof.
  intros u v l. unfold insert_uri. destruct (mem u l) eqn:E.
  - apply mem_iff in E. split; [now right|]. intros [-> |H]; assumption.
  - rewrite in_app_iff. cbn. intuition.
Qed.
Lemma erase_iff : forall u v l, In v (erase_uri u l) <-> v <> u /\ In v l.
Proof.
  intros u v l. unfold erase_uri. rewrite filter_In. destruct (beq u v) eqn:E.
  - apply beq_eq in E. subst v. cbn. intuition discriminate.
  - apply beq_neq in E. cbn. intuition congruence.
Qed.

Lemma uri_param_some : forall p u, uri_param p = Some u <-> names_uri p u.
Proof.
  intros p u. unfold uri_param, names_uri, get_str. split.
  - destruct p as [[| | | | | |o]|]; try discriminate. intro H. exists o. split; [reflexivity|].
    destruct (obj_get (bs "uri") o) as [[| | | |s| |]|]; try discriminate. now injection H as ->.
  - intros (o & -> & ->). reflexivity.
Qed.
Lemma uri_param_none : forall p, uri_param p = None <-> names_none p.
Proof.
  intro p. unfold names_none. split.
  - intros H u N. apply uri_param_some in N. congruence.
  - intro H. destruct (uri_param p) as [u|] eqn:E; [|reflexivity]. apply uri_param_some in E. now apply H in E.
Qed.

(** subscribed, one operation at a time. *)
Lemma subscribed_nil : forall u, ~ subscribed [] u.
Proof. intros u (b & p & a & E & _). now destruct b. Qed.

Lemma subscribed_snoc : forall ops o u, subscribed (ops ++ [o]) u <->
  match o with
  | OSubscribe p => names_uri p u \/ subscribed ops u
  | OUnsubscribe q => subscribed ops u /\ ~ names_uri q u /\ ~ names_none q
  | OUpdated _ => subscribed ops u
  end.
Proof.
  intros ops o u.
  assert (forall b p a, ops ++ [o] = b ++ OSubscribe p :: a ->
    (a = [] /\ o = OSubscribe p) \/ (exists a', a = a' ++ [o] /\ ops = b ++ OSubscribe p :: a')) as Inv.
  { intros b p a E. destruct a as [|x a] using rev_ind.
    - left. apply app_inj_tail in E. split; [reflexivity|now destruct E].
    - right. clear IHa. exists a. change (OSubscribe p :: a ++ [x]) with ((OSubscribe p :: a) ++ [x]) in E. rewrite app_assoc in E.
      apply app_inj_tail in E. destruct E as [-> ->]. now split. }
  assert (forall b p a, ops = b ++ OSubscribe p :: a -> ops ++ [o] = b ++ OSubscribe p :: (a ++ [o])) as Ext.
  { intros b p a ->. now rewrite <- app_assoc. }
  split.
  - intros (b & p & a & E & N & H). destruct (Inv b p a E) as [(-> & ->)|(a' & -> & E')].
    + now left.
    + assert (subscribed ops u) as S.
      { exists b, p, a'. split; [exact E'|]. split; [exact N|]. intros q I. apply H. apply in_or_app. now left. }
      destruct o as [q|q|v]; [now right| |exact S]. split; [exact S|]. apply H. apply in_or_app. right. now left.
  - destruct o as [q|q|v].
    + intros [N|(b & p & a & E & N & H)].
      * exists ops, q, []. split; [reflexivity|]. split; [exact N|]. intros q' [].
      * exists b, p, (a ++ [OSubscribe q]). split; [now apply Ext|]. split; [exact N|]. intros q' I. apply in_app_iff in I.
        destruct I as [I|[I|[]]]; [now apply H|discriminate].
    + intros ((b & p & a & E & N & H) & N1 & N2). exists b, p, (a ++ [OUnsubscribe q]). split; [now apply Ext|]. split; [exact N|].
      intros q' I. apply in_app_iff in I. destruct I as [I|[I|[]]]; [now apply H|]. injection I as <-. now split.
    + intros (b & p & a & E & N & H). exists b, p, (a ++ [OUpdated v]). split; [now apply Ext|]. split; [exact N|].
      intros q' I. apply in_app_iff in I. destruct I as [I|[I|[]]]; [now apply H|discriminate].
Qed.

Lemma sub_run_snoc : forall ops o, sub_run (ops ++ [o]) = sub_step (sub_run ops) o.
Proof. intros. unfold sub_run. now rewrite fold_left_app. Qed.

Lemma uris_spec : forall ops u, In u (sb_uris (sub_run ops)) <-> subscribed ops u.
Proof.
  intros ops. induction ops as [|o ops IH] using rev_ind; intro u.
  - split; [intros []|intro H; now apply subscribed_nil in H].
  - rewrite sub_run_snoc, subscribed_snoc. destruct o as [p|p|v]; cbn [sub_step].
    + unfold subscribe. destruct (uri_param p) as [w|] eqn:E; cbn [sub_act_step sb_uris].
      * rewrite insert_iff, IH. apply uri_param_some in E. split; [intros [-> |H]; [now left|now right]|]. intros [N|H]; [|now right].
        left. destruct E as (o1 & -> & E1), N as (o2 & E2 & E3). injection E2 as <-. congruence.
      * rewrite IH. rewrite uri_param_none in E. split; [now right|]. intros [N|H]; [now apply E in N|exact H].
    + unfold unsubscribe. destruct (uri_param p) as [w|] eqn:E; cbn [sub_act_step sb_uris].
      * rewrite erase_iff, IH. apply uri_param_some in E. split.
        -- intros [N H]. split; [exact H|]. split; [|intro X; now apply X in E]. intro X. apply N.
           destruct E as (o1 & -> & E1), X as (o2 & E2 & E3). injection E2 as <-. congruence.
        -- intros (H & N & _). split; [|exact H]. intros ->. now apply N.
      * rewrite uri_param_none in E. split; [intros []|]. intros (_ & _ & N). now apply N.
    + unfold notify_updated. destruct (should_send v (sub_run ops)); cbn [sb_uris]; apply IH.
Qed.

Lemma flag_spec : forall ops, sb_flag (sub_run ops) = false -> sb_uris (sub_run ops) = [].
Proof.
  intros ops. induction ops as [|o ops IH] using rev_ind; [reflexivity|]. rewrite sub_run_snoc.
  destruct o as [p|p|v]; cbn [sub_step].
  - unfold subscribe. destruct (uri_param p); cbn; discriminate.
  - unfold unsubscribe. destruct (uri_param p); cbn; [|reflexivity]. unfold not_empty. cbn.
    now destruct (erase_uri b (sb_uris (sub_run ops))).
  - unfold notify_updated. destruct (should_send v (sub_run ops)); cbn; exact IH.
Qed.

Lemma should_iff : forall ops u, should_send u (sub_run ops) = true <-> (subscribed ops u \/ forall v, ~ subscribed ops v).
Proof.
  intros ops u. unfold should_send. destruct (sb_flag (sub_run ops)) eqn:F.
  - destruct (sb_uris (sub_run ops)) as [|x l] eqn:E.
    + split; [|reflexivity]. intros _. right. intros v S. apply uris_spec in S. now rewrite E in S.
    + rewrite <- E, mem_iff, uris_spec. split; [now left|]. intros [S|S]; [exact S|]. exfalso.
      apply (S x). apply uris_spec. rewrite E. now left.
  - split; [|reflexivity]. intros _. right. intros v S. apply uris_spec in S. now rewrite (flag_spec ops F) in S.
Qed.
