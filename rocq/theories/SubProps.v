(** Subscriptions: C37. *)
From Coq Require Import Ascii String List Permutation Arith NArith ZArith Bool Lia.
From Verif Require Import StrModel StrProofs DoubleModel JsonModel MapModel TaskModel SubModel SubSpec SubProofs.
Import ListNotations.
Local Open Scope nat_scope.

(** C37: an update is sent exactly when the client is subscribed to its URI or to nothing at all.
    Here for requests handled one after the other. *)
Theorem C37_sent_partial : forall (ops : list sub_op) (u : bstr),
  ((subscribed ops u \/ (forall v, ~ subscribed ops v)) -> sb_sent (sub_run (ops ++ [OUpdated u])) = sb_sent (sub_run ops) ++ [u]) /\
  (~ subscribed ops u -> (exists v, subscribed ops v) -> sb_sent (sub_run (ops ++ [OUpdated u])) = sb_sent (sub_run ops)).
Proof.
  intros ops u. rewrite sub_run_snoc. cbn [sub_step]. unfold notify_updated. pose proof (should_iff ops u) as S. split.
  - intro H. now rewrite (proj2 S H).
  - intros N (v & V). destruct (should_send u (sub_run ops)); [|reflexivity]. destruct (proj1 S eq_refl) as [H|H]; [contradiction|]. now apply H in V.
Qed.
Print Assumptions C37_sent_partial.

(** C37: nothing else sends updates. *)
Theorem C37_only_updates : forall (ops : list sub_op) (p : option json),
  sb_sent (sub_run (ops ++ [OSubscribe p])) = sb_sent (sub_run ops) /\ sb_sent (sub_run (ops ++ [OUnsubscribe p])) = sb_sent (sub_run ops).
Proof.
  intros ops p. rewrite !sub_run_snoc. cbn [sub_step]. unfold subscribe, unsubscribe. destruct (uri_param p); split; reflexivity.
Qed.
Print Assumptions C37_only_updates.

(** C37: a client that never subscribed gets every update. *)
Theorem C37_never_subscribed : forall (ops : list sub_op) (u : bstr), (forall p, ~ In (OSubscribe p) ops) ->
  sb_sent (sub_run (ops ++ [OUpdated u])) = sb_sent (sub_run ops) ++ [u].
Proof.
  intros ops u H. apply (proj1 (C37_sent_partial ops u)). right. intros v (b & p & a & -> & _). apply (H p). apply in_or_app. right. now left.
Qed.
Print Assumptions C37_never_subscribed.

Definition u_param (u : string) : option json := Some (JObj [(bs "uri", JStr (bs u))]).

(** C37: but so does a client that gave up its last subscription. *)
Theorem C37_after_unsubscribe_refuted : exists (ops : list sub_op) (u : bstr) (p : option json),
  In (OSubscribe p) ops /\ (forall v, ~ subscribed ops v) /\
  sb_sent (sub_run (ops ++ [OUpdated u])) = sb_sent (sub_run ops) ++ [u].
Proof.
  exists [OSubscribe (u_param "a"); OUnsubscribe (u_param "a")], (bs "a"), (u_param "a").
  split; [now left|]. split; [|reflexivity]. intros v S. apply uris_spec in S. exact S.
Qed.
Print Assumptions C37_after_unsubscribe_refuted.

(** C37: and if an unsubscribe and a subscribe overlap, the subscription may not restrict anything:
    the client is subscribed to b only and still gets c. *)
Theorem C37_overlap_refuted : exists (ops : list sub_op) (u v w : bstr),
  let s := overlapped u v (sub_run ops) in
  sb_uris s = [v] /\ v <> w /\ sb_sent (notify_updated w s) = [w].
Proof. exists [OSubscribe (u_param "a")], (bs "a"), (bs "b"), (bs "c"). repeat split. discriminate. Qed.
Print Assumptions C37_overlap_refuted.

Example C37_ex :
  let ops := [OSubscribe (u_param "a"); OSubscribe (u_param "b"); OUnsubscribe (u_param "a"); OUpdated (bs "a"); OUpdated (bs "b")] in
  sb_sent (sub_run ops) = [bs "b"] /\ subscribed ops (bs "b") /\ ~ subscribed ops (bs "a").
Proof.
  cbv zeta. split; [reflexivity|]. split.
  - apply uris_spec. vm_compute. now left.
  - intro S. apply uris_spec in S. vm_compute in S. destruct S as [S|[]]. discriminate.
Qed.
