(** After Close: what is asked of a closed transport is completed at once. *)
From Coq Require Import List Arith Bool Lia.
From Verif Require Import HlifeModel HlifeSpec HlifeInv HlifeStep HlifeLive HlifeCall HlifeReply HlifeSafe HlifeBad.
Import ListNotations.
Local Open Scope nat_scope.

Lemma complete_ready : forall (A : Type) (o : A) k l, ~ In None l -> ~ In None (complete k o l).
Proof.
  intros A o k l. revert k. induction l as [|x r IH]; intros k H; [destruct k; exact H|].
  destruct k as [|k]; cbn.
  - intros [E|E]; [destruct x; [discriminate|]; discriminate|]. apply H. now right.
  - intros [E|E]; [apply H; now left|]. apply (IH k); [|exact E]. intro X. apply H. now right.
Qed.

Lemma complete_all_ready : forall (A : Type) (o : A) l, ~ In None (complete_all o l).
Proof.
  intros A o l H. unfold complete_all in H. apply in_map_iff in H. destruct H as (x & E & _). destruct x; discriminate.
Qed.

Definition quiet (s : hl) : Prop := hl_conn s = false /\ all_ready s.

Lemma answer_quiet : forall k o s, quiet s -> quiet (answer k o s).
Proof. intros k o s [A B]. split; [exact A|]. unfold all_ready in *. cbn. apply complete_ready. exact B. Qed.

Lemma finish_quiet : forall k r s, quiet s -> quiet (finish k r s).
Proof. intros k r s H. destruct r; cbn; [apply answer_quiet|apply answer_quiet|]; exact H. Qed.

Lemma settle_quiet : forall c j r s, quiet s -> quiet (settle c j r s).
Proof.
  intros c j r s H. destruct j; cbn; try exact H.
  destruct (_ && _)%bool; [exact H|apply finish_quiet; exact H].
Qed.

Lemma take_quiet : forall c s, quiet s -> quiet (take c s).
Proof.
  intros c s H. unfold take. destruct (hl_ready s) as [|[j|j r] q]; try exact H.
  destruct (hk_tls c); [destruct j; first [exact H|apply settle_quiet; exact H]|apply settle_quiet; exact H].
Qed.

Lemma nap_quiet : forall s, quiet s -> quiet (nap s).
Proof. intros s H. exact H. Qed.

Lemma call_quiet : forall w p s, quiet s -> quiet (call_step w p s).
Proof.
  intros w p s [A B]. assert (H : quiet s) by (split; assumption). destruct p as [|d|d|d|d|d]; cbn.
  - destruct (hl_deleted s); exact H.
  - exact H.
  - destruct (hl_sse s); try exact H; destruct w, d; exact H.
  - destruct d; [destruct (hl_io s); exact H|]. split; [reflexivity|exact B].
  - destruct (hl_io s); try exact H; destruct w, d; exact H.
  - destruct d; [destruct (hl_sse s); try exact H|]; split; try exact A; unfold all_ready; cbn; apply complete_all_ready.
Qed.

Lemma step_quiet : forall c s v, v <> VStart -> quiet s -> quiet (hlstep c s v).
Proof.
  intros c s v NV H. pose proof H as [A B]. unfold hlstep. destruct (hl_life s); try exact H.
  destruct v; try congruence.
  - rewrite A. split; [exact A|]. unfold all_ready in *. cbn. intro X. apply in_app_or in X.
    destruct X as [X|[X|[]]]; [exact (B X)|discriminate].
  - rewrite A. exact H.
  - destruct (may_call w s); [|exact H]. rewrite A. exact H.
  - destruct (may_call w s); exact H.
  - destruct (hl_call s) as [[w p]|]; [apply call_quiet; exact H|exact H].
  - destruct (drop_job j (hl_flight s)); exact H.
  - destruct (hl_io s); try exact H. destruct (hl_stop s); [exact H|apply take_quiet; exact H].
  - destruct (hl_io s); try exact H. apply settle_quiet. exact H.
  - destruct (hl_io s); try exact H. destruct (hl_sse s); try exact H. apply finish_quiet. exact H.
  - destruct (hl_io s) as [| | | |k q|]; try exact H. destruct (in_call ByIo s); [exact H|]. destruct q; [exact H|apply answer_quiet; exact H].
  - destruct (hl_io s); try exact H. destruct (hl_stop s); exact H.
  - destruct (hl_sse s); try exact H. destruct (_ && _)%bool; exact H.
  - destruct (hl_sse s); try exact H. destruct ok; exact H.
  - destruct (hl_sse s); try exact H. destruct (hl_authed s); exact H.
  - destruct (hl_sse s); try exact H. destruct (_ && _)%bool; exact H.
  - destruct (hl_sse s); try exact H.
  - destruct (hl_sse s) as [| | | | |more| |]; try exact H. destruct (in_call BySse s); [exact H|]. destruct more; [|exact H].
    unfold read_on. destruct (_ && _)%bool; exact H.
  - destruct (hl_sse s); try exact H.
  - destruct (hl_sse s); try exact H.
Qed.

Lemma run_quiet : forall c h s, ~ In VStart h -> quiet s -> quiet (hlrun c s h).
Proof.
  induction h as [|v h IH]; intros s N H; [exact H|]. cbn. apply IH; [intro X; apply N; now right|].
  apply step_quiet; [intros ->; apply N; now left|exact H].
Qed.

Lemma closed_after : forall c s w h,
  reach c s -> hl_rets (hlstep c s VCall) = hl_rets s ++ [(w, true)] -> ~ In VStart h ->
  let t := hlrun c (hlstep c s VCall) h in
  hl_conn t = false /\ all_ready t /\
  (hl_life t = Alive -> forall i,
     hl_futs (hlstep c t (VSend i)) = hl_futs t ++ [Some OError] /\
     hl_notes (hlstep c t VNote) = hl_notes t ++ [Some true]).
Proof.
  intros c s w h R E N t. destruct (close_clean c s w R E) as (_ & C & _ & _ & RD & _).
  destruct (run_quiet c h _ N (conj C RD)) as [A B]. fold t in A, B.
  split; [exact A|]. split; [exact B|]. intros L i. unfold hlstep. rewrite L, A. split; reflexivity.
Qed.
