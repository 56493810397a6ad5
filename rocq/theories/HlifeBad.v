(** Lives in which Close, the destructor or a response does not do what is expected. *)
From Coq Require Import List Arith Bool Lia.
From Verif Require Import HlifeModel HlifeSpec HlifeInv HlifeStep HlifeLive HlifeCall HlifeReply HlifeSafe.
Import ListNotations.
Local Open Scope nat_scope.

Lemma run_inv : forall c (P : hl -> Prop) (G : hlact -> Prop), (forall s v, G v -> P s -> P (hlstep c s v)) -> forall h s, (forall v, In v h -> G v) -> P s -> P (hlrun c s h).
Proof. intros c P G St. induction h as [|v h IH]; intros s A B; [exact B|]. cbn. apply IH; [intros; apply A; now right|]. apply St; [apply A; now left|exact B]. Qed.

Ltac ok := first [assumption|reflexivity|congruence].

(** Close waits for a DELETE that only the i/o thread can carry out, in a handler on the i/o thread. *)
Definition stuck_io (r : list (caller * bool)) (k : nat) (s : hl) : Prop :=
  hl_rets s = r /\ nth_error (hl_futs s) k = Some None /\
  (hl_life s = Crashed \/ (hl_life s = Alive /\ hl_call s = Some (ByIo, KDelete) /\ hl_deleted s = false /\ exists j q, hl_io s = IUser j q)).
Lemma nth_snoc : forall (A : Type) (l : list A) k x y, nth_error l k = Some x -> nth_error (l ++ [y]) k = Some x.
Proof. intros A l k x y E. rewrite nth_error_app1; [exact E|]. apply nth_error_Some. congruence. Qed.
Lemma stuck_io_step : forall c r k s v, stuck_io r k s -> stuck_io r k (hlstep c s v).
Proof.
  intros c r k s v (A & B & [C|(L & C & D & j & q & E)]); unfold hlstep.
  - rewrite C. split; [exact A|]. split; [exact B|]. now left.
  - rewrite L. unfold stuck_io.
    destruct v; cbv beta iota; go; unfold call_step, own_thread; rewrite ?C, ?D, ?E; brk; see; (split; [exact A|]); (split; [first [exact B|now apply nth_snoc]|]);
      try (left; reflexivity); right; (split; [ok|]); (split; [ok|]); (split; [ok|]); first [now eauto|do 2 eexists; reflexivity|do 2 eexists; eassumption].
Qed.
Lemma stuck_io_run : forall c r k h s, stuck_io r k s -> stuck_io r k (hlrun c s h).
Proof. intros c r k h s. apply (run_inv c _ (fun _ => True)); [intros t v _; apply stuck_io_step|auto]. Qed.

(** After Close and Start the io_context is still stopped. *)
Definition dead_io (s : hl) : Prop := hl_stop s = true /\ hl_enabled s = false /\ (hl_io s = IIdle \/ hl_io s = IEnded) /\ (hl_sse s = SNone \/ hl_sse s = STop \/ hl_sse s = SOver).
Definition stuck_again (r : list (caller * bool)) (s : hl) : Prop :=
  hl_rets s = r /\ (hl_life s = Crashed \/ (hl_life s = Alive /\ dead_io s /\ hl_call s = Some (ByApp, KDelete) /\ hl_deleted s = false)).
Lemma stuck_again_step : forall c r s v, stuck_again r s -> stuck_again r (hlstep c s v).
Proof.
  intros c r s v (A & [C|(L & (D1 & D2 & D3 & D4) & C & D)]); unfold hlstep.
  - rewrite C. split; [exact A|]. now left.
  - rewrite L. unfold stuck_again, dead_io.
    destruct v; cbv beta iota; go; unfold call_step, own_thread; rewrite ?C, ?D, ?D1, ?D2, ?andb_false_r; brk; see; (split; [exact A|]);
      try (left; reflexivity); try (exfalso; intuition congruence);
      right; (split; [ok|]); (split; [|split; [ok|ok]]); repeat split; auto; ok.
Qed.
Lemma stuck_again_run : forall c r h s, stuck_again r s -> stuck_again r (hlrun c s h).
Proof. intros c r h s. apply (run_inv c _ (fun _ => True)); [intros t v _; apply stuck_again_step|auto]. Qed.

Definition lost (k : nat) (s : hl) : Prop := nth_error (hl_futs s) k = Some None /\ (hl_life s = Crashed \/ (hl_life s = Alive /\ dead_io s /\ hl_call s = None)).
Definition not_ending (v : hlact) : Prop := (forall w, v <> VClose w) /\ (forall w, v <> VDestroy w).
Lemma lost_step : forall c k s v, not_ending v -> lost k s -> lost k (hlstep c s v).
Proof.
  intros c k s v (V1 & V2) (A & [C|(L & (D1 & D2 & D3 & D4) & C)]); unfold hlstep.
  - rewrite C. split; [exact A|]. now left.
  - rewrite L. unfold lost, dead_io.
    destruct v; cbv beta iota; try (exfalso; now eapply V1); try (exfalso; now eapply V2); go; rewrite ?C, ?D1, ?D2, ?andb_false_r; brk; see; (split; [first [exact A|now apply nth_snoc|idtac]|]);
      try (left; reflexivity); try (exfalso; intuition congruence);
      right; (split; [ok|]); (split; [|ok]); repeat split; auto; ok.
Qed.
Lemma lost_run : forall c k h s, (forall v, In v h -> not_ending v) -> lost k s -> lost k (hlrun c s h).
Proof. intros c k h s. apply (run_inv c _ not_ending). intros t v. apply lost_step. Qed.

(** The i/o thread waits for the peer to end the TLS connection. *)
Definition hung (k : nat) (s : hl) : Prop :=
  hl_rets s = [] /\ nth_error (hl_futs s) k = Some None /\
  (hl_life s = Crashed \/ (hl_life s = Alive /\ (exists j r, hl_io s = IShut j r) /\ (forall w d, hl_call s <> Some (w, KLast d)) /\ (forall p, hl_call s <> Some (ByIo, p)) /\ hl_sse s = SNone /\ hl_deleted s = false)).
Lemma hung_step : forall c k s v, v <> VShut -> hung k s -> hung k (hlstep c s v).
Proof.
  intros c k s v V (A & B & [C|(L & (j & r & D) & E & E2 & F & G)]); unfold hlstep.
  - rewrite C. split; [exact A|]. split; [exact B|]. now left.
  - rewrite L. unfold hung.
    assert (NI : forall w, may_call w s = true -> w <> ByIo).
    { intros w M ->. apply may_caller in M as (_ & M & _). destruct (M eq_refl) as (? & ? & X). congruence. }
    destruct v; try congruence;
      try (destruct (may_call w s) eqn:M; [apply NI in M|]; brk; see; (split; [exact A|]); (split; [exact B|]); right; (split; [ok|]); (split; [eauto|]);
           (split; [first [discriminate|exact E]|]); (split; [first [intros p X; injection X as X _; contradiction|exact E2]|]); (split; [ok|ok]); fail); cbv beta iota; go; unfold call_step, own_thread; rewrite ?D, ?F, ?G; brk; see;
      try (exfalso; eapply E; eassumption); try (exfalso; eapply E; reflexivity); try (exfalso; eapply E2; eassumption); try (exfalso; eapply E2; reflexivity);
      (split; [exact A|]); (split; [first [exact B|now apply nth_snoc]|]);
      try (left; reflexivity); right; (split; [ok|]); (split; [first [do 2 eexists; eassumption|do 2 eexists; reflexivity]|]); (split; [first [discriminate|exact E|intros; congruence]|]); (split; [first [discriminate|exact E2|intros; congruence]|]); (split; [ok|ok]).
Qed.
Lemma hung_run : forall c k h s, ~ In VShut h -> hung k s -> hung k (hlrun c s h).
Proof. intros c k h s N. apply (run_inv c _ (fun v => v <> VShut)); [intros t v; apply hung_step|]. intros v X ->. contradiction. Qed.
