(** The invariants are kept. *)
From Coq Require Import List Arith Bool Lia.
From Verif Require Import HlifeModel HlifeSpec HlifeInv.
Import ListNotations.
Local Open Scope nat_scope.

Lemma inv_step : forall c v s, HI s -> HI (hlstep c s v).
Proof.
  intros c v s I. destruct v; destruct I.
  all: unfold hlstep; destruct (hl_life s) eqn:L; [|constructor; rewrite ?L; assumption..].
  all: cases c; try (constructor; rewrite ?L; assumption).
  all: opened s.
  all: brk; tidy; subst.
  all: unfold tame in *; constructor; unfold total, deleting, authorizing, tame; tidy;
    [try assumption; cnt|try assumption; cnt|try assumption; cnt|try assumption; clear hi_delete hi_auth hi_noshut hi_sse hi_spawn hi_fresh hi_conn hi_pc hi_late hi_dead hi_stop hi_ended hi_off hi_none; try (lg; fail)|
    try assumption; clear hi_delete hi_auth hi_noshut hi_io hi_spawn hi_fresh hi_conn hi_pc hi_late hi_dead hi_stop hi_ended hi_off hi_none; try (lg; fail)|
    try assumption; clear hi_delete hi_auth hi_noshut hi_io hi_sse hi_late hi_dead hi_stop hi_ended hi_off hi_none; try (lg; fail)|
    try assumption; clear hi_delete hi_auth hi_noshut hi_io hi_sse hi_spawn hi_late hi_dead hi_ended hi_off hi_none; try (lg; fail)|
    try assumption; clear hi_delete hi_auth hi_noshut hi_io hi_sse hi_spawn hi_fresh hi_late hi_dead hi_stop hi_ended hi_off hi_none; try (lg; fail)|
    try assumption; clear hi_delete hi_auth hi_noshut hi_io hi_sse hi_spawn hi_fresh hi_conn hi_late hi_dead hi_stop hi_ended hi_off hi_none; try (lg; fail)|
    try assumption; clear hi_delete hi_auth hi_noshut hi_io hi_sse hi_spawn hi_fresh hi_conn hi_dead hi_stop hi_ended hi_off hi_none; try (lg; fail)|
    try assumption; clear hi_delete hi_auth hi_noshut hi_io hi_sse hi_spawn hi_fresh hi_off; try (lg; fail)|
    try assumption; clear hi_delete hi_auth hi_noshut hi_io hi_sse hi_spawn hi_fresh hi_conn hi_late hi_dead hi_ended hi_off hi_none; try (lg; fail)|
    try assumption; clear hi_delete hi_auth hi_noshut hi_io hi_sse hi_spawn hi_fresh hi_conn hi_pc hi_late hi_dead hi_off hi_none; try (lg; fail)|
    try assumption; clear hi_delete hi_auth hi_noshut hi_spawn hi_fresh hi_conn hi_pc hi_dead hi_stop hi_ended hi_none; try (lg; fail)|
    try assumption; clear hi_delete hi_auth hi_noshut hi_io hi_sse hi_spawn hi_fresh hi_conn hi_late hi_dead hi_stop hi_ended; try (lg; fail)].
  all: try (intros ? ? E; specialize (hi_spawn _ _ E); discriminate hi_spawn).
  - intros _. destruct d; [right; eauto|left; apply (hi_off c0); auto].
  - apply andb_true_iff in Heqb as [-> ->]. right. assert (stop = false) as -> by (destruct stop; [specialize (hi_stop eq_refl); discriminate hi_stop|reflexivity]).
    split; [reflexivity|]. split; intros ->.
    + destruct (hi_none eq_refl) as [E|[(w & E)|E]]; [discriminate E| |discriminate E]. destruct (hi_pc _ _ E) as [[X|[X|[X|[]]]]|X]; discriminate X.
    + specialize (hi_ended eq_refl). discriminate hi_ended.
Qed.
Lemma inv_run : forall c h s, HI s -> HI (hlrun c s h).
Proof. induction h as [|v h IH]; intros s I; [exact I|]. cbn. apply IH, inv_step, I. Qed.
Lemma inv_reach : forall c s, reach c s -> HI s.
Proof. intros c s [h ->]. apply inv_run, inv0. Qed.
