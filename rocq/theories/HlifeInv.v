(** Invariants of the lives of an HTTP client transport. *)
From Coq Require Import List Arith Bool Lia.
From Verif Require Import HlifeModel HlifeSpec.
Import ListNotations.
Local Open Scope nat_scope.

Definition b2n (b : bool) : nat := if b then 1 else 0.
Definition item_job (i : item) : job := match i with QStart j | QEnd j _ => j end.
Fixpoint items (j : job) (l : list item) : nat := match l with [] => 0 | i :: r => b2n (job_eqb j (item_job i)) + items j r end.
Fixpoint flights (j : job) (l : list job) : nat := match l with [] => 0 | i :: r => b2n (job_eqb j i) + flights j r end.
Definition shuts (j : job) (i : ioth) : nat := match i with IShut k _ => b2n (job_eqb j k) | _ => 0 end.

Lemma items_app : forall j a b, items j (a ++ b) = items j a + items j b.
Proof. induction a as [|x a IH]; intro b; cbn; [reflexivity|rewrite IH; lia]. Qed.
Lemma flights_app : forall j a b, flights j (a ++ b) = flights j a + flights j b.
Proof. induction a as [|x a IH]; intro b; cbn; [reflexivity|rewrite IH; lia]. Qed.
Lemma job_eqb_eq : forall a b, job_eqb a b = true -> a = b.
Proof.
  intros [k i|k| | |] [l j|l| | |] E; cbn in E; try discriminate E; try reflexivity.
  - apply andb_true_iff in E as [A B]. apply Nat.eqb_eq in A. apply eqb_prop in B. now subst.
  - apply Nat.eqb_eq in E. now subst.
Qed.
Lemma job_eqb_refl : forall a, job_eqb a a = true.
Proof. intros [k i|k| | |]; cbn; try reflexivity; [|apply Nat.eqb_refl]. now rewrite Nat.eqb_refl, eqb_reflx. Qed.
Lemma drop_flights : forall j x f f', drop_job j f = Some f' -> flights x f = flights x f' + b2n (job_eqb x j).
Proof.
  induction f as [|y f IH]; intros f' E; [discriminate E|]. cbn in E. destruct (job_eqb j y) eqn:Q.
  - injection E as <-. apply job_eqb_eq in Q as <-. cbn. lia.
  - destruct (drop_job j f) as [g|] eqn:D; [|discriminate E]. injection E as <-. cbn. rewrite (IH g eq_refl). lia.
Qed.
Lemma drop_none : forall j f, drop_job j f = None -> flights j f = 0.
Proof.
  induction f as [|y f IH]; intro E; [reflexivity|]. cbn in *. destruct (job_eqb j y) eqn:Q; [discriminate E|]. destruct (drop_job j f); [discriminate E|]. cbn. auto.
Qed.

Definition deleting (s : hl) : nat := match hl_call s with Some (_, KDelete) => 1 | _ => 0 end.
Definition authorizing (s : hl) : nat := match hl_sse s with SAuth => 1 | _ => 0 end.
Definition total (j : job) (s : hl) : nat := items j (hl_ready s) + flights j (hl_flight s) + shuts j (hl_io s).
Definition tame (t : sseth) : Prop := t = SNone \/ t = STop \/ t = SOver.

Record HI (s : hl) : Prop := {
  hi_delete : total JDelete s + b2n (hl_deleted s) = deleting s;
  hi_auth : total JAuth s + b2n (hl_authed s) = authorizing s;
  hi_noshut : shuts JAuth (hl_io s) = 0;
  hi_io : forall p, hl_call s = Some (ByIo, p) -> exists k q, hl_io s = IUser k q;
  hi_sse : forall p, hl_call s = Some (BySse, p) -> exists m, hl_sse s = SUser m;
  hi_spawn : forall k r, hl_io s = ISpawn k r -> hl_sse s = SNone;
  hi_fresh : hl_enabled s = true -> hl_running s = false -> hl_sse s = SNone;
  hi_conn : (hl_io s = INone /\ hl_sse s = SNone) \/ hl_conn s = true \/ hl_enabled s = false;
  hi_pc : forall w p, hl_call s = Some (w, p) -> In p [KDelete; KSse false; KSse true] \/ hl_enabled s = false;
  hi_late : forall w p, hl_call s = Some (w, p) -> In p [KDelete; KSse false; KSse true; KJoin false; KJoin true] \/ tame (hl_sse s);
  hi_dead : tame (hl_sse s) \/ hl_stop s = false /\ hl_io s <> INone /\ hl_io s <> IEnded;
  hi_stop : hl_stop s = true -> hl_enabled s = false;
  hi_ended : hl_io s = IEnded -> hl_stop s = true;
  hi_off : forall w, hl_call s = Some (w, KWait false) \/ hl_call s = Some (w, KLast false) -> hl_conn s = false /\ hl_stop s = true;
  hi_none : hl_io s = INone -> hl_conn s = false \/ (exists w, hl_call s = Some (w, KLast true)) \/ hl_life s = Freed
}.

Lemma inv0 : HI hl0.
Proof. constructor; cbn; try reflexivity; try discriminate; try (left; reflexivity); try (left; left; reflexivity); auto; try (intros; discriminate); intros w [E|E]; discriminate E. Qed.

Ltac brk :=
  repeat match goal with
  | |- context [match ?x with _ => _ end] => destruct x eqn:?; try discriminate
  | |- context [if ?x then _ else _] => destruct x eqn:?; try discriminate
  end.

Ltac opened s :=
  destruct s as [conn enabled running stop io sse ready flight deleted authed futs notes call rets calls life];
  unfold hlstep, take, settle, finish, answer, spawn, read_on, nap, call_step, own_thread, goes, may_call, in_call, tame, total, deleting, authorizing,
    set_flags, set_io, set_sse, set_work, set_ready, set_futs, set_call, set_calls, set_life in *;
  cbn [hl_conn hl_enabled hl_running hl_stop hl_io hl_sse hl_ready hl_flight hl_deleted hl_authed hl_futs hl_notes hl_call hl_rets hl_calls hl_life] in *.

Ltac tidy :=
  cbn [hl_conn hl_enabled hl_running hl_stop hl_io hl_sse hl_ready hl_flight hl_deleted hl_authed hl_futs hl_notes hl_call hl_rets hl_calls hl_life] in *.

Ltac cnt :=
  repeat match goal with
  | D : drop_job ?j ?f = Some _ |- _ => rewrite (drop_flights _ JDelete _ _ D), ?(drop_flights _ JAuth _ _ D) in *; clear D
  | D : drop_job ?j ?f = None |- _ => clear D
  end;
  rewrite ?items_app, ?flights_app in *; cbn [items flights shuts item_job] in *;
  repeat match goal with x : job |- _ => destruct x end; cbn [job_eqb b2n] in *; try lia;
  try match goal with |- _ = match ?x with _ => _ end => destruct x as [[? []]|] || destruct x; cbn [b2n] in *; repeat match goal with b : bool |- _ => destruct b end; cbn [b2n] in *; lia end.


Ltac fwd :=
  repeat match goal with
  | H : Some _ = Some _ |- _ => injection H as H; subst
  | H : (_, _) = (_, _) |- _ => injection H as ? ?; subst
  | H : andb _ _ = true |- _ => apply andb_true_iff in H as [? ?]
  | H : andb _ _ = false |- _ => apply andb_false_iff in H
  | H : negb _ = true |- _ => apply negb_true_iff in H
  | H : exists _, _ |- _ => destruct H
  | H : ?x = ?x -> _ |- _ => specialize (H eq_refl)
  | H : ?x = ?y -> _, E : ?x = ?y |- _ => specialize (H E)
  | H : _ /\ _ |- _ => destruct H
  | H : _ \/ _ |- _ => destruct H; try discriminate; try congruence
  | H : forall p, ?c = Some (ByIo, p) -> _, E : ?c = Some (ByIo, ?p) |- _ => specialize (H _ E)
  | H : forall p, ?c = Some (BySse, p) -> _, E : ?c = Some (BySse, ?p) |- _ => specialize (H _ E)
  | H : forall w p, ?c = Some (w, p) -> _, E : ?c = Some (_, _) |- _ => specialize (H _ _ E)
  | H : forall p, Some (ByIo, _) = Some (ByIo, p) -> _ |- _ => specialize (H _ eq_refl)
  | H : forall p, Some (BySse, _) = Some (BySse, p) -> _ |- _ => specialize (H _ eq_refl)
  | H : forall w p, Some (_, _) = Some (w, p) -> _ |- _ => specialize (H _ _ eq_refl)
  | H : forall k r, ISpawn _ _ = ISpawn k r -> _ |- _ => specialize (H _ _ eq_refl)
  | H : False |- _ => destruct H
  end; subst; try discriminate; try congruence.
Ltac lg := intros; cbn [In] in *; try discriminate; try congruence; eauto 3; fwd; eauto 6; try tauto; try (right; repeat split; (assumption || discriminate || congruence)); repeat match goal with d : bool |- _ => destruct d end; tauto || (try discriminate; try congruence; intuition congruence).
Lemma may_caller : forall w s, may_call w s = true ->
  hl_call s = None /\ (w = ByIo -> exists k q, hl_io s = IUser k q) /\ (w = BySse -> exists m, hl_sse s = SUser m).
Proof.
  intros w s. unfold may_call. destruct (hl_call s); [discriminate|]. intro E. split; [reflexivity|].
  split; intros ->; [destruct (hl_io s) eqn:I; try discriminate E; eauto|destruct (hl_sse s) eqn:I; try discriminate E; eauto].
Qed.

Ltac cases c := match goal with
  | |- context [may_call ?w ?s] => let M := fresh "M" in destruct (may_call w s) eqn:M; [apply may_caller in M as (? & ? & ?)|]
  | _ => idtac end.

