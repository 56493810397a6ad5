(** Proofs on asynchronous calls. *)
From Coq Require Import List Arith Bool Lia.
From Verif Require Import CoroModel CoroSpec.
Import ListNotations.
Local Open Scope nat_scope.

Lemma put_length : forall l i c, length (put l i c) = length l.
Proof. induction l as [|x r IH]; intros i c; [reflexivity|]. destruct i; cbn; [reflexivity|]. rewrite IH. reflexivity. Qed.

Lemma put_same : forall l i c x, nth_error l i = Some x -> nth_error (put l i c) i = Some c.
Proof.
  induction l as [|y r IH]; intros i c x H; destruct i; cbn in *; try discriminate; [reflexivity|]. apply (IH i c x H).
Qed.

Lemma put_other : forall l i j c, i <> j -> nth_error (put l i c) j = nth_error l j.
Proof.
  induction l as [|y r IH]; intros i j c H; destruct i; cbn; try reflexivity.
  - destruct j; [lia|reflexivity].
  - destruct j; [reflexivity|]. cbn. apply IH. lia.
Qed.

Lemma nth_snoc : forall (l : list acall) c i x, nth_error (l ++ [c]) i = Some x ->
  nth_error l i = Some x \/ (i = length l /\ x = c).
Proof.
  intros l c i x H. destruct (Nat.lt_ge_cases i (length l)) as [L|L].
  - rewrite nth_error_app1 in H by exact L. left. exact H.
  - rewrite nth_error_app2 in H by exact L. destruct (i - length l) as [|k] eqn:E; cbn in H.
    + injection H as <-. right. split; [lia|reflexivity].
    + destruct k; discriminate.
Qed.

Lemma nth_keep : forall (l : list acall) c i x, nth_error l i = Some x -> nth_error (l ++ [c]) i = Some x.
Proof. intros l c i x H. rewrite nth_error_app1; [exact H|]. apply nth_error_Some. rewrite H. discriminate. Qed.

Lemma nth_last : forall (l : list acall) c, nth_error (l ++ [c]) (length l) = Some c.
Proof. intros l c. rewrite nth_error_app2 by lia. rewrite Nat.sub_diag. reflexivity. Qed.

(** How many have not ended. *)
Definition live1 (c : acall) : nat := match cl_phase c with Ended _ => 0 | _ => 1 end.
Fixpoint lives (l : list acall) : nat := match l with [] => 0 | c :: r => live1 c + lives r end.

Lemma lives_app : forall l c, lives (l ++ [c]) = lives l + live1 c.
Proof. induction l as [|x r IH]; intro c; cbn; [lia|]. rewrite IH. lia. Qed.

Lemma lives_put : forall l i c x, nth_error l i = Some x -> lives (put l i c) + live1 x = lives l + live1 c.
Proof.
  induction l as [|y r IH]; intros i c x H; destruct i; cbn in *; try discriminate.
  - injection H as ->. lia.
  - pose proof (IH i c x H). lia.
Qed.

(** The invariant. *)
Definition reason (s : costate) (x : access) : Prop :=
  exists c, nth_error (co_calls s) (ac_call x) = Some c /\
    (ac_live x = false ->
       exists a, cl_phase c = Ended a /\ In (ac_what x) (after (cl_meth c) a) /\
                 match ac_what x with Args => cl_args c = false | Object => co_object s = false end).

Record good (s : costate) : Prop := {
  g_acc : forall x, In x (co_acc s) -> reason s x;
  g_sets : NoDup (co_sets s);
  g_ended : forall i, In i (co_sets s) <-> exists c a, nth_error (co_calls s) i = Some c /\ cl_phase c = Ended a;
  g_threads : co_threads s = lives (co_calls s) }.

Lemma in_touch : forall i a o us x, In x (touch i a o us) ->
  ac_call x = i /\ In (ac_what x) us /\ ac_live x = match ac_what x with Args => a | Object => o end.
Proof.
  intros i a o us x H. unfold touch in H. apply in_map_iff in H. destruct H as (u & <- & H). cbn. auto.
Qed.

Lemma good_start : good costart.
Proof.
  constructor; cbn.
  - intros x [].
  - constructor.
  - intro i. split; [intros []|]. intros (c & a & H & _). destruct i; discriminate.
  - reflexivity.
Qed.

Ltac opened H :=
  repeat match type of H with
  | context [match ?x with _ => _ end] => destruct x eqn:?; try discriminate H
  end.

Lemma good_step : forall s e s', good s -> costep s e = Some s' -> good s'.
Proof.
  intros s e s' [GA GS GE GT] H. destruct e as [m r|i|i a|i|]; cbn in H.
  - destruct (co_object s) eqn:O; [|discriminate]. destruct r as [a|].
    + injection H as <-. constructor; cbn.
      * intros x X. apply in_app_or in X. destruct X as [X|X].
        -- destruct (GA x X) as (c & N & L). exists c. cbn. split; [apply nth_keep; exact N|].
           intro F. destruct (L F) as (b & P & I & Q). exists b. split; [exact P|]. split; [exact I|].
           destruct (ac_what x); [exact Q|]. rewrite O in Q. discriminate.
        -- apply in_touch in X. destruct X as (E & _ & L). eexists. cbn. rewrite E. split; [apply nth_last|].
           intro F. rewrite F in L. destruct (ac_what x); discriminate.
      * assert (N : ~ In (length (co_calls s)) (co_sets s)).
        { intro I. apply GE in I. destruct I as (c & b & I & _).
          assert (length (co_calls s) < length (co_calls s)); [|lia]. apply nth_error_Some. rewrite I. discriminate. }
        apply NoDup_Add with (a := length (co_calls s)) (l := co_sets s).
        -- rewrite <- (app_nil_r (co_sets s)) at 1. apply Add_app.
        -- split; assumption.
      * intro j. rewrite in_app_iff. split.
        -- intros [I|[<- | []]].
           ++ apply GE in I. destruct I as (c & b & I & P). exists c, b. split; [apply nth_keep; exact I|exact P].
           ++ eexists _, a. split; [apply nth_last|reflexivity].
        -- intros (c & b & I & P). apply nth_snoc in I. destruct I as [I|[-> ->]].
           ++ left. apply GE. exists c, b. auto.
           ++ right. left. reflexivity.
      * rewrite lives_app. cbn. lia.
    + destruct (awaits m) eqn:W; [|discriminate]. injection H as <-. constructor; cbn.
      * intros x X. apply in_app_or in X. destruct X as [X|X].
        -- destruct (GA x X) as (c & N & L). exists c. cbn. split; [apply nth_keep; exact N|].
           intro F. destruct (L F) as (b & P & I & Q). exists b. split; [exact P|]. split; [exact I|].
           destruct (ac_what x); [exact Q|]. rewrite O in Q. discriminate.
        -- apply in_touch in X. destruct X as (E & _ & L). eexists. cbn. rewrite E. split; [apply nth_last|].
           intro F. rewrite F in L. destruct (ac_what x); discriminate.
      * exact GS.
      * intro j. split.
        -- intro I. apply GE in I. destruct I as (c & b & I & P). exists c, b. split; [apply nth_keep; exact I|exact P].
        -- intros (c & b & I & P). apply nth_snoc in I. destruct I as [I|[-> ->]].
           ++ apply GE. exists c, b. auto.
           ++ discriminate P.
      * rewrite lives_app. cbn. lia.
  - destruct (nth_error (co_calls s) i) as [c|] eqn:N; [|discriminate]. injection H as <-. constructor; cbn.
    + intros x X. destruct (GA x X) as (d & D & L). unfold reason. cbn. destruct (Nat.eq_dec i (ac_call x)) as [->|E].
      * rewrite N in D. injection D as <-. eexists. split; [apply (put_same _ _ _ c N)|]. cbn.
        intro F. destruct (L F) as (b & P & I & Q). exists b. split; [exact P|]. split; [exact I|].
        destruct (ac_what x); [reflexivity|exact Q].
      * exists d. split; [rewrite put_other by exact E; exact D|exact L].
    + exact GS.
    + intro j. rewrite GE. destruct (Nat.eq_dec i j) as [->|E].
      * split.
        -- intros (d & b & I & P). rewrite N in I. injection I as <-. eexists _, b. split; [apply (put_same _ _ _ c N)|exact P].
        -- intros (d & b & I & P). rewrite (put_same _ _ _ c N) in I. injection I as <-. exists c, b. split; [exact N|exact P].
      * rewrite put_other by exact E. tauto.
    + match goal with |- context [put _ _ ?x] => pose proof (lives_put (co_calls s) i x c N) as Q end.
      unfold live1 in Q; cbn in Q. lia.
  - destruct (nth_error (co_calls s) i) as [c|] eqn:N; [|discriminate]. destruct (cl_phase c) eqn:P; try discriminate.
    injection H as <-. constructor; cbn.
    + intros x X. destruct (GA x X) as (d & D & L). unfold reason. cbn. destruct (Nat.eq_dec i (ac_call x)) as [->|E].
      * rewrite N in D. injection D as <-. eexists. split; [apply (put_same _ _ _ c N)|]. cbn.
        intro F. destruct (L F) as (b & P' & _). rewrite P in P'. discriminate.
      * exists d. split; [rewrite put_other by exact E; exact D|exact L].
    + exact GS.
    + intro j. rewrite GE. destruct (Nat.eq_dec i j) as [->|E].
      * split.
        -- intros (d & b & I & P'). rewrite N in I. injection I as <-. rewrite P in P'. discriminate.
        -- intros (d & b & I & P'). rewrite (put_same _ _ _ c N) in I. injection I as <-. discriminate P'.
      * rewrite put_other by exact E. tauto.
    + match goal with |- context [put _ _ ?x] => pose proof (lives_put (co_calls s) i x c N) as Q end.
      unfold live1 in Q; cbn in Q. rewrite P in Q. lia.
  - destruct (nth_error (co_calls s) i) as [c|] eqn:N; [|discriminate]. destruct (cl_phase c) eqn:P; try discriminate.
    injection H as <-. constructor; cbn.
    + intros x X. apply in_app_or in X. destruct X as [X|X].
      * destruct (GA x X) as (d & D & L). unfold reason. cbn. destruct (Nat.eq_dec i (ac_call x)) as [->|E].
        -- rewrite N in D. injection D as <-. eexists. split; [apply (put_same _ _ _ c N)|]. cbn.
           intro F. destruct (L F) as (b & P' & _). rewrite P in P'. discriminate.
        -- exists d. split; [rewrite put_other by exact E; exact D|exact L].
      * apply in_touch in X. destruct X as (<- & U & L). unfold reason. cbn. eexists. split; [apply (put_same _ _ _ c N)|]. cbn.
        intro F. exists a. split; [reflexivity|]. split; [exact U|]. rewrite F in L. destruct (ac_what x); symmetry; exact L.
    + assert (M : ~ In i (co_sets s)).
      { intro I. apply GE in I. destruct I as (d & b & I & P'). rewrite N in I. injection I as <-. rewrite P in P'. discriminate. }
      apply NoDup_Add with (a := i) (l := co_sets s).
      * rewrite <- (app_nil_r (co_sets s)) at 1. apply Add_app.
      * split; assumption.
    + intro j. rewrite in_app_iff. rewrite GE. destruct (Nat.eq_dec i j) as [->|E].
      * split.
        -- intros _. eexists _, a. split; [apply (put_same _ _ _ c N)|reflexivity].
        -- intros _. right. left. reflexivity.
      * rewrite put_other by exact E. cbn. split; [intros [I|[I|[]]]; [exact I|contradiction]|auto].
    + match goal with |- context [put _ _ ?x] => pose proof (lives_put (co_calls s) i x c N) as Q end.
      unfold live1 in Q; cbn in Q. rewrite P in Q. lia.
  - destruct (co_object s) eqn:O; [|discriminate]. injection H as <-. constructor; cbn; try assumption.
    intros x X. destruct (GA x X) as (d & D & L). exists d. cbn. split; [exact D|].
    intro F. destruct (L F) as (b & P & I & Q). exists b. split; [exact P|]. split; [exact I|].
    destruct (ac_what x); [exact Q|reflexivity].
Qed.

Lemma coruns_app : forall h s k, coruns s (h ++ k) = match coruns s h with Some s' => coruns s' k | None => None end.
Proof. induction h as [|e r IH]; intros s k; cbn; [reflexivity|]. destruct (costep s e); [apply IH|reflexivity]. Qed.

Lemma good_runs : forall h s s', good s -> coruns s h = Some s' -> good s'.
Proof.
  induction h as [|e r IH]; cbn; intros s s' G H.
  - injection H as <-. exact G.
  - destruct (costep s e) as [t|] eqn:E; [|discriminate]. exact (IH t s' (good_step s e t G E) H).
Qed.

Lemma good_history : forall h s, after_history h s -> good s.
Proof. intros h s H. exact (good_runs h costart s good_start H). Qed.

(** Dead accesses have a reason. *)
Lemma dead_reason : forall h s i m u, after_history h s -> touched_dead s i m u ->
  exists c a, nth_error (co_calls s) i = Some c /\ cl_meth c = m /\ cl_phase c = Ended a /\ In u (after m a) /\
              match u with Args => cl_args c = false | Object => co_object s = false end.
Proof.
  intros h s i m u H (c & N & M & I). destruct (g_acc s (good_history h s H) _ I) as (d & D & L). cbn in D, L.
  rewrite N in D. injection D as <-. destruct (L eq_refl) as (a & P & U & Q). exists c, a. rewrite M in U. auto.
Qed.

Lemma only_results : forall m a, In Args (after m a) -> fetches_result m.
Proof.
  intros m a H. unfold fetches_result. destruct m, a; cbn in H; auto; exfalso;
    repeat (destruct H as [H|H]; [discriminate H|]); exact H.
Qed.

Lemma args_dead : forall h s i m, after_history h s -> touched_dead s i m Args -> fetches_result m.
Proof.
  intros h s i m H T. destruct (dead_reason h s i m Args H T) as (c & a & _ & _ & _ & U & _). exact (only_results m a U).
Qed.

(** Histories grown at the end. *)
Lemma history_snoc : forall h e s', after_history (h ++ [e]) s' -> exists s, after_history h s /\ costep s e = Some s'.
Proof.
  intros h e s' H. unfold after_history in *. rewrite coruns_app in H. destruct (coruns costart h) as [s|]; [|discriminate].
  exists s. split; [reflexivity|]. cbn in H. destruct (costep s e); [exact H|discriminate].
Qed.

Lemma history_fun : forall h s s', after_history h s -> after_history h s' -> s = s'.
Proof. intros h s s' A B. unfold after_history in *. rewrite A in B. injection B as ->. reflexivity. Qed.

Lemma kept_snoc : forall h e i, kept (h ++ [e]) i -> kept h i.
Proof. intros h e i K h1 h2 ->. apply (K h1 (h2 ++ [e])). rewrite <- app_assoc. reflexivity. Qed.

Lemma settled_ended : forall h s i, after_history h s -> settled s i ->
  exists c a, nth_error (co_calls s) i = Some c /\ cl_phase c = Ended a.
Proof. intros h s i H S. apply (g_ended s (good_history h s H)). exact S. Qed.

Lemma kept_inv : forall i h s, after_history h s -> kept h i ->
  (forall c, nth_error (co_calls s) i = Some c -> cl_args c = false -> exists a, cl_phase c = Ended a) /\
  ~ In {| ac_call := i; ac_what := Args; ac_live := false |} (co_acc s).
Proof.
  intros i h. induction h as [|e h IH] using rev_ind; intros s' H K.
  - injection H as <-. cbn. split; [|intros []]. intros c N. destruct i; discriminate.
  - destruct (history_snoc h e s' H) as (s & R & E). destruct (IH s R (kept_snoc h e i K)) as (A & B).
    assert (KE : e = Gone i -> exists c a, nth_error (co_calls s) i = Some c /\ cl_phase c = Ended a).
    { intros ->. destruct (K h [] eq_refl) as (t & T & S). rewrite (history_fun h s t R T). exact (settled_ended h t i T S). }
    clear IH H K. destruct e as [m r|j|j a|j|]; cbn in E.
    + destruct (co_object s) eqn:O; [|discriminate].
      assert (X : forall us, ~ In {| ac_call := i; ac_what := Args; ac_live := false |} (touch (length (co_calls s)) true true us)).
      { intros us X. apply in_touch in X. destruct X as (_ & _ & X). discriminate X. }
      destruct r as [a|]; [|destruct (awaits m); [|discriminate]]; injection E as <-; cbn; (split; [|intro Y; apply in_app_or in Y;
        destruct Y as [Y|Y]; [exact (B Y)|exact (X _ Y)]]); intros c N F; apply nth_snoc in N; destruct N as [N|[_ ->]];
        try exact (A c N F); discriminate F.
    + destruct (nth_error (co_calls s) j) as [c|] eqn:N; [|discriminate]. injection E as <-. cbn. split; [|exact B].
      intros d D F. destruct (Nat.eq_dec j i) as [->|NE].
      * destruct (KE eq_refl) as (c' & a & N' & P). rewrite N in N'. injection N' as <-.
        rewrite (put_same _ _ _ c N) in D. injection D as <-. exists a. exact P.
      * rewrite put_other in D by exact NE. exact (A d D F).
    + destruct (nth_error (co_calls s) j) as [c|] eqn:N; [|discriminate]. destruct (cl_phase c) eqn:P; try discriminate.
      injection E as <-. cbn. split; [|exact B].
      intros d D F. destruct (Nat.eq_dec j i) as [->|NE].
      * rewrite (put_same _ _ _ c N) in D. injection D as <-. cbn in F. destruct (A c N F) as (b & P'). rewrite P in P'. discriminate.
      * rewrite put_other in D by exact NE. exact (A d D F).
    + destruct (nth_error (co_calls s) j) as [c|] eqn:N; [|discriminate]. destruct (cl_phase c) eqn:P; try discriminate.
      injection E as <-. cbn. split.
      * intros d D F. destruct (Nat.eq_dec j i) as [->|NE].
        -- rewrite (put_same _ _ _ c N) in D. injection D as <-. eexists. reflexivity.
        -- rewrite put_other in D by exact NE. exact (A d D F).
      * intro Y. apply in_app_or in Y. destruct Y as [Y|Y]; [exact (B Y)|]. apply in_touch in Y. cbn in Y.
        destruct Y as (<- & _ & L). destruct (A c N (eq_sym L)) as (b & P'). rewrite P in P'. discriminate.
    + destruct (co_object s); [|discriminate]. injection E as <-. cbn. split; assumption.
Qed.

Lemma kept_alive : forall h s i m, after_history h s -> kept h i -> ~ touched_dead s i m Args.
Proof. intros h s i m H K (c & _ & _ & I). exact (proj2 (kept_inv i h s H K) I). Qed.

Lemma outlives_snoc : forall h e, outlives (h ++ [e]) -> outlives h.
Proof. intros h e K h1 h2 ->. apply (K h1 (h2 ++ [e])). rewrite <- app_assoc. reflexivity. Qed.

Lemma outlives_inv : forall h s, after_history h s -> outlives h ->
  (co_object s = false -> forall i c, nth_error (co_calls s) i = Some c -> exists a, cl_phase c = Ended a) /\
  (forall i, ~ In {| ac_call := i; ac_what := Object; ac_live := false |} (co_acc s)).
Proof.
  intros h. induction h as [|e h IH] using rev_ind; intros s' H K.
  - injection H as <-. cbn. split; [discriminate|]. intros i [].
  - destruct (history_snoc h e s' H) as (s & R & E). destruct (IH s R (outlives_snoc h e K)) as (A & B).
    destruct e as [m r|j|j a|j|]; cbn in E.
    + destruct (co_object s) eqn:O; [|discriminate].
      assert (X : forall i us, ~ In {| ac_call := i; ac_what := Object; ac_live := false |} (touch (length (co_calls s)) true true us)).
      { intros i us X. apply in_touch in X. destruct X as (_ & _ & X). discriminate X. }
      destruct r as [a|]; [|destruct (awaits m); [|discriminate]]; injection E as <-; cbn; (split; [discriminate|]); intros i Y;
        apply in_app_or in Y; destruct Y as [Y|Y]; [exact (B i Y)|exact (X i _ Y)|exact (B i Y)|exact (X i _ Y)].
    + destruct (nth_error (co_calls s) j) as [c|] eqn:N; [|discriminate]. injection E as <-. cbn. split; [|exact B].
      intros O i d D. destruct (Nat.eq_dec j i) as [->|NE].
      * rewrite (put_same _ _ _ c N) in D. injection D as <-. exact (A O i c N).
      * rewrite put_other in D by exact NE. exact (A O i d D).
    + destruct (nth_error (co_calls s) j) as [c|] eqn:N; [|discriminate]. destruct (cl_phase c) eqn:P; try discriminate.
      injection E as <-. cbn. split; [|exact B]. intros O. destruct (A O j c N) as (b & P'). rewrite P in P'. discriminate.
    + destruct (nth_error (co_calls s) j) as [c|] eqn:N; [|discriminate]. destruct (cl_phase c) eqn:P; try discriminate.
      injection E as <-. cbn. split.
      * intros O. destruct (A O j c N) as (b & P'). rewrite P in P'. discriminate.
      * intros i Y. apply in_app_or in Y. destruct Y as [Y|Y]; [exact (B i Y)|]. apply in_touch in Y. cbn in Y.
        destruct Y as (_ & _ & L). destruct (A (eq_sym L) j c N) as (b & P'). rewrite P in P'. discriminate.
    + destruct (co_object s); [|discriminate]. injection E as <-. cbn. split; [|exact B].
      intros _ i c N. destruct (K h [] eq_refl) as (t & T & S). rewrite (history_fun h s t R T) in N.
      destruct (settled_ended h t i T (S i ltac:(unfold made; apply nth_error_Some; rewrite N; discriminate))) as (c' & a & N' & P).
      rewrite N in N'. injection N' as <-. exists a. exact P.
Qed.

Lemma outlives_alive : forall h s i m, after_history h s -> outlives h -> ~ touched_dead s i m Object.
Proof. intros h s i m H K (c & _ & _ & I). exact (proj2 (outlives_inv h s H K) i I). Qed.

(** Which calls touch the object after the wait, by what came. *)
Lemma object_dead : forall h s i m, after_history h s -> touched_dead s i m Object ->
  ~ detached m /\ exists a, answered s i a /\ (a = Failed -> touches_after_failure m) /\ (a = Broken -> touches_after_exception m).
Proof.
  intros h s i m H T. destruct (dead_reason h s i m Object H T) as (c & a & N & _ & P & U & _). split.
  - intro D. unfold detached in D. cbn in D. destruct m, a; cbn in U;
      repeat (destruct D as [D|D]; [discriminate D|]); try contradiction;
      repeat (destruct U as [U|U]; [discriminate U|]); exact U.
  - exists a. split; [exists c; auto|]. unfold touches_after_failure, touches_after_exception. cbn.
    destruct m, a; cbn in U; try contradiction; split; intro E; try discriminate E; auto 12.
Qed.

(** Settling. *)
Lemma settled_once : forall h s, after_history h s ->
  NoDup (co_sets s) /\
  (forall i, settled s i -> exists a, answered s i a) /\
  (forall i, made s i -> settled s i \/ unanswered s i \/ exists a, answered s i a) /\
  co_threads s = lives (co_calls s).
Proof.
  intros h s H. pose proof (good_history h s H) as G. split; [exact (g_sets s G)|]. split; [|split; [|exact (g_threads s G)]].
  - intros i S. destruct (settled_ended h s i H S) as (c & a & N & P). exists a, c. auto.
  - intros i M. destruct (nth_error (co_calls s) i) as [c|] eqn:N.
    + destruct (cl_phase c) eqn:P; [right; left; exists c; auto|right; right; exists a, c; auto|right; right; exists a, c; auto].
    + apply nth_error_None in N. unfold made in M. lia.
Qed.

Lemma can_settle : forall h s i a, after_history h s -> answered s i a -> ~ settled s i ->
  exists s', costep s (Resume i) = Some s' /\ settled s' i /\
             (forall j, j <> i -> nth_error (co_calls s') j = nth_error (co_calls s) j).
Proof.
  intros h s i a H (c & N & P) S. cbn. rewrite N.
  assert (P' : cl_phase c = Woken a).
  { destruct P as [P|P]; [exact P|]. exfalso. apply S. apply (g_ended s (good_history h s H)). exists c, a. auto. }
  rewrite P'. eexists. split; [reflexivity|]. cbn. split.
  - unfold settled. cbn. apply in_or_app. right. left. reflexivity.
  - intros j NE. apply put_other. auto.
Qed.

Lemma can_answer : forall s i a, unanswered s i -> exists s', costep s (Answer i a) = Some s' /\ answered s' i a.
Proof.
  intros s i a (c & N & P). cbn. rewrite N, P. eexists. split; [reflexivity|].
  unfold answered. cbn. eexists. split; [apply (put_same _ _ _ c N)|]. left. reflexivity.
Qed.

Lemma put_back : forall j l c, nth_error l j = None -> put l j c = l.
Proof.
  induction j as [|j IH]; intros l c H; destruct l as [|x r]; cbn in *; try reflexivity; [discriminate|]. rewrite IH; [reflexivity|exact H].
Qed.

(** The thread of every unfinished call. *)
Lemma lives_count : forall l, lives l = length (filter (fun c => match cl_phase c with Ended _ => false | _ => true end) l).
Proof. induction l as [|c r IH]; cbn; [reflexivity|]. unfold live1. destruct (cl_phase c); cbn; rewrite IH; reflexivity. Qed.

Lemma settle_answer_unique : forall h s i e s', after_history h s -> settled s i -> costep s e = Some s' -> settled s' i /\
  ~ In i (match e with Resume j => [j] | _ => [] end).
Proof.
  intros h s i e s' H S E. destruct (settled_ended h s i H S) as (c & a & N & P). unfold settled in *.
  destruct e as [m r|j|j b|j|]; cbn in E.
  - destruct (co_object s); [|discriminate]. destruct r; [|destruct (awaits m); [|discriminate]]; injection E as <-; cbn; split; auto.
    apply in_or_app. auto.
  - destruct (nth_error (co_calls s) j); [|discriminate]. injection E as <-. cbn. auto.
  - destruct (nth_error (co_calls s) j) as [d|]; [|discriminate]. destruct (cl_phase d); try discriminate. injection E as <-. cbn. auto.
  - destruct (nth_error (co_calls s) j) as [d|] eqn:D; [|discriminate]. destruct (cl_phase d) eqn:Q; try discriminate. injection E as <-.
    cbn. split; [apply in_or_app; auto|]. intros [-> |[]]. rewrite N in D. injection D as <-. rewrite P in Q. discriminate.
  - destruct (co_object s); [|discriminate]. injection E as <-. cbn. auto.
Qed.

(** An unanswered call alone. *)
Definition blocked (n : nat) : list coev := repeat (Call CPing None) n.

Lemma blocked_threads : forall n s, co_object s = true -> exists s', coruns s (blocked n) = Some s' /\ co_threads s' = n + co_threads s.
Proof.
  induction n as [|n IH]; intros s O.
  - exists s. split; reflexivity.
  - unfold blocked. cbn [repeat coruns]. unfold costep at 1. rewrite O. cbn [awaits].
    match goal with |- context [coruns ?t _] => destruct (IH t eq_refl) as (s' & R & T) end.
    exists s'. split; [exact R|]. rewrite T. cbn. lia.
Qed.

Definition no_wait (l : list acall) : Prop := forall i c, nth_error l i = Some c ->
  cl_meth c = SHandleInitialize \/ cl_meth c = SGetPrompt -> exists a, cl_phase c = Ended a.

Lemma no_wait_put : forall l i c c0, no_wait l -> nth_error l i = Some c0 ->
  (cl_meth c = SHandleInitialize \/ cl_meth c = SGetPrompt -> exists a, cl_phase c = Ended a) -> no_wait (put l i c).
Proof.
  intros l i c c0 H E P j d D M. destruct (Nat.eq_dec i j) as [-> |N].
  - rewrite (put_same l j c c0 E) in D. injection D as <-. exact (P M).
  - rewrite put_other in D by exact N. exact (H j d D M).
Qed.

Lemma no_wait_snoc : forall l c, no_wait l ->
  (cl_meth c = SHandleInitialize \/ cl_meth c = SGetPrompt -> exists a, cl_phase c = Ended a) -> no_wait (l ++ [c]).
Proof.
  intros l c H P j d D M. destruct (Nat.lt_ge_cases j (length l)) as [L|L].
  - rewrite nth_error_app1 in D by exact L. exact (H j d D M).
  - rewrite nth_error_app2 in D by exact L. destruct (j - length l) as [|k]; cbn in D.
    + injection D as <-. exact (P M).
    + destruct k; discriminate.
Qed.

Lemma no_wait_step : forall s e s', no_wait (co_calls s) -> costep s e = Some s' -> no_wait (co_calls s').
Proof.
  intros s e s' H E. destruct e as [m r|i|i a|i|]; cbn [costep] in E.
  - destruct (co_object s); [|discriminate]. destruct r as [a|].
    + injection E as <-. cbn [co_calls]. apply no_wait_snoc; [exact H|]. intros _. exists a. reflexivity.
    + destruct (awaits m) eqn:A; [|discriminate]. injection E as <-. cbn [co_calls]. apply no_wait_snoc; [exact H|].
      cbn [cl_meth]. intros [-> | ->]; discriminate.
  - destruct (nth_error (co_calls s) i) as [c|] eqn:C; [|discriminate]. injection E as <-. cbn [co_calls].
    apply (no_wait_put _ _ _ c H C). cbn [cl_meth cl_phase]. exact (H i c C).
  - destruct (nth_error (co_calls s) i) as [c|] eqn:C; [|discriminate]. destruct (cl_phase c) eqn:P; try discriminate.
    injection E as <-. cbn [co_calls]. apply (no_wait_put _ _ _ c H C). cbn [cl_meth]. intros M. destruct (H i c C M) as (x & X). congruence.
  - destruct (nth_error (co_calls s) i) as [c|] eqn:C; [|discriminate]. destruct (cl_phase c) eqn:P; try discriminate.
    injection E as <-. cbn [co_calls]. apply (no_wait_put _ _ _ c H C). cbn [cl_phase]. eauto.
  - destruct (co_object s); [|discriminate]. injection E as <-. exact H.
Qed.

Lemma at_once : forall h s i c, coruns costart h = Some s -> nth_error (co_calls s) i = Some c ->
  cl_meth c = SHandleInitialize \/ cl_meth c = SGetPrompt -> exists a, cl_phase c = Ended a.
Proof.
  intros h s i c H. revert i c. fold (no_wait (co_calls s)).
  assert (G : forall k t t', no_wait (co_calls t) -> coruns t k = Some t' -> no_wait (co_calls t')).
  { induction k as [|e r IH]; intros t t' N R; cbn in R; [now injection R as <-|].
    destruct (costep t e) as [u|] eqn:U; [|discriminate]. exact (IH u t' (no_wait_step t e u N U) R). }
  apply (G h costart s); [|exact H]. intros i c D. destruct i; discriminate.
Qed.
