From Coq Require Import List Arith Bool Lia.
From Verif Require Import FreshModel FreshSpec.
Import ListNotations.
Local Open Scope nat_scope.

Lemma pick_in : forall (A : Type) k (l : list A) x r, pick k l = Some (x, r) ->
  In x l /\ forall y, In y r -> In y l.
Proof.
  induction k as [|k IH]; intros [|a l] x r H; cbn in H; try discriminate.
  - injection H as <- <-. split; [now left|intros y Y; now right].
  - destruct (pick k l) as [[y q]|] eqn:P; [|discriminate]. injection H as <- <-.
    destruct (IH l y q P) as [I J]. split; [now right|]. intros z [->|Z]; [now left|right; now apply J].
Qed.

Lemma put_len : forall (A : Type) k v (l : list A), length (put k v l) = length l.
Proof. induction k as [|k IH]; intros v [|a l]; cbn; auto. Qed.

Lemma put_nth : forall (A : Type) k v (l : list A) j x, nth_error (put k v l) j = Some x ->
  (j = k /\ x = v) \/ (j <> k /\ nth_error l j = Some x).
Proof.
  induction k as [|k IH]; intros v [|a l] [|j] x H; cbn in *; try discriminate; auto.
  - left. split; [reflexivity|congruence].
  - destruct (IH v l j x H) as [[-> ->]|[N E]]; [now left|right; split; [lia|exact E]].
Qed.

Lemma put_other : forall (A : Type) k v (l : list A) j, j <> k -> nth_error (put k v l) j = nth_error l j.
Proof.
  induction k as [|k IH]; intros v [|a l] [|j] H; cbn; try reflexivity; try lia. apply IH. lia.
Qed.

Lemma app_nth : forall (A : Type) (l : list A) x j y, nth_error (l ++ [x]) j = Some y ->
  nth_error l j = Some y \/ (j = length l /\ y = x).
Proof.
  intros A l x j y H. destruct (Nat.lt_ge_cases j (length l)) as [L|L].
  - left. rewrite nth_error_app1 in H by exact L. exact H.
  - right. rewrite nth_error_app2 in H by exact L. destruct (j - length l) as [|d] eqn:D; cbn in H.
    + split; [lia|congruence].
    + destruct d; discriminate.
Qed.

(** What the calls from number n on carry satisfies P, whatever the stage. *)
Record carry (n : nat) (P : nat -> Prop) (s : fresh) : Prop := {
  ca_work : forall c v, In (c, v) (fr_work s) -> n <= c -> P v;
  ca_down : forall c v, In (DReply c v) (fr_down s) -> n <= c -> P v;
  ca_got : forall c v, nth_error (fr_calls s) c = Some (CGot v) -> n <= c -> P v;
  ca_done : forall c v, nth_error (fr_calls s) c = Some (CDone v) -> n <= c -> P v }.

Lemma carry_step : forall n (P : nat -> Prop) s e, carry n P s -> P (fr_made s) -> carry n P (fstep s e).
Proof.
  intros n P s e C M. pose proof C as [CW CD CG CN]. destruct e as [| |k|k|y| |c|b]; cbn.
  - split; assumption.
  - destruct (fr_owed s); [exact C|]. split; cbn; try assumption.
    intros c v I. apply in_app_or in I. destruct I as [I|[I|[]]]; [exact (CD c v I)|discriminate].
  - destruct (pick k (fr_up s)) as [[c r]|] eqn:P0; [|exact C]. split; cbn; try assumption.
    intros d v I. apply in_app_or in I. destruct I as [I|[I|[]]]; [exact (CW d v I)|].
    injection I as _ <-. intros _. exact M.
  - destruct (pick k (fr_work s)) as [[[c v] r]|] eqn:P0; [|exact C].
    destruct (pick_in _ _ _ _ _ P0) as [I J]. split; cbn; try assumption.
    + intros d w X. apply CW. now apply J.
    + intros d w X. apply in_app_or in X. destruct X as [X|[X|[]]]; [exact (CD d w X)|].
      injection X as <- <-. exact (CW c v I).
  - destruct (if (fr_on s && y)%bool then fr_cache s else None) as [v|]; split; cbn; try assumption;
      intros d w X; apply app_nth in X; destruct X as [X|[_ X]]; try discriminate; first [exact (CG d w X)|exact (CN d w X)].
  - destruct (fr_down s) as [|[|c v] r] eqn:D; [exact C| |]; rewrite ?D in CD; split; cbn; try assumption.
    + intros d w X. apply CD. now right.
    + intros d w X. apply CD. now right.
    + intros d w X. apply put_nth in X. destruct X as [[-> X]|[_ X]]; [|exact (CG d w X)].
      injection X as ->. apply CD. now left.
    + intros d w X. apply put_nth in X. destruct X as [[-> X]|[_ X]]; [discriminate|exact (CN d w X)].
  - destruct (nth_error (fr_calls s) c) as [[|v|v|v]|] eqn:E; try exact C. split; cbn; try assumption.
    + intros d w X. apply put_nth in X. destruct X as [[-> X]|[_ X]]; [discriminate|exact (CG d w X)].
    + intros d w X. apply put_nth in X. destruct X as [[-> X]|[_ X]]; [|exact (CN d w X)].
      injection X as ->. exact (CG c v E).
  - split; assumption.
Qed.

Lemma made_step : forall s e, fr_made s <= fr_made (fstep s e).
Proof.
  intros s e. destruct e as [| |k|k|y| |c|b]; cbn; try lia.
  - destruct (fr_owed s); cbn; lia.
  - destruct (pick k (fr_up s)) as [[c r]|]; cbn; lia.
  - destruct (pick k (fr_work s)) as [[[c v] r]|]; cbn; lia.
  - destruct (if (fr_on s && y)%bool then fr_cache s else None); cbn; lia.
  - destruct (fr_down s) as [|[|c v] r]; cbn; lia.
  - destruct (nth_error (fr_calls s) c) as [[|v|v|v]|]; cbn; lia.
Qed.

(** Every number on the way belongs to a call that waits. *)
Definition waiting (s : fresh) (c : nat) : Prop := nth_error (fr_calls s) c = Some CWait.
Fixpoint notes (l : list down) : nat := match l with [] => 0 | DNote :: r => S (notes r) | _ :: r => notes r end.
Lemma notes_app : forall a b, notes (a ++ b) = notes a + notes b.
Proof. induction a as [|[|c v] a IH]; intro b; cbn; rewrite ?IH; reflexivity. Qed.

(** The calls something is under way for, each once. *)
Definition reply_call (d : down) : list nat := match d with DReply c _ => [c] | DNote => [] end.
Definition open_calls (s : fresh) : list nat := fr_up s ++ map fst (fr_work s) ++ flat_map reply_call (fr_down s).

Record sane (s : fresh) : Prop := {
  sa_wait : forall c, In c (open_calls s) -> waiting s c;
  sa_once : NoDup (open_calls s);
  sa_count : fr_made s = fr_heard s + notes (fr_down s) + fr_owed s;
  sa_work : forall c v, In (c, v) (fr_work s) -> v <= fr_made s;
  sa_down : forall c v, In (DReply c v) (fr_down s) -> v <= fr_made s;
  sa_calls : forall c v, nth_error (fr_calls s) c = Some (CGot v) \/ nth_error (fr_calls s) c = Some (CDone v) \/ nth_error (fr_calls s) c = Some (CHit v) -> v <= fr_made s;
  sa_cache : forall v, fr_cache s = Some v -> v <= fr_made s }.

Lemma pick_split : forall (A : Type) k (l : list A) x r, pick k l = Some (x, r) ->
  exists a b, l = a ++ x :: b /\ r = a ++ b.
Proof.
  induction k as [|k IH]; intros [|a l] x r H; cbn in H; try discriminate.
  - injection H as <- <-. now exists [], l.
  - destruct (pick k l) as [[y q]|] eqn:P; [|discriminate]. injection H as <- <-.
    destruct (IH l y q P) as (u & w & -> & ->). now exists (a :: u), w.
Qed.

Lemma wait_app : forall s l x, nth_error (fr_calls s) x = Some CWait -> nth_error (fr_calls s ++ l) x = Some CWait.
Proof. intros s l x H. rewrite nth_error_app1; [exact H|]. apply nth_error_Some. congruence. Qed.

Lemma sane0 : sane fresh0.
Proof.
  split; cbn; try (intros; contradiction); try reflexivity; try constructor; try discriminate.
  intros [|c] v [H|[H|H]]; discriminate.
Qed.

Lemma nodup_mid : forall (a b : list nat) x, NoDup (a ++ x :: b) <-> (NoDup (a ++ b) /\ ~ In x (a ++ b)).
Proof.
  intros a b x. split.
  - intro H. split; [exact (NoDup_remove_1 _ _ _ H)|exact (NoDup_remove_2 _ _ _ H)].
  - intros [H N]. revert H N. induction a as [|y a IH]; cbn; intros H N; [now constructor|].
    inversion H; subst. constructor.
    + intro I. apply in_app_or in I. destruct I as [I|[<-|I]]; [|apply N; now left|]; apply H2, in_or_app; auto.
    + apply IH; [assumption|]. intro I. apply N. now right.
Qed.

Lemma sane_step : forall s e, sane s -> sane (fstep s e).
Proof.
  intros s e S0. pose proof S0 as [W O K SW SD SC SH]. destruct e as [| |k|k|y| |c|b]; cbn.
  - split; cbn; try assumption; try lia.
    + intros c v I. specialize (SW c v I). lia.
    + intros c v I. specialize (SD c v I). lia.
    + intros c v I. specialize (SC c v I). lia.
    + intros v I. specialize (SH v I). lia.
  - destruct (fr_owed s) eqn:E; [exact S0|].
    assert (Q : flat_map reply_call (fr_down s ++ [DNote]) = flat_map reply_call (fr_down s)) by (rewrite flat_map_app; cbn; apply app_nil_r).
    split; unfold open_calls, waiting in *; cbn in *; rewrite ?Q; try assumption.
    + rewrite notes_app. cbn. lia.
    + intros c v I. apply in_app_or in I. destruct I as [I|[I|[]]]; [exact (SD c v I)|discriminate].
  - destruct (pick k (fr_up s)) as [[c r]|] eqn:P; [|exact S0].
    destruct (pick_split _ _ _ _ _ P) as (a & b & E & ->).
    unfold open_calls, waiting in *. rewrite E in *.
    split; unfold open_calls, waiting; cbn; try assumption.
    + intros d I. apply W. rewrite map_app in I. cbn in I. rewrite !in_app_iff in *. cbn in *. tauto.
    + rewrite map_app. cbn. rewrite <- !app_assoc in *. cbn in *.
      apply nodup_mid in O. destruct O as [O N].
      rewrite !app_assoc in *.
      apply nodup_mid. rewrite <- !app_assoc in *. now split.
    + intros d v I. apply in_app_or in I. destruct I as [I|[I|[]]]; [exact (SW d v I)|]. injection I as _ <-. lia.
  - destruct (pick k (fr_work s)) as [[[c v] r]|] eqn:P; [|exact S0].
    destruct (pick_split _ _ _ _ _ P) as (a & b & E & ->).
    unfold open_calls, waiting in *. rewrite E in *.
    split; unfold open_calls, waiting; cbn; try assumption.
    + intros d I. apply W. rewrite flat_map_app, map_app in *. cbn in *. rewrite !in_app_iff in *. cbn in *. tauto.
    + rewrite flat_map_app, map_app in *. cbn in *. rewrite <- !app_assoc in *. cbn in *.
      rewrite !app_assoc in *. apply nodup_mid in O. destruct O as [O N].
      apply nodup_mid. rewrite app_nil_r, <- !app_assoc in *. now split.
    + rewrite notes_app. cbn. lia.
    + intros d w I. apply (SW d w). rewrite in_app_iff in *. cbn. tauto.
    + intros d w I. apply in_app_or in I. destruct I as [I|[I|[]]]; [exact (SD d w I)|]. injection I as <- <-.
      apply (SW c v). apply in_or_app. right. now left.
  - destruct (if (fr_on s && y)%bool then fr_cache s else None) as [v|] eqn:E.
    + assert (HV : v <= fr_made s) by (apply SH; destruct (fr_on s && y)%bool; [exact E|discriminate]).
      split; unfold open_calls, waiting in *; cbn; try assumption.
      * intros d I. apply wait_app. now apply W.
      * intros d w [X|[X|X]]; apply app_nth in X; destruct X as [X|[_ X]]; try discriminate; try (apply (SC d w); tauto).
        injection X as ->. exact HV.
    + split; unfold open_calls, waiting in *; cbn; try assumption.
      * intros d I. rewrite <- app_assoc in I. cbn in I. apply in_app_or in I. destruct I as [I|[<-|I]].
        -- apply wait_app, W, in_or_app. now left.
        -- rewrite nth_error_app2 by lia. now rewrite Nat.sub_diag.
        -- apply wait_app, W, in_or_app. now right.
      * rewrite <- app_assoc. cbn. apply nodup_mid. split; [exact O|]. intro I. apply W in I.
        assert (length (fr_calls s) < length (fr_calls s)) by (apply nth_error_Some; congruence). lia.
      * intros d w [X|[X|X]]; apply app_nth in X; destruct X as [X|[_ X]]; try discriminate; apply (SC d w); tauto.
  - destruct (fr_down s) as [|[|c v] r] eqn:D; [exact S0| |].
    + split; unfold open_calls, waiting in *; cbn in *; rewrite ?D in *; cbn in *; try assumption; try lia.
      * intros d w I. apply (SD d w). now right.
      * discriminate.
    + assert (Q : ~ In c (fr_up s ++ map fst (fr_work s) ++ flat_map reply_call r) /\ NoDup (fr_up s ++ map fst (fr_work s) ++ flat_map reply_call r)).
      { unfold open_calls in O. rewrite D in O. cbn in O. rewrite app_assoc in O. apply nodup_mid in O. rewrite <- app_assoc in O. tauto. }
      destruct Q as [Q1 Q2].
      split; unfold open_calls, waiting in *; cbn in *; rewrite ?D in *; cbn in *; try assumption.
      * intros d I. rewrite put_other; [|congruence]. apply W. rewrite !in_app_iff in *. cbn. tauto.
      * intros d w I. apply (SD d w). now right.
      * intros d w [X|[X|X]]; apply put_nth in X; destruct X as [[-> X]|[_ X]]; try discriminate; try (apply (SC d w); tauto).
        injection X as ->. apply (SD c v). now left.
  - destruct (nth_error (fr_calls s) c) as [[|v|v|v]|] eqn:E; try exact S0.
    split; unfold open_calls, waiting in *; cbn in *; try assumption.
    + intros d I. rewrite put_other; [now apply W|]. intros ->. specialize (W c I). congruence.
    + intros d w [X|[X|X]]; apply put_nth in X; destruct X as [[-> X]|[_ X]]; try discriminate; try (apply (SC d w); tauto).
      injection X as ->. apply (SC c v). tauto.
    + destruct (fr_on s); [|exact SH]. intros w [= <-]. apply (SC c v). tauto.
  - split; unfold open_calls, waiting in *; cbn; try assumption. destruct b; [exact SH|discriminate].
Qed.

Lemma frun_app : forall s a b, frun s (a ++ b) = frun (frun s a) b.
Proof. intros. unfold frun. apply fold_left_app. Qed.
Lemma sane_run : forall h s, sane s -> sane (frun s h).
Proof. induction h as [|e h IH]; intros s H; [exact H|]. cbn. apply IH. now apply sane_step. Qed.
Lemma made_run : forall h s, fr_made s <= fr_made (frun s h).
Proof. induction h as [|e h IH]; intros s; [cbn; lia|]. cbn. pose proof (IH (fstep s e)). pose proof (made_step s e). unfold frun in *. lia. Qed.
Lemma carry_run : forall m h n s, carry n (fun v => m <= v) s -> m <= fr_made s -> carry n (fun v => m <= v) (frun s h).
Proof.
  intros m. induction h as [|e h IH]; intros n s C M; [exact C|]. cbn. apply IH.
  - apply carry_step; [exact C|exact M].
  - pose proof (made_step s e). lia.
Qed.

Lemma wait_lt : forall s c, waiting s c -> c < length (fr_calls s).
Proof. intros s c W. apply nth_error_Some. unfold waiting in W. congruence. Qed.

Lemma carry_now : forall s P, sane s -> carry (length (fr_calls s)) P s.
Proof.
  intros s P [W O K SW SD SC SH]. unfold open_calls in W. split.
  - intros c v I L. assert (c < length (fr_calls s)); [|lia]. apply wait_lt, W. rewrite !in_app_iff. right. left. now apply (in_map fst) in I.
  - intros c v I L. assert (c < length (fr_calls s)); [|lia]. apply wait_lt, W. rewrite !in_app_iff. right. right.
    apply in_flat_map. exists (DReply c v). split; [exact I|now left].
  - intros c v I L. assert (c < length (fr_calls s)); [|lia]. apply nth_error_Some. congruence.
  - intros c v I L. assert (c < length (fr_calls s)); [|lia]. apply nth_error_Some. congruence.
Qed.

Lemma asked_between : forall h h' j v, length (fr_calls (frun fresh0 h)) <= j -> asked (frun fresh0 (h ++ h')) j v ->
  fr_made (frun fresh0 h) <= v <= fr_made (frun fresh0 (h ++ h')).
Proof.
  intros h h' j v L A. pose proof (sane_run h _ sane0) as S1. rewrite frun_app in *.
  pose proof (sane_run h' _ S1) as S2. split.
  - pose proof (carry_run (fr_made (frun fresh0 h)) h' _ _ (carry_now _ _ S1) (le_n _)) as C.
    exact (ca_done _ _ _ C j v A L).
  - apply (sa_calls _ S2 j v). unfold asked in A. tauto.
Qed.

Lemma heard_count : forall h, let s := frun fresh0 h in fr_heard s <= fr_made s /\ (settled s -> fr_heard s = fr_made s).
Proof.
  intros h s. pose proof (sa_count _ (sane_run h _ sane0)) as K. fold s in K. split; [lia|].
  intros [Z N]. assert (notes (fr_down s) = 0); [|lia]. clear -N. induction (fr_down s) as [|[|c v] r IH]; cbn; [reflexivity| |].
  - exfalso. apply N. now left.
  - apply IH. intro I. apply N. now right.
Qed.

Lemma given_made : forall h j v, gave (frun fresh0 h) j v -> v <= fr_made (frun fresh0 h).
Proof. intros h j v G. apply (sa_calls _ (sane_run h _ sane0) j v). unfold gave in G. tauto. Qed.

(** With no time to live nothing comes from the cache. *)
Record off (s : fresh) : Prop := { off_on : fr_on s = false; off_hit : forall j v, nth_error (fr_calls s) j <> Some (CHit v) }.
Lemma off_step : forall s e, off s -> e <> CTtl true -> off (fstep s e).
Proof.
  intros s e H0 N. pose proof H0 as [F H]. destruct e as [| |k|k|y| |c|b]; cbn.
  - split; assumption.
  - destruct (fr_owed s); [exact H0|split; assumption].
  - destruct (pick k (fr_up s)) as [[c r]|]; [split; assumption|exact H0].
  - destruct (pick k (fr_work s)) as [[[c v] r]|]; [split; assumption|exact H0].
  - rewrite F. cbn. split; cbn; [reflexivity|]. intros j v X. apply app_nth in X. destruct X as [X|[_ X]]; [exact (H j v X)|discriminate].
  - destruct (fr_down s) as [|[|c v] r]; [exact H0|split; assumption|]. split; cbn; [exact F|].
    intros j w X. apply put_nth in X. destruct X as [[_ X]|[_ X]]; [discriminate|exact (H j w X)].
  - destruct (nth_error (fr_calls s) c) as [[|v|v|v]|]; try exact H0. split; cbn; [exact F|].
    intros j w X. apply put_nth in X. destruct X as [[_ X]|[_ X]]; [discriminate|exact (H j w X)].
  - destruct b; [congruence|]. split; [reflexivity|exact H].
Qed.
Lemma off_run : forall h s, off s -> ~ In (CTtl true) h -> off (frun s h).
Proof.
  induction h as [|e h IH]; intros s H N; [exact H|]. cbn. apply IH.
  - apply off_step; [exact H|]. intros ->. apply N. now left.
  - intro I. apply N. now right.
Qed.
Lemma off0 : off fresh0.
Proof. split; [reflexivity|]. intros [|j] v; discriminate. Qed.

Lemma plain_between : forall h h' j v, ~ In (CTtl true) (h ++ h') ->
  length (fr_calls (frun fresh0 h)) <= j -> gave (frun fresh0 (h ++ h')) j v ->
  fr_made (frun fresh0 h) <= v <= fr_made (frun fresh0 (h ++ h')).
Proof.
  intros h h' j v N L [G|G]; [exact (asked_between h h' j v L G)|].
  exfalso. exact (off_hit _ (off_run _ _ off0 N) j v G).
Qed.

(** With the cache on, as long as no notification comes in while a call is under way. *)
Record lively (s : fresh) : Prop := {
  li_work : forall c v, In (c, v) (fr_work s) -> fr_heard s <= v;
  li_down : forall c v, In (DReply c v) (fr_down s) -> fr_heard s <= v;
  li_got : forall c v, nth_error (fr_calls s) c = Some (CGot v) -> fr_heard s <= v;
  li_cache : forall v, fr_cache s = Some v -> fr_heard s <= v }.

Lemma lively0 : lively fresh0.
Proof. split; cbn; try (intros; contradiction); try discriminate. intros [|c] v; discriminate. Qed.

Lemma lively_step : forall s e, sane s -> lively s -> (hears_note s e -> ~ under_way s) -> lively (fstep s e).
Proof.
  intros s e S0 L0 A. pose proof L0 as [LW LD LG LC]. pose proof (sa_count _ S0) as K. pose proof (sa_wait _ S0) as W.
  destruct e as [| |k|k|y| |c|b]; cbn.
  - split; assumption.
  - destruct (fr_owed s); [exact L0|]. split; cbn; try assumption.
    intros c v I. apply in_app_or in I. destruct I as [I|[I|[]]]; [exact (LD c v I)|discriminate].
  - destruct (pick k (fr_up s)) as [[c r]|] eqn:P0; [|exact L0]. split; cbn; try assumption.
    intros d v I. apply in_app_or in I. destruct I as [I|[I|[]]]; [exact (LW d v I)|]. injection I as _ <-. lia.
  - destruct (pick k (fr_work s)) as [[[c v] r]|] eqn:P0; [|exact L0].
    destruct (pick_in _ _ _ _ _ P0) as [I J]. split; cbn; try assumption.
    + intros d w X. apply (LW d w). now apply J.
    + intros d w X. apply in_app_or in X. destruct X as [X|[X|[]]]; [exact (LD d w X)|].
      injection X as <- <-. exact (LW c v I).
  - destruct (if (fr_on s && y)%bool then fr_cache s else None) as [v|]; split; cbn; try assumption;
      intros d w X; apply app_nth in X; destruct X as [X|[_ X]]; try discriminate; exact (LG d w X).
  - destruct (fr_down s) as [|[|c v] r] eqn:D; [exact L0| |].
    + assert (U : ~ under_way s) by (apply A; split; [reflexivity|exists r; exact D]).
      unfold open_calls, waiting in W. rewrite D in W. cbn in W.
      split; cbn.
      * intros c v I. exfalso. apply U. exists c. left. apply W. rewrite !in_app_iff. right. left. now apply (in_map fst) in I.
      * intros c v I. exfalso. apply U. exists c. left. apply W. rewrite !in_app_iff. right. right.
        apply in_flat_map. exists (DReply c v). split; [exact I|now left].
      * intros c v I. exfalso. apply U. exists c. right. now exists v.
      * discriminate.
    + split; cbn; try assumption.
      * intros d w X. apply (LD d w). now right.
      * intros d w X. apply put_nth in X. destruct X as [[-> X]|[_ X]]; [|exact (LG d w X)].
        injection X as ->. apply (LD c v). now left.
  - destruct (nth_error (fr_calls s) c) as [[|v|v|v]|] eqn:E; try exact L0. split; cbn; try assumption.
    + intros d w X. apply put_nth in X. destruct X as [[-> X]|[_ X]]; [discriminate|exact (LG d w X)].
    + destruct (fr_on s); [|exact LC]. intros w [= <-]. exact (LG c v E).
  - split; cbn; try assumption. destruct b; [exact LC|discriminate].
Qed.

(** The calls from number n on gave P. *)
Record gives (n m : nat) (s : fresh) : Prop := { gi_hit : forall c v, nth_error (fr_calls s) c = Some (CHit v) -> n <= c -> m <= v }.
Lemma heard_step : forall s e, fr_heard s <= fr_heard (fstep s e).
Proof.
  intros s e. destruct e as [| |k|k|y| |c|b]; cbn; try lia.
  - destruct (fr_owed s); cbn; lia.
  - destruct (pick k (fr_up s)) as [[c r]|]; cbn; lia.
  - destruct (pick k (fr_work s)) as [[[c v] r]|]; cbn; lia.
  - destruct (if (fr_on s && y)%bool then fr_cache s else None); cbn; lia.
  - destruct (fr_down s) as [|[|c v] r]; cbn; lia.
  - destruct (nth_error (fr_calls s) c) as [[|v|v|v]|]; cbn; lia.
Qed.
Lemma gives_step : forall n m s e, lively s -> m <= fr_heard s -> gives n m s -> gives n m (fstep s e).
Proof.
  intros n m s e L M G0. pose proof G0 as [G]. destruct e as [| |k|k|y| |c|b]; cbn.
  - split; assumption.
  - destruct (fr_owed s); [exact G0|split; assumption].
  - destruct (pick k (fr_up s)) as [[c r]|]; [split; assumption|exact G0].
  - destruct (pick k (fr_work s)) as [[[c v] r]|]; [split; assumption|exact G0].
  - destruct (if (fr_on s && y)%bool then fr_cache s else None) as [v|] eqn:E; split; cbn; intros c w X H;
      apply app_nth in X; destruct X as [X|[_ X]]; try discriminate; try exact (G c w X H).
    injection X as ->. destruct (fr_on s && y)%bool; [|discriminate]. pose proof (li_cache _ L v E). lia.
  - destruct (fr_down s) as [|[|c v] r]; [exact G0|split; assumption|]. split; cbn.
    intros j w X. apply put_nth in X. destruct X as [[_ X]|[_ X]]; [discriminate|exact (G j w X)].
  - destruct (nth_error (fr_calls s) c) as [[|v|v|v]|]; try exact G0. split; cbn.
    intros j w X. apply put_nth in X. destruct X as [[_ X]|[_ X]]; [discriminate|exact (G j w X)].
  - split; assumption.
Qed.

Lemma apart_tail : forall s e h, apart s (e :: h) -> (hears_note s e -> ~ under_way s) /\ apart (fstep s e) h.
Proof.
  intros s e h A. split.
  - intro H. exact (A [] e h eq_refl H).
  - intros a x b -> H. exact (A (e :: a) x b eq_refl H).
Qed.
Lemma lively_run : forall h s, sane s -> lively s -> apart s h -> lively (frun s h).
Proof.
  induction h as [|e h IH]; intros s S0 L A; [exact L|]. cbn. apply apart_tail in A. destruct A as [A B].
  apply IH; [now apply sane_step| now apply lively_step|exact B].
Qed.
Lemma gives_run : forall n m h s, sane s -> lively s -> apart s h -> m <= fr_heard s -> gives n m s -> gives n m (frun s h).
Proof.
  intros n m. induction h as [|e h IH]; intros s S0 L A M G; [exact G|]. cbn. apply apart_tail in A. destruct A as [A B].
  apply IH; [now apply sane_step|now apply lively_step|exact B| |now apply gives_step].
  pose proof (heard_step s e). lia.
Qed.
Lemma apart_app : forall s a b, apart s (a ++ b) -> apart s a /\ apart (frun s a) b.
Proof.
  intros s a b A. split.
  - intros u e w -> H. apply (A u e (w ++ b)); [now rewrite <- app_assoc|exact H].
  - intros u e w -> H. rewrite <- frun_app in *. apply (A (a ++ u) e w); [now rewrite <- app_assoc|exact H].
Qed.

Lemma apart_heard : forall h h' j v, apart fresh0 (h ++ h') -> length (fr_calls (frun fresh0 h)) <= j ->
  gave (frun fresh0 (h ++ h')) j v -> fr_heard (frun fresh0 h) <= v.
Proof.
  intros h h' j v A L [G|G].
  - pose proof (asked_between h h' j v L G) as [X _]. pose proof (proj1 (heard_count h)). cbn in *. lia.
  - apply apart_app in A. destruct A as [A B]. pose proof (sane_run h _ sane0) as S1.
    pose proof (lively_run h _ sane0 lively0 A) as L1. rewrite frun_app in G.
    apply (gi_hit _ _ _ (gives_run (length (fr_calls (frun fresh0 h))) _ h' _ S1 L1 B (le_n _)
      ltac:(split; intros c w X Y; assert (c < length (fr_calls (frun fresh0 h))) by (apply nth_error_Some; congruence); lia)) j v G L).
Qed.

(** A way to see that a history is apart. *)
Definition idle (c : call) : bool := match c with CDone _ | CHit _ => true | _ => false end.
Fixpoint apartb (s : fresh) (h : list ev) : bool :=
  match h with
  | [] => true
  | e :: r => (match e, fr_down s with CHear, DNote :: _ => forallb idle (fr_calls s) | _, _ => true end && apartb (fstep s e) r)%bool
  end.
Lemma apartb_apart : forall h s, apartb s h = true -> apart s h.
Proof.
  induction h as [|e h IH]; intros s H a x b E N; [destruct a; discriminate|].
  cbn in H. apply andb_prop in H. destruct H as [H1 H2]. destruct a as [|y a]; cbn in E.
  - injection E as -> _. destruct N as [-> [r D]]. cbn in D. rewrite D in H1. intros (j & U). cbn in U.
    rewrite forallb_forall in H1. destruct U as [U|[v U]]; apply nth_error_In, H1 in U; discriminate.
  - injection E as -> E. exact (IH _ H2 a x b E N).
Qed.
