(* Proofs about the locks of the client. *)
From Coq Require Import List Arith Bool Lia.
From Verif Require Import LatchModel LatchSpec.
Import ListNotations.
Local Open Scope nat_scope.

(* ---- lists of threads ---- *)

Lemma put_same : forall t n v, n < length t -> nth_error (put_nth n v t) n = Some v.
Proof.
  induction t as [|a t IH]; intros [|n] v H; cbn in *; try lia; [reflexivity|]. apply IH. lia.
Qed.

Lemma put_other : forall t n k v, n <> k -> nth_error (put_nth n v t) k = nth_error t k.
Proof.
  induction t as [|a t IH]; intros [|n] [|k] v H; cbn; try reflexivity; try lia.
  apply IH. lia.
Qed.

Lemma nth_lt : forall (t : list (list act)) n v, nth_error t n = Some v -> n < length t.
Proof. intros t n v H. apply nth_error_Some. rewrite H. discriminate. Qed.

Lemma put_cases : forall t n k v w,
  nth_error (put_nth n v t) k = Some w -> n < length t ->
  (k = n /\ w = v) \/ (k <> n /\ nth_error t k = Some w).
Proof.
  intros t n k v w H L. destruct (Nat.eq_dec k n) as [-> |N].
  - left. split; [reflexivity|]. rewrite put_same in H by exact L. congruence.
  - right. split; [exact N|]. rewrite put_other in H by congruence. exact H.
Qed.

Lemma set_same : forall o l v, set_owner o l v l = v.
Proof. intros. unfold set_owner. destruct (lock_eq_dec l l); congruence. Qed.

Lemma set_other : forall o l v k, k <> l -> set_owner o l v k = o k.
Proof. intros. unfold set_owner. destruct (lock_eq_dec k l); congruence. Qed.

(* ---- what is held along a path ---- *)

Fixpoint bal (K : list lock) (a : list act) : option (list lock) :=
  match a with
  | [] => Some K
  | Take l :: r => bal (l :: K) r
  | Give l :: r =>
      match K with
      | [] => None
      | k :: K' => if lock_eq_dec k l then bal K' r else None
      end
  | _ :: r => bal K r
  end.

Definition is_nil (K : option (list lock)) : bool :=
  match K with Some [] => true | _ => false end.

Lemma bal_app : forall a b K,
  bal K (a ++ b) = match bal K a with Some K' => bal K' b | None => None end.
Proof.
  induction a as [|x a IH]; intros b K; cbn; [reflexivity|].
  destruct x; try apply IH. destruct K as [|k K]; [reflexivity|].
  destruct (lock_eq_dec k l); [apply IH|reflexivity].
Qed.

Lemma bal_lift : forall a K K' H, bal K a = Some K' -> bal (K ++ H) a = Some (K' ++ H).
Proof.
  induction a as [|x a IH]; intros K K' H E; cbn in *.
  - congruence.
  - destruct x; try (apply IH; exact E).
    + apply (IH (l :: K)). exact E.
    + destruct K as [|k K]; [discriminate|]. cbn. destruct (lock_eq_dec k l); [|discriminate].
      apply IH. exact E.
Qed.

(* Every path of every method is balanced. *)
Lemma code_bal : forall m, forallb (fun p => is_nil (bal [] p)) (code m) = true.
Proof. intro m; destruct m; vm_compute; reflexivity. Qed.

Lemma path_bal : forall m p, In p (code m) -> bal [] p = Some [].
Proof.
  intros m p I. pose proof (code_bal m) as H. rewrite forallb_forall in H.
  specialize (H p I). destruct (bal [] p) as [[|]|]; cbn in H; congruence.
Qed.

Lemma expands_bal : forall ms a, expands ms a -> bal [] a = Some [].
Proof.
  induction 1 as [|m ms p a I E IH]; [reflexivity|].
  rewrite bal_app, (path_bal m p I). exact IH.
Qed.

Lemma body_bal : forall ms b r K Z, expands ms b -> bal K r = Z -> bal K (b ++ r) = Z.
Proof.
  intros ms b r K Z E H. rewrite bal_app.
  pose proof (bal_lift b [] [] K (expands_bal ms b E)) as L. cbn in L. rewrite L. exact H.
Qed.

(* ---- the holder of a lock is the thread whose path took it ---- *)

Definition holds_ok (s : lsys) (i : nat) (a : list act) (K : list lock) : Prop :=
  bal K a = Some [] /\ NoDup K /\ forall l, In l K <-> owner s l = Some i.

(* P is a property of what a thread holds and has left to do. *)
Definition inv (P : list lock -> list act -> Prop) (s : lsys) : Prop :=
  (forall i a, nth_error (threads s) i = Some a -> exists K, holds_ok s i a K /\ P K a) /\
  (forall l i, owner s l = Some i -> i < length (threads s)).

Record keeps (W : world) (P : list lock -> list act -> Prop) : Prop := {
  k_take : forall K l r, P K (Take l :: r) -> P (l :: K) r;
  k_give : forall K l r, P (l :: K) (Give l :: r) -> P K r;
  k_rd : forall K x r, P K (Rd x :: r) -> P K r;
  k_wr : forall K x r, P K (Wr x :: r) -> P K r;
  k_call : forall K c r ms b, P K (Call c :: r) -> W c ms -> expands ms b -> P K (b ++ Back c :: r);
  k_back : forall K c r, P K (Back c :: r) -> P K r }.

Lemma put_len : forall t n v, length (put_nth n v t) = length t.
Proof. induction t as [|a t IH]; intros [|n] v; cbn; auto. Qed.

Lemma forall2_nth : forall (A B : Type) (R : A -> B -> Prop) x y n b,
  Forall2 R x y -> nth_error y n = Some b -> exists a, nth_error x n = Some a /\ R a b.
Proof.
  intros A B R x y n b F. revert n. induction F as [|a c x y HR F IH]; intros [|n] H; cbn in *;
    try discriminate.
  - injection H as <-. exists a. split; [reflexivity|exact HR].
  - apply IH. exact H.
Qed.

Lemma starts_inv : forall (P : list lock -> list act -> Prop) progs s,
  (forall i ms a, nth_error progs i = Some ms -> expands ms a -> P [] a) ->
  starts progs s -> inv P s.
Proof.
  intros P progs s HP [F N]. split.
  - intros i a H. destruct (forall2_nth _ _ _ _ _ _ _ F H) as (ms & G & E).
    exists []. split; [|exact (HP i ms a G E)]. split; [|split].
    + exact (expands_bal ms a E).
    + constructor.
    + intro l. cbn. rewrite N. split; [tauto|discriminate].
  - intros l i H. rewrite N in H. discriminate.
Qed.

Lemma holds_other : forall s t i a K,
  holds_ok s i a K -> (forall l, owner t l = Some i <-> owner s l = Some i) -> holds_ok t i a K.
Proof.
  intros s t i a K (B & N & H) E. split; [exact B|split;[exact N|]].
  intro l. rewrite E. apply H.
Qed.

Lemma step_inv : forall W P s i t, keeps W P -> inv P s -> lstep W s i t -> inv P t.
Proof.
  intros W P s i t KP [I L] S. destruct S as [l r A O|l r A O|x r A|x r A|c r ms b A Wc E|c r A];
    pose proof (nth_lt _ _ _ A) as LT; destruct (I i _ A) as (K & (B & N & H) & HP); split;
    cbn [threads owner] in *;
    try (intros k j Hk; rewrite put_len; first [exact (L k j Hk) | idtac]).
  - intros k a Hk. destruct (put_cases _ _ _ _ _ Hk LT) as [[-> ->] | [NE Hk']].
    + exists (l :: K). split; [|exact (k_take W P KP _ _ _ HP)]. split; [exact B|split].
      * constructor; [|exact N]. rewrite H. congruence.
      * intro m. cbn. split.
        -- intros [<-|Hm]; [apply set_same|]. destruct (lock_eq_dec m l) as [-> |NE].
           ++ apply set_same.
           ++ rewrite set_other by exact NE. apply H. exact Hm.
        -- destruct (lock_eq_dec m l) as [-> |NE]; [left; reflexivity|].
           rewrite set_other by exact NE. right. apply H. assumption.
    + destruct (I k a Hk') as (K' & HK & PK). exists K'. split; [|exact PK].
      apply (holds_other s); [exact HK|].
      intro m. cbn. destruct (lock_eq_dec m l) as [-> |NE2].
      * rewrite set_same, O. split; congruence.
      * rewrite set_other by exact NE2. tauto.
  - destruct (lock_eq_dec k l) as [-> |NE].
    + rewrite set_same in Hk. injection Hk as <-. exact LT.
    + rewrite set_other in Hk by exact NE. exact (L k j Hk).
  - cbn in B. intros k a Hk. destruct K as [|l' K]; [discriminate|].
    destruct (lock_eq_dec l' l) as [-> |]; [|discriminate]. inversion N as [|? ? NI N']; subst.
    destruct (put_cases _ _ _ _ _ Hk LT) as [[-> ->] | [NE Hk']].
    + exists K. split; [|exact (k_give W P KP _ _ _ HP)].
      split; [exact B|split; [exact N'|]]. intro m. cbn.
      destruct (lock_eq_dec m l) as [-> |NE].
      * rewrite set_same. split; [contradiction|discriminate].
      * rewrite set_other by exact NE. rewrite <- H. cbn. split; [tauto|].
        intros [E|E]; [congruence|exact E].
    + destruct (I k a Hk') as (K' & HK & PK). exists K'. split; [|exact PK].
      apply (holds_other s); [exact HK|].
      intro m. cbn. destruct (lock_eq_dec m l) as [-> |NE2].
      * rewrite set_same, O. split; congruence.
      * rewrite set_other by exact NE2. tauto.
  - destruct (lock_eq_dec k l) as [-> |NE].
    + rewrite set_same in Hk. discriminate.
    + rewrite set_other in Hk by exact NE. exact (L k j Hk).
  - intros k a Hk. destruct (put_cases _ _ _ _ _ Hk LT) as [[-> ->] | [NE Hk']].
    + exists K. split; [|exact (k_rd W P KP _ _ _ HP)].
      split; [exact B|split; [exact N|exact H]].
    + destruct (I k a Hk') as (K' & HK & PK). exists K'. split; [|exact PK].
      apply (holds_other s); [exact HK|]. intro m; cbn; tauto.
  - intros k a Hk. destruct (put_cases _ _ _ _ _ Hk LT) as [[-> ->] | [NE Hk']].
    + exists K. split; [|exact (k_wr W P KP _ _ _ HP)].
      split; [exact B|split; [exact N|exact H]].
    + destruct (I k a Hk') as (K' & HK & PK). exists K'. split; [|exact PK].
      apply (holds_other s); [exact HK|]. intro m; cbn; tauto.
  - intros k a Hk. destruct (put_cases _ _ _ _ _ Hk LT) as [[-> ->] | [NE Hk']].
    + exists K. split; [|exact (k_call W P KP _ _ _ _ _ HP Wc E)].
      split; [|split; [exact N|exact H]]. apply (body_bal ms); assumption.
    + destruct (I k a Hk') as (K' & HK & PK). exists K'. split; [|exact PK].
      apply (holds_other s); [exact HK|]. intro m; cbn; tauto.
  - intros k a Hk. destruct (put_cases _ _ _ _ _ Hk LT) as [[-> ->] | [NE Hk']].
    + exists K. split; [|exact (k_back W P KP _ _ _ HP)].
      split; [exact B|split; [exact N|exact H]].
    + destruct (I k a Hk') as (K' & HK & PK). exists K'. split; [|exact PK].
      apply (holds_other s); [exact HK|]. intro m; cbn; tauto.
Qed.

Lemma leads_inv : forall W P s t, keeps W P -> inv P s -> leads W s t -> inv P t.
Proof.
  intros W P s t KP I L. induction L as [|s i t u S L IH]; [exact I|].
  apply IH. exact (step_inv W P s i t KP I S).
Qed.

(* ---- the order of the locks ---- *)

Definition rank (l : lock) : nat :=
  match l with
  | LCancel => 1 | LWrite => 2 | LCache => 3 | LWorkers => 4 | LTasks => 5 | LOutbound => 6
  | LRequest => 7 | LExit => 8 | LLog => 9
  end.

(* The highest lock that may be held when the callback runs. *)
Definition level (c : callback) : nat :=
  match c with CStop => rank LCancel | CError => rank LWrite | _ => 0 end.

Definition at_most (n : nat) (K : list lock) : bool := forallb (fun k => rank k <=? n) K.

Fixpoint ordered (K : list lock) (a : list act) : bool :=
  match a with
  | [] => true
  | Take l :: r => forallb (fun k => rank k <? rank l) K && ordered (l :: K) r
  | Give l :: r => match K with [] => false | _ :: K' => ordered K' r end
  | Call c :: r => at_most (level c) K && ordered K r
  | _ :: r => ordered K r
  end.

(* Every lock taken is above n and every callback run allows n. *)
Fixpoint above (n : nat) (a : list act) : bool :=
  match a with
  | [] => true
  | Take l :: r => (n <? rank l) && above n r
  | Call c :: r => (n <=? level c) && above n r
  | _ :: r => above n r
  end.

Lemma code_ordered : forall m, forallb (ordered []) (code m) = true.
Proof. intro m; destruct m; vm_compute; reflexivity. Qed.

Lemma code_above : forall c m, may_call c m = true -> forallb (above (level c)) (code m) = true.
Proof. intros c m; destruct c; destruct m; vm_compute; intro H; first [reflexivity|discriminate H]. Qed.

Lemma ordered_app : forall a b K K', bal K a = Some K' ->
  ordered K (a ++ b) = ordered K a && ordered K' b.
Proof.
  induction a as [|x a IH]; intros b K K' E; cbn in *.
  - injection E as ->. reflexivity.
  - destruct x.
    + rewrite (IH b _ K' E). apply andb_assoc.
    + destruct K as [|k K]; [discriminate|]. destruct (lock_eq_dec k l); [|discriminate].
      exact (IH b _ K' E).
    + exact (IH b _ K' E).
    + exact (IH b _ K' E).
    + rewrite (IH b _ K' E). apply andb_assoc.
    + exact (IH b _ K' E).
Qed.

Lemma lower_lt : forall n l H, n <? rank l = true -> at_most n H = true ->
  forallb (fun k => rank k <? rank l) H = true.
Proof.
  intros n l H A B. unfold at_most in B. rewrite forallb_forall in *. intros k I.
  specialize (B k I). apply Nat.ltb_lt in A. apply Nat.leb_le in B. apply Nat.ltb_lt. lia.
Qed.

Lemma lower_le : forall n m H, n <=? m = true -> at_most n H = true -> at_most m H = true.
Proof.
  intros n m H A B. unfold at_most in *. rewrite forallb_forall in *. intros k I.
  specialize (B k I). apply Nat.leb_le in A, B. apply Nat.leb_le. lia.
Qed.

Lemma ordered_lift : forall a n K H K', bal K a = Some K' -> ordered K a = true ->
  above n a = true -> at_most n H = true -> ordered (K ++ H) a = true.
Proof.
  induction a as [|x a IH]; intros n K H K' B O A M; cbn in *; [reflexivity|].
  destruct x.
  - apply andb_true_iff in O, A. destruct O as [O1 O2], A as [A1 A2].
    apply andb_true_iff. split.
    + rewrite forallb_app. apply andb_true_iff. split; [exact O1|]. exact (lower_lt n l H A1 M).
    + exact (IH n (l :: K) H K' B O2 A2 M).
  - destruct K as [|k K]; [discriminate|]. destruct (lock_eq_dec k l); [|discriminate].
    exact (IH n K H K' B O A M).
  - exact (IH n K H K' B O A M).
  - exact (IH n K H K' B O A M).
  - apply andb_true_iff in O, A. destruct O as [O1 O2], A as [A1 A2].
    apply andb_true_iff. split; [|exact (IH n K H K' B O2 A2 M)].
    unfold at_most. rewrite forallb_app. apply andb_true_iff. split; [exact O1|].
    exact (lower_le n _ H A1 M).
  - exact (IH n K H K' B O A M).
Qed.

Lemma expands_ordered : forall ms a, expands ms a -> ordered [] a = true.
Proof.
  induction 1 as [|m ms p a I E IH]; [reflexivity|].
  rewrite (ordered_app p a [] [] (path_bal m p I)), IH, andb_true_r.
  pose proof (code_ordered m) as H. rewrite forallb_forall in H. exact (H p I).
Qed.

Lemma above_app : forall n a b, above n (a ++ b) = above n a && above n b.
Proof.
  induction a as [|x a IH]; intro b; cbn; [reflexivity|].
  destruct x; rewrite ?IH; try reflexivity; apply andb_assoc.
Qed.

Lemma expands_above : forall c ms a, expands ms a ->
  Forall (fun m => may_call c m = true) ms -> above (level c) a = true.
Proof.
  intros c ms a E. induction E as [|m ms p a I E IH]; intro F; [reflexivity|].
  inversion F as [|? ? F1 F2]; subst. rewrite above_app, (IH F2), andb_true_r.
  pose proof (code_above c m F1) as H. rewrite forallb_forall in H. exact (H p I).
Qed.

Definition ord (K : list lock) (a : list act) : Prop :=
  bal K a = Some [] /\ ordered K a = true.

Lemma polite_keeps : forall W, polite W -> keeps W ord.
Proof.
  intros W PW. split; unfold ord; cbn.
  - intros K l r [B O]. apply andb_true_iff in O. split; [exact B|exact (proj2 O)].
  - intros K l r [B O]. destruct (lock_eq_dec l l); [|congruence]. split; assumption.
  - intros K x r H; exact H.
  - intros K x r H; exact H.
  - intros K c r ms b [B O] Wc E. apply andb_true_iff in O. destruct O as [M O]. split.
    + apply (body_bal ms b _ K _ E). exact B.
    + pose proof (bal_lift b [] [] K (expands_bal ms b E)) as BL. cbn in BL.
      rewrite (ordered_app b _ K K BL). cbn [ordered]. rewrite O, andb_true_r.
      apply (ordered_lift b (level c) [] K [] (expands_bal ms b E) (expands_ordered ms b E)
               (expands_above c ms b E (PW c ms Wc)) M).
  - intros K c r H; exact H.
Qed.

Lemma reach_ord : forall W progs s t, polite W -> starts progs s -> leads W s t -> inv ord t.
Proof.
  intros W progs s t PW ST LD. apply (leads_inv W ord s t (polite_keeps W PW)); [|exact LD].
  apply (starts_inv ord progs); [|exact ST]. intros i ms a _ E.
  split; [exact (expands_bal ms a E)|exact (expands_ordered ms a E)].
Qed.

Lemma level_under : forall c, under_lock c = false -> level c = 0.
Proof. intros c; destruct c; cbn; congruence. Qed.

Lemma rank_pos : forall l, 1 <= rank l <= 9.
Proof. destruct l; cbn; lia. Qed.

(* Whoever holds a lock has something left to do; and it is not in a callback the library runs
   without one. *)
Lemma holder_busy : forall s j l, inv ord s -> owner s l = Some j ->
  exists a r, nth_error (threads s) j = Some (a :: r) /\
    (forall m, a = Take m -> rank l < rank m) /\
    (forall c, a = Call c -> under_lock c = true).
Proof.
  intros s j l [I L] O. pose proof (L l j O) as LT.
  destruct (nth_error (threads s) j) as [a|] eqn:E; [|apply nth_error_None in E; lia].
  destruct (I j a E) as (K & (B & N & H) & (_ & OR)).
  assert (IK : In l K) by (apply H; exact O).
  destruct a as [|x r].
  - cbn in B. injection B as ->. destruct IK.
  - exists x, r. split; [reflexivity|split].
    + intros m ->. cbn in OR. apply andb_true_iff in OR. destruct OR as [OR _].
      rewrite forallb_forall in OR. apply Nat.ltb_lt. exact (OR l IK).
    + intros c ->. cbn in OR. apply andb_true_iff in OR. destruct OR as [OR _].
      unfold at_most in OR. rewrite forallb_forall in OR. specialize (OR l IK).
      apply Nat.leb_le in OR. destruct (under_lock c) eqn:U; [reflexivity|].
      rewrite (level_under c U) in OR. pose proof (rank_pos l). lia.
Qed.

Lemma chain : forall s, inv ord s -> forall n j l, owner s l = Some j -> 12 - rank l <= n ->
  exists k, behind s j k /\ going s k /\
    forall c, in_callback s k c -> under_lock c = true.
Proof.
  intros s I n. induction n as [|n IH]; intros j l O LE.
  - pose proof (rank_pos l). lia.
  - destruct (holder_busy s j l I O) as (a & r & E & HT & HC).
    assert (GO : (forall m, a = Take m -> owner s m = None) ->
      exists k, behind s j k /\ going s k /\ forall c, in_callback s k c -> under_lock c = true).
    { intro G. exists j. split; [constructor|split].
      - exists a, r. split; assumption.
      - intros c (q & Q). rewrite E in Q. injection Q as Q _. exact (HC c Q). }
    destruct a as [m|m|x|x|c|c]; try (apply GO; intros; discriminate).
    destruct (owner s m) as [j2|] eqn:OM.
    + specialize (HT m eq_refl). pose proof (rank_pos m).
      destruct (IH j2 m OM ltac:(lia)) as (k & BK & GK & CK).
      exists k. split; [|split; assumption].
      apply (BeWait s j j2 k); [|exact BK]. exists m, r. split; assumption.
    + apply GO. intros m' Em. injection Em as ->. exact OM.
Qed.

Lemma progress_chain : forall s i, inv ord s -> unfinished s i ->
  (forall c, in_callback s i c -> under_lock c = true) ->
  exists k, behind s i k /\ going s k /\ forall c, in_callback s k c -> under_lock c = true.
Proof.
  intros s i I (a & r & E) HC.
  assert (GO : (forall m, a = Take m -> owner s m = None) ->
    exists k, behind s i k /\ going s k /\ forall c, in_callback s k c -> under_lock c = true).
  { intro G. exists i. split; [constructor|split; [|exact HC]]. exists a, r. split; assumption. }
  destruct a as [m|m|x|x|c|c]; try (apply GO; intros; discriminate).
  destruct (owner s m) as [j|] eqn:OM.
  - destruct (chain s I 12 j m OM) as (k & BK & GK & CK); [pose proof (rank_pos m); lia|].
    exists k. split; [|split; assumption].
    apply (BeWait s i j k); [|exact BK]. exists m, r. split; assumption.
  - apply GO. intros m' Em. injection Em as ->. exact OM.
Qed.

Lemma any_chain : forall s i, inv ord s -> unfinished s i ->
  exists k, behind s i k /\ going s k.
Proof.
  intros s i I U.
  destruct U as (a & r & E).
  destruct a as [m|m|x|x|c|c].
  5:{ exists i. split; [constructor|]. exists (Call c), r. split; [exact E|]. intros; discriminate. }
  all: destruct (progress_chain s i I) as (k & BK & GK & _);
    [eexists; eexists; exact E|intros d (q & Q); rewrite E in Q; discriminate|
     exists k; split; assumption].
Qed.

(* A thread that does not wait for a lock can make a step. *)
Lemma give_owner : forall s i l r, inv ord s -> nth_error (threads s) i = Some (Give l :: r) ->
  owner s l = Some i.
Proof.
  intros s i l r [I L] E. destruct (I i _ E) as (K & (B & N & H) & _). apply H.
  cbn in B. destruct K as [|k K]; [discriminate|]. destruct (lock_eq_dec k l); [|discriminate].
  left. assumption.
Qed.

Lemma going_steps : forall W s i, inv ord s -> returns W -> going s i -> exists t, lstep W s i t.
Proof.
  intros W s i I R (a & r & E & G). destruct a as [l|l|x|x|c|c].
  - eexists. apply (StTake W s i l r E). exact (G l eq_refl).
  - eexists. apply (StGive W s i l r E). exact (give_owner s i l r I E).
  - eexists. exact (StRd W s i x r E).
  - eexists. exact (StWr W s i x r E).
  - destruct (R c) as (ms & b & Wc & X). eexists. exact (StCall W s i c r ms b E Wc X).
  - eexists. exact (StBack W s i c r E).
Qed.

(* ---- ends ---- *)

Fixpoint cost (a : list act) : nat :=
  match a with [] => 0 | Call _ :: r => 2 + cost r | _ :: r => 1 + cost r end.

Fixpoint total (t : list (list act)) : nat :=
  match t with [] => 0 | a :: r => cost a + total r end.

Lemma total_put : forall t i a v, nth_error t i = Some a -> S (cost v) = cost a ->
  S (total (put_nth i v t)) = total t.
Proof.
  induction t as [|b t IH]; intros [|i] a v E L; cbn in *; try discriminate.
  - injection E as ->. lia.
  - pose proof (IH i a v E L). lia.
Qed.

Lemma step_total : forall W s i t, calls_nothing W -> lstep W s i t ->
  S (total (threads t)) = total (threads s).
Proof.
  intros W s i t C S. destruct S as [l r A O|l r A O|x r A|x r A|c r ms b A Wc E|c r A]; cbn [threads];
    try (eapply total_put; [exact A|reflexivity]).
  rewrite (C c ms Wc) in E. inversion E; subst. cbn [List.app].
  eapply total_put; [exact A|reflexivity].
Qed.

Lemma steps_total : forall W n s t, calls_nothing W -> leads_in W n s t ->
  n + total (threads t) = total (threads s).
Proof.
  intros W n s t C L. induction L as [|n s i t u S L IH]; [reflexivity|].
  pose proof (step_total W s i t C S). lia.
Qed.

(* ---- races ---- *)

Definition guard (x : var) : option lock :=
  match x with
  | VCache => Some LCache
  | VCancels => Some LCancel
  | VOutbound => Some LOutbound
  | VTasks => Some LTasks
  | VFutures => Some LWorkers
  | VQueue => Some LWrite
  | VPending => Some LRequest
  | VLogFile => Some LLog
  | _ => None
  end.

Definition var_eq_dec : forall a b : var, {a = b} + {a <> b}.
Proof. decide equality. Defined.

Definition has (l : lock) (K : list lock) : bool := if in_dec lock_eq_dec l K then true else false.

(* Every use of x is with l held. *)
Fixpoint covered (x : var) (l : lock) (K : list lock) (a : list act) : bool :=
  match a with
  | [] => true
  | Take m :: r => covered x l (m :: K) r
  | Give m :: r => match K with [] => false | _ :: K' => covered x l K' r end
  | Rd y :: r | Wr y :: r =>
      (if var_eq_dec y x then has l K else true) && covered x l K r
  | Call _ :: r | Back _ :: r => covered x l K r
  end.

Fixpoint unwritten (x : var) (a : list act) : bool :=
  match a with
  | [] => true
  | Wr y :: r => (if var_eq_dec y x then false else true) && unwritten x r
  | _ :: r => unwritten x r
  end.

Lemma covered_app : forall x l a b K K', bal K a = Some K' ->
  covered x l K (a ++ b) = covered x l K a && covered x l K' b.
Proof.
  intros x l. induction a as [|y a IH]; intros b K K' E; cbn in *.
  - injection E as ->. reflexivity.
  - destruct y.
    + exact (IH b _ K' E).
    + destruct K as [|k K]; [discriminate|]. destruct (lock_eq_dec k l0); [|discriminate].
      exact (IH b _ K' E).
    + rewrite (IH b _ K' E). apply andb_assoc.
    + rewrite (IH b _ K' E). apply andb_assoc.
    + exact (IH b _ K' E).
    + exact (IH b _ K' E).
Qed.

Lemma has_app : forall l K H, has l K = true -> has l (K ++ H) = true.
Proof.
  intros l K H. unfold has. destruct (in_dec lock_eq_dec l K) as [I|]; [|discriminate].
  destruct (in_dec lock_eq_dec l (K ++ H)) as [|N]; [reflexivity|].
  intros _. exfalso. apply N. apply in_or_app. left. exact I.
Qed.

Lemma covered_lift : forall x l a K H K', bal K a = Some K' -> covered x l K a = true ->
  covered x l (K ++ H) a = true.
Proof.
  intros x l. induction a as [|y a IH]; intros K H K' B C; cbn in *; [reflexivity|].
  destruct y.
  - exact (IH (l0 :: K) H K' B C).
  - destruct K as [|k K]; [discriminate|]. destruct (lock_eq_dec k l0); [|discriminate].
    exact (IH K H K' B C).
  - apply andb_true_iff in C. destruct C as [C1 C2]. apply andb_true_iff.
    split; [|exact (IH K H K' B C2)]. destruct (var_eq_dec x0 x); [|reflexivity].
    apply has_app. exact C1.
  - apply andb_true_iff in C. destruct C as [C1 C2]. apply andb_true_iff.
    split; [|exact (IH K H K' B C2)]. destruct (var_eq_dec x0 x); [|reflexivity].
    apply has_app. exact C1.
  - exact (IH K H K' B C).
  - exact (IH K H K' B C).
Qed.

Lemma expands_covered : forall x l (M : meth -> bool),
  (forall m, M m = true -> forallb (covered x l []) (code m) = true) ->
  forall ms a, expands ms a -> Forall (fun m => M m = true) ms -> covered x l [] a = true.
Proof.
  intros x l M HM ms a E. induction E as [|m ms p a I E IH]; intro F; [reflexivity|].
  inversion F as [|? ? F1 F2]; subst.
  rewrite (covered_app x l p a [] [] (path_bal m p I)), (IH F2), andb_true_r.
  pose proof (HM m F1) as H. rewrite forallb_forall in H. exact (H p I).
Qed.

Lemma unwritten_app : forall x a b, unwritten x (a ++ b) = unwritten x a && unwritten x b.
Proof.
  intros x. induction a as [|y a IH]; intro b; cbn; [reflexivity|].
  destruct y; rewrite ?IH; try reflexivity. apply andb_assoc.
Qed.

Lemma expands_unwritten : forall x (M : meth -> bool),
  (forall m, M m = true -> forallb (unwritten x) (code m) = true) ->
  forall ms a, expands ms a -> Forall (fun m => M m = true) ms -> unwritten x a = true.
Proof.
  intros x M HM ms a E. induction E as [|m ms p a I E IH]; intro F; [reflexivity|].
  inversion F as [|? ? F1 F2]; subst.
  rewrite unwritten_app, (IH F2), andb_true_r.
  pose proof (HM m F1) as H. rewrite forallb_forall in H. exact (H p I).
Qed.

Definition cov (x : var) (l : lock) (K : list lock) (a : list act) : Prop :=
  bal K a = Some [] /\ covered x l K a = true.

Lemma cov_keeps : forall x l (M : meth -> bool) (W : world),
  (forall m, M m = true -> forallb (covered x l []) (code m) = true) ->
  (forall c ms, W c ms -> Forall (fun m => M m = true) ms) ->
  keeps W (cov x l).
Proof.
  intros x l M W HM HW. split; unfold cov; cbn.
  - intros K m r H; exact H.
  - intros K m r [B C]. destruct (lock_eq_dec m m); [|congruence]. split; assumption.
  - intros K y r [B C]. apply andb_true_iff in C. split; [exact B|exact (proj2 C)].
  - intros K y r [B C]. apply andb_true_iff in C. split; [exact B|exact (proj2 C)].
  - intros K c r ms b [B C] Wc E. split; [apply (body_bal ms b _ K _ E); exact B|].
    pose proof (bal_lift b [] [] K (expands_bal ms b E)) as BL. cbn in BL.
    rewrite (covered_app x l b _ K K BL). cbn [covered]. rewrite C, andb_true_r.
    exact (covered_lift x l b [] K [] (expands_bal ms b E)
             (expands_covered x l M HM ms b E (HW c ms Wc))).
  - intros K c r H; exact H.
Qed.

Lemma touch_holds : forall x l s i a r, inv (cov x l) s ->
  nth_error (threads s) i = Some (a :: r) -> a = Rd x \/ a = Wr x -> owner s l = Some i.
Proof.
  intros x l s i a r [I _] E T. destruct (I i _ E) as (K & (B & N & H) & (_ & C)).
  apply H. assert (HH : has l K = true).
  { destruct T as [-> | ->]; cbn in C; apply andb_true_iff in C; destruct C as [C _];
      destruct (var_eq_dec x x); congruence. }
  unfold has in HH. destruct (in_dec lock_eq_dec l K); [assumption|discriminate].
Qed.

Lemma cov_no_race : forall x l s, inv (cov x l) s -> ~ race s x.
Proof.
  intros x l s I (i & j & a & b & r & q & NE & E1 & E2 & T1 & T2 & _).
  pose proof (touch_holds x l s i a r I E1 T1). pose proof (touch_holds x l s j b q I E2 T2).
  congruence.
Qed.

Lemma unw_keeps : forall x (M : meth -> bool) (W : world),
  (forall m, M m = true -> forallb (unwritten x) (code m) = true) ->
  (forall c ms, W c ms -> Forall (fun m => M m = true) ms) ->
  keeps W (fun _ a => unwritten x a = true).
Proof.
  intros x M W HM HW. split; cbn; try (intros; assumption).
  - intros K y r H. apply andb_true_iff in H. exact (proj2 H).
  - intros K c r ms b H Wc E. rewrite unwritten_app. cbn [unwritten]. rewrite H, andb_true_r.
    exact (expands_unwritten x M HM ms b E (HW c ms Wc)).
Qed.

Lemma unw_no_race : forall x s, inv (fun _ a => unwritten x a = true) s -> ~ race s x.
Proof.
  intros x s [I _] (i & j & a & b & r & q & NE & E1 & E2 & T1 & T2 & TW).
  destruct (I i _ E1) as (K & _ & U1). destruct (I j _ E2) as (K2 & _ & U2).
  destruct TW as [-> | ->]; cbn in U1, U2; destruct (var_eq_dec x x); cbn in *; congruence.
Qed.

Lemma all_covered : forall x l m, always_guarded x = true -> guard x = Some l ->
  forallb (covered x l []) (code m) = true.
Proof.
  intros x l m G E. destruct x; cbn in G, E; try discriminate; injection E as <-;
    destruct m; vm_compute; reflexivity.
Qed.

Lemma guarded_no_race : forall W progs s t x,
  starts progs s -> leads W s t -> always_guarded x = true -> ~ race t x.
Proof.
  intros W progs s t x ST LD G.
  assert (exists l, guard x = Some l) as [l GL].
  { destruct x; cbn in *; try discriminate; eexists; reflexivity. }
  assert (T : forall ms : list meth, Forall (fun m => (fun _ => true) m = true) ms).
  { intro ms. apply Forall_forall. reflexivity. }
  assert (HM : forall m, (fun _ : meth => true) m = true ->
                         forallb (covered x l []) (code m) = true).
  { intros m _. exact (all_covered x l m G GL). }
  apply (cov_no_race x l). apply (leads_inv W (cov x l) s); [|
    apply (starts_inv (cov x l) progs); [|exact ST]|exact LD].
  - apply (cov_keeps x l (fun _ => true) W HM). intros c ms _. apply T.
  - intros i ms a _ E. split; [exact (expands_bal ms a E)|].
    exact (expands_covered x l (fun _ => true) HM ms a E (T ms)).
Qed.

Lemma spared : forall x m, always_guarded x = false -> sets m x = false ->
  forallb (unwritten x) (code m) = true.
Proof.
  intros x m G. destruct x; cbn in G; try discriminate; clear;
    destruct m; vm_compute; intro H; first [reflexivity|discriminate H].
Qed.

Lemma alone_unwritten : forall W progs s t x,
  left_alone x W progs -> starts progs s -> leads W s t -> always_guarded x = false ->
  inv (fun _ a => unwritten x a = true) t.
Proof.
  intros W progs s t x [AW AP] ST LD G.
  assert (HM : forall m, negb (sets m x) = true -> forallb (unwritten x) (code m) = true).
  { intros m H. apply spared; [exact G|]. now apply negb_true_iff. }
  apply (leads_inv W _ s); [| |exact LD].
  - apply (unw_keeps x (fun m => negb (sets m x)) W HM). intros c ms Wc. apply Forall_forall. intros m I.
    apply negb_true_iff. exact (AW c ms m Wc I).
  - apply (starts_inv _ progs); [|exact ST]. intros i ms a E X.
    apply (expands_unwritten x (fun m => negb (sets m x)) HM ms a X). apply Forall_forall. intros m I.
    apply negb_true_iff. exact (AP ms m (nth_error_In _ _ E) I).
Qed.

Lemma alone_no_race : forall W progs s t x,
  left_alone x W progs -> starts progs s -> leads W s t -> ~ race t x.
Proof.
  intros W progs s t x A ST LD. destruct (always_guarded x) eqn:G.
  - exact (guarded_no_race W progs s t x ST LD G).
  - apply unw_no_race. exact (alone_unwritten W progs s t x A ST LD G).
Qed.

Lemma slot_free : forall c x, slot c = Some x -> always_guarded x = false.
Proof. intros c x H. destruct c; cbn in H; first [discriminate H|injection H as <-; reflexivity]. Qed.

Lemma alone_not_torn : forall W progs s t c x,
  slot c = Some x -> left_alone x W progs -> starts progs s -> leads W s t -> ~ torn t c.
Proof.
  intros W progs s t c x SC A ST LD (i & j & y & r & _ & SY & E). rewrite SC in SY. injection SY as <-.
  destruct (alone_unwritten W progs s t x A ST LD (slot_free c x SC)) as [I _].
  destruct (I j _ E) as (K & _ & U). cbn in U. destruct (var_eq_dec x x); cbn in U; congruence.
Qed.

(* ---- stuck for ever ---- *)

Lemma step_at : forall W s i t j, lstep W s i t -> i <> j ->
  nth_error (threads t) j = nth_error (threads s) j.
Proof. intros W s i t j S NE. destruct S; cbn [threads]; apply put_other; exact NE. Qed.

Lemma step_owner : forall W s i t l j, lstep W s i t -> owner s l = Some j -> i <> j ->
  owner t l = Some j.
Proof.
  intros W s i t l j S O NE. destruct S as [m r A X|m r A X|x r A|x r A|c r ms b A Wc E|c r A];
    cbn [owner]; try exact O; destruct (lock_eq_dec l m) as [-> |N];
    try congruence; rewrite set_other by exact N; exact O.
Qed.

Lemma taker_blocked : forall W s i t l r j, nth_error (threads s) i = Some (Take l :: r) ->
  owner s l = Some j -> ~ lstep W s i t.
Proof.
  intros W s i t l r j E O S. destruct S as [m q A X|m q A X|x q A|x q A|c q ms b A Wc Y|c q A];
    rewrite E in A; try discriminate A. injection A as <- _. congruence.
Qed.

Lemma self_wait_forever : forall W s t i l r,
  nth_error (threads s) i = Some (Take l :: r) -> owner s l = Some i -> leads W s t ->
  nth_error (threads t) i = Some (Take l :: r) /\ owner t l = Some i.
Proof.
  intros W s t i l r E O L. induction L as [|s k t u S L IH]; [split; assumption|].
  destruct (Nat.eq_dec k i) as [-> |NE].
  - exfalso. exact (taker_blocked W s i t l r i E O S).
  - apply IH; [rewrite (step_at W s k t i S NE); exact E|exact (step_owner W s k t l i S O NE)].
Qed.

Lemma blocked_behind : forall W d s t i l r, i <> d ->
  nth_error (threads s) i = Some (Take l :: r) -> owner s l = Some d -> leads_without W d s t ->
  nth_error (threads t) i = Some (Take l :: r) /\ owner t l = Some d.
Proof.
  intros W d s t i l r ID E O L. induction L as [|s k t u NE S L IH]; [split; assumption|].
  destruct (Nat.eq_dec k i) as [-> |NI].
  - exfalso. exact (taker_blocked W s i t l r d E O S).
  - apply IH; [rewrite (step_at W s k t i S NI); exact E|exact (step_owner W s k t l d S O NE)].
Qed.

Lemma self_stuck : forall W s i l r,
  nth_error (threads s) i = Some (Take l :: r) -> owner s l = Some i -> stuck W s i.
Proof.
  intros W s i l r E O. split; [exists (Take l), r; exact E|].
  intros t L. rewrite E. exact (proj1 (self_wait_forever W s t i l r E O L)).
Qed.

Definition act_eq_dec : forall a b : act, {a = b} + {a <> b}.
Proof. repeat decide equality. Defined.

Lemma in_code : forall p m,
  (if in_dec (list_eq_dec act_eq_dec) p (code m) then true else false) = true -> In p (code m).
Proof. intros p m. destruct (in_dec (list_eq_dec act_eq_dec) p (code m)); [auto|discriminate]. Qed.

Lemma starts_one : forall m p, In p (code m) -> starts [[m]] (LSys [p] (fun _ => None)).
Proof.
  intros m p I. split; [|reflexivity]. cbn. constructor; [|constructor].
  rewrite <- (app_nil_r p). constructor; [exact I|constructor].
Qed.

Lemma starts_two : forall m n p q, In p (code m) -> In q (code n) ->
  starts [[m]; [n]] (LSys [p; q] (fun _ => None)).
Proof.
  intros m n p q I J. split; [|reflexivity]. cbn. repeat constructor.
  - rewrite <- (app_nil_r p). constructor; [exact I|constructor].
  - rewrite <- (app_nil_r q). constructor; [exact J|constructor].
Qed.

(* A path that begins with this. *)
Definition begins (a : list act) (m : meth) : Prop := exists r, In (a ++ r) (code m).

Definition begins_with (l : lock) (m : meth) : bool :=
  existsb (fun p => match p with Take k :: _ => if lock_eq_dec k l then true else false | _ => false end)
    (code m).

Lemma begins_with_path : forall l m, begins_with l m = true ->
  exists r, In (Take l :: r) (code m).
Proof.
  intros l m H. unfold begins_with in H. apply existsb_exists in H. destruct H as (p & I & P).
  destruct p as [|[k| | | | |] r]; try discriminate. destruct (lock_eq_dec k l); [|discriminate].
  subst. exists r. exact I.
Qed.

Lemma expands_single : forall m p, In p (code m) -> expands [m] p.
Proof. intros m p I. rewrite <- (app_nil_r p). constructor; [exact I|constructor]. Qed.

Lemma all_finished : forall W progs s t, polite W -> returns W -> starts progs s ->
  leads W s t -> (forall i u, ~ lstep W t i u) -> forall i, ~ unfinished t i.
Proof.
  intros W progs s t PW R ST LD NS i U.
  pose proof (reach_ord W progs s t PW ST LD) as I.
  destruct (any_chain t i I U) as (k & _ & G).
  destruct (going_steps W t k I R G) as (u & S). exact (NS k u S).
Qed.

Lemma others_finish : forall W progs s t (hung : nat -> bool), polite W -> returns W ->
  starts progs s -> leads W s t ->
  (forall i, hung i = true -> exists c, in_callback t i c /\ under_lock c = false) ->
  (forall i u, hung i = false -> ~ lstep W t i u) ->
  forall i, hung i = false -> ~ unfinished t i.
Proof.
  intros W progs s t hung PW R ST LD HH NS i NH U.
  pose proof (reach_ord W progs s t PW ST LD) as I.
  destruct U as (a & r & E).
  assert (D : (exists c, a = Call c /\ under_lock c = false) \/
              forall c, in_callback t i c -> under_lock c = true).
  { destruct a as [l|l|x|x|c|c]; try (right; intros d (q & Q); rewrite E in Q; discriminate).
    destruct (under_lock c) eqn:UC.
    - right. intros d (q & Q). rewrite E in Q. injection Q as <- _. exact UC.
    - left. exists c. split; [reflexivity|exact UC]. }
  destruct D as [(c & -> & UC)|D].
  - assert (G : going t i). { exists (Call c), r. split; [exact E|]. intros; discriminate. }
    destruct (going_steps W t i I R G) as (u & S). exact (NS i u NH S).
  - destruct (progress_chain t i I) as (k & _ & G & CK); [exists a, r; exact E|exact D|].
    destruct (going_steps W t k I R G) as (u & S). apply (NS k u); [|exact S].
    destruct (hung k) eqn:HK; [|reflexivity].
    destruct (HH k HK) as (c & IC & UC). rewrite (CK c IC) in UC. discriminate.
Qed.


Lemma ends : forall W s, calls_nothing W ->
  exists bound, forall n t, leads_in W n s t -> n <= bound.
Proof.
  intros W s C. exists (total (threads s)). intros n t L.
  pose proof (steps_total W n s t C L). lia.
Qed.

(* ---- what goes wrong ---- *)

Ltac go i :=
  eapply LdStep;
  [first [eapply (StRd _ _ i); reflexivity | eapply (StWr _ _ i); reflexivity
         | eapply (StTake _ _ i); [reflexivity|reflexivity] | eapply (StGive _ _ i); [reflexivity|reflexivity]]
  |cbn [threads owner put_nth List.app]].

Definition asking : list act :=
  [Rd VTransport; Take LRequest; Wr VPending; Give LRequest; Take LWrite; Rd VQueue; Wr VQueue; Give LWrite].

Lemma loud_path : forall m, of_client m = true -> quiet m = false ->
  exists p, In p (code m) /\
    (p = asking \/ p = Wr VCaps :: asking \/ p = Rd VTtl :: asking \/
     p = [Rd VTransport; Rd VTransport; Take LWrite; Rd VQueue; Wr VQueue; Give LWrite]).
Proof.
  intros m C Q. destruct m; cbn in C, Q; try discriminate;
    first
    [ exists asking; split; [apply in_code; vm_compute; reflexivity|tauto]
    | exists (Wr VCaps :: asking); split; [apply in_code; vm_compute; reflexivity|tauto]
    | exists (Rd VTtl :: asking); split; [apply in_code; vm_compute; reflexivity|tauto]
    | exists [Rd VTransport; Rd VTransport; Take LWrite; Rd VQueue; Wr VQueue; Give LWrite];
      split; [apply in_code; vm_compute; reflexivity|tauto] ].
Qed.

Definition overflow : list act :=
  [Rd VTransport; Take LRequest; Wr VPending; Give LRequest; Take LWrite; Rd VQueue; Take LLog;
   Wr VLogFile; Give LLog; Rd VError; Call CError; Give LWrite].

Lemma overflows : In overflow (code CallTool).
Proof. apply in_code. vm_compute. reflexivity. Qed.

Lemma error_stuck : forall m, of_client m = true -> quiet m = false ->
  exists s t, starts [[CallTool]] s /\ leads (calling CError [m]) s t /\ stuck (calling CError [m]) t 0.
Proof.
  intros m C Q. destruct (loud_path m C Q) as (p & I & D).
  pose proof overflows as O. unfold overflow, asking in *.
  destruct D as [D|[D|[D|D]]]; subst p;
    (eexists; eexists; split; [exact (starts_one _ _ O)|]; split;
     [ do 10 go 0;
       eapply LdStep; [eapply (StCall _ _ 0 CError _ [m]);
         [reflexivity|left; split; reflexivity|exact (expands_single m _ I)]|cbn [threads owner put_nth List.app]];
       repeat go 0; apply LdHere
     | eapply self_stuck; reflexivity ]).
Qed.

Lemma error_hangs : forall W m, of_client m = true -> quiet m = false ->
  exists s t, starts [[CallTool]; [m]] s /\ leads W s t /\
    in_callback t 0 CError /\ unfinished t 1 /\
    forall u, leads_without W 0 t u -> nth_error (threads u) 1 = nth_error (threads t) 1.
Proof.
  intros W m C Q. destruct (loud_path m C Q) as (p & I & D).
  pose proof overflows as O. unfold overflow, asking in *.
  destruct D as [D|[D|[D|D]]]; subst p;
    (eexists; eexists; split; [exact (starts_two _ _ _ _ O I)|]; split; [do 10 go 0; repeat go 1; apply LdHere|];
     split; [eexists; reflexivity|]; split; [eexists; eexists; reflexivity|];
     intros u L; eapply (blocked_behind W 0 _ u 1 LWrite) in L; [| |reflexivity|reflexivity];
       [|intro X; inversion X];
     destruct L as [L _]; rewrite L; reflexivity).
Qed.

Lemma stop_hangs : forall W,
  exists s t, starts [[NCancelled]; [QSample]] s /\ leads W s t /\
    in_callback t 0 CStop /\ unfinished t 1 /\
    forall u, leads_without W 0 t u -> nth_error (threads u) 1 = nth_error (threads t) 1.
Proof.
  intro W. eexists. eexists. split; [apply (starts_two NCancelled QSample
    [Take LCancel; Wr VCancels; Call CStop; Give LCancel]
    [Take LCancel; Wr VCancels; Give LCancel; Rd VSampling]); apply in_code; vm_compute; reflexivity|]. split.
  - do 2 go 0. apply LdHere.
  - split; [eexists; reflexivity|]. split; [eexists; eexists; reflexivity|].
    intros u L. eapply (blocked_behind W 0 _ u 1 LCancel) in L; [| |reflexivity|reflexivity];
      [|intro X; inversion X].
    destruct L as [L _]. rewrite L. reflexivity.
Qed.

Tactic Notation "racing" constr(p) constr(q) integer(k) :=
  eexists; eexists; split; [apply (starts_two _ _ p q); apply in_code; vm_compute; reflexivity|];
  split; [do k go 1; apply LdHere|];
  eexists 0, 1, _, _, _, _; split; [discriminate|]; split; [reflexivity|]; split; [reflexivity|]; tauto.

Lemma races : forall W x m n,
  In (x, m, n) [(VNotes, SetNotificationHandler, NOther); (VNotes, RemoveNotificationHandler, NOther);
                (VProgress, SetProgressHandler, NProgress); (VStatus, SetTaskStatusHandler, NTaskStatus);
                (VError, SetErrorHandler, ReaderError); (VRoots, SetRootsHandler, QRoots);
                (VSampling, SetSamplingHandler, QSample); (VElicit, SetElicitationHandler, QElicit);
                (VTtl, SetCacheTtl, ListTools); (VMode, SetValidationMode, QTaskList);
                (VCaps, Initialize, QTaskGet); (VTransport, Connect, IsConnected)] ->
  exists s t, starts [[m]; [n]] s /\ leads W s t /\ race t x.
Proof.
  intros W x m n I. cbn [In] in I.
  destruct I as [E|[E|[E|[E|[E|[E|[E|[E|[E|[E|[E|[E|[]]]]]]]]]]]]]; injection E as <- <- <-.
  - racing [Wr VNotes] [Rd VNotes] 0.
  - racing [Wr VNotes] [Rd VNotes] 0.
  - racing [Wr VProgress] [Rd VProgress; Rd VMode] 0.
  - racing [Wr VStatus] [Rd VStatus; Rd VMode] 0.
  - racing [Wr VError] [Rd VError] 0.
  - racing [Wr VRoots] [Rd VRoots] 0.
  - racing [Wr VSampling] [Take LCancel; Wr VCancels; Give LCancel; Rd VSampling] 3.
  - racing [Wr VElicit] [Rd VElicit] 0.
  - racing [Wr VTtl] (Rd VTtl :: asking) 0.
  - racing [Wr VMode] [Rd VCaps; Take LTasks; Rd VTasks; Give LTasks; Rd VMode] 4.
  - racing (Wr VCaps :: asking) [Rd VCaps] 0.
  - racing [Wr VTransport; Wr VThreads] [Rd VTransport] 0.
Qed.

Tactic Notation "tearing" constr(p) integer(k) constr(x) :=
  eexists; eexists; split; [apply (starts_one _ p); apply in_code; vm_compute; reflexivity|];
  split;
  [ do k go 0;
    eapply LdStep; [eapply (StCall _ _ 0 _ _ [_] [Wr x]);
      [reflexivity|left; split; reflexivity
      |apply expands_single; apply in_code; vm_compute; reflexivity]|cbn [threads owner put_nth List.app]];
    apply LdHere
  | exists 0, 0, x; eexists; split; [eexists; split; [reflexivity|]; right; left; reflexivity|];
    split; reflexivity ].

Lemma tears : forall c q m,
  In (c, q, m) [(CNote, NOther, SetNotificationHandler); (CNote, NOther, RemoveNotificationHandler);
                (CProgress, NProgress, SetProgressHandler); (CStatus, NTaskStatus, SetTaskStatusHandler);
                (CError, ReaderError, SetErrorHandler); (CRoots, QRoots, SetRootsHandler);
                (CSample, QSample, SetSamplingHandler); (CElicit, QElicit, SetElicitationHandler)] ->
  exists s t, starts [[q]] s /\ leads (calling c [m]) s t /\ torn t c.
Proof.
  intros c q m I. cbn [In] in I.
  destruct I as [E|[E|[E|[E|[E|[E|[E|[E|[]]]]]]]]]; injection E as <- <- <-.
  - tearing [Rd VNotes; Call CNote] 1 VNotes.
  - tearing [Rd VNotes; Call CNote] 1 VNotes.
  - tearing [Rd VProgress; Rd VMode; Rd VProgress; Call CProgress] 3 VProgress.
  - tearing [Rd VStatus; Rd VMode; Rd VStatus; Call CStatus] 3 VStatus.
  - tearing [Rd VError; Rd VError; Call CError] 2 VError.
  - tearing [Rd VRoots; Rd VRoots; Call CRoots] 2 VRoots.
  - tearing [Take LCancel; Wr VCancels; Give LCancel; Rd VSampling; Rd VMode; Rd VSampling; Call CSample] 6 VSampling.
  - tearing [Rd VElicit; Rd VMode; Rd VElicit; Call CElicit] 3 VElicit.
Qed.
