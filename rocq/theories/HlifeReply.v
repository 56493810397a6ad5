(** A response that has been read completes its request. *)
From Coq Require Import List Arith Bool Lia.
From Verif Require Import HlifeModel HlifeSpec HlifeInv HlifeStep HlifeLive HlifeCall.
Import ListNotations.
Local Open Scope nat_scope.

Lemma complete_keeps : forall (A : Type) k j (o x : A) l, nth_error l k = Some (Some x) -> nth_error (complete j o l) k = Some (Some x).
Proof.
  induction k as [|k IH]; intros [|j] o x [|y l] E; cbn in *; try discriminate E; auto. injection E as ->. reflexivity.
Qed.
Lemma complete_hits : forall (A : Type) k (o : A) l, k < length l -> exists x, nth_error (complete k o l) k = Some (Some x).
Proof.
  induction k as [|k IH]; intros o [|y l] E; cbn in *; try lia; [destruct y; eauto|apply IH; lia].
Qed.
Lemma complete_len : forall (A : Type) k (o : A) l, length (complete k o l) = length l.
Proof. induction k as [|k IH]; intros o [|y l]; cbn; auto. Qed.
Lemma all_keeps : forall (A : Type) k (o x : A) l, nth_error l k = Some (Some x) -> nth_error (complete_all o l) k = Some (Some x).
Proof. intros A k o x l E. unfold complete_all. rewrite nth_error_map, E. reflexivity. Qed.

Lemma answered_step : forall c k s v, answered k s -> answered k (hlstep c s v).
Proof.
  intros c k s v (o & E). unfold hlstep, answered. destruct (hl_life s); eauto.
  assert (X : forall y, nth_error (hl_futs s ++ [y]) k = Some (Some o)) by (intro y; rewrite nth_error_app1; [exact E|]; apply nth_error_Some; congruence).
  destruct v; cbv beta iota; go; unfold call_step, own_thread; brk; see; exists o; auto using complete_keeps, all_keeps.
Qed.
Lemma interrupted_step : forall c s v, interrupted s -> interrupted (hlstep c s v).
Proof.
  intros c s v H. unfold interrupted in *. assert (LC : hl_life s = Alive \/ hl_life s <> Alive) by (destruct (hl_life s); auto; right; discriminate). destruct LC as [L|L].
  2:{ left. assert (hlstep c s v = s) as -> by (unfold hlstep; destruct (hl_life s); congruence). exact L. }
  destruct H as [H|[H|[(p & H)|(b & H)]]]; [contradiction| | |].
  - right. left. unfold hlstep. rewrite L. destruct v; cbv beta iota; go; unfold call_step, own_thread; brk; see; auto.
  - unfold hlstep. rewrite L. destruct v; cbv beta iota; go; unfold call_step, own_thread; rewrite ?H; brk; see; eauto 6; try (left; discriminate).
    all: right; right; right; eexists; apply in_app_iff; right; now left.
  - right. right. right. exists b. unfold hlstep. rewrite L. destruct v; cbv beta iota; go; unfold call_step, own_thread; brk; see; auto; apply in_app_iff; now left.
Qed.

(** Every request in the transport has its future; nothing waits while there is no i/o thread. *)
Definition numbered (n : nat) (j : job) : Prop := match j with JPost k _ => k < n | _ => True end.
Record RI (c : hlconf) (s : hl) : Prop := {
  ri_ready : forall i, In i (hl_ready s) -> numbered (length (hl_futs s)) (item_job i);
  ri_flight : forall j, In j (hl_flight s) -> numbered (length (hl_futs s)) j;
  ri_shut : forall j r, hl_io s = IShut j r -> numbered (length (hl_futs s)) j;
  ri_spawn : forall k r, hl_io s = ISpawn k r -> k < length (hl_futs s);
  ri_plain : hk_tls c = false -> forall j r, hl_io s <> IShut j r;
  ri_none : hl_io s = INone -> hl_life s = Alive -> hl_stop s = false -> hl_ready s = [] /\ hl_flight s = [] /\ hl_conn s = false
}.

Lemma numbered_le : forall n m j, n <= m -> numbered n j -> numbered m j.
Proof. intros n m [k i|k| | |] L N; cbn in *; auto. lia. Qed.
Lemma drop_in : forall j f g, drop_job j f = Some g -> In j f /\ forall x, In x g -> In x f.
Proof.
  induction f as [|y f IH]; intros g E; [discriminate E|]. cbn in E. destruct (job_eqb j y) eqn:Q.
  - injection E as <-. apply job_eqb_eq in Q as <-. split; [now left|intros; now right].
  - destruct (drop_job j f) as [g'|]; [|discriminate E]. injection E as <-. destruct (IH _ eq_refl) as (A & B). split; [now right|]. intros x [->|X]; [now left|right; auto].
Qed.

Lemma ri_step : forall c s v, HI s -> RI c s -> RI c (hlstep c s v).
Proof.
  intros c s v I R. assert (LC : hl_life s = Alive \/ hl_life s <> Alive) by (destruct (hl_life s); auto; right; discriminate). destruct LC as [L|L].
  2:{ assert (hlstep c s v = s) as -> by (unfold hlstep; destruct (hl_life s); congruence). exact R. }
  pose proof (hi_dead _ I) as HD. pose proof (hi_ended _ I) as HE. clear I. destruct R as [A B C C2 D E]. unfold hlstep. rewrite L.
  constructor.
  - destruct v; cbv beta iota; go; unfold call_step, own_thread; brk; see; unfold complete_all; rewrite ?app_length, ?complete_len, ?map_length; auto; cbn [length].
    all: let z := fresh in intro z; rewrite ?in_app_iff; cbn [In]; intro X; repeat match goal with H : _ \/ _ |- _ => destruct H as [H|H] end; subst; try contradiction; cbn [item_job numbered]; try lia; auto.
    all: try (eapply numbered_le; [|now apply A]; lia).
    all: try (match goal with Hd : drop_job _ _ = Some _ |- _ => apply drop_in in Hd as (? & ?); auto end).
    all: try (match goal with Hr : hl_ready _ = _ |- _ => rewrite ?Hr in A end; apply A; right; assumption).
    all: try (match goal with Hr : hl_ready _ = [], X : In _ (hl_ready _) |- _ => rewrite Hr in X; destruct X end).
  - destruct v; cbv beta iota; go; unfold call_step, own_thread; brk; see; unfold complete_all; rewrite ?app_length, ?complete_len, ?map_length; auto; cbn [length].
    all: let z := fresh in intro z; rewrite ?in_app_iff; cbn [In]; intro X; repeat match goal with H : _ \/ _ |- _ => destruct H as [H|H] end; subst; try contradiction; cbn [item_job numbered]; try lia; auto.
    all: try (eapply numbered_le; [|now apply B]; lia).
    all: try (match goal with Hd : drop_job _ _ = Some _ |- _ => apply drop_in in Hd as (? & ?); auto end).
    all: try (match goal with Hr : hl_ready _ = _ |- _ => rewrite ?Hr in A end; match goal with |- numbered _ ?j => exact (A (QStart j) (or_introl eq_refl)) end).
  - destruct v; cbv beta iota; go; unfold call_step, own_thread; brk; see; unfold complete_all; rewrite ?app_length, ?complete_len, ?map_length; auto; cbn [length].
    all: intros ? ? X; try discriminate X; try (injection X as <- <-).
    all: try (match goal with Hr : hl_io _ = _, X : hl_io _ = _ |- _ => first [assert (AA := C _ _ (eq_trans (eq_sym Hr) X))|rewrite Hr in X; discriminate X] end; apply (numbered_le (length (hl_futs s))); [lia|exact AA]).
    all: try (assert (AA := C _ _ X); apply (numbered_le (length (hl_futs s))); [lia|exact AA]).
    all: try (match goal with Hr : hl_ready _ = _ |- _ => rewrite ?Hr in A end; exact (A _ (or_introl eq_refl))).
  - destruct v; cbv beta iota; go; unfold call_step, own_thread; brk; see; unfold complete_all; rewrite ?app_length, ?complete_len, ?map_length; auto; cbn [length].
    all: intros ? ? X; try discriminate X; try (injection X as <- <-).
    all: try (match goal with Hr : hl_io _ = _, X : hl_io _ = _ |- _ => first [assert (AA := C2 _ _ (eq_trans (eq_sym Hr) X))|rewrite Hr in X; discriminate X] end; lia).
    all: try (assert (AA := C2 _ _ X); lia).
    all: try (match goal with Hr : hl_ready _ = _ |- _ => rewrite ?Hr in A end; exact (A _ (or_introl eq_refl))).
    all: try (match goal with Hr : hl_io _ = _ |- _ => rewrite ?Hr in C end; exact (C _ _ eq_refl)).
  - intros T. specialize (D T). destruct v; cbv beta iota; go; unfold call_step, own_thread; rewrite ?T; brk; see; auto; try discriminate; try congruence.
  - destruct v; cbv beta iota; go; unfold call_step, own_thread; brk; see; auto; try discriminate; try congruence.
    all: intros X Y Z.
    all: try (first [specialize (E X Y Z)|specialize (E eq_refl Y Z)]; destruct E as (E1 & E2 & E3); try discriminate E3; repeat split; try assumption; try congruence; fail).
    + exfalso. destruct (E X Y Z) as (_ & _ & E3). rewrite E3 in *. discriminate.
    + exfalso. first [pose proof (HE eq_refl)|pose proof (HE ltac:(eassumption))]; congruence.
    + exfalso. destruct (E X Y Z) as (_ & E2 & _). rewrite E2 in *. discriminate.
    + exfalso. destruct HD as [[H|[H|H]]|(_ & H & _)]; congruence.
Qed.
Lemma ri_run : forall c h s, HI s -> RI c s -> RI c (hlrun c s h).
Proof. induction h as [|v h IH]; intros s I R; [exact R|]. cbn. apply IH; [now apply inv_step|now apply ri_step]. Qed.
Lemma ri_reach : forall c s, reach c s -> RI c s.
Proof. intros c s (h & ->). apply ri_run; [exact inv0|]. constructor; cbn; intros; try contradiction; try discriminate; auto. Qed.

Definition hit (k : nat) (i : item) : bool := match i with QEnd (JPost j _) RAnswer | QEnd (JPost j _) RNothing => Nat.eqb j k | _ => false end.
Fixpoint idx (k : nat) (l : list item) : option nat :=
  match l with [] => None | i :: r => if hit k i then Some 0 else match idx k r with Some n => Some (S n) | None => None end end.
Lemma idx_app : forall k l r n, idx k l = Some n -> idx k (l ++ r) = Some n.
Proof. induction l as [|i l IH]; intros r n E; [discriminate E|]. cbn in *. destruct (hit k i); [exact E|]. destruct (idx k l) as [m|]; [|discriminate E]. now rewrite (IH r m eq_refl). Qed.
Lemma idx_in : forall k l i r, (r = RAnswer \/ r = RNothing) -> In (QEnd (JPost k i) r) l -> exists n, idx k l = Some n.
Proof.
  induction l as [|x l IH]; intros i r R E; [destruct E|]. cbn. destruct (hit k x) eqn:H; [eauto|].
  destruct E as [->|E]; [exfalso; cbn in H; destruct R as [-> | ->]; rewrite Nat.eqb_refl in H; discriminate H|].
  destruct (IH i r R E) as (n & ->). eauto.
Qed.

(** How far the response to request k is from its turn. *)
Definition coming (k : nat) (s : hl) : option nat :=
  match hl_io s with
  | ISpawn j RAnswer | ISpawn j RNothing => if Nat.eqb j k then Some 0 else match idx k (hl_ready s) with Some n => Some (4 * n + 1 + rank (hl_io s)) | None => None end
  | i => match idx k (hl_ready s) with Some n => Some (4 * n + 1 + rank i) | None => None end
  end.
Definition cm (k : nat) (s : hl) : nat * nat := (0, match coming k s with Some n => n | None => 0 end).
Definition on (k : nat) (s : hl) : Prop := answered k s \/ interrupted s.
Definition WI (c : hlconf) (k : nat) (s : hl) : Prop := HI s /\ RI c s /\ ~ interrupted s /\ exists n, coming k s = Some n.

Lemma not_int : forall s, ~ interrupted s -> hl_life s = Alive /\ hl_stop s = false /\ in_call ByIo s = false.
Proof.
  intros s N. unfold interrupted, in_call in *. destruct (hl_life s); [|exfalso; apply N; left; discriminate|exfalso; apply N; left; discriminate].
  destruct (hl_stop s); [exfalso; apply N; auto|]. repeat split. destruct (hl_call s) as [[[] p]|]; try reflexivity. exfalso. apply N. eauto.
Qed.
Lemma int_dec : forall s, interrupted s \/ ~ interrupted s.
Proof.
  intro s. unfold interrupted. destruct (hl_life s); [|left; left; discriminate|left; left; discriminate]. destruct (hl_stop s); [auto|].
  assert (R : (exists b, In (ByIo, b) (hl_rets s)) \/ ~ exists b, In (ByIo, b) (hl_rets s)).
  { induction (hl_rets s) as [|[w b] l IH]; [right; intros (b & [])|]. destruct IH as [(b1 & X)|X]; [left; exists b1; now right|].
    destruct w; [right|left; exists b; now left|right]; intros (b1 & [Y|Y]); try discriminate Y; apply X; eauto. }
  destruct R as [R|R]; [auto|]. destruct (hl_call s) as [[[] p]|] eqn:C; try (right; intros [X|[X|[(q & X)|X]]]; [congruence|discriminate X|discriminate X|contradiction]). left. right. right. left. eauto.
Qed.

Definition cwait (s : hl) : hlact := need_io (hl_io s).
Lemma wi_act : forall c k s v, hk_tls c = false -> WI c k s ->
  on k (hlstep c s v) \/ WI c k (hlstep c s v) /\ ahead (cm k) cwait s (hlstep c s v) /\ (v = cwait s -> lex (cm k (hlstep c s v)) (cm k s)).
Proof.
  intros c k s v T (I & R & N & n & C). destruct (int_dec (hlstep c s v)) as [X|N']; [left; now right|].
  assert (Main : answered k (hlstep c s v) \/ exists m, coming k (hlstep c s v) = Some m /\ (m < n \/ m = n /\ hl_io (hlstep c s v) = hl_io s /\ v <> cwait s)).
  { pose proof (inv_step c v s I) as I'. destruct (not_int _ N) as (L & Z & CB). pose proof (ri_plain _ _ R T) as PL. pose proof (hi_spawn _ I) as HS. pose proof (hi_ended _ I) as HE.
    pose proof (ri_none _ _ R) as RN. pose proof (ri_spawn _ _ R) as RS. pose proof (ri_ready _ _ R) as RR. 
    clear I I' R N. unfold cwait.
    assert (NI : hl_io s <> INone).
    { intro IO. destruct (RN IO L Z) as (Q & _). revert C. unfold coming. rewrite IO, Q. discriminate. }
    assert (NE : hl_io s <> IEnded) by (intro IO; specialize (HE IO); congruence). clear HE RN.
    assert (Same : forall s' x, hl_io s' = hl_io s -> hl_ready s' = hl_ready s ++ x -> v <> need_io (hl_io s) -> answered k s' \/ exists m, coming k s' = Some m /\ (m < n \/ m = n /\ hl_io s' = hl_io s /\ v <> need_io (hl_io s))).
    { intros s' x A B V. right. exists n. split; [|auto]. revert C. unfold coming. rewrite A, B.
      destruct (idx k (hl_ready s)) as [z|] eqn:Q; [rewrite (idx_app k _ x z Q); auto|]. destruct (hl_io s) as [| | |j [| |]| |]; try discriminate; destruct (Nat.eqb j k); auto; discriminate. }
    assert (Sme : forall s', hl_io s' = hl_io s -> hl_ready s' = hl_ready s -> v <> need_io (hl_io s) -> answered k s' \/ exists m, coming k s' = Some m /\ (m < n \/ m = n /\ hl_io s' = hl_io s /\ v <> need_io (hl_io s))).
    { intros s' A B V. apply (Same s' []); auto. now rewrite app_nil_r. }
    assert (Low : forall s' x, (forall j r, hl_io s' <> ISpawn j r) -> rank (hl_io s') < rank (hl_io s) -> hl_ready s' = hl_ready s ++ x -> coming k s <> Some 0 -> exists m, coming k s' = Some m /\ (m < n \/ m = n /\ hl_io s' = hl_io s /\ v <> need_io (hl_io s))).
    { intros s' x A B D E. assert (Q : exists z, idx k (hl_ready s) = Some z /\ n = 4 * z + 1 + rank (hl_io s)).
      { revert C E. unfold coming. destruct (hl_io s) as [| | |j [| |]| |]; destruct (idx k (hl_ready s)) as [z|]; try destruct (Nat.eqb j k); try congruence; intros C E; injection C as <-; eauto. }
      destruct Q as (z & Q & ->). exists (4 * z + 1 + rank (hl_io s')). split; [|lia]. unfold coming. rewrite D, (idx_app _ _ x _ Q). destruct (hl_io s') as [| | |j r| |]; try reflexivity. exfalso. now apply (A j r). }
    assert (NV : forall b, b = need_io (hl_io s) -> In b own_turns).
    { intros b ->. destruct (hl_io s) as [| |j r|j r|j q|]; cbn; auto. exfalso. now apply (PL j r). }
    unfold hlstep in N' |- *. rewrite L in N' |- *. destruct v; cbv beta iota in *;
      try (assert (VN : forall i, i = need_io (hl_io s) -> In i own_turns) by exact NV; match goal with |- context [?v <> need_io _] => assert (V : v <> need_io (hl_io s)) by (intro V; apply NV in V; cbn in V; intuition discriminate) end; clear VN).
    + destruct (hl_call s) as [[[] p]|]; try (now apply Sme); destruct (hl_io s) eqn:IO; try congruence; exfalso; apply N'; left; discriminate.
    + destruct (hl_conn s); [eapply Same; [reflexivity|reflexivity|exact V]|now apply Sme].
    + destruct (hl_conn s); [eapply Same; [reflexivity|reflexivity|exact V]|now apply Sme].
    + destruct (may_call w s); [|now apply Sme]. destruct (hl_conn s && hk_delete c)%bool; [eapply Same; [reflexivity|reflexivity|exact V]|now apply Sme].
    + destruct (may_call w s); now apply Sme.
    + destruct (hl_call s) as [[w p]|]; [|now apply Sme]. destruct p as [|d|d|[]|d|[]]; cbn [call_step] in *; unfold own_thread in *.
      * destruct (hl_deleted s); now apply Sme.
      * now apply Sme.
      * destruct (hl_sse s); try (now apply Sme); destruct w; try (now apply Sme); destruct d; now apply Sme.
      * destruct (hl_io s) eqn:IO; try congruence; apply Sme; auto.
      * now apply Sme.
      * destruct (hl_io s) eqn:IO; try congruence; destruct w; try (apply Sme; auto; fail); destruct d; apply Sme; auto.
      * destruct (hl_sse s); now apply Sme.
      * now apply Sme.
    + destruct (drop_job j (hl_flight s)); [eapply Same; [reflexivity|reflexivity|exact V]|now apply Sme].
    + (* Take *) destruct (hl_io s) as [| |j r|j r|j q|] eqn:IO; try congruence; try (apply Sme; auto; discriminate). rewrite Z. unfold take. destruct (hl_ready s) as [|i q] eqn:RD.
      { exfalso. revert C. unfold coming. rewrite IO, RD. discriminate. }
      unfold coming in C. rewrite IO, RD in C. cbn [idx] in C. rewrite T.
      destruct (hit k i) eqn:H.
      * destruct i as [|j r]; [discriminate H|]. destruct j as [j b|j| | |]; try discriminate H.
        assert (J : j = k) by (destruct r; try discriminate H; now apply Nat.eqb_eq). subst j.
        assert (KL : k < length (hl_futs s)) by exact (RR _ (or_introl eq_refl)).
        cbn [settle]. destruct (b && _ && _ && _)%bool.
        -- right. exists 0. unfold coming. see. rewrite Nat.eqb_refl. split; [destruct r; try discriminate H; reflexivity|]. injection C as <-. cbn. lia.
        -- left. destruct r; try discriminate H; unfold answered; cbn [finish]; unfold answer; see; now apply complete_hits.
      * right. destruct (idx k q) as [z|] eqn:Q; [|discriminate C]. injection C as <-.
        assert (G : forall s', hl_ready s' = q -> rank (hl_io s') <= 3 -> exists m, coming k s' = Some m /\ (m < S (z + S (z + S (z + S (z + 0)))) + 1 + 0 \/ m = S (z + S (z + S (z + S (z + 0)))) + 1 + 0 /\ hl_io s' = IIdle /\ VTake <> need_io IIdle)).
        { intros s' A B. unfold coming. rewrite A, Q. destruct (hl_io s') as [| | |j [| |]| |]; try destruct (Nat.eqb j k); eexists; (split; [reflexivity|]); cbn [rank] in *; lia. }
        destruct i as [j|j r]; [apply G; see; [reflexivity|rewrite IO; cbn; lia]|].
        apply G; destruct j; cbn [settle]; unfold finish, answer; repeat destruct (_ && _)%bool; try destruct r; see; try reflexivity; cbn; lia.
    + destruct (hl_io s) as [| |j r|j r|j q|] eqn:IO; try congruence; try (apply Sme; auto; fail).
    + (* Spawn *) destruct (hl_io s) as [| |j r|j r|j q|] eqn:IO; try congruence; try (apply Sme; auto; discriminate). rewrite (HS _ _ eq_refl) in *.
      destruct (Nat.eqb_spec j k) as [->|NK].
      * destruct r as [| |q]; [left; unfold answered; cbn [finish]; unfold answer; see; apply complete_hits; eapply RS; reflexivity|left; unfold answered; cbn [finish]; unfold answer; see; apply complete_hits; eapply RS; reflexivity|].
        right. apply (Low _ []); cbn [finish]; see; [discriminate|cbn; lia|now rewrite app_nil_r|]. unfold coming. rewrite IO. destruct (idx k (hl_ready s)); [intro X; injection X as X; lia|discriminate].
      * right. apply Nat.eqb_neq in NK. apply (Low _ []).
        -- destruct r; cbn [finish]; unfold answer; see; discriminate.
        -- destruct r; cbn [finish]; unfold answer; see; cbn; lia.
        -- destruct r; cbn [finish]; unfold answer; see; now rewrite app_nil_r.
        -- unfold coming. rewrite IO, NK. destruct r; destruct (idx k (hl_ready s)); try discriminate; intro X; injection X as X; cbn in X; lia.
    + (* Return *) destruct (hl_io s) as [| |j r|j r|j q|] eqn:IO; try congruence; try (apply Sme; auto; discriminate). rewrite CB in *. right.
      assert (NZ : coming k s <> Some 0) by (unfold coming; rewrite IO; destruct (idx k (hl_ready s)); [intro X; injection X as X; cbn in X; lia|discriminate]).
      destruct q; [apply (Low _ [QStart JReply])|apply (Low _ [])]; unfold spawn, answer; see; try discriminate; try (cbn; lia); auto. now rewrite app_nil_r.
    + rewrite Z. destruct (hl_io s) eqn:IO; apply Sme; auto.
    + destruct (hl_sse s); try (now apply Sme). destruct (hl_conn s && hl_enabled s)%bool; now apply Sme.
    + destruct (hl_sse s); try (now apply Sme). destruct ok; [eapply Same; [reflexivity|reflexivity|exact V]|now apply Sme].
    + destruct (hl_sse s); try (now apply Sme). destruct (hl_authed s); now apply Sme.
    + destruct (hl_sse s); try (now apply Sme). destruct (hl_conn s && hl_enabled s)%bool; now apply Sme.
    + destruct (hl_sse s); now apply Sme.
    + destruct (hl_sse s); try (now apply Sme). destruct (in_call BySse s); [now apply Sme|]. destruct more; [unfold read_on, nap; repeat destruct (_ && _)%bool; now apply Sme|now apply Sme].
    + destruct (hl_sse s); now apply Sme.
    + destruct (hl_sse s); now apply Sme. }
  destruct Main as [A|(m & A & B)]; [left; now left|]. right. split; [|].
  - refine (conj _ (conj _ (conj N' _))); [now apply inv_step|now apply ri_step|eauto].
  - unfold ahead, cm, lex. rewrite A, C. cbn [fst snd]. destruct B as [B|(-> & B & V)]; [split; [left; right; auto|intros _; right; auto]|].
    split; [right; split; [reflexivity|unfold cwait; now rewrite B]|]. intro E. contradiction.
Qed.

Theorem reply_completes : forall c k s, reach c s -> hk_tls c = false -> arrived k s -> inevitable c own_turns (fun t => answered k t \/ interrupted t) s.
Proof.
  intros c k s Rc T (i & r & Hr & E). destruct (int_dec s) as [X|N]; [apply inev_now; now right|].
  apply (progress c own_turns (on k) (WI c k) (cm k) cwait).
  - intros t v [X|X]; [left; now apply answered_step|right; now apply interrupted_step].
  - intros t v W. destruct (wi_act c k t v T W) as [X|(X & Y & _)]; auto.
  - intros t W. split.
    + destruct W as (_ & R & _). unfold cwait. destruct (hl_io t) as [| |j x|j x|j q|] eqn:IO; cbn; auto. exfalso. exact (ri_plain _ _ R T j x IO).
    + destruct (wi_act c k t (cwait t) T W) as [X|(_ & _ & Y)]; auto.
  - pose proof (inv_reach c s Rc). pose proof (ri_reach c s Rc). refine (conj H (conj H0 (conj N _))).
    destruct (idx_in k _ i r Hr E) as (n & Q). unfold coming. rewrite Q. destruct (hl_io s) as [| | |j [| |]| |]; eauto; destruct (Nat.eqb j k); eauto.
Qed.
