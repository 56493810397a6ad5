From Coq Require Import Ascii String List Arith NArith ZArith Bool Lia.
From Verif Require Import StrModel StrProofs AuthModel AuthSpec.
Import ListNotations.
Local Open Scope nat_scope.

Lemma icase_prefix_iff : forall p s,
  icase_prefix p s = true <-> exists a b, s = a ++ b /\ lower a = lower p.
Proof.
  induction p as [|x p IH]; intros s; cbn [icase_prefix].
  - split; [intros _; exists [], s; split; reflexivity | reflexivity].
  - destruct s as [|y s].
    + split; [discriminate|]. intros (a & b & E & L). destruct a; [discriminate L | discriminate E].
    + rewrite andb_true_iff, IH. split.
      * intros (H & a & b & E & L). apply Ascii.eqb_eq in H. exists (y :: a), b. subst s.
        split; [reflexivity|]. change (to_lower y :: lower a = to_lower x :: lower p). now rewrite H, L.
      * intros (a & b & E & L). destruct a as [|z a]; [discriminate L|].
        cbn in E. injection E as -> ->. change (to_lower z :: lower a = to_lower x :: lower p) in L. injection L as H L.
        split; [now rewrite H, Ascii.eqb_refl|]. exists a, b. split; [reflexivity | exact L].
Qed.

Lemma lower_space : forall c, to_lower c = SPACE -> c = SPACE.
Proof.
  intros c. destruct c as [[] [] [] [] [] [] [] []]; vm_compute; intros H; try reflexivity; discriminate H.
Qed.

Lemma bearer_split : forall h,
  icase_prefix BEARER h = true <-> exists w r, h = w ++ [SPACE] ++ r /\ lower w = bs "bearer".
Proof.
  intros h. rewrite icase_prefix_iff. split.
  - intros (a & b & E & L).
    assert (N : length a = 7).
    { apply (f_equal (@length ascii)) in L. unfold lower in L. now rewrite !map_length in L. }
    do 7 (destruct a as [|? a]; [discriminate N|]). destruct a; [|discriminate N].
    cbn [lower map] in L. change (lower BEARER) with (bs "bearer" ++ [SPACE]) in L.
    exists [a0; a1; a2; a3; a4; a5], b.
    pose proof (f_equal (fun l => nth 6 l SPACE) L) as Q. cbv beta in Q.
    change (nth 6 (bs "bearer" ++ [SPACE]) SPACE) with SPACE in Q.
    cbn [nth] in Q. apply lower_space in Q. subst a6. split; [exact E|].
    pose proof (f_equal (firstn 6) L) as Q. cbn [firstn] in Q. exact Q.
  - intros (w & r & E & L). exists (w ++ [SPACE]), r. rewrite <- app_assoc. split; [exact E|].
    unfold lower in *. rewrite map_app, L. reflexivity.
Qed.

Lemma lower_length : forall s, length (lower s) = length s.
Proof. intros s. apply map_length. Qed.

Lemma drop_while_spec : forall p s, exists a, s = a ++ drop_while p s /\ forallb p a = true /\
  (match drop_while p s with [] => True | c :: _ => p c = false end).
Proof.
  induction s as [|c s (a & E & F & G)]; cbn [drop_while].
  - exists []. repeat split.
  - destruct (p c) eqn:P.
    + exists (c :: a). cbn. rewrite P, F. split; [now rewrite <- E|]. split; [reflexivity | exact G].
    + exists []. cbn. repeat split. exact P.
Qed.

Lemma drop_while_app : forall p a b, forallb p a = true ->
  (match b with [] => True | c :: _ => p c = false end) -> drop_while p (a ++ b) = b.
Proof.
  induction a as [|x a IH]; intros b F G; cbn in *.
  - destruct b; [reflexivity|]. cbn. now rewrite G.
  - apply andb_true_iff in F as [F1 F2]. rewrite F1. now apply IH.
Qed.

Lemma carries_iff : forall h t,
  carries h t <-> icase_prefix BEARER h = true /\ drop_while is_space (skipn 7 h) = t /\ t <> [].
Proof.
  intros h t. split.
  - intros (w & b & c & r & -> & -> & L & F & G).
    assert (N : length w = 6) by (rewrite <- (lower_length w), L; reflexivity).
    split.
    { apply bearer_split. exists w, (b ++ c :: r). split; [reflexivity | exact L]. }
    split; [|discriminate].
    replace (skipn 7 (w ++ [SPACE] ++ b ++ c :: r)) with (b ++ c :: r).
    { apply drop_while_app; assumption. }
    rewrite app_assoc, skipn_app, (skipn_all2 (w ++ [SPACE])); rewrite app_length, N; [reflexivity | cbn; lia].
  - intros (P & D & N). apply bearer_split in P. destruct P as (w & r & E & L).
    assert (K : length w = 6) by (rewrite <- (lower_length w), L; reflexivity).
    assert (S : skipn 7 h = r).
    { rewrite E, app_assoc, skipn_app, (skipn_all2 (w ++ [SPACE])); rewrite app_length, K; [reflexivity | cbn; lia]. }
    rewrite S in D. destruct (drop_while_spec is_space r) as (a & R & F & G). rewrite D in R, G.
    destruct t as [|c t]; [congruence|].
    exists w, a, c, t. split; [reflexivity|]. split; [now rewrite E, R at 1|]. repeat split; assumption.
Qed.

Lemma carries_unique : forall h t u, carries h t -> carries h u -> t = u.
Proof. intros h t u A B. apply carries_iff in A, B. destruct A as (_ & A & _), B as (_ & B & _). congruence. Qed.

Lemma contains_all_iff : forall have need,
  contains_all have need = true <-> (forall s, In s need -> In s have).
Proof.
  intros have need. unfold contains_all. rewrite forallb_forall. split; intros H s I.
  - specialize (H s I). apply existsb_exists in H. destruct H as (x & A & B).
    apply beq_eq in B. now subst.
  - apply existsb_exists. exists s. split; [now apply H | apply beq_refl].
Qed.

(** The check, by the way it ends. *)
Inductive ending (h : bstr) (v : verifier) (o : bearer_opts) (now : Z) : bearer_result -> Prop :=
| end_none : forall r, no_token h -> r = refuse 401 (bs "no bearer token") -> ending h v o now r
| end_unverified : forall r t err, carries h t -> v t = Rejects err ->
    r = refuse 401 (match err with [] => bs "invalid token" | _ => err end) -> ending h v o now r
| end_unscoped : forall r t i, carries h t -> v t = Accepts i -> ~ has_scopes i (bo_required o) ->
    r = refuse 403 (bs "insufficient scope") -> ending h v o now r
| end_missing : forall r t i, carries h t -> v t = Accepts i -> has_scopes i (bo_required o) ->
    ti_expiration i = 0%Z -> r = refuse 401 (bs "token missing expiration") -> ending h v o now r
| end_expired : forall r t i, carries h t -> v t = Accepts i -> has_scopes i (bo_required o) ->
    ti_expiration i <> 0%Z -> (ti_expiration i <= now)%Z -> r = refuse 401 (bs "token expired") ->
    ending h v o now r
| end_ok : forall r t i, carries h t -> v t = Accepts i -> has_scopes i (bo_required o) ->
    ti_expiration i <> 0%Z -> (now < ti_expiration i)%Z ->
    r = {| br_ok := true; br_status := 200; br_message := []; br_challenge := false; br_info := Some i |} ->
    ending h v o now r.

Lemma check_ends : forall h v o now, ending h v o now (check_bearer h v o now).
Proof.
  intros h v o now. unfold check_bearer. destruct h as [|c0 h0].
  { eapply end_none; [|reflexivity]. intros t (w & b & c & r & -> & E & _).
    apply (f_equal (@length ascii)) in E. rewrite !app_length in E. cbn in E. lia. }
  set (h := c0 :: h0). destruct (icase_prefix BEARER h) eqn:P; cbn [negb].
  2:{ eapply end_none; [|reflexivity]. intros t C. apply carries_iff in C. destruct C as (C & _). congruence. }
  destruct (drop_while is_space (skipn 7 h)) as [|tc tr] eqn:D.
  { eapply end_none; [|reflexivity]. intros t C. apply carries_iff in C. destruct C as (_ & C & N). congruence. }
  assert (C : carries h (tc :: tr)).
  { apply carries_iff. split; [exact P|]. split; [exact D | discriminate]. }
  destruct (v (tc :: tr)) as [i|err] eqn:V.
  2:{ eapply end_unverified; [exact C | exact V | reflexivity]. }
  assert (S : (match bo_required o with [] => false | _ => true end &&
               negb (contains_all (ti_scopes i) (bo_required o)))%bool = true
              <-> ~ has_scopes i (bo_required o)).
  { unfold has_scopes. rewrite <- contains_all_iff. destruct (bo_required o) eqn:R.
    - cbn. split; [discriminate | intros H; exfalso; now apply H].
    - rewrite andb_true_l, negb_true_iff. apply iff_sym, not_true_iff_false. }
  destruct (_ && _)%bool eqn:B.
  { eapply end_unscoped; [exact C | exact V | now apply S | reflexivity]. }
  assert (H : has_scopes i (bo_required o)).
  { destruct (contains_all (ti_scopes i) (bo_required o)) eqn:K; [exact (proj1 (contains_all_iff _ _) K)|].
    destruct S as [_ S]. exfalso.
    assert (Q : ~ has_scopes i (bo_required o)).
    { intros Q. apply (proj2 (contains_all_iff _ _)) in Q. rewrite Q in K. discriminate K. }
    specialize (S Q). discriminate S. }
  destruct (Z.eqb_spec (ti_expiration i) 0) as [Z0|Z0].
  { eapply end_missing; [exact C | exact V | exact H | exact Z0 | reflexivity]. }
  destruct (Z.leb_spec (ti_expiration i) now) as [L|L].
  { eapply end_expired; [exact C | exact V | exact H | exact Z0 | exact L | reflexivity]. }
  eapply end_ok; [exact C | exact V | exact H | exact Z0 | exact L | reflexivity].
Qed.

Lemma admitted_iff : forall h v o now i,
  (br_ok (check_bearer h v o now) = true /\ br_info (check_bearer h v o now) = Some i)
  <-> admitted h v o now i.
Proof.
  intros h v o now i. destruct (check_ends h v o now) as
    [r N ->|r t err C V ->|r t j C V S ->|r t j C V S Z0 ->|r t j C V S Z0 L ->|r t j C V S Z0 L ->];
    cbn [br_ok br_info refuse]; (split; [intros [A B]; try discriminate A | intros (u & C' & V' & S' & Z' & L');
      try (pose proof (carries_unique _ _ _ C C'); subst u; rewrite V in V')]).
  - exfalso. exact (N u C').
  - discriminate V'.
  - injection V' as ->. contradiction.
  - injection V' as ->. contradiction.
  - injection V' as ->. lia.
  - injection B as <-. exists t. repeat split; assumption.
  - injection V' as ->. split; reflexivity.
Qed.

Lemma unscoped_403 : forall h v o now,
  br_status (check_bearer h v o now) = 403%N <-> unscoped h v o.
Proof.
  intros h v o now. destruct (check_ends h v o now) as
    [r N ->|r t err C V ->|r t j C V S ->|r t j C V S Z0 ->|r t j C V S Z0 L ->|r t j C V S Z0 L ->];
    cbn [br_status refuse]; (split; [intros A; try discriminate A | intros (u & i & C' & V' & S');
      try (pose proof (carries_unique _ _ _ C C'); subst u; rewrite V in V')]).
  - exfalso. exact (N u C').
  - discriminate V'.
  - exists t, j. repeat split; assumption.
  - reflexivity.
  - injection V' as ->. contradiction.
  - injection V' as ->. contradiction.
  - injection V' as ->. contradiction.
Qed.

Lemma failed_401 : forall h v o now,
  br_status (check_bearer h v o now) = 401%N <->
  (no_token h \/ (exists err, unverified h v err) \/ (expired h v now /\ ~ unscoped h v o)).
Proof.
  intros h v o now. destruct (check_ends h v o now) as
    [r N ->|r t err C V ->|r t j C V S ->|r t j C V S Z0 ->|r t j C V S Z0 L ->|r t j C V S Z0 L ->];
    cbn [br_status refuse]; split; intros A; try discriminate A; try reflexivity.
  - now left.
  - right; left. exists err, t. now split.
  - exfalso. destruct A as [A|[(e & u & C' & V')|[(u & i & C' & V' & E) U]]].
    + exact (A t C).
    + pose proof (carries_unique _ _ _ C C'); subst u. congruence.
    + apply U. exists t, j. repeat split; assumption.
  - right; right. split; [exists t, j; repeat split; auto|].
    intros (u & i & C' & V' & E). pose proof (carries_unique _ _ _ C C'); subst u.
    assert (i = j) by congruence. subst i. contradiction.
  - right; right. split; [exists t, j; repeat split; auto|].
    intros (u & i & C' & V' & E). pose proof (carries_unique _ _ _ C C'); subst u.
    assert (i = j) by congruence. subst i. contradiction.
  - exfalso. destruct A as [A|[(e & u & C' & V')|[(u & i & C' & V' & E) U]]].
    + exact (A t C).
    + pose proof (carries_unique _ _ _ C C'); subst u. congruence.
    + pose proof (carries_unique _ _ _ C C'); subst u. assert (i = j) by congruence. subst i. lia.
Qed.

Lemma ok_200 : forall h v o now,
  br_status (check_bearer h v o now) = 200%N <-> br_ok (check_bearer h v o now) = true.
Proof.
  intros h v o now. destruct (check_ends h v o now) as
    [r N ->|r t err C V ->|r t j C V S ->|r t j C V S Z0 ->|r t j C V S Z0 L ->|r t j C V S Z0 L ->];
    cbn; split; intros A; try discriminate A; reflexivity.
Qed.

Lemma three_statuses : forall h v o now,
  In (br_status (check_bearer h v o now)) [200; 401; 403]%N.
Proof.
  intros h v o now. destruct (check_ends h v o now) as
    [r N ->|r t err C V ->|r t j C V S ->|r t j C V S Z0 ->|r t j C V S Z0 L ->|r t j C V S Z0 L ->];
    cbn; auto.
Qed.

Lemma challenge_iff : forall h v o now,
  br_challenge (check_bearer h v o now) = negb (br_ok (check_bearer h v o now)).
Proof.
  intros h v o now. destruct (check_ends h v o now) as
    [r N ->|r t err C V ->|r t j C V S ->|r t j C V S Z0 ->|r t j C V S Z0 L ->|r t j C V S Z0 L ->];
    reflexivity.
Qed.

Lemma verifier_message : forall h v o now err, unverified h v err -> err <> [] ->
  br_message (check_bearer h v o now) = err.
Proof.
  intros h v o now e (u & C' & V') NE. destruct (check_ends h v o now) as
    [r N ->|r t err C V ->|r t j C V S ->|r t j C V S Z0 ->|r t j C V S Z0 L ->|r t j C V S Z0 L ->];
    try (pose proof (carries_unique _ _ _ C C'); subst u; rewrite V in V'); try discriminate V'.
  - exfalso. exact (N u C').
  - injection V' as ->. cbn. destruct e; [congruence | reflexivity].
Qed.

(** Only the one token is shown to the verifier. *)
Lemma verifier_asked : forall h v w o now,
  (forall t, carries h t -> v t = w t) -> check_bearer h v o now = check_bearer h w o now.
Proof.
  intros h v w o now H. unfold check_bearer. destruct h as [|c0 h0]; [reflexivity|].
  set (h := c0 :: h0) in *. destruct (icase_prefix BEARER h) eqn:P; [|reflexivity]. cbn [negb].
  destruct (drop_while is_space (skipn 7 h)) as [|tc tr] eqn:D; [reflexivity|].
  rewrite H; [reflexivity|]. apply carries_iff. split; [exact P|]. split; [exact D | discriminate].
Qed.

(** Thread-local scopes *)

Definition tls_ok (t : tls) (st : list (option token_info)) : Prop :=
  tl_current t = match st with [] => None | i :: _ => i end /\
  tl_saved t = match st with [] => [] | _ :: r => r ++ [None] end.

Lemma scopes_ok : forall es n m st,
  tls_ok (m n) st -> tls_ok (fold_left scope_step es m n) (opened n es st).
Proof.
  induction es as [|e es IH]; intros n m st H; [exact H|].
  cbn [fold_left]. destruct e as [k i|k]; cbn [opened]; apply IH; cbn [scope_step]; rewrite Nat.eqb_sym;
    destruct (Nat.eqb n k) eqn:E; try (rewrite Nat.eqb_sym, E; exact H); rewrite Nat.eqb_sym, E.
  - destruct H as [A B]. split; [reflexivity|]. cbn. rewrite A, B. destruct st; reflexivity.
  - destruct H as [A B]. unfold scope_leave. rewrite B. destruct st as [|i st]; [now split|].
    destruct st as [|j st]; cbn; split; reflexivity.
Qed.

Lemma scope_current : forall es n,
  current_token_info es n = match opened n es [] with [] => None | i :: _ => i end.
Proof.
  intros es n. unfold current_token_info.
  destruct (scopes_ok es n (fun _ => tls0) [] (conj eq_refl eq_refl)) as [A _]. exact A.
Qed.
