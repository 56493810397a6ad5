(** What holds when Close has returned and when the transport is destroyed. *)
From Coq Require Import List Arith Bool Lia.
From Verif Require Import HlifeModel HlifeSpec HlifeInv HlifeStep HlifeLive HlifeCall.
Import ListNotations.
Local Open Scope nat_scope.

Definition dying (s : hl) : bool := match hl_call s with Some (_, p) => of_d p | None => false end.
Definition called (v : hlact) : bool := match v with VStart | VClose _ | VDestroy _ | VCall => true | _ => false end.

Lemma other_step : forall c s v, called v = false -> hl_life s = Alive ->
  let s' := hlstep c s v in
  hl_conn s' = hl_conn s /\ hl_stop s' = hl_stop s /\ hl_call s' = hl_call s /\ hl_rets s' = hl_rets s /\ (hl_life s' = Alive \/ hl_life s' = Crashed) /\
  (hl_io s = INone -> hl_io s' = INone) /\ (hl_io s <> INone -> hl_io s' <> INone) /\ (hl_stop s = false -> hl_io s <> IEnded -> hl_io s' <> IEnded).
Proof.
  intros c s v V L. cbv zeta. unfold hlstep. rewrite L.
  destruct v; try discriminate V; cbv beta iota; go; brk; see; refine (conj _ (conj _ (conj _ (conj _ (conj _ (conj _ (conj _ _))))))); intros; auto; try discriminate; congruence.
Qed.

(** b: Close has been called. *)
Record OI (b : bool) (s : hl) : Prop := {
  oi_stop : hl_stop s = true -> hl_life s <> Alive \/ dying s = true \/ (b = true /\ hl_conn s = false);
  oi_call : b = false -> hl_call s = None \/ dying s = true;
  oi_delete : forall w, hl_call s = Some (w, KDelete) -> hl_life s <> Alive \/ (hl_stop s = false /\ hl_io s <> INone /\ hl_io s <> IEnded)
}.
Definition is_close (v : hlact) : bool := match v with VClose _ => true | _ => false end.

Lemma oi_step : forall b c s v, HI s -> OI b s -> (b = true -> v <> VStart) -> OI (b || is_close v) (hlstep c s v).
Proof.
  intros b c s v I O V. assert (LC : hl_life s = Alive \/ hl_life s <> Alive) by (destruct (hl_life s); auto; right; discriminate).
  destruct LC as [L|L].
  2:{ destruct O as [A B D]. assert (hlstep c s v = s) as -> by (unfold hlstep; destruct (hl_life s); congruence).
      constructor; [auto| |auto]. intro X. apply B. destruct b; [discriminate X|reflexivity]. }
  destruct (called v) eqn:Cl.
  2:{ destruct (other_step c s v Cl L) as (E1 & E2 & E3 & E4 & E5 & E6 & E7 & E8). destruct O as [A B D].
      assert (is_close v = false) as -> by (destruct v; try reflexivity; discriminate Cl). rewrite orb_false_r. unfold dying in *. 
      constructor; unfold dying; rewrite ?E1, ?E2, ?E3; [intro X; destruct (A X) as [Y|[Y|Y]]; [congruence|auto|auto]|exact B|].
      intros w X. destruct (D w X) as [Y|(Y & Z & W)]; [congruence|]. right. auto. }
  destruct O as [A B D]. unfold dying in *. destruct v; try discriminate Cl; unfold hlstep; rewrite L.
  - destruct b; [exfalso; now apply V|]. specialize (B eq_refl). cbn [orb is_close].
    destruct (hl_call s) as [[w p]|] eqn:C.
    + destruct B as [B|B]; [discriminate B|].
      assert (G : OI false s /\ OI false (set_life Crashed s) /\ OI false (set_io IIdle (set_flags true (hl_enabled s) (hl_running s) (hl_stop s) s))).
      { assert (p <> KDelete) by (intros ->; discriminate B). refine (conj _ (conj _ _)); constructor; unfold dying; see; rewrite ?C; intros; auto; left; congruence. }
      destruct G as (G1 & G2 & G3). destruct w; [exact G1|destruct (hl_io s); assumption|destruct (hl_io s); assumption].
    + assert (S0 : hl_stop s = false) by (destruct (hl_stop s); [destruct (A eq_refl) as [X|[X|[X _]]]; congruence|reflexivity]).
      destruct (hl_io s); constructor; unfold dying; see; rewrite ?C, ?S0; intros; auto; discriminate.
  - (* Close *) cbn [is_close]. rewrite orb_true_r. destruct (may_call w s) eqn:M.
    2:{ constructor; unfold dying; [|discriminate|exact D]. intro X. destruct (A X) as [Y|[Y|[Y Z]]]; auto. }
    apply may_caller in M as (C & _). rewrite C in *.
    assert (S0 : hl_stop s = true -> hl_conn s = false) by (intro X; destruct (A X) as [Y|[Y|[Y Z]]]; [congruence|discriminate|exact Z]).
    destruct (hl_conn s && hk_delete c)%bool eqn:F; constructor; unfold dying, spawn; see; try discriminate; cbn [of_d].
    + intro X. right. right. auto.
    + intros w' _. right. apply andb_true_iff in F as [F _].
      assert (S1 : hl_stop s = false) by (destruct (hl_stop s); [rewrite S0 in F by reflexivity; discriminate F|reflexivity]).
      split; [exact S1|]. split; [|intro X; apply (hi_ended _ I) in X; congruence].
      intro X. destruct (hi_none _ I X) as [Y|[(w1 & Y)|Y]]; congruence.
    + intro X. right. right. auto.
  - cbn [is_close]. rewrite orb_false_r. destruct (may_call w s) eqn:M; [|constructor; assumption].
    constructor; unfold dying; see; cbn [of_d]; auto. discriminate.
  - cbn [is_close]. rewrite orb_false_r. destruct (hl_call s) as [[w p]|] eqn:C; [|constructor; unfold dying; rewrite ?C; assumption].
    assert (BB : of_d p = false -> b = true) by (intro X; destruct b; [reflexivity|]; destruct (B eq_refl); congruence).
    assert (Stay : OI b s) by (constructor; unfold dying; rewrite ?C; assumption).
    assert (Cr : of_d p = true -> OI b (set_life Crashed s)).
    { intro X. constructor; unfold dying; see; rewrite ?C; auto; intros; left; discriminate. }
    destruct p as [|d|d|[]|d|[]]; cbn [call_step of_d] in *.
    + destruct (hl_deleted s); [|exact Stay]. constructor; unfold dying; see; cbn [of_d]; try discriminate.
      * intro X. destruct (A X) as [Y|[Y|Y]]; [congruence|discriminate|auto].
      * intro X. specialize (BB eq_refl). congruence.
    + constructor; unfold dying; see; cbn [of_d]; try discriminate; [exact A|]. intro X. destruct (B X); [discriminate|auto].
    + destruct (hl_sse s); try (destruct w; first [exact Stay|destruct d; [exact (Cr eq_refl)|]]);
        constructor; unfold dying; see; cbn [of_d]; try discriminate; try (intro X; destruct (B X); [discriminate|auto]; fail); try exact A; auto;
        try (intro X; destruct (A X) as [Y|[Y|Y]]; [congruence|discriminate|auto]; fail).
    + destruct (hl_io s); constructor; unfold dying; see; cbn [of_d]; auto; discriminate.
    + constructor; unfold dying; see; cbn [of_d]; try discriminate.
      * intros _. right. right. split; [auto|reflexivity].
      * intro X. specialize (BB eq_refl). congruence.
    + destruct (hl_io s) eqn:IO; try (destruct w; first [exact Stay|destruct d; [exact (Cr eq_refl)|]]);
        constructor; unfold dying; see; cbn [of_d]; try discriminate; try (intro X; destruct (B X); [discriminate|auto]; fail); try exact A; auto;
        try (intro X; destruct (A X) as [Y|[Y|Y]]; [congruence|discriminate|auto]; fail).
    + destruct (hl_sse s); try exact (Cr eq_refl). constructor; unfold dying; see; auto; try discriminate. intros _. left. discriminate.
    + constructor; unfold dying; see; auto; discriminate.
Qed.

Lemma oi_later : forall c h s, HI s -> OI true s -> ~ In VStart h -> OI true (hlrun c s h).
Proof.
  induction h as [|v h IH]; intros s I O N; [exact O|]. cbn. apply IH; [now apply inv_step| |intro X; apply N; now right].
  apply (oi_step true c s v I O). intros _ ->. apply N. now left.
Qed.
Lemma oi_run : forall c h s, HI s -> OI false s -> start_first h -> exists b, OI b (hlrun c s h).
Proof.
  induction h as [|v h IH]; intros s I O N; [now exists false|].
  assert (X : OI (false || is_close v) (hlstep c s v)) by (apply oi_step; [exact I|exact O|discriminate]). pose proof (inv_step c v s I) as I'.
  cbn. destruct v; try (now apply IH). exists true. now apply oi_later.
Qed.

(** Close, called by the application, is in a state from which it comes to its end. *)
Lemma closing_ci : forall c s, reach_once c s -> hl_life s = Alive -> closing_by ByApp s -> exists p, CI false (length (hl_rets s)) p s.
Proof.
  intros c s (h & F & E) L (p & C & P). assert (I : HI s) by (subst s; apply inv_run, inv0).
  assert (O0 : OI false hl0) by (constructor; cbn; [discriminate|now left|discriminate]).
  destruct (oi_run c h hl0 inv0 O0 F) as (b & O). rewrite <- E in O.
  exists p. unfold CI. refine (conj I (conj L (conj (le_n _) (conj C (conj _ (conj _ _)))))).
  - cbn in P. intuition (subst; reflexivity).
  - intros ->. destruct (oi_delete _ _ O _ C) as [X|(X & Y & Z)]; [contradiction|]. repeat split; assumption.
  - intros e ->. assert (e = false) as -> by (cbn in P; intuition congruence). apply (hi_off _ I ByApp). now left.
Qed.

Theorem close_returns : forall c s, reach_once c s -> hl_life s = Alive -> closing_by ByApp s -> inevitable c all_turns (returned (length (hl_rets s))) s.
Proof. intros c s R L C. destruct (closing_ci c s R L C) as (p & X). exact (call_returns false _ c p s X). Qed.

(** The last steps of a call. *)
Record DI (s : hl) : Prop := {
  di_wait : forall w, hl_call s = Some (w, KWait true) -> hl_stop s = true;
  di_last : forall w d, hl_call s = Some (w, KLast d) -> w = ByApp /\ hl_io s = INone;
  di_freed : hl_life s = Freed -> no_threads s /\ ~ In None (hl_futs s) /\ ~ In None (hl_notes s)
}.

Lemma all_done : forall (A : Type) (o : A) l, ~ In None (complete_all o l).
Proof. induction l as [|[x|] l IH]; cbn; [auto|intros [X|X]; [discriminate X|auto]|intros [X|X]; [discriminate X|auto]]. Qed.

Lemma di_step : forall c s v, HI s -> DI s -> DI (hlstep c s v).
Proof.
  intros c s v I D. destruct (hl_life s) eqn:L.
  2:{ assert (hlstep c s v = s) as -> by (unfold hlstep; now rewrite L). exact D. }
  2:{ assert (hlstep c s v = s) as -> by (unfold hlstep; now rewrite L). exact D. }
  destruct D as [A B _]. destruct (called v) eqn:Cl.
  2:{ destruct (other_step c s v Cl L) as (E1 & E2 & E3 & E4 & E5 & E6 & E7 & E8). constructor; rewrite ?E2, ?E3; [exact A| |intro; destruct E5; congruence].
      intros w d X. destruct (B w d X). auto. }
  assert (Stay : DI s) by (constructor; [exact A|exact B|congruence]).
  assert (Cr : DI (set_life Crashed s)) by (constructor; see; [exact A|exact B|discriminate]).
  destruct v; try discriminate Cl; unfold hlstep; rewrite L.
  - destruct (hl_call s) as [[w p]|] eqn:C.
    + destruct w; [exact Stay| |]; (destruct (hl_io s) eqn:IO; try exact Cr); constructor; see; rewrite ?C; try congruence;
        try (intros w d X; injection X as <- ->; destruct (B _ _ eq_refl); discriminate).
      * intros w X. exact (A w X).
      * intros w X. exact (A w X).
    + destruct (hl_io s); try exact Cr. constructor; see; rewrite ?C; try congruence; intros; discriminate.
  - destruct (may_call w s); [|exact Stay]. destruct (hl_conn s && hk_delete c)%bool; constructor; unfold spawn; see; try congruence; intros; discriminate.
  - destruct (may_call w s); [|exact Stay]. constructor; see; try congruence; intros; discriminate.
  - destruct (hl_call s) as [[w p]|] eqn:C; [|exact Stay].
    destruct p as [|d|d|[]|d|[]]; cbn [call_step].
    + destruct (hl_deleted s); [|exact Stay]. constructor; see; try congruence; intros; discriminate.
    + constructor; see; try congruence; intros; discriminate.
    + destruct (hl_sse s); try (destruct w; first [exact Stay|destruct d; [exact Cr|]]); constructor; see; try congruence; intros; discriminate.
    + assert (W : hl_io s = INone -> w = ByApp).
      { intro IO. destruct w; [reflexivity| |].
        - destruct (hi_io _ I _ C) as (k & q & X). congruence.
        - destruct (hi_sse _ I _ C) as (m & X). destruct (hi_dead _ I) as [[Y|[Y|Y]]|(_ & Y & _)]; congruence. }
      destruct (hl_io s) eqn:IO; constructor; see; try congruence; try (intros; discriminate); try reflexivity.
      intros w' d X. injection X as <- <-. auto.
    + constructor; see; try congruence; intros; discriminate.
    + assert (W : hl_io s = INone \/ hl_io s = IEnded -> w = ByApp).
      { intro IO. destruct w; [reflexivity| |].
        - destruct (hi_io _ I _ C) as (k & q & X). destruct IO; congruence.
        - destruct (hi_sse _ I _ C) as (m & X). destruct (hi_dead _ I) as [[Y|[Y|Y]]|(_ & Y & Z)]; try congruence. destruct IO; congruence. }
      destruct (hl_io s) eqn:IO; try (destruct w; first [exact Stay|destruct d; [exact Cr|]]); constructor; see; try congruence; try (intros; discriminate);
        intros w' d' X; injection X as <- <-; (split; [auto|reflexivity]).
    + destruct (B _ _ eq_refl) as (_ & IO). destruct (hl_sse s) eqn:SS; try exact Cr. constructor; see; try (intros; discriminate). intros _. unfold no_threads. see.
      repeat split; try assumption; apply all_done.
    + constructor; see; try congruence; intros; discriminate.
Qed.
Lemma di_run : forall c h s, HI s -> DI s -> DI (hlrun c s h).
Proof. induction h as [|v h IH]; intros s I D; [exact D|]. cbn. apply IH; [now apply inv_step|now apply di_step]. Qed.
Lemma di_reach : forall c s, reach c s -> DI s.
Proof. intros c s (h & ->). apply di_run; [exact inv0|]. constructor; cbn; intros; discriminate. Qed.

Lemma destroying_ci : forall c s, reach c s -> hl_life s = Alive -> destroying_by ByApp s -> exists p, CI true (length (hl_rets s)) p s.
Proof.
  intros c s R L (p & C & P). pose proof (inv_reach c s R) as I. pose proof (di_reach c s R) as D. exists p.
  refine (conj I (conj L (conj (le_n _) (conj C (conj _ (conj _ _)))))).
  - cbn in P. intuition (subst; reflexivity).
  - intros ->. cbn in P. intuition discriminate.
  - intros e ->. assert (e = true) as -> by (cbn in P; intuition congruence). exact (di_wait _ D _ C).
Qed.

Theorem destroy_ends : forall c s, reach c s -> hl_life s = Alive -> destroying_by ByApp s -> inevitable c all_turns (fun t => hl_life t <> Alive) s.
Proof. intros c s R L D. destruct (destroying_ci c s R L D) as (p & X). exact (call_returns true _ c p s X). Qed.

Theorem freed_clean : forall c s, reach c s -> hl_life s = Freed -> no_threads s /\ ~ In None (hl_futs s) /\ ~ In None (hl_notes s).
Proof. intros c s R. exact (di_freed _ (di_reach c s R)). Qed.

(** When Close returns from its end. *)
Theorem close_clean : forall c s w, reach c s -> hl_rets (hlstep c s VCall) = hl_rets s ++ [(w, true)] ->
  let s' := hlstep c s VCall in
  w = ByApp /\ hl_conn s' = false /\ hl_io s' = INone /\ (hl_sse s' = SNone \/ hl_sse s' = STop \/ hl_sse s' = SOver) /\ all_ready s' /\ hl_stop s' = true /\ hl_enabled s' = false.
Proof.
  intros c s w R. cbv zeta. pose proof (inv_reach c s R) as I. pose proof (di_reach c s R) as D. unfold hlstep.
  assert (NN : forall x, hl_rets s <> hl_rets s ++ [x]) by (intros x X; apply (f_equal (@length _)) in X; rewrite app_length in X; cbn in X; lia).
  destruct (hl_life s); try (intro X; exfalso; exact (NN _ X)). destruct (hl_call s) as [[w1 p]|] eqn:C; [|intro X; exfalso; exact (NN _ X)].
  destruct p as [|d|d|[]|d|[]]; cbn [call_step]; unfold own_thread; brk; see; intro X; try (exfalso; exact (NN _ X)).
  all: try (apply app_inv_head in X; discriminate X).
  apply app_inv_head in X. injection X as <-. destruct (di_last _ D _ _ C) as (W & IO). destruct (hi_off _ I w1) as (A & B); [now right|].
  repeat split; try assumption; [|apply all_done|].
  - destruct (hi_late _ I _ _ C) as [Y|Y]; [cbn in Y; intuition discriminate|exact Y].
  - now apply (hi_stop _ I).
Qed.

(** After that no handler runs. *)
Definition quiet (s : hl) : Prop :=
  hl_life s <> Alive \/
  (hl_stop s = true /\ hl_enabled s = false /\ (hl_io s = INone \/ hl_io s = IIdle \/ hl_io s = IEnded) /\ (hl_sse s = SNone \/ hl_sse s = STop \/ hl_sse s = SOver)).
Lemma quiet_step : forall c s v, quiet s -> quiet (hlstep c s v) /\ hl_calls (hlstep c s v) = hl_calls s.
Proof.
  intros c s v [N|(A & B & C & D)].
  { assert (hlstep c s v = s) as -> by (unfold hlstep; destruct (hl_life s); congruence). split; [now left|reflexivity]. }
  unfold hlstep. destruct (hl_life s) eqn:L; try (split; [left; congruence|reflexivity]). unfold quiet.
  destruct v; cbv beta iota; go; unfold call_step, own_thread; rewrite ?A, ?B, ?andb_false_r; brk; see; rewrite ?A, ?B; (split; [|try reflexivity]);
    try (left; discriminate); try (right; repeat split; auto; fail); try (exfalso; intuition congruence).
Qed.
Lemma quiet_run : forall c h s, quiet s -> hl_calls (hlrun c s h) = hl_calls s /\ quiet (hlrun c s h).
Proof.
  induction h as [|v h IH]; intros s Q; [now split|]. change (hlrun c s (v :: h)) with (hlrun c (hlstep c s v) h). destruct (quiet_step c s v Q) as (A & B). destruct (IH _ A) as (X & Y). split; [congruence|exact Y].
Qed.

Theorem close_quiet : forall c s w h, reach c s -> hl_rets (hlstep c s VCall) = hl_rets s ++ [(w, true)] ->
  hl_calls (hlrun c (hlstep c s VCall) h) = hl_calls s.
Proof.
  intros c s w h R E. destruct (close_clean c s w R E) as (_ & _ & A & B & _ & D & F). cbv zeta in *.
  assert (Q : quiet (hlstep c s VCall)) by (right; auto). destruct (quiet_run c h _ Q) as (X & _). rewrite X.
  unfold hlstep. destruct (hl_life s); try reflexivity. destruct (hl_call s) as [[w1 p]|]; [|reflexivity]. destruct p as [|d|d|[]|d|[]]; cbn [call_step]; unfold own_thread; brk; reflexivity.
Qed.

(** The destructor does not fail when no event-stream thread can be started any more. *)
Definition calm (c : hlconf) (s : hl) : Prop := (forall k r, hl_io s <> ISpawn k r) /\ (hk_stream c = false \/ hl_enabled s = false).
Lemma calm_step : forall c s v, calm c s -> calm c (hlstep c s v).
Proof.
  intros c s v (A & B). unfold hlstep. destruct (hl_life s); [|now split|now split]. unfold calm.
  assert (N : forall i, (i && hk_stream c && hl_enabled s && negb (hl_running s))%bool = false).
  { intro i. destruct B as [-> | ->]; rewrite ?andb_false_r; reflexivity. }
  destruct v; cbv beta iota; go; unfold call_step, own_thread; brk; see; try (exfalso; match goal with H : _ = true |- _ => rewrite N in H; discriminate H end); (split; [intros; first [discriminate|apply A|congruence]|]);
    try exact B; right; first [reflexivity|congruence].
Qed.

Definition sound (c : hlconf) (s : hl) : Prop :=
  hl_life s = Freed \/
  (hl_life s = Alive /\ calm c s /\ exists p, hl_call s = Some (ByApp, p) /\ of_d p = true /\ (level p <= 2 -> hl_sse s = SNone)).
Lemma sound_step : forall c s v, sound c s -> sound c (hlstep c s v).
Proof.
  intros c s v [F|(L & K & p & C & D & E)]; [left; unfold hlstep; now rewrite F|]. pose proof (calm_step c s v K) as K'.
  assert (VC : v = VCall \/ v <> VCall) by (destruct v; (now left) || (right; discriminate)). destruct VC as [-> | V].
  - revert K'. unfold hlstep. rewrite L, C. intro K'. assert (Stay : sound c s) by (right; eauto 8).
    destruct p as [|e|e|[]|e|[]]; cbn [call_step of_d level] in *; try discriminate D; subst.
    + right. split; [exact L|]. split; [exact K'|]. eexists. split; [reflexivity|]. split; [reflexivity|]. cbn. lia.
    + destruct (hl_sse s); try exact Stay; (right; split; [exact L|]; split; [exact K'|]; eexists; split; [reflexivity|]; split; reflexivity).
    + specialize (E (le_n _)). destruct (hl_io s); (right; split; [exact L|]; split; [exact K'|]; eexists; split; [reflexivity|]; split; [reflexivity|intros _; exact E]).
    + assert (E' : hl_sse s = SNone) by (apply E; lia). destruct (hl_io s); try exact Stay; (right; split; [exact L|]; split; [exact K'|]; eexists; split; [reflexivity|]; split; [reflexivity|intros _; exact E']).
    + rewrite E by lia. left. reflexivity.
  - right. assert (X : hl_life (hlstep c s v) = Alive /\ hl_call (hlstep c s v) = hl_call s /\ (hl_sse s = SNone -> hl_sse (hlstep c s v) = SNone)).
    { destruct K as (K1 & K2). clear K' E. unfold hlstep. rewrite L. destruct v; cbv beta iota; go; rewrite ?C; try congruence; brk; see; auto; try (exfalso; eapply K1; eassumption); 
        try (repeat split; congruence). }
    destruct X as (X1 & X2 & X3). split; [exact X1|]. split; [exact K'|]. exists p. rewrite X2. split; [exact C|]. split; [exact D|]. auto.
Qed.
Lemma sound_run : forall c h s, sound c s -> sound c (hlrun c s h).
Proof. induction h as [|v h IH]; intros s S0; [exact S0|]. cbn. now apply IH, sound_step. Qed.

Lemma inev_and : forall c vs (P Q J : hl -> Prop) s, (forall t h, J t -> J (hlrun c t h)) -> (forall t, P t -> J t -> Q t) -> inevitable c vs P s -> J s -> inevitable c vs Q s.
Proof.
  intros c vs P Q J s A B I. induction I as [s X|s _ IH]; intro Js; [apply inev_now; now apply B|]. apply inev_round. intros b Hb. apply IH; [exact Hb|now apply A].
Qed.

(** It is not started if it is not configured, nor after Close. *)
Lemma no_stream : forall c h, hk_stream c = false -> calm c (hlrun c hl0 h).
Proof.
  intros c h E. assert (G : forall s, calm c s -> calm c (hlrun c s h)) by (induction h as [|v h IH]; intros s K; [exact K|]; cbn; now apply IH, calm_step).
  apply G. split; [discriminate|now left].
Qed.
Lemma closed_quiet : forall c h w, In (w, true) (hl_rets (hlrun c hl0 h)) -> quiet (hlrun c hl0 h).
Proof.
  intros c h w. induction h as [|v h IH] using rev_ind; [intros []|]. unfold hlrun in *. rewrite fold_left_app. cbn [fold_left]. fold (hlrun c hl0 h) in *.
  set (s := hlrun c hl0 h) in *. intro X. assert (R : reach c s) by now exists h.
  destruct (in_dec (fun a b : caller * bool => ltac:(repeat decide equality)) (w, true) (hl_rets s)) as [Y|Y]; [apply quiet_step; auto|].
  assert (G : v = VCall /\ hl_rets (hlstep c s v) = hl_rets s ++ [(w, true)]).
  { clear IH. revert X. unfold hlstep. destruct (hl_life s); try (intro X; contradiction). destruct v; cbv beta iota; go; unfold call_step, own_thread; brk; see; try (intro X; contradiction);
      rewrite in_app_iff; cbn [In]; intros [X|[X|[]]]; try contradiction; try discriminate X; injection X as ->; split; reflexivity. }
  destruct G as (-> & G). destruct (close_clean c s w R G) as (_ & _ & A & B & _ & D & F). cbv zeta in *. right. auto.
Qed.

Theorem destroy_frees : forall c s, reach c s -> hl_life s = Alive -> hl_call s = None ->
  hk_stream c = false \/ In (ByApp, true) (hl_rets s) ->
  inevitable c all_turns (fun t => hl_life t = Freed) (hlstep c s (VDestroy ByApp)).
Proof.
  intros c s R L C W. set (t := hlstep c s (VDestroy ByApp)).
  assert (T : hl_life t = Alive /\ hl_call t = Some (ByApp, KSse true) /\ hl_io t = hl_io s /\ hl_enabled t = hl_enabled s).
  { unfold t, hlstep, may_call. rewrite L, C. repeat split. exact L. }
  destruct T as (T1 & T2 & T3 & T4).
  assert (R' : reach c t) by (destruct R as (h & ->); exists (h ++ [VDestroy ByApp]); unfold t, hlrun; now rewrite fold_left_app).
  apply (inev_and c all_turns (fun u => hl_life u <> Alive) _ (sound c)).
  - intros u h. apply sound_run.
  - intros u X [Y|(Y & _)]; [exact Y|contradiction].
  - apply destroy_ends; [exact R'|exact T1|]. exists (KSse true). split; [exact T2|cbn; tauto].
  - right. split; [exact T1|]. split; [|exists (KSse true); split; [exact T2|split; [reflexivity|cbn; lia]]].
    unfold calm. rewrite T3, T4. destruct R as (h & ->). destruct W as [W|W]; [now apply no_stream|].
    destruct (closed_quiet c h _ W) as [Q|(_ & Q & Z & _)]; [contradiction|]. split; [intros k r; destruct Z as [-> | [-> | ->]]; discriminate|now right].
Qed.
