(** Close and the destructor, called by the application, return. *)
From Coq Require Import List Arith Bool Lia Wellfounded Relation_Operators.
From Verif Require Import HlifeModel HlifeSpec HlifeInv HlifeStep.
Import ListNotations.
Local Open Scope nat_scope.

Definition lex (a b : nat * nat) : Prop := fst a < fst b \/ fst a = fst b /\ snd a < snd b.
Lemma lex_wf : well_founded lex.
Proof.
  intros [a b]. revert b. induction a as [a IHa] using lt_wf_ind. induction b as [b IHb] using lt_wf_ind.
  constructor. intros [x y] [L|[E L]]; cbn in *; [apply IHa; exact L|subst x; apply IHb; exact L].
Qed.
Lemma lex_trans : forall a b d, lex a b -> lex b d -> lex a d.
Proof. unfold lex. intros. lia. Qed.

Definition ahead (m : hl -> nat * nat) (need : hl -> hlact) (s s' : hl) : Prop := lex (m s') (m s) \/ m s' = m s /\ need s' = need s.

Lemma progress : forall c vs (P I : hl -> Prop) (m : hl -> nat * nat) (need : hl -> hlact),
  (forall s v, P s -> P (hlstep c s v)) ->
  (forall s v, I s -> P (hlstep c s v) \/ I (hlstep c s v) /\ ahead m need s (hlstep c s v)) ->
  (forall s, I s -> In (need s) vs /\ (P (hlstep c s (need s)) \/ lex (m (hlstep c s (need s))) (m s))) ->
  forall s, I s -> inevitable c vs P s.
Proof.
  intros c vs P I m need St K N s. remember (m s) as x eqn:X. revert s X. induction x as [x IH] using (well_founded_ind lex_wf). intros s -> Is.
  apply inev_round. intros b B.
  assert (PR : forall h t, P t -> P (hlrun c t h)) by (induction h as [|v h IHh]; intros t Pt; [exact Pt|cbn; apply IHh, St, Pt]).
  assert (D : forall h t, I t -> lex (m t) (m s) -> P (hlrun c t h) \/ I (hlrun c t h) /\ lex (m (hlrun c t h)) (m s)).
  { induction h as [|v h IHh]; intros t It Lt; [right; now split|]. cbn. destruct (K t v It) as [Pv|(Iv & [Lv|[Ev _]])]; [left; apply PR, Pv| |].
    - apply IHh; [exact Iv|]. eapply lex_trans; eauto.
    - apply IHh; [exact Iv|]. now rewrite Ev. }
  assert (G : forall h t, I t -> m t = m s -> need t = need s -> In (need s) h -> P (hlrun c t h) \/ I (hlrun c t h) /\ lex (m (hlrun c t h)) (m s)).
  { induction h as [|v h IHh]; intros t It Et Nt Hin; [destruct Hin|]. cbn. destruct (K t v It) as [Pv|(Iv & [Lv|[Ev Nv]])]; [left; apply PR, Pv| |].
    - apply D; [exact Iv|]. now rewrite <- Et.
    - destruct Hin as [->|Hin]; [|apply IHh; [exact Iv|now rewrite Ev|now rewrite Nv|exact Hin]].
      destruct (N t It) as (_ & [Pn|Ln]); rewrite Nt in *; [left; apply PR, Pn|]. apply D; [exact Iv|]. now rewrite <- Et. }
  destruct (G b s Is eq_refl eq_refl (B _ (proj1 (N s Is)))) as [Pb|(Ib & Lb)]; [now apply inev_now|]. exact (IH _ Lb _ eq_refl Ib).
Qed.

(** Where a coroutine is. *)
Fixpoint pos (e : bool) (j : job) (l : list item) : option nat :=
  match l with
  | [] => None
  | i :: r => if (job_eqb j (item_job i) && match i with QStart _ => negb e | QEnd _ _ => e end)%bool then Some 0
              else match pos e j r with Some n => Some (S n) | None => None end
  end.
Definition rank (i : ioth) : nat := match i with IShut _ _ => 3 | ISpawn _ _ => 2 | IUser _ _ => 1 | _ => 0 end.
Definition where_is (j : job) (s : hl) : nat * nat :=
  match pos true j (hl_ready s) with
  | Some n => (1, 4 * n + rank (hl_io s))
  | None => match flights j (hl_flight s) with
            | S _ => (2, 0)
            | O => match pos false j (hl_ready s) with Some n => (3, 4 * n + rank (hl_io s)) | None => (0, 0) end
            end
  end.
Definition need_io (i : ioth) : hlact := match i with IShut _ _ => VShut | ISpawn _ _ => VSpawn | IUser _ _ => VReturn | _ => VTake end.
Definition job_need (j : job) (s : hl) : hlact :=
  match pos true j (hl_ready s) with
  | Some n => need_io (hl_io s)
  | None => match flights j (hl_flight s) with S _ => VNet j RNothing | O => need_io (hl_io s) end
  end.

Lemma pos_app : forall e j l r n, pos e j l = Some n -> pos e j (l ++ r) = Some n.
Proof.
  induction l as [|i l IH]; intros r n E; [discriminate E|]. cbn in *. destruct (job_eqb j (item_job i) && _)%bool; [exact E|].
  destruct (pos e j l) as [k|] eqn:K; [|discriminate E]. now rewrite (IH r k eq_refl).
Qed.
Lemma pos_none : forall e j l, items j l = 0 -> pos e j l = None.
Proof.
  induction l as [|i l IH]; intro E; [reflexivity|]. cbn in *. destruct (job_eqb j (item_job i)); [discriminate E|]. cbn. now rewrite IH.
Qed.
Lemma pos_apps : forall e j l i, items j l = 0 -> pos e j (l ++ [i]) = if (job_eqb j (item_job i) && match i with QStart _ => negb e | QEnd _ _ => e end)%bool then Some (length l) else None.
Proof.
  induction l as [|x l IH]; intros i E; [cbn; now destruct (job_eqb j (item_job i) && _)%bool|]. cbn in E. destruct (job_eqb j (item_job x)) eqn:Q; [discriminate E|].
  cbn [app pos]. rewrite Q. cbn [andb]. rewrite IH by exact E. cbn [length]. now destruct (job_eqb j (item_job i) && _)%bool.
Qed.
Lemma pos_one : forall j l, items j l = 1 -> (exists n, pos true j l = Some n /\ pos false j l = None) \/ (exists n, pos false j l = Some n /\ pos true j l = None).
Proof.
  induction l as [|i l IH]; intro E; [discriminate E|]. cbn in *. destruct (job_eqb j (item_job i)) eqn:Q; cbn [b2n andb] in *.
  - assert (Z : items j l = 0) by lia. destruct i; cbn [negb]; rewrite !pos_none by exact Z; eauto.
  - destruct (IH E) as [(n & A & B)|(n & A & B)]; rewrite A, B; eauto.
Qed.

(** The future of the DELETE or of the authorization is ready. *)
Definition flag (j : job) (s : hl) : bool := match j with JDelete => hl_deleted s | _ => hl_authed s end.
Definition working (s : hl) : Prop := hl_life s = Alive /\ hl_stop s = false /\ hl_io s <> INone /\ hl_io s <> IEnded.
(** The coroutine is with the io_context or the network. *)
Definition under (j : job) (s : hl) : Prop := items j (hl_ready s) + flights j (hl_flight s) = 1 /\ shuts j (hl_io s) = 0 /\ flag j s = false.

Lemma job_acts : forall c j s v, (j = JDelete \/ j = JAuth) -> HI s -> working s -> (exists p, hl_call s = Some (ByApp, p)) -> under j s ->
  let s' := hlstep c s v in
  flag j s' = true \/ shuts j (hl_io s') = 1 \/ ahead (where_is j) (job_need j) s s'.
Proof.
  intros c j s v J I W (p & Cp) U. cbv zeta. destruct (flag j (hlstep c s v)) eqn:F; [now left|]. right.
  destruct (shuts j (hl_io (hlstep c s v))) as [|[|n]] eqn:Sh; [|now left|].
  2:{ exfalso. clear - Sh. unfold shuts in Sh. destruct (hl_io (hlstep c s v)); try discriminate Sh. unfold b2n in Sh. destruct (job_eqb j j0); discriminate Sh. }
  right. destruct W as (L & Z & NN & NE). destruct U as (U1 & U2 & U3). pose proof (hi_spawn _ I) as HS. pose proof (hi_auth _ I) as HA. clear I.
  assert (Same : forall s', hl_ready s' = hl_ready s -> hl_flight s' = hl_flight s -> hl_io s' = hl_io s -> ahead (where_is j) (job_need j) s s').
  { intros s' A B D. right. unfold where_is, job_need. now rewrite A, B, D. }
  assert (App : forall s' i, hl_ready s' = hl_ready s ++ [i] -> hl_flight s' = hl_flight s -> hl_io s' = hl_io s \/ rank (hl_io s') < rank (hl_io s) -> job_eqb j (item_job i) = false ->
                 ahead (where_is j) (job_need j) s s').
  { intros s' i A B D E. unfold ahead, where_is, job_need. rewrite A, B.
    destruct (flights j (hl_flight s)) as [|[|k]] eqn:Fl; [|rewrite !pos_apps, E, !pos_none by lia; cbn; right; split; reflexivity|lia].
    destruct (pos_one j (hl_ready s)) as [(n & X & Y)|(n & X & Y)]; [lia| |].
    - rewrite X, (pos_app _ _ _ [i] _ X). destruct D as [->|D]; [right; split; reflexivity|left; right; cbn; lia].
    - rewrite Y, X, (pos_app _ _ _ [i] _ X). assert (pos true j (hl_ready s ++ [i]) = None) as ->.
      { clear - Y E. revert Y. generalize (hl_ready s) as l. induction l as [|x l IH]; cbn; [now rewrite E|]. destruct (job_eqb j (item_job x) && _)%bool; [discriminate|].
        intro Y. destruct (pos true j l); [discriminate Y|]. now rewrite IH. }
      destruct D as [->|D]; [right; split; reflexivity|left; right; cbn; lia]. }
  assert (Low : forall s', hl_ready s' = hl_ready s -> hl_flight s' = hl_flight s -> rank (hl_io s') < rank (hl_io s) -> ahead (where_is j) (job_need j) s s').
  { intros s' A B D. unfold ahead, where_is, job_need. rewrite A, B.
    destruct (flights j (hl_flight s)) as [|[|k]] eqn:Fl; [|rewrite !pos_none by lia; cbn; right; split; reflexivity|lia].
    destruct (pos_one j (hl_ready s)) as [(n & X & Y)|(n & X & Y)]; [lia|rewrite X; left; right; cbn; lia|rewrite Y, X; left; right; cbn; lia]. }

  assert (NA : j = JAuth -> hl_sse s = SAuth).
  { intros ->. unfold total, authorizing in HA. destruct (hl_sse s); try reflexivity; lia. }
  unfold hlstep in F, Sh |- *. rewrite L in F, Sh |- *. destruct v.
  - (* Start *) rewrite Cp. now apply Same.
  - (* Send *) destruct (hl_conn s); [|now apply Same]. apply App with (QStart (JPost (length (hl_futs s)) init)); try reflexivity; [now left|]. destruct J as [-> | ->]; reflexivity.
  - destruct (hl_conn s); [|now apply Same]. apply App with (QStart (JNote (length (hl_notes s)))); try reflexivity; [now left|]. destruct J as [-> | ->]; reflexivity.
  - unfold may_call. rewrite Cp. now apply Same.
  - unfold may_call. rewrite Cp. now apply Same.
  - rewrite Cp. destruct p as [|d|d|[]|d|[]]; cbn [call_step]; try (now apply Same).
    + destruct (hl_deleted s); now apply Same.
    + destruct (hl_sse s); now apply Same.
    + destruct (hl_io s) eqn:IO; try (apply Same; cbn; congruence).
    + destruct (hl_io s) eqn:IO; try (apply Same; cbn; congruence).
    + destruct (hl_sse s); now apply Same.
  - (* Net *) destruct (drop_job j0 (hl_flight s)) as [f|] eqn:D; [|now apply Same]. pose proof (drop_flights _ j _ _ D) as X.
    destruct (job_eqb j j0) eqn:Q; cbn [b2n] in X.
    + left. left. unfold where_is. cbn [hl_ready hl_flight hl_io set_work]. rewrite pos_apps by lia. cbn [item_job]. rewrite Q. cbn [andb].
      rewrite !(pos_none _ _ (hl_ready s)) by lia. destruct (flights j (hl_flight s)); cbn; lia.
    + destruct (flights j (hl_flight s)) as [|[|k]] eqn:Fl; [| |lia].
      * assert (flights j f = 0) by lia. unfold ahead, where_is, job_need. cbn [hl_ready hl_flight hl_io set_work]. rewrite Fl, H.
        destruct (pos_one j (hl_ready s)) as [(n & A & B)|(n & A & B)]; [lia|rewrite A, (pos_app _ _ _ _ _ A); right; split; reflexivity|].
        rewrite B, A, (pos_app _ _ _ _ _ A). assert (pos true j (hl_ready s ++ [QEnd j0 r]) = None) as ->; [|right; split; reflexivity].
        clear - B Q. revert B. generalize (hl_ready s) as l. induction l as [|x l IH]; cbn; [now rewrite Q|]. destruct (job_eqb j (item_job x) && _)%bool; [discriminate|].
        intro Y. destruct (pos true j l); [discriminate Y|]. now rewrite IH.
      * unfold ahead, where_is, job_need. cbn [hl_ready hl_flight hl_io set_work]. rewrite pos_apps by lia. cbn [item_job]. rewrite Q. cbn [andb].
        rewrite !(pos_none _ _ (hl_ready s)), Fl by lia. replace (flights j f) with 1 by lia. right. split; reflexivity.
  - (* Take *) destruct (hl_io s) eqn:IO; try (now apply Same). rewrite Z in *. unfold take in *. destruct (hl_ready s) as [|i q] eqn:RD; [apply Same; congruence|].
    assert (Adv : job_eqb j (item_job i) = false -> forall s', hl_ready s' = q -> flights j (hl_flight s') = flights j (hl_flight s) -> rank (hl_io s') <= 3 ->
                   ahead (where_is j) (job_need j) s s').
    { intros Q s' A B D. unfold ahead, where_is, job_need. rewrite A, B, RD, IO. cbn [pos items item_job b2n] in *. rewrite Q in *. cbn [andb b2n] in *.
      destruct (flights j (hl_flight s)) as [|[|k]] eqn:Fl; [|rewrite !pos_none by lia; right; split; reflexivity|lia].
      destruct (pos_one j q) as [(n & X & Y)|(n & X & Y)]; [lia|rewrite X; left; right; cbn [fst snd rank]; lia|rewrite Y, X; left; right; cbn [fst snd rank]; lia]. }
    cbn [items] in U1. destruct i as [j1|j1 r1]; cbn [item_job] in *.
    + destruct (job_eqb j j1) eqn:Q; cbn [b2n] in U1.
      * left. left. unfold where_is. cbn [hl_ready hl_flight hl_io set_work]. rewrite RD. cbn [pos item_job]. rewrite Q. cbn [andb negb]. rewrite flights_app. cbn [flights]. rewrite Q.
        rewrite !(pos_none _ _ q) by lia. destruct (flights j (hl_flight s)); [cbn; lia|exfalso; clear - U1; cbn [b2n] in U1; lia].
      * apply (Adv eq_refl); cbn; [reflexivity| |rewrite IO; cbn; lia]. rewrite flights_app. cbn. rewrite Q. cbn. lia.
    + destruct (job_eqb j j1) eqn:Q.
      * exfalso. apply job_eqb_eq in Q as <-. destruct J as [-> | ->]; destruct (hk_tls c); cbn in F, Sh; discriminate.
      * clear F Sh. apply (Adv eq_refl); destruct (hk_tls c); destruct j1; cbn; try reflexivity; try lia; unfold settle, finish; repeat destruct (_ && _)%bool; try destruct r1; cbn; try reflexivity; lia.
  - (* Shut *) destruct (hl_io s) as [| |j1 r1|k r1|k q|] eqn:IO; try (now apply Same).
    cbn [shuts] in U2. assert (Q : job_eqb j j1 = false) by (destruct (job_eqb j j1); [discriminate U2|reflexivity]). clear F Sh.
    unfold settle, finish. destruct j1; repeat destruct (_ && _)%bool; try destruct r1; apply Low; cbn; try reflexivity; lia.
  - destruct (hl_io s) as [| |j1 r1|k r1|k q|] eqn:IO; try (now apply Same). rewrite (HS _ _ eq_refl).
    destruct r1; cbn [finish]; apply Low; cbn; try reflexivity; lia.
  - destruct (hl_io s) as [| |j1 r1|k r1|k q|] eqn:IO; try (now apply Same). unfold in_call. rewrite Cp. destruct q.
    + apply App with (QStart JReply); try reflexivity; [right; cbn; lia|]. destruct J as [-> | ->]; reflexivity.
    + apply Low; cbn; try reflexivity; lia.
  - rewrite Z. destruct (hl_io s) eqn:IO; apply Same; cbn; congruence.
  - destruct (hl_sse s); try (now apply Same). destruct (hl_conn s && hl_enabled s)%bool; now apply Same.
  - destruct (hl_sse s) eqn:SS; try (now apply Same). destruct ok; [|now apply Same]. destruct J as [-> | ->]; [|specialize (NA eq_refl); discriminate NA].
    apply App with (QStart JAuth); try reflexivity. now left.
  - destruct (hl_sse s) eqn:SS; try (now apply Same). destruct (hl_authed s); now apply Same.
  - destruct (hl_sse s) eqn:SS; try (now apply Same). destruct (hl_conn s && hl_enabled s)%bool; now apply Same.
  - destruct (hl_sse s) eqn:SS; now apply Same.
  - destruct (hl_sse s) eqn:SS; try (now apply Same). unfold in_call. rewrite Cp. destruct more; [unfold read_on|]; repeat destruct (_ && _)%bool; now apply Same.
  - destruct (hl_sse s) eqn:SS; now apply Same.
  - destruct (hl_sse s) eqn:SS; now apply Same.
Qed.


Lemma low : forall j s s' x, items j (hl_ready s) = 1 -> flights j (hl_flight s) = 0 -> hl_ready s' = hl_ready s ++ x -> items j x = 0 -> hl_flight s' = hl_flight s ->
  rank (hl_io s') < rank (hl_io s) -> lex (where_is j s') (where_is j s).
Proof.
  intros j s s' x U Fl A N B D. unfold where_is. rewrite A, B, Fl. right.
  destruct (pos_one j (hl_ready s) U) as [(n & X & Y)|(n & X & Y)]; [rewrite X, (pos_app _ _ _ x _ X); cbn; lia|].
  assert (pos true j (hl_ready s ++ x) = None) as ->; [|rewrite Y, X, (pos_app _ _ _ x _ X); cbn; lia].
  clear - Y N. revert Y. generalize (hl_ready s) as l. induction l as [|z l IH]; cbn; [intros _; now apply pos_none|]. destruct (job_eqb j (item_job z) && _)%bool; [discriminate|].
  intro Y. destruct (pos true j l); [discriminate Y|]. now rewrite IH.
Qed.

(** Its turn. *)
Lemma job_turn : forall c j s, (j = JDelete \/ j = JAuth) -> HI s -> working s -> (exists p, hl_call s = Some (ByApp, p)) -> under j s ->
  let s' := hlstep c s (job_need j s) in
  In (job_need j s) all_turns /\ (flag j s' = true \/ shuts j (hl_io s') = 1 \/ lex (where_is j s') (where_is j s)).
Proof.
  intros c j s J I W Cp U. cbv zeta. split.
  { unfold job_need. destruct (pos true j (hl_ready s)); [destruct (hl_io s); cbn; tauto|]. destruct (flights j (hl_flight s)); [destruct (hl_io s); cbn; tauto|].
    destruct J as [-> | ->]; cbn; tauto. }
  destruct W as (L & Z & NN & NE). destruct U as (U1 & U2 & U3). destruct Cp as (p & Cp). pose proof (hi_spawn _ I) as HS. clear I.
  unfold hlstep. rewrite L. destruct (flights j (hl_flight s)) as [|[|k]] eqn:Fl; [| |lia].
  - assert (job_need j s = need_io (hl_io s)) as ->.
    { unfold job_need. rewrite Fl. destruct (pos true j (hl_ready s)); reflexivity. }
    rewrite Nat.add_0_r in U1. destruct (hl_io s) as [| |j1 r1|k r1|k q|] eqn:IO; cbn [need_io]; [congruence| | | | |congruence].
    + rewrite Z. unfold take. destruct (hl_ready s) as [|i q] eqn:RD; [discriminate U1|].
      assert (Adv : job_eqb j (item_job i) = false -> forall s', hl_ready s' = q -> flights j (hl_flight s') = 0 -> rank (hl_io s') <= 3 -> lex (where_is j s') (where_is j s)).
      { intros Q s' A B D. unfold where_is. rewrite A, B, RD, IO, Fl. cbn [pos items item_job b2n] in *. rewrite Q in *. cbn [andb b2n] in *.
        destruct (pos_one j q) as [(n & X & Y)|(n & X & Y)]; [lia|rewrite X; right; cbn [fst snd rank]; lia|rewrite Y, X; right; cbn [fst snd rank]; lia]. }
      cbn [items] in U1. destruct i as [j1|j1 r1]; cbn [item_job] in *.
      * right. right. destruct (job_eqb j j1) eqn:Q; cbn [b2n] in U1.
        -- left. unfold where_is. cbn [hl_ready hl_flight hl_io set_work]. rewrite RD. cbn [pos item_job]. rewrite Q. cbn [andb negb]. rewrite flights_app. cbn [flights]. rewrite Q.
           rewrite !(pos_none _ _ q) by lia. rewrite Fl. cbn. lia.
        -- apply (Adv eq_refl); cbn; [reflexivity| |rewrite IO; cbn; lia]. rewrite flights_app. cbn. rewrite Q. cbn. lia.
      * destruct (job_eqb j j1) eqn:Q.
        -- apply job_eqb_eq in Q as <-. destruct J as [-> | ->]; destruct (hk_tls c); cbn; auto.
        -- right. right. apply (Adv eq_refl); destruct (hk_tls c); destruct j1; cbn; try reflexivity; try lia; unfold settle, finish; repeat destruct (_ && _)%bool; try destruct r1; cbn;
             try reflexivity; try exact Fl; lia.
    + right. right. unfold settle, finish. destruct j1; repeat destruct (_ && _)%bool; try destruct r1; apply (low j s _ []); cbn; rewrite ?IO, ?app_nil_r; cbn; try reflexivity; try assumption; lia.
    + rewrite (HS _ _ eq_refl). right. right. destruct r1; cbn [finish]; apply (low j s _ []); cbn; rewrite ?IO, ?app_nil_r; cbn; try reflexivity; try assumption; lia.
    + unfold in_call. rewrite Cp. right. right. destruct q.
      * apply (low j s _ [QStart JReply]); cbn; rewrite ?IO; cbn; try reflexivity; try assumption; try lia. destruct J as [-> | ->]; reflexivity.
      * apply (low j s _ []); cbn; rewrite ?IO, ?app_nil_r; cbn; try reflexivity; try assumption; lia.
  - right. right. assert (job_need j s = VNet j RNothing) as ->.
    { unfold job_need. rewrite Fl, pos_none by lia. reflexivity. }
    destruct (drop_job j (hl_flight s)) as [f|] eqn:D; [|apply drop_none in D; lia].
    left. unfold where_is. cbn [hl_ready hl_flight hl_io set_work]. rewrite pos_apps by lia. cbn [item_job]. rewrite job_eqb_refl. rewrite !(pos_none _ _ (hl_ready s)), Fl by lia. cbn. lia.
Qed.
