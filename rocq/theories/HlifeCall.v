(** Close and the destructor, called by the application, come to their end. *)
From Coq Require Import List Arith Bool Lia.
From Verif Require Import HlifeModel HlifeSpec HlifeInv HlifeStep HlifeLive.
Import ListNotations.
Local Open Scope nat_scope.

Definition level (p : pc) : nat := match p with KDelete => 5 | KSse _ => 4 | KJoin _ => 3 | KStop _ => 2 | KWait _ => 1 | KLast _ => 0 end.
Definition of_d (p : pc) : bool := match p with KDelete => false | KSse d | KJoin d | KStop d | KWait d | KLast d => d end.
Definition goal (d : bool) (n : nat) (s : hl) : Prop := if d then hl_life s <> Alive else n < length (hl_rets s).
Definition CI (d : bool) (n : nat) (p : pc) (s : hl) : Prop :=
  HI s /\ hl_life s = Alive /\ n <= length (hl_rets s) /\ hl_call s = Some (ByApp, p) /\ of_d p = d /\ (p = KDelete -> working s) /\ (forall e, p = KWait e -> hl_stop s = true).

Ltac go := unfold take, settle, finish, answer, spawn, read_on, nap, may_call, in_call.
Ltac see := cbn [hl_conn hl_enabled hl_running hl_stop hl_io hl_sse hl_ready hl_flight hl_deleted hl_authed hl_futs hl_notes hl_call hl_rets hl_calls hl_life
  set_flags set_io set_sse set_work set_ready set_futs set_call set_calls set_life goes own_thread].
Lemma goal_step : forall d n c s v, goal d n s -> goal d n (hlstep c s v).
Proof.
  intros [] n c s v G; cbn [goal] in *.
  - unfold hlstep. destruct (hl_life s) eqn:L; [contradiction| |]; now rewrite L.
  - assert (length (hl_rets s) <= length (hl_rets (hlstep c s v))); [|lia]. clear G.
    unfold hlstep. destruct (hl_life s); [|lia|lia]. destruct v; cbv beta iota; go; unfold call_step, own_thread; brk; see; rewrite ?app_length; lia.
Qed.

Ltac ci := unfold CI; refine (conj _ (conj _ (conj _ (conj _ (conj _ (conj _ _)))))); try assumption; try (intros; discriminate); try (intros; reflexivity).

(** Only the call itself moves on. *)
Lemma ci_step : forall d n p c s v, CI d n p s ->
  goal d n (hlstep c s v) \/ CI d n p (hlstep c s v) \/ v = VCall /\ exists q, CI d n q (hlstep c s v) /\ level q < level p.
Proof.
  intros d n p c s v (I & L & N & C & D & W & Z). pose proof (inv_step c v s I) as I'.
  assert (Keep : v <> VCall -> hl_life (hlstep c s v) = Alive /\ hl_rets (hlstep c s v) = hl_rets s /\ hl_call (hlstep c s v) = hl_call s /\ hl_stop (hlstep c s v) = hl_stop s /\
                   (p = KDelete -> working (hlstep c s v))).
  { intro V. pose proof (hi_spawn _ I) as HS. clear I I' Z. unfold working in *. unfold hlstep. rewrite L.
    destruct v; cbv beta iota; go; rewrite ?C; try congruence; brk; see; try (exfalso; first [pose proof (HS _ _ eq_refl)|match goal with H : hl_io _ = ISpawn _ _ |- _ => pose proof (HS _ _ H) end]; congruence);
    refine (conj _ (conj _ (conj _ (conj _ _)))); try reflexivity; try congruence; try (intro K; specialize (W K); intuition congruence). }
  assert (VC : v = VCall \/ v <> VCall) by (destruct v; (now left) || (right; discriminate)).
  destruct VC as [-> | V].
  - revert I'. unfold hlstep. rewrite L, C. intro I'. destruct p as [|e|e|e|e|e]; cbn [call_step of_d] in *.
    + destruct (hl_deleted s); [|now right; left]. right. right. split; [reflexivity|]. exists (KSse false). split; [|cbn; lia]. ci.
    + right. right. split; [reflexivity|]. exists (KJoin e). split; [|cbn; lia]. ci.
    + destruct (hl_sse s); try (now right; left); right; right; (split; [reflexivity|]); exists (KStop e); (split; [|cbn; lia]); ci.
    + destruct e; [destruct (hl_io s)|]; right; right; (split; [reflexivity|]); try (exists (KWait true); split; [|cbn; lia]; ci; fail);
        [exists (KLast true)|exists (KWait false)]; (split; [|cbn; lia]); ci.
    + destruct (hl_io s); try (now right; left); right; right; (split; [reflexivity|]); exists (KLast e); (split; [|cbn; lia]); ci.
    + left. subst d. destruct e; cbn; [destruct (hl_sse s); discriminate|]. rewrite app_length. cbn. lia.
  - destruct (Keep V) as (A & B & E & F & G). right. left. unfold CI. rewrite A, B, E. refine (conj I' (conj eq_refl (conj N (conj C (conj D (conj G _)))))).
    intros e K. rewrite F. eapply Z; eauto.
Qed.

Definition past (d : bool) (n k : nat) (s : hl) : Prop := goal d n s \/ exists p, CI d n p s /\ level p <= k.
Lemma past_step : forall d n k c s v, past d n k s -> past d n k (hlstep c s v).
Proof.
  intros d n k c s v [G|(p & A & B)]; [left; now apply goal_step|].
  destruct (ci_step _ _ _ c _ v A) as [G|[X|(_ & q & X & Y)]]; [now left|right; eauto|right; exists q; split; [exact X|lia]].
Qed.

Lemma inev_then : forall c vs (P Q : hl -> Prop) s, inevitable c vs P s -> (forall t, P t -> inevitable c vs Q t) -> inevitable c vs Q s.
Proof. intros c vs P Q s A B. induction A as [s A|s _ IH]; [apply B, A|]. apply inev_round. exact IH. Qed.

(** One stage of the call: m goes down until the call moves on. *)
Lemma stage : forall d n p c (m : hl -> nat * nat) (need : hl -> hlact),
  (forall s v, CI d n p s -> CI d n p (hlstep c s v) -> ahead m need s (hlstep c s v)) ->
  (forall s, CI d n p s -> In (need s) all_turns /\ (CI d n p (hlstep c s (need s)) -> lex (m (hlstep c s (need s))) (m s))) ->
  forall s, CI d n p s -> inevitable c all_turns (fun t => goal d n t \/ exists q, CI d n q t /\ level q < level p) s.
Proof.
  intros d n p c m need A B. apply (progress c all_turns _ (CI d n p) m need).
  - intros s v [G|(q & X & Y)]; [left; now apply goal_step|].
    destruct (ci_step _ _ _ c _ v X) as [G|[Z|(_ & r & Z & W)]]; [now left|right; eauto|right; exists r; split; [exact Z|lia]].
  - intros s v I. destruct (ci_step _ _ _ c _ v I) as [G|[Z|(_ & r & Z & W)]]; [left; now left|right; split; [exact Z|now apply A]|left; right; eauto].
  - intros s I. destruct (B s I) as (X & Y). split; [exact X|].
    destruct (ci_step _ _ _ c _ (need s) I) as [G|[Z|(_ & r & Z & W)]]; [left; now left|right; now apply Y|left; right; eauto].
Qed.

(** Stages in which the call waits for nothing. *)
Lemma stage_free : forall d n p c, (forall e, p <> KJoin e) -> (forall e, p <> KWait e) -> p <> KDelete -> forall s, CI d n p s ->
  inevitable c all_turns (fun t => goal d n t \/ exists q, CI d n q t /\ level q < level p) s.
Proof.
  intros d n p c N1 N2 N3. apply (stage d n p c (fun _ => (0, 0)) (fun _ => VCall)); [right; split; reflexivity|].
  intros s (_ & L & _ & C & _). split; [now left|]. intros (_ & L' & _ & C' & _). exfalso. revert C'. revert L'. unfold hlstep. rewrite L, C.
  destruct p as [|e|e|[]|e|[]]; cbn [call_step]; try congruence; [intros _; discriminate|destruct (hl_io s); intros _; discriminate| discriminate |destruct (hl_sse s); discriminate|discriminate].
Qed.

Definition wait_rank (i : ioth) : nat := match i with IShut _ _ => 4 | ISpawn _ _ => 3 | IUser _ _ => 2 | IIdle => 1 | _ => 0 end.
Definition wait_need (i : ioth) : hlact := match i with IShut _ _ => VShut | ISpawn _ _ => VSpawn | IUser _ _ => VReturn | IIdle => VStop | _ => VCall end.
Lemma stage_wait : forall d n c s, CI d n (KWait d) s -> inevitable c all_turns (fun t => goal d n t \/ exists q, CI d n q t /\ level q < 1) s.
Proof.
  intros d n c. apply (stage d n (KWait d) c (fun s => (0, wait_rank (hl_io s))) (fun s => wait_need (hl_io s))).
  - intros s v (I & L & _ & C & _ & _ & Z) _. specialize (Z d eq_refl). pose proof (hi_spawn _ I) as HS. pose proof (hi_pc _ I _ _ C) as HE. clear I.
    assert (E : hl_enabled s = false) by (destruct HE as [[X|[X|[X|[]]]]|X]; [discriminate X|discriminate X|discriminate X|exact X]). clear HE. unfold ahead, hlstep. rewrite L. unfold lex.
    destruct v; cbv beta iota; go; rewrite ?C, ?Z, ?E, ?andb_false_r, ?andb_false_l; unfold call_step, own_thread; brk; see; try (exfalso; first [pose proof (HS _ _ eq_refl)|match goal with H : hl_io _ = ISpawn _ _ |- _ => pose proof (HS _ _ H) end]; congruence);
      rewrite ?E in *; cbn [wait_rank wait_need fst snd]; try (right; split; congruence); try (left; right; split; [reflexivity|lia]); try congruence; try discriminate.
    all: match goal with H : hl_io _ = _ |- _ => rewrite H; right; split; reflexivity end.
  - intros s (I & L & _ & C & _ & _ & Z). specialize (Z d eq_refl). pose proof (hi_spawn _ I) as HS. clear I. split; [destruct (hl_io s); cbn; tauto|].
    intros (_ & L' & _ & C' & _). revert L' C'. unfold lex, hlstep. rewrite L. cbn [fst snd]. intros L' C'. right. split; [reflexivity|]. revert L' C'.
    destruct (hl_io s) eqn:IO; cbn [wait_need]; cbv beta iota; go; unfold call_step, own_thread; rewrite ?C, ?IO, ?Z; brk; see; cbn [wait_rank]; try discriminate; try lia; try congruence; try (specialize (HS _ _ eq_refl); discriminate HS).
Qed.

(** Waiting for the future of a coroutine. *)
Definition held (j : job) (s : hl) : Prop := total j s + b2n (flag j s) = 1.
Definition dm (j : job) (s : hl) : nat * nat :=
  if flag j s then (0, 0) else match shuts j (hl_io s) with O => (S (S (fst (where_is j s))), snd (where_is j s)) | S _ => (1, 0) end.
Definition dneed (j : job) (s : hl) : hlact :=
  if flag j s then match j with JDelete => VCall | _ => VGranted end else match shuts j (hl_io s) with O => job_need j s | S _ => VShut end.

Lemma shut_one : forall j i, shuts j i = 0 \/ exists r, i = IShut j r /\ shuts j i = 1.
Proof.
  intros j [| |k r|k r|k q|]; cbn; auto. destruct (job_eqb j k) eqn:Q; [|now left]. apply job_eqb_eq in Q as <-. right. now exists r.
Qed.

Lemma flag_keep : forall c j s v, (j = JDelete \/ j = JAuth) -> (exists p, hl_call s = Some (ByApp, p)) -> hl_life s = Alive -> held j s -> held j (hlstep c s v) -> flag j s = true -> flag j (hlstep c s v) = true.
Proof.
  intros c j s v J (p & Cp) L H H' F. destruct (flag j (hlstep c s v)) eqn:F'; [reflexivity|]. exfalso. unfold held in *. rewrite F in H. rewrite F' in H'. cbn [b2n] in *.
  revert H' F'. unfold hlstep. rewrite L. unfold total in *. destruct J as [-> | ->]; cbn [flag] in *;
  destruct v; cbv beta iota; go; unfold call_step, own_thread; rewrite ?Cp; brk; see; intros H' F'; try congruence; try lia.
  all: match goal with H : hl_io _ = _ |- _ => rewrite ?H in * end; cbn [shuts] in *; try lia.
Qed.

Lemma held_act : forall c j s v, (j = JDelete \/ j = JAuth) -> HI s -> working s -> (exists p, hl_call s = Some (ByApp, p)) -> held j s -> held j (hlstep c s v) ->
  ahead (dm j) (dneed j) s (hlstep c s v).
Proof.
  intros c j s v J I W Cp H H'. unfold ahead, dm, dneed. destruct (flag j s) eqn:F.
  { rewrite (flag_keep c j s v J Cp (proj1 W) H H' F). right. split; reflexivity. }
  destruct (flag j (hlstep c s v)) eqn:F'.
  { left. left. cbn. destruct (shuts j (hl_io s)); cbn; lia. }
  destruct (shut_one j (hl_io s)) as [Z|(r & IO & Z)]; rewrite Z.
  - assert (U : under j s) by (unfold under, held, total in *; rewrite F, Z in *; cbn in H; repeat split; lia).
    destruct (job_acts c j s v J I W Cp U) as [A|[A|A]]; [congruence|rewrite A; left; left; cbn; lia|].
    destruct (shuts j (hl_io (hlstep c s v))); [|left; left; cbn; lia].
    destruct A as [A|[A B]]; [left; unfold lex in *; cbn; lia|right; now rewrite A, B].
  - assert (hl_io (hlstep c s v) = hl_io s) as ->; [|rewrite Z; right; split; reflexivity].
    clear H H' I. revert F'. destruct Cp as (p & Cp). destruct W as (L & _). unfold hlstep. rewrite L. destruct J as [-> | ->]; cbn [flag] in *;
    destruct v; cbv beta iota; go; unfold call_step, own_thread; rewrite ?Cp, ?IO; brk; see; intro F'; congruence.
Qed.

Lemma held_turn : forall c j s, (j = JDelete \/ j = JAuth) -> HI s -> working s -> (exists p, hl_call s = Some (ByApp, p)) -> held j s ->
  (j = JDelete -> hl_call s = Some (ByApp, KDelete)) -> (j = JAuth -> hl_sse s = SAuth) -> 
  In (dneed j s) all_turns /\ (held j (hlstep c s (dneed j s)) -> lex (dm j (hlstep c s (dneed j s))) (dm j s)).
Proof.
  intros c j s J I W Cp H JD JA. unfold dneed, dm at 2. destruct (flag j s) eqn:F.
  { split; [destruct J as [-> | ->]; cbn; tauto|]. intro H'. exfalso. destruct W as (L & _). unfold held, total in *. rewrite F in H. revert H'. unfold hlstep. rewrite L.
    destruct J as [-> | ->]; cbn [flag] in *; cbv beta iota; [rewrite (JD eq_refl); cbn [call_step]|rewrite (JA eq_refl)]; rewrite F; see; cbn [b2n] in *; intro; lia. }
  destruct (shut_one j (hl_io s)) as [Z|(r & IO & Z)]; rewrite Z.
  - assert (U : under j s) by (unfold under, held, total in *; rewrite F, Z in *; cbn in H; repeat split; lia).
    destruct (job_turn c j s J I W Cp U) as (X & A). split; [exact X|]. intros _. unfold dm. destruct (flag j (hlstep c s (job_need j s))); [left; cbn; lia|].
    destruct A as [A|[A|A]]; [congruence|rewrite A; left; cbn; lia|]. destruct (shuts j (hl_io (hlstep c s (job_need j s)))); [|left; cbn; lia]. unfold lex in *; cbn; lia.
  - split; [cbn; tauto|]. intros _. unfold dm. assert (flag j (hlstep c s VShut) = true) as ->; [|left; cbn; lia].
    destruct W as (L & _). unfold hlstep. rewrite L, IO. destruct J as [-> | ->]; reflexivity.
Qed.

Lemma stage_delete : forall n c s, CI false n KDelete s -> inevitable c all_turns (fun t => goal false n t \/ exists q, CI false n q t /\ level q < 5) s.
Proof.
  intros n c.
  assert (Hd : forall s, CI false n KDelete s -> held JDelete s).
  { intros s (I & _ & _ & C & _). pose proof (hi_delete _ I) as D. unfold deleting in D. rewrite C in D. exact D. }
  apply (stage false n KDelete c (dm JDelete) (dneed JDelete)).
  - intros s v A B. pose proof (Hd _ A). pose proof (Hd _ B). destruct A as (I & _ & _ & C & _ & W & _). apply held_act; eauto.
  - intros s A. pose proof (Hd _ A). destruct A as (I & L & N & C & D & W & Z).
    destruct (held_turn c JDelete s (or_introl eq_refl) I (W eq_refl) (ex_intro _ _ C) H (fun _ => C)) as (X & Y); [discriminate|]. split; [exact X|]. intro B. apply Y, Hd, B.
Qed.

Definition jm (s : hl) : nat * nat :=
  match hl_sse s with
  | SDial => (14, 0)
  | SAuth => (5 + fst (dm JAuth s), snd (dm JAuth s))
  | SOpen => (4, 0)
  | SUser m => (3, m)
  | SNap => (2, 0)
  | SNone => match hl_io s with ISpawn _ _ => (2, 0) | _ => (0, 0) end
  | STop => (1, 0)
  | SOver => (0, 0)
  end.
Definition jneed (s : hl) : hlact :=
  match hl_sse s with
  | SDial => VDialled false | SAuth => dneed JAuth s | SOpen => VGone | SUser _ => VHeard | SNap => VWake | STop => VTest | SNone | SOver => VCall
  end.

Lemma where_3 : forall j s, fst (where_is j s) <= 3.
Proof. intros. unfold where_is. destruct (pos true j (hl_ready s)); cbn; [lia|]. destruct (flights j (hl_flight s)); cbn; [|lia]. destruct (pos false j (hl_ready s)); cbn; lia. Qed.
Lemma dm_5 : forall j s, fst (dm j s) <= 5.
Proof. intros. unfold dm. pose proof (where_3 j s). destruct (flag j s); cbn; [lia|]. destruct (shuts j (hl_io s)); cbn; lia. Qed.

(** What the event-stream thread does by itself once it is told to end. *)
Lemma sse_moves : forall c s v p, HI s -> hl_life s = Alive -> hl_call s = Some (ByApp, p) -> hl_call (hlstep c s v) = Some (ByApp, p) -> hl_enabled s = false ->
  (hl_sse (hlstep c s v) = hl_sse s /\ (hl_sse s = SNone -> (exists k r, hl_io (hlstep c s v) = ISpawn k r) -> exists k r, hl_io s = ISpawn k r)) \/
  (hl_sse s = SNone /\ (exists k r, hl_io s = ISpawn k r) /\ hl_sse (hlstep c s v) = STop) \/
  (hl_sse s = STop /\ hl_sse (hlstep c s v) = SOver) \/
  (hl_sse s = SDial /\ (hl_sse (hlstep c s v) = SAuth \/ hl_sse (hlstep c s v) = STop)) \/
  (hl_sse s = SAuth /\ hl_sse (hlstep c s v) = SOpen) \/
  (hl_sse s = SOpen /\ (hl_sse (hlstep c s v) = STop \/ hl_sse (hlstep c s v) = SOver)) \/
  (exists m, hl_sse s = SUser m /\ (hl_sse (hlstep c s v) = STop \/ exists k, m = S k /\ hl_sse (hlstep c s v) = SUser k)) \/
  (hl_sse s = SNap /\ hl_sse (hlstep c s v) = STop).
Proof.
  intros c s v p I L C C' E. revert C'. unfold hlstep. rewrite L. pose proof (hi_spawn _ I) as HS. clear I.
  destruct v; cbv beta iota; go; unfold call_step, own_thread; rewrite ?C, ?E, ?andb_false_r, ?andb_false_l; cbn [andb]; brk; see; intro C'; rewrite ?E in *; try discriminate;
    try (left; split; [congruence|]; intros ? (? & ? & ?); first [discriminate|eauto]; fail);
    repeat match goal with H : (_ && _)%bool = true |- _ => rewrite ?andb_false_r in H; cbn in H; try discriminate H end; eauto 12.
  all: try (exfalso; match goal with H : (_ && false && _)%bool = true |- _ => rewrite andb_false_r in H; discriminate H end).
  all: try (left; split; [congruence|]; intros ? (? & ? & ?); first [exfalso; congruence|do 2 eexists; congruence]).
  - exfalso. match goal with H : (_ && hl_enabled s && _)%bool = true |- _ => rewrite E, andb_false_r in H; discriminate H end.
  - do 6 right. left. eexists. split; [reflexivity|]. right. eauto.
Qed.

Lemma stage_join : forall d n c s, CI d n (KJoin d) s -> inevitable c all_turns (fun t => goal d n t \/ exists q, CI d n q t /\ level q < 3) s.
Proof.
  intros d n c.
  assert (En : forall s, CI d n (KJoin d) s -> hl_enabled s = false).
  { intros s (I & _ & _ & C & _). destruct (hi_pc _ I _ _ C) as [[X|[X|[X|[]]]]|X]; [discriminate X|discriminate X|discriminate X|exact X]. }
  assert (Ha : forall s, CI d n (KJoin d) s -> hl_sse s = SAuth -> held JAuth s /\ working s).
  { intros s (I & L & _ & C & _) A. pose proof (hi_auth _ I) as D. unfold authorizing in D. rewrite A in D. split; [exact D|].
    destruct (hi_dead _ I) as [[X|[X|X]]|(X & Y & Z)]; [congruence|congruence|congruence|]. repeat split; assumption. }
  apply (stage d n (KJoin d) c jm jneed).
  - intros s v A B. pose proof (En _ A) as E. pose proof (Ha _ A) as H. pose proof (Ha _ B) as H'.
    destruct A as (I & L & _ & C & _ & _ & _). destruct B as (I' & L' & _ & C' & _).
    destruct (sse_moves c s v _ I L C C' E) as [(A & B)|[(A & B & D)|[(A & B)|[(A & B)|[(A & B)|[(A & B)|[(m & A & B)|(A & B)]]]]]]]; unfold ahead, jm, jneed.
    + rewrite A. destruct (hl_sse s) eqn:SS; try (right; split; reflexivity).
      * specialize (B eq_refl). destruct (hl_io (hlstep c s v)) eqn:IO'; try (destruct (hl_io s); first [right; split; reflexivity|left; left; cbn; lia]).
        destruct B as (k1 & r1 & ->); [eauto|]. right. split; reflexivity.
      * destruct (H eq_refl) as (X & W). destruct (H' A) as (X' & _).
        destruct (held_act c JAuth s v (or_intror eq_refl) I W (ex_intro _ _ C) X X') as [G|(G & K)]; [left; unfold lex in *; cbn [fst snd]; lia|right; now rewrite G, K].
    + destruct B as (k & r & B). rewrite A, B, D. left. left. cbn. lia.
    + rewrite A, B. left. left. cbn. lia.
    + rewrite A. pose proof (dm_5 JAuth (hlstep c s v)). destruct B as [-> | ->]; left; left; cbn [fst snd]; lia.
    + rewrite A, B. left. left. cbn. lia.
    + rewrite A. destruct B as [-> | ->]; left; left; cbn [fst snd]; lia.
    + rewrite A. destruct B as [-> | (k & -> & ->)]; [left; left; cbn [fst snd]; lia|left; right; cbn; lia].
    + rewrite A, B. left. left. cbn. lia.
  - intros s A. pose proof (En _ A) as E. pose proof (Ha _ A) as H. pose proof (Ha (hlstep c s (jneed s))) as H'.
    unfold jneed in *. unfold jm at 2. destruct (hl_sse s) eqn:SS.
    + split; [cbn; tauto|]. destruct A as (I & L & _ & C & _). intros (_ & _ & _ & C' & _). revert C'. unfold hlstep. rewrite L, C. cbn [call_step]. rewrite SS. see. discriminate.
    + split; [cbn; tauto|]. destruct A as (I & L & _ & C & _). intros _. unfold jm, hlstep. rewrite L, SS, E, andb_false_r. see. left. cbn. lia.
    + split; [cbn; tauto|]. destruct A as (I & L & _ & C & _). intros _. unfold jm, hlstep. rewrite L, SS. unfold nap. rewrite E. see. cbn [andb]. left. cbn. lia.
    + destruct (H eq_refl) as (X & W). destruct A as (I & L & N & C & D & A6 & A7).
      destruct (held_turn c JAuth s (or_intror eq_refl) I W (ex_intro _ _ C) X) as (Y & Z); [discriminate|intros _; exact SS|]. split; [exact Y|]. intro B.
      specialize (H' B). pose proof (En _ B). destruct B as (I' & L' & _ & C' & _).
      destruct (sse_moves c s (dneed JAuth s) _ I L C C' E) as [(A & B)|[(A & B & G)|[(A & B)|[(A & B)|[(A & B)|[(A & B)|[(m & A & B)|(A & B)]]]]]]]; try (rewrite SS in A; discriminate A).
      * unfold jm. rewrite A, SS. specialize (Z (proj1 (H' (eq_trans A SS)))). unfold lex in *. cbn [fst snd]. lia.
      * unfold jm. rewrite B. left. cbn. lia.
    + split; [cbn; tauto|]. destruct A as (I & L & _ & C & _). intros _. unfold jm, hlstep. rewrite L, SS. unfold nap. rewrite E. see. cbn [andb]. left. cbn. lia.
    + split; [cbn; tauto|]. destruct A as (I & L & _ & C & _). intros _. unfold jm, hlstep. rewrite L, SS. unfold in_call. rewrite C.
      destruct more; [unfold read_on, nap; rewrite E, andb_false_r; see; cbn [andb]; left; cbn; lia|see; right; cbn; lia].
    + split; [cbn; tauto|]. destruct A as (I & L & _ & C & _). intros _. unfold jm, hlstep. rewrite L, SS. see. left. cbn. lia.
    + split; [cbn; tauto|]. destruct A as (I & L & _ & C & _). intros (_ & _ & _ & C' & _). revert C'. unfold hlstep. rewrite L, C. cbn [call_step]. rewrite SS. see. discriminate.
Qed.

Theorem call_returns : forall d n c p s, CI d n p s -> inevitable c all_turns (goal d n) s.
Proof.
  intros d n c. assert (G : forall k p s, level p < k -> CI d n p s -> inevitable c all_turns (goal d n) s).
  { induction k as [|k IH]; intros p s Lk A; [lia|].
    assert (X : inevitable c all_turns (fun t => goal d n t \/ exists q, CI d n q t /\ level q < level p) s).
    { assert (D : of_d p = d) by apply A. destruct p as [|e|e|e|e|e]; cbn [of_d] in D; subst d.
      - now apply stage_delete.
      - apply stage_free; try discriminate. exact A.
      - now apply stage_join.
      - apply stage_free; try discriminate. exact A.
      - now apply stage_wait.
      - apply stage_free; try discriminate. exact A. }
    apply (inev_then _ _ _ _ _ X). intros t [Gt|(q & B & Q)]; [now apply inev_now|]. apply (IH q); [lia|exact B]. }
  intros p s. apply (G (S (level p))). lia.
Qed.
