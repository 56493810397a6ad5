From Coq Require Import Ascii String List Arith Bool Lia.
From Verif Require Import StrModel TalkModel TalkSpec.
Import ListNotations.
Local Open Scope nat_scope.

(** ** Lists of threads *)

Lemma upd_length : forall n f l, length (upd n f l) = length l.
Proof. intros n f l. revert n. induction l as [|t l IH]; intros [|n]; cbn; auto. Qed.
Lemma upd_same : forall n f l t, nth_error l n = Some t -> nth_error (upd n f l) n = Some (f t).
Proof. intros n f l. revert n. induction l as [|x l IH]; intros [|n] t H; cbn in *; try discriminate; [now injection H as ->|auto]. Qed.
Lemma upd_other : forall n m f l, n <> m -> nth_error (upd n f l) m = nth_error l m.
Proof. intros n m f l. revert n m. induction l as [|x l IH]; intros [|n] [|m] H; cbn; auto; now destruct H. Qed.
Lemma upd_in : forall n f l t, nth_error l n = Some t -> forall u, In u (upd n f l) -> u = f t \/ (exists m, m <> n /\ nth_error l m = Some u).
Proof.
  intros n f l t H u I. apply In_nth_error in I as [m E]. destruct (Nat.eq_dec n m) as [<-|N].
  - rewrite (upd_same _ _ _ _ H) in E. injection E as <-. now left.
  - rewrite upd_other in E by easy. right. exists m. auto.
Qed.

Lemma nth_app_one : forall (A : Type) (l : list A) x n y, nth_error (l ++ [x]) n = Some y -> nth_error l n = Some y \/ (n = length l /\ y = x).
Proof.
  intros A l x n y H. destruct (Nat.lt_ge_cases n (length l)) as [L|L].
  - rewrite nth_error_app1 in H by easy. now left.
  - rewrite nth_error_app2 in H by easy. destruct (n - length l) as [|k] eqn:E; cbn in H; [injection H as <-; right; split; [lia|easy]|now destruct k].
Qed.
Lemma nth_app_old : forall (A : Type) (l : list A) x n y, nth_error l n = Some y -> nth_error (l ++ [x]) n = Some y.
Proof. intros A l x n y H. rewrite nth_error_app1; [easy|]. apply nth_error_Some. congruence. Qed.
Lemma nth_app_new : forall (A : Type) (l : list A) x, nth_error (l ++ [x]) (length l) = Some x.
Proof. intros A l x. rewrite nth_error_app2, Nat.sub_diag by easy. reflexivity. Qed.

(** ** How a step changes a thread *)

(** t at place n became t'. *)
Inductive moved (s : talk) (v : tev) (n : nat) (t : thread) : place -> Prop :=
| mv_stay : moved s v n t (th_at t)
| mv_ret : forall a, th_at t = Run (Ret a) -> v = TStep n -> moved s v n t (Over a)
| mv_tell : forall m p, th_at t = Run (Tell m p) -> v = TStep n -> moved s v n t (Run p)
| mv_ask : forall q k, th_at t = Run (Ask q k) -> v = TStep n -> moved s v n t (Wait (length (tk_asked s)) q k)
| mv_answer : forall i q k a, th_at t = Wait i q k -> nth_error (tk_sent s (th_side t)) (tk_got s (th_side t)) = Some (MRes i a) ->
    (exists o, v = TRecv (th_side t) o /\ busy (th_side t) s = false) -> moved s v n t (Run (k (Some a)))
| mv_late : forall i q k, th_at t = Wait i q k -> v = TTimeout n -> moved s v n t (Run (k None)).

(** The steps of one thread and of the reader, one by one. *)
Inductive stepped (w : world) (inline : bool -> bool) (s : talk) : tev -> talk -> Prop :=
| sp_none : forall v, stepped w inline s v s
| sp_app : forall c p, stepped w inline s (TApp c p) (set_threads (tk_threads s ++ [started c None false p]) s)
| sp_req : forall c o i q, busy c s = false -> nth_error (tk_sent s c) (tk_got s c) = Some (MReq i q) ->
    stepped w inline s (TRecv c o) (took c (set_threads (tk_threads s ++ [started c (Some i) (inline c) (w_req w c q o)]) s))
| sp_note : forall c o b m, busy c s = false -> nth_error (tk_sent s c) (tk_got s c) = Some (MNote b m) ->
    stepped w inline s (TRecv c o) (took c (set_threads (tk_threads s ++ [started c None true (w_note w c m o)]) s))
| sp_res : forall c o i a, busy c s = false -> nth_error (tk_sent s c) (tk_got s c) = Some (MRes i a) ->
    stepped w inline s (TRecv c o) (took c (set_threads (answer c i a (tk_threads s)) s))
| sp_ret : forall n t a, nth_error (tk_threads s) n = Some t -> th_at t = Run (Ret a) -> th_for t = None ->
    stepped w inline s (TStep n) (set_threads (upd n (go (Over a)) (tk_threads s)) s)
| sp_reply : forall n t a i, nth_error (tk_threads s) n = Some t -> th_at t = Run (Ret a) -> th_for t = Some i ->
    stepped w inline s (TStep n) (put (negb (th_side t)) (MRes i a) (set_threads (upd n (go (Over a)) (tk_threads s)) s))
| sp_tell : forall n t m p, nth_error (tk_threads s) n = Some t -> th_at t = Run (Tell m p) ->
    stepped w inline s (TStep n) (put (negb (th_side t)) (MNote (th_for t) m) (set_threads (upd n (go (Run p)) (tk_threads s)) s))
| sp_ask : forall n t q k, nth_error (tk_threads s) n = Some t -> th_at t = Run (Ask q k) ->
    stepped w inline s (TStep n) (put (negb (th_side t)) (MReq (length (tk_asked s)) q)
      (asks (th_side t) q (set_threads (upd n (go (Wait (length (tk_asked s)) q k)) (tk_threads s)) s)))
| sp_late : forall n t i q k, nth_error (tk_threads s) n = Some t -> th_at t = Wait i q k ->
    stepped w inline s (TTimeout n) (set_threads (upd n (go (Run (k None))) (tk_threads s)) s).

Lemma step_stepped : forall w inline s v, stepped w inline s v (talk_step w inline s v).
Proof.
  intros w inline s v. destruct v as [c p|c o|n|n]; cbn.
  - constructor.
  - unfold recv. destruct (busy c s) eqn:B; [constructor|]. destruct (nth_error (tk_sent s c) (tk_got s c)) as [[i q|i a|b m]|] eqn:E.
    + now apply sp_req.
    + now apply sp_res.
    + now apply (sp_note w inline s c o b).
    + constructor.
  - unfold tstep. destruct (nth_error (tk_threads s) n) as [t|] eqn:E; [|constructor]. destruct (th_at t) as [[a|m p|q k]|i q k|a] eqn:A; try constructor; auto.
    destruct (th_for t) as [i|] eqn:F; [now apply sp_reply|now apply (sp_ret w inline s n t)].
  - unfold ttimeout. destruct (nth_error (tk_threads s) n) as [t|] eqn:E; [|constructor]. destruct (th_at t) as [p|i q k|a] eqn:A; try constructor. now apply (sp_late w inline s n t i q k).
Qed.

(** ** The invariant *)

Definition kept (w : world) (timed b : bool) (p : place) (r : bstr) : Prop :=
  match p with Run p => calls w timed b p r | Wait _ q k => calls w timed b (Ask q k) r | Over a => r = a end.

Definition not_over (t : thread) : Prop := match th_at t with Over _ => False | _ => True end.

Record good (w : world) (inline : bool -> bool) (timed : bool) (s : talk) : Prop := {
  g_got : forall c, tk_got s c <= length (tk_sent s c);
  g_main : forall t r, In t (tk_threads s) -> kept w timed (th_side t) (th_at t) r -> calls w timed (th_side t) (th_main t) r;
  g_wait : forall t i q k, In t (tk_threads s) -> th_at t = Wait i q k -> nth_error (tk_asked s) i = Some (th_side t, q);
  g_req : forall c x i q, nth_error (tk_sent s c) x = Some (MReq i q) -> nth_error (tk_asked s) i = Some (negb c, q);
  g_for : forall t i, In t (tk_threads s) -> th_for t = Some i -> exists x q o,
      x < tk_got s (th_side t) /\ nth_error (tk_sent s (th_side t)) x = Some (MReq i q) /\ th_main t = w_req w (th_side t) q o;
  g_res : forall c x i a, nth_error (tk_sent s c) x = Some (MRes i a) -> exists y q o,
      y < tk_got s (negb c) /\ nth_error (tk_sent s (negb c)) y = Some (MReq i q) /\ calls w timed (negb c) (w_req w (negb c) q o) a;
  g_req_one : forall c x y i q q', nth_error (tk_sent s c) x = Some (MReq i q) -> nth_error (tk_sent s c) y = Some (MReq i q') -> x = y;
  g_one : forall m n t u i, nth_error (tk_threads s) m = Some t -> nth_error (tk_threads s) n = Some u -> th_for t = Some i -> th_for u = Some i -> m = n;
  g_replied : forall t i, In t (tk_threads s) -> th_for t = Some i -> not_over t -> forall x a, nth_error (tk_sent s (negb (th_side t))) x <> Some (MRes i a);
  g_over : forall t i a, In t (tk_threads s) -> th_for t = Some i -> th_at t = Over a -> exists x, nth_error (tk_sent s (negb (th_side t))) x = Some (MRes i a);
  g_reader : forall t i, In t (tk_threads s) -> th_for t = Some i -> th_reader t = inline (th_side t) }.

Lemma asked_lt : forall s i c q, nth_error (tk_asked s) i = Some (c, q) -> i < length (tk_asked s).
Proof. intros s i c q H. apply nth_error_Some. congruence. Qed.

Lemma put_nth : forall c m s d x y, nth_error (tk_sent (put c m s) d) x = Some y ->
  nth_error (tk_sent s d) x = Some y \/ (d = c /\ x = length (tk_sent s c) /\ y = m).
Proof.
  intros c m s d x y H. cbn in H. destruct (Bool.eqb d c) eqn:E; [|now left]. apply eqb_prop in E as ->.
  apply nth_app_one in H as [H|[-> ->]]; auto.
Qed.
Lemma put_old : forall c m s d x y, nth_error (tk_sent s d) x = Some y -> nth_error (tk_sent (put c m s) d) x = Some y.
Proof. intros c m s d x y H. cbn. destruct (Bool.eqb d c); [now apply nth_app_old|easy]. Qed.
Lemma put_new : forall c m s, nth_error (tk_sent (put c m s) c) (length (tk_sent s c)) = Some m.
Proof. intros c m s. cbn. rewrite eqb_reflx. apply nth_app_new. Qed.
Lemma took_le : forall c s d, tk_got s d <= tk_got (took c s) d.
Proof. intros c s d. cbn. destruct (Bool.eqb d c); lia. Qed.
Lemma took_same : forall c s, tk_got (took c s) c = S (tk_got s c).
Proof. intros c s. cbn. now rewrite eqb_reflx. Qed.

(** The messages and counts only grow. *)
Lemma grows : forall w inline s v, let s' := talk_step w inline s v in
  (forall d x y, nth_error (tk_sent s d) x = Some y -> nth_error (tk_sent s' d) x = Some y) /\
  (forall d, tk_got s d <= tk_got s' d) /\ (forall i y, nth_error (tk_asked s) i = Some y -> nth_error (tk_asked s') i = Some y).
Proof.
  intros w inline s v s'. unfold s'. destruct (step_stepped w inline s v); cbn [tk_sent tk_got tk_asked set_threads]; repeat split; auto;
    try (intros; apply put_old; assumption); try (intros; cbn; destruct (Bool.eqb d c); lia); try (intros; now apply nth_app_old).
Qed.

Inductive change (w : world) (inline : bool -> bool) (s : talk) (v : tev) (n : nat) (t' : thread) : Prop :=
| ch_old : forall t, nth_error (tk_threads s) n = Some t -> t' = go (th_at t') t -> moved s v n t (th_at t') -> change w inline s v n t'
| ch_app : forall c p, t' = started c None false p -> n = length (tk_threads s) -> change w inline s v n t'
| ch_req : forall c i q o, nth_error (tk_sent s c) (tk_got s c) = Some (MReq i q) -> busy c s = false -> v = TRecv c o -> t' = started c (Some i) (inline c) (w_req w c q o) -> n = length (tk_threads s) -> change w inline s v n t'
| ch_note : forall c b m o, nth_error (tk_sent s c) (tk_got s c) = Some (MNote b m) -> busy c s = false -> v = TRecv c o -> t' = started c None true (w_note w c m o) -> n = length (tk_threads s) -> change w inline s v n t'.

Lemma go_at : forall t, t = go (th_at t) t.
Proof. now intros []. Qed.

Lemma same_change : forall w inline s v n t, nth_error (tk_threads s) n = Some t -> change w inline s v n t.
Proof. intros w inline s v n t H. apply (ch_old w inline s v n t t H); [apply go_at|constructor]. Qed.

Lemma upd_change : forall w inline s v n t p, nth_error (tk_threads s) n = Some t -> moved s v n t p ->
  forall m t', nth_error (upd n (go p) (tk_threads s)) m = Some t' -> change w inline s v m t'.
Proof.
  intros w inline s v n t p H M m t' E. destruct (Nat.eq_dec n m) as [<-|N].
  - rewrite (upd_same _ _ _ _ H) in E. injection E as <-. apply (ch_old w inline s v n _ t H); [easy|exact M].
  - rewrite upd_other in E by easy. now apply same_change.
Qed.

Lemma changes : forall w inline s v n t', nth_error (tk_threads (talk_step w inline s v)) n = Some t' -> change w inline s v n t'.
Proof.
  intros w inline s v n t'. destruct (step_stepped w inline s v) as [v|c p|c o i q B E|c o b m B E|c o i a B E|k t a N A F|k t a i N A F|k t m p N A|k t q f N A|k t i q f N A]; cbn [tk_threads set_threads put took asks]; intros H.
  - now apply same_change.
  - apply nth_app_one in H as [H|[-> ->]]; [now apply same_change|now apply (ch_app w inline s _ _ _ c p)].
  - apply nth_app_one in H as [H|[-> ->]]; [now apply same_change|now apply (ch_req w inline s _ _ _ c i q o)].
  - apply nth_app_one in H as [H|[-> ->]]; [now apply same_change|now apply (ch_note w inline s _ _ _ c b m o)].
  - unfold answer in H. rewrite nth_error_map in H. destruct (nth_error (tk_threads s) n) as [t|] eqn:T; [|discriminate]. cbn in H. injection H as <-.
    destruct (waits_for c i t) eqn:W; [|now apply same_change]. unfold waits_for in W. apply andb_prop in W as [W1 W2]. apply eqb_prop in W1. subst c.
    destruct (th_at t) as [p|j q k|x] eqn:A; try discriminate. apply Nat.eqb_eq in W2. subst j. apply (ch_old w inline s _ n _ t T); [easy|]. cbn. apply (mv_answer s _ n t i q k a); eauto.
  - apply (upd_change w inline s _ k t (Over a) N); [now apply mv_ret|exact H].
  - apply (upd_change w inline s _ k t (Over a) N); [now apply mv_ret|exact H].
  - apply (upd_change w inline s _ k t (Run p) N); [now apply (mv_tell _ _ _ _ m)|exact H].
  - apply (upd_change w inline s _ k t _ N (mv_ask s _ k t q f A eq_refl)). exact H.
  - apply (upd_change w inline s _ k t _ N (mv_late s _ k t i q f A eq_refl)). exact H.
Qed.

(** Where a message comes from. *)
Inductive source (s : talk) (v : tev) (c : bool) (x : nat) (y : msg) : Prop :=
| so_old : nth_error (tk_sent s c) x = Some y -> source s v c x y
| so_req : forall n t q k, v = TStep n -> nth_error (tk_threads s) n = Some t -> th_at t = Run (Ask q k) -> c = negb (th_side t) -> x = length (tk_sent s c) ->
    y = MReq (length (tk_asked s)) q -> source s v c x y
| so_res : forall n t i a, v = TStep n -> nth_error (tk_threads s) n = Some t -> th_at t = Run (Ret a) -> th_for t = Some i -> c = negb (th_side t) -> x = length (tk_sent s c) ->
    y = MRes i a -> source s v c x y
| so_note : forall n t m p, v = TStep n -> nth_error (tk_threads s) n = Some t -> th_at t = Run (Tell m p) -> c = negb (th_side t) -> x = length (tk_sent s c) ->
    y = MNote (th_for t) m -> source s v c x y.

Lemma sources : forall w inline s v c x y, nth_error (tk_sent (talk_step w inline s v) c) x = Some y -> source s v c x y.
Proof.
  intros w inline s v d x y. destruct (step_stepped w inline s v) as [v|c p|c o i q B E|c o b m B E|c o i a B E|k t a N A F|k t a i N A F|k t m p N A|k t q f N A|k t i q f N A];
    intros H; try (now apply so_old); apply put_nth in H as [H|(-> & -> & ->)]; try (now apply so_old).
  - now apply (so_res s _ _ _ _ k t i a).
  - now apply (so_note s _ _ _ _ k t m p).
  - now apply (so_req s _ _ _ _ k t q f).
Qed.

Lemma asked_by : forall w inline s n t q k, nth_error (tk_threads s) n = Some t -> th_at t = Run (Ask q k) ->
  nth_error (tk_asked (talk_step w inline s (TStep n))) (length (tk_asked s)) = Some (th_side t, q).
Proof. intros w inline s n t q k N A. cbn. unfold tstep. rewrite N, A. apply nth_app_new. Qed.

Lemma nth_in : forall (A : Type) (l : list A) n x, nth_error l n = Some x -> In x l.
Proof. exact nth_error_In. Qed.

Lemma good0 : forall w inline timed, good w inline timed talk0.
Proof.
  intros w inline timed. constructor; cbn; auto; try contradiction.
  - intros c x i q H. now destruct x.
  - intros c x i a H. now destruct x.
  - intros c x y i q q' H. now destruct x.
  - intros m n t u i H. now destruct m.
Qed.


Lemma took_by : forall w inline s c o y, busy c s = false -> nth_error (tk_sent s c) (tk_got s c) = Some y -> tk_got (talk_step w inline s (TRecv c o)) c = S (tk_got s c).
Proof. intros w inline s c o y B E. cbn. unfold recv. rewrite B, E. destruct y; cbn; now rewrite eqb_reflx. Qed.
Lemma replied_by : forall w inline s n t a i, nth_error (tk_threads s) n = Some t -> th_at t = Run (Ret a) -> th_for t = Some i ->
  nth_error (tk_sent (talk_step w inline s (TStep n)) (negb (th_side t))) (length (tk_sent s (negb (th_side t)))) = Some (MRes i a).
Proof. intros w inline s n t a i N A F. unfold talk_step, tstep. rewrite N, A, F. cbn. rewrite eqb_reflx. apply nth_app_new. Qed.

Lemma good_step : forall w inline timed s v, (timed = true \/ forall n, v <> TTimeout n) -> good w inline timed s -> good w inline timed (talk_step w inline s v).
Proof.
  intros w inline timed s v T G. destruct (grows w inline s v) as (GS & GG & GA). set (s' := talk_step w inline s v) in *.
  assert (CH : forall n t', nth_error (tk_threads s') n = Some t' -> change w inline s v n t') by (intros n t'; apply changes).
  assert (CI : forall t', In t' (tk_threads s') -> exists n, nth_error (tk_threads s') n = Some t' /\ change w inline s v n t').
  { intros t' I. apply In_nth_error in I as [n E]. exists n. auto. }
  assert (SO : forall c x y, nth_error (tk_sent s' c) x = Some y -> source s v c x y) by (intros c x y; apply sources).
  assert (GL : forall c, tk_got s' c <= length (tk_sent s' c)).
  { intros c. pose proof (g_got _ _ _ _ G c) as L. unfold s'. destruct (step_stepped w inline s v) as [v|d p|d o i q B E|d o b m B E|d o i a B E|k t a N A F|k t a i N A F|k t m p N A|k t q f N A|k t i q f N A];
      cbn; try exact L; try (destruct (Bool.eqb c (negb _)); [rewrite app_length; cbn; lia|exact L]).
    all: destruct (Bool.eqb c d) eqn:Q; [apply eqb_prop in Q as ->; apply nth_error_Some; congruence|exact L]. }
  assert (RQ : forall c x i q, nth_error (tk_sent s' c) x = Some (MReq i q) -> nth_error (tk_asked s') i = Some (negb c, q)).
  { intros c x i q H. destruct (SO c x _ H) as [H'|n t q' k V N A C X Y|n t j a V N A F C X Y|n t m p V N A C X Y]; try discriminate.
    - apply GA. now apply (g_req _ _ _ _ G c x).
    - injection Y as -> ->. rewrite C, negb_involutive. unfold s'. rewrite V. now apply (asked_by w inline s n t q' k). }
  assert (SAME : forall t t', t' = go (th_at t') t -> th_side t' = th_side t /\ th_for t' = th_for t /\ th_main t' = th_main t /\ th_reader t' = th_reader t).
  { intros t t' ->. auto. }
  assert (FOR : forall t' i, In t' (tk_threads s') -> th_for t' = Some i -> exists x q o,
      x < tk_got s' (th_side t') /\ nth_error (tk_sent s' (th_side t')) x = Some (MReq i q) /\ th_main t' = w_req w (th_side t') q o).
  { intros t' i I F. destruct (CI t' I) as (n & E' & [t N E M|c p -> _|c j q o E B V -> Z|c b m o E B V -> _]); try discriminate.
    - destruct (SAME t t' E) as (S1 & S2 & S3 & S4).
      rewrite S1, S3. rewrite S2 in F. destruct (g_for _ _ _ _ G t i (nth_in _ _ _ _ N) F) as (x & q & o & L & R & Q). exists x, q, o. repeat split; auto. specialize (GG (th_side t)). lia.
    - cbn in F. injection F as <-. cbn. exists (tk_got s c), q, o. repeat split; auto. unfold s'. rewrite V, (took_by w inline s c o _ B E). lia. }
  assert (ONE : forall c x y i q q', nth_error (tk_sent s' c) x = Some (MReq i q) -> nth_error (tk_sent s' c) y = Some (MReq i q') -> x = y).
  { intros c x y i q q' H1 H2.
    destruct (SO c x _ H1) as [O1|n1 t1 q1 k1 V1 N1 A1 C1 X1 Y1|? ? ? ? ? ? ? ? ? ? Y1|? ? ? ? ? ? ? ? ? Y1]; try discriminate;
    destruct (SO c y _ H2) as [O2|n2 t2 q2 k2 V2 N2 A2 C2 X2 Y2|? ? ? ? ? ? ? ? ? ? Y2|? ? ? ? ? ? ? ? ? Y2]; try discriminate.
    - now apply (g_req_one _ _ _ _ G c x y i q q').
    - injection Y2 as -> _. pose proof (asked_lt _ _ _ _ (g_req _ _ _ _ G _ _ _ _ O1)). lia.
    - injection Y1 as -> _. pose proof (asked_lt _ _ _ _ (g_req _ _ _ _ G _ _ _ _ O2)). lia.
    - congruence. }
  assert (RES : forall c x i a, nth_error (tk_sent s' c) x = Some (MRes i a) -> exists y q o,
      y < tk_got s' (negb c) /\ nth_error (tk_sent s' (negb c)) y = Some (MReq i q) /\ calls w timed (negb c) (w_req w (negb c) q o) a).
  { intros c x i a H. destruct (SO c x _ H) as [H'|n t q' k V N A C X Y|n t j b V N A F C X Y|n t m p V N A C X Y]; try discriminate.
    - destruct (g_res _ _ _ _ G _ _ _ _ H') as (y & q & o & L & R & K). exists y, q, o. repeat split; auto. specialize (GG (negb c)). lia.
    - injection Y as -> ->. destruct (g_for _ _ _ _ G t j (nth_in _ _ _ _ N) F) as (y & q & o & L & R & Q). rewrite C, negb_involutive. exists y, q, o. repeat split; auto.
      + specialize (GG (th_side t)). lia.
      + rewrite <- Q. apply (g_main _ _ _ _ G t b (nth_in _ _ _ _ N)). rewrite A. cbn. constructor. }
  constructor; auto.
  - intros t' r I K. destruct (CI t' I) as (n & E' & [t N E M|c p -> _|c i q o E B V -> _|c b m o E B V -> _]); cbn in *; try exact K.
    destruct (SAME t t' E) as (S1 & S2 & S3 & S4). rewrite S1 in K |- *. rewrite S3. apply (g_main _ _ _ _ G t r (nth_in _ _ _ _ N)).
    destruct M as [|a A V|m p A V|q k A V|i q k a A Q|i q k A V]; try exact K; rewrite A.
    + cbn in K |- *. subst r. constructor.
    + cbn in K |- *. now constructor.
    + exact K.
    + cbn in K |- *. destruct (g_res _ _ _ _ G _ _ _ _ Q) as (y & q' & o & _ & R & C).
      assert (q' = q) as ->. { pose proof (g_req _ _ _ _ G _ _ _ _ R) as X. rewrite (g_wait _ _ _ _ G t i q k (nth_in _ _ _ _ N) A) in X. congruence. }
      now apply (calls_ask w timed (th_side t) q k o a r).
    + cbn in K |- *. apply calls_late; [|exact K]. destruct T as [T|T]; [exact T|]. now destruct (T n).
  - intros t' i q k I A'. destruct (CI t' I) as (n & E' & [t N E M|c p -> _|c j q' o E B V -> _|c b m o E B V -> _]); try discriminate.
    destruct (SAME t t' E) as (S1 & S2 & S3 & S4). rewrite S1. rewrite A' in M. inversion M as [A|a A V Z|m p A V Z|q0 k0 A V Z|j q0 k0 a A Q Z|j q0 k0 A V Z]; subst.
    + apply GA. symmetry in A. now apply (g_wait _ _ _ _ G t i q k (nth_in _ _ _ _ N)).
    + unfold s'. now apply (asked_by w inline s n t q k).
  - (* one thread per request *)
    intros m n t' u' i E1 E2 F1 F2.
    destruct (CH m t' E1) as [t N1 D1 M1|c p -> Z1|c j q o R1 B1 V1 -> Z1|c b x o R1 B1 V1 -> Z1]; try discriminate;
    destruct (CH n u' E2) as [u N2 D2 M2|c2 p2 -> Z2|c2 j2 q2 o2 R2 B2 V2 -> Z2|c2 b2 x2 o2 R2 B2 V2 -> Z2]; try discriminate.
    + destruct (SAME t t' D1) as (_ & S1 & _). destruct (SAME u u' D2) as (_ & S2 & _). apply (g_one _ _ _ _ G m n t u i); congruence.
    + exfalso. destruct (SAME t t' D1) as (_ & S1 & _). rewrite S1 in F1. cbn in F2. injection F2 as ->. destruct (g_for _ _ _ _ G t i (nth_in _ _ _ _ N1) F1) as (x & q & o & L & R & _).
      pose proof (g_req _ _ _ _ G _ _ _ _ R) as Q1. pose proof (g_req _ _ _ _ G _ _ _ _ R2) as Q2. rewrite Q1 in Q2. injection Q2 as Q2 ->. apply (f_equal negb) in Q2. rewrite !negb_involutive in Q2. subst c2.
      pose proof (g_req_one _ _ _ _ G _ _ _ _ _ _ R R2). lia.
    + exfalso. destruct (SAME u u' D2) as (_ & S2 & _). rewrite S2 in F2. cbn in F1. injection F1 as ->. destruct (g_for _ _ _ _ G u i (nth_in _ _ _ _ N2) F2) as (x & q' & o' & L & R & _).
      pose proof (g_req _ _ _ _ G _ _ _ _ R) as Q1. pose proof (g_req _ _ _ _ G _ _ _ _ R1) as Q2. rewrite Q1 in Q2. injection Q2 as Q2 ->. apply (f_equal negb) in Q2. rewrite !negb_involutive in Q2. subst c.
      pose proof (g_req_one _ _ _ _ G _ _ _ _ _ _ R R1). lia.
    + congruence.
  - (* no answer while the handler runs *)
    intros t' i I F O x a H. destruct (CI t' I) as (n & E' & C).
    assert (forall u m b, nth_error (tk_threads s) m = Some u -> th_at u = Run (Ret b) -> th_for u = Some i -> v = TStep m -> n = m -> False) as NOW.
    { intros u m b N A F' V ->. revert E'. unfold s'. rewrite V. cbn. unfold tstep. rewrite N, A, F'. cbn. rewrite (upd_same _ _ _ _ N). intros [= <-]. exact O. }
    destruct (SO _ x _ H) as [H'|k u q' f V N A Cc X Y|k u j b V N A Fu Cc X Y|k u m p V N A Cc X Y]; try discriminate.
    + destruct C as [t N E M|c p -> _|c j q o E B V -> _|c b m o E B V -> _]; try discriminate.
      * destruct (SAME t t' E) as (S1 & S2 & _). rewrite S1 in H'. rewrite S2 in F. apply (g_replied _ _ _ _ G t i (nth_in _ _ _ _ N) F) with (x := x) (a := a); [|exact H'].
        unfold not_over in *. destruct M as [|? A|? ? A|? ? A|? ? ? ? A|? ? ? A]; try exact O; rewrite A; exact Logic.I.
      * cbn in F. injection F as ->. cbn in H'. destruct (g_res _ _ _ _ G _ _ _ _ H') as (y & q' & o' & L & R & _). rewrite negb_involutive in *.
        pose proof (g_req_one _ _ _ _ G _ _ _ _ _ _ R E). lia.
    + injection Y as -> ->. apply (NOW u k b N A Fu V).
      destruct C as [t Nt E M|c p -> _|c j' q o E B V' -> _|c b' m o E B V' -> _]; try discriminate; [|congruence].
      destruct (SAME t t' E) as (S1 & S2 & _). rewrite S2 in F. now apply (g_one _ _ _ _ G n k t u j).
  - (* an answer when it has returned *)
    intros t' i a I F A'. destruct (CI t' I) as (n & E' & [t N E M|c p -> _|c j q o E B V -> _|c b m o E B V -> _]); try discriminate.
    destruct (SAME t t' E) as (S1 & S2 & _). rewrite S1. rewrite S2 in F. rewrite A' in M. inversion M as [A|b A V Z|m p A V Z|q0 k0 A V Z|j q0 k0 b A Q Z|j q0 k0 A V Z]; subst.
    + destruct (g_over _ _ _ _ G t i a (nth_in _ _ _ _ N) F A) as [x X]. exists x. auto.
    + eexists. apply (replied_by w inline s n t a i); assumption.
  - intros t' i I F. destruct (CI t' I) as (n & E' & [t N E M|c p -> _|c j q o E B V -> _|c b m o E B V -> _]); try discriminate; [|reflexivity].
    destruct (SAME t t' E) as (S1 & S2 & S3 & S4). rewrite S1, S4. apply (g_reader _ _ _ _ G t i (nth_in _ _ _ _ N)). congruence.
Qed.

Lemma talk_app : forall w inline s a b, talk_run w inline s (a ++ b) = talk_run w inline (talk_run w inline s a) b.
Proof. intros w inline s a b. apply fold_left_app. Qed.

Lemma good_run : forall w inline timed h, (timed = true \/ timely h) -> good w inline timed (talk_run w inline talk0 h).
Proof.
  intros w inline timed h. induction h as [|v h IH] using rev_ind; intros T; [apply good0|]. rewrite talk_app. apply good_step.
  - destruct T as [T|T]; [now left|right]. intros n ->. apply (T n). apply in_or_app. right. now left.
  - apply IH. destruct T as [T|T]; [now left|right]. intros n I. apply (T n). apply in_or_app. now left.
Qed.

(** ** What a handler told comes before its answer *)

Definition ordered (s : talk) : Prop := forall c x y i a m, nth_error (tk_sent s c) x = Some (MRes i a) -> nth_error (tk_sent s c) y = Some (MNote (Some i) m) -> y < x.
Lemma ordered_run : forall w inline h, ordered (talk_run w inline talk0 h).
Proof.
  intros w inline h. induction h as [|v h IH] using rev_ind; [intros c [|x]; discriminate|]. rewrite talk_app. set (s := talk_run w inline talk0 h) in *.
  assert (G : good w inline true s) by (apply good_run; now left).
  intros c x y i a m H1 H2. change (talk_run w inline s [v]) with (talk_step w inline s v) in *.
  destruct (sources w inline s v c x _ H1) as [O1|? ? ? ? ? ? ? ? ? Y1|n1 t1 j1 a1 V1 N1 A1 F1 C1 X1 Y1|? ? ? ? ? ? ? ? ? Y1]; try discriminate;
  destruct (sources w inline s v c y _ H2) as [O2|? ? ? ? ? ? ? ? ? Y2|? ? ? ? ? ? ? ? ? ? Y2|n2 t2 m2 p2 V2 N2 A2 C2 X2 Y2]; try discriminate.
  - now apply (IH c x y i a m).
  - exfalso. injection Y2 as F2 _. apply (g_replied _ _ _ _ G t2 i (nth_in _ _ _ _ N2) (eq_sym F2)) with (x := x) (a := a); [unfold not_over; now rewrite A2|now rewrite <- C2].
  - assert (y < length (tk_sent s c)) by (apply nth_error_Some; congruence). lia.
  - rewrite V1 in V2. injection V2 as <-. rewrite N1 in N2. injection N2 as <-. congruence.
Qed.

(** ** Nobody waits for ever *)

Lemma got_cases : forall w inline s v d, tk_got (talk_step w inline s v) d = tk_got s d \/
  (tk_got (talk_step w inline s v) d = S (tk_got s d) /\ busy d s = false /\ (exists o, v = TRecv d o) /\ nth_error (tk_sent s d) (tk_got s d) <> None).
Proof.
  intros w inline s v d. destruct (step_stepped w inline s v) as [v|c p|c o i q B E|c o b m B E|c o i a B E|k t a N A F|k t a i N A F|k t m p N A|k t q f N A|k t i q f N A]; cbn; auto.
  all: destruct (Bool.eqb d c) eqn:Q; [|now left]; apply eqb_prop in Q as ->; right; repeat split; eauto; congruence.
Qed.

Lemma goes_on : forall w inline s v n t, nth_error (tk_threads s) n = Some t -> exists t', nth_error (tk_threads (talk_step w inline s v)) n = Some t' /\ t' = go (th_at t') t /\ moved s v n t (th_at t').
Proof.
  intros w inline s v n t H. assert (exists t', nth_error (tk_threads (talk_step w inline s v)) n = Some t') as [t' E].
  { destruct (nth_error (tk_threads (talk_step w inline s v)) n) as [t'|] eqn:E; [eauto|exfalso]. apply nth_error_None in E.
    assert (n < length (tk_threads s)) by (apply nth_error_Some; congruence).
    revert E. destruct (step_stepped w inline s v); cbn [tk_threads set_threads put took asks]; unfold answer; rewrite ?app_length, ?upd_length, ?map_length; cbn; lia. }
  exists t'. split; [exact E|]. assert (n < length (tk_threads s)) by (apply nth_error_Some; congruence).
  destruct (changes w inline s v n t' E) as [u N -> M|c p _ Z|c i q o _ _ _ _ Z|c b m o _ _ _ _ Z]; try lia. rewrite N in H. injection H as ->. auto.
Qed.

Definition flying (s : talk) (b : bool) (i : nat) : Prop :=
  (exists x q, tk_got s (negb b) <= x /\ nth_error (tk_sent s (negb b)) x = Some (MReq i q)) \/
  (exists u, In u (tk_threads s) /\ th_side u = negb b /\ th_for u = Some i /\ not_over u) \/
  (exists x a, tk_got s b <= x /\ nth_error (tk_sent s b) x = Some (MRes i a)).
Record live (s : talk) : Prop := {
  l_fly : forall t i q k, In t (tk_threads s) -> th_at t = Wait i q k -> flying s (th_side t) i;
  l_later : forall t i j q k, In t (tk_threads s) -> th_for t = Some i -> th_at t = Wait j q k -> i < j;
  l_taken : forall c x i q, x < tk_got s c -> nth_error (tk_sent s c) x = Some (MReq i q) -> exists u, In u (tk_threads s) /\ th_side u = c /\ th_for u = Some i }.

Lemma live0 : live talk0.
Proof. constructor; cbn; try contradiction. lia. Qed.

Lemma new_handler : forall w inline s c o i q, busy c s = false -> nth_error (tk_sent s c) (tk_got s c) = Some (MReq i q) ->
  In (started c (Some i) (inline c) (w_req w c q o)) (tk_threads (talk_step w inline s (TRecv c o))).
Proof. intros w inline s c o i q B E. cbn. unfold recv. rewrite B, E. cbn. apply in_or_app. right. now left. Qed.

Lemma live_step : forall w inline timed s v, good w inline timed s -> live s -> live (talk_step w inline s v).
Proof.
  intros w inline timed s v G L. destruct (grows w inline s v) as (GS & GG & GA). constructor.
  - intros t' i q k I A'. apply In_nth_error in I as [n E']. destruct (changes w inline s v n t' E') as [t N E M|c p -> _|c j q' o E B V -> _|c b m o E B V -> _]; try discriminate.
    assert (th_side t' = th_side t) as S1 by (rewrite E; reflexivity). rewrite S1. rewrite A' in M. inversion M as [A|a A V Z|m p A V Z|q0 k0 A V Z|j q0 k0 a A Q Z|j q0 k0 A V Z]; subst.
    + destruct (l_fly _ L t i q k (nth_in _ _ _ _ N) A) as [(x & q' & X & R)|[(u & U & U1 & U2 & U3)|(x & a & X & R)]].
      * destruct (got_cases w inline s v (negb (th_side t))) as [K|(K & B & (o & ->) & _)]; [left; exists x, q'; split; [lia|auto]|].
        destruct (Nat.eq_dec x (tk_got s (negb (th_side t)))) as [-> | D]; [|left; exists x, q'; split; [lia|auto]].
        right. left. eexists. split; [apply (new_handler w inline s (negb (th_side t)) o i q' B R)|]. cbn. auto.
      * apply In_nth_error in U as [m U]. destruct (goes_on w inline s v m u U) as (u' & U' & D & M'). destruct (th_at u') as [p|j q' k'|a] eqn:A2.
        1, 2: right; left; exists u'; (split; [now apply (nth_in _ _ m)|]); rewrite D; cbn; repeat split; auto.
        right. right. inversion M' as [A3|a3 A3 V3 Z3| | | |]; subst.
        { exfalso. unfold not_over in U3. rewrite A3 in U3. exact U3. }
        exists (length (tk_sent s (th_side t))), a. split.
        { destruct (got_cases w inline s (TStep m) (th_side t)) as [K|(_ & _ & (o & K) & _)]; [rewrite K; apply (g_got _ _ _ _ G)|discriminate]. }
        pose proof (replied_by w inline s m u a i U A3 U2) as P. rewrite U1, negb_involutive in P. exact P.
      * destruct (got_cases w inline s v (th_side t)) as [K|(K & B & (o & ->) & _)]; [right; right; exists x, a; split; [lia|auto]|].
        destruct (Nat.eq_dec x (tk_got s (th_side t))) as [-> | D]; [|right; right; exists x, a; split; [lia|auto]].
        exfalso. revert E'. cbn. unfold recv. rewrite B, R. cbn. unfold answer. rewrite nth_error_map, N. cbn. intros [= X']. unfold waits_for in X'. rewrite eqb_reflx, A, Nat.eqb_refl in X'. cbn in X'. subst t'. discriminate.
    + left. exists (length (tk_sent s (negb (th_side t)))), q. split.
      * destruct (got_cases w inline s (TStep n) (negb (th_side t))) as [K|(_ & _ & (o & K) & _)]; [rewrite K; apply (g_got _ _ _ _ G)|discriminate].
      * unfold talk_step, tstep. rewrite N, A. cbn. rewrite eqb_reflx. apply nth_app_new.
  - intros t' i j q k I F A'. apply In_nth_error in I as [n E']. destruct (changes w inline s v n t' E') as [t N E M|c p -> _|c j' q' o E B V -> _|c b m o E B V -> _]; try discriminate.
    assert (th_for t' = th_for t) as S1 by (rewrite E; reflexivity). rewrite S1 in F. rewrite A' in M. inversion M as [A|a A V Z|m p A V Z|q0 k0 A V Z|j0 q0 k0 a A Q Z|j0 q0 k0 A V Z]; subst.
    + now apply (l_later _ L t i j q k (nth_in _ _ _ _ N)).
    + destruct (g_for _ _ _ _ G t i (nth_in _ _ _ _ N) F) as (x & q' & o & _ & R & _). apply (asked_lt _ _ _ _ (g_req _ _ _ _ G _ _ _ _ R)).
  - intros c x i q X R. destruct (got_cases w inline s v c) as [K|(K & B & (o & ->) & NN)].
    + assert (nth_error (tk_sent s c) x = Some (MReq i q)) as R'.
      { destruct (sources w inline s v c x _ R) as [O|? ? ? ? ? ? ? ? X' _|? ? ? ? ? ? ? ? ? ? Y|? ? ? ? ? ? ? ? ? Y]; try discriminate; [exact O|]. pose proof (g_got _ _ _ _ G c). lia. }
      destruct (l_taken _ L c x i q) as (u & U & U1 & U2); [lia|exact R'|]. apply In_nth_error in U as [m U]. destruct (goes_on w inline s v m u U) as (u' & U' & D & _).
      exists u'. split; [now apply (nth_in _ _ m)|]. rewrite D. auto.
    + assert (nth_error (tk_sent s c) x = Some (MReq i q)) as R'.
      { destruct (sources w inline s _ c x _ R) as [O|? ? ? ? V|? ? ? ? V|? ? ? ? V]; try discriminate. exact O. }
      destruct (Nat.eq_dec x (tk_got s c)) as [-> | D].
      * eexists. split; [apply (new_handler w inline s c o i q B R')|]. auto.
      * destruct (l_taken _ L c x i q) as (u & U & U1 & U2); [lia|exact R'|]. apply In_nth_error in U as [m U]. destruct (goes_on w inline s (TRecv c o) m u U) as (u' & U' & D' & _).
        exists u'. split; [now apply (nth_in _ _ m)|]. rewrite D'. auto.
Qed.

Lemma live_run : forall w inline h, live (talk_run w inline talk0 h).
Proof.
  intros w inline h. induction h as [|v h IH] using rev_ind; [apply live0|]. rewrite talk_app. apply (live_step w inline true); [apply good_run; now left|exact IH].
Qed.

(** ** Readers that wait for nothing *)

Definition calm_at (p : place) : Prop := match p with Run p => quiet p | Wait _ _ _ => False | Over _ => True end.
Definition calm_side (c : bool) (s : talk) : Prop := forall t, In t (tk_threads s) -> th_side t = c -> th_reader t = true -> calm_at (th_at t).
Lemma calm_step : forall w inline c s v, calm w inline c -> calm_side c s -> calm_side c (talk_step w inline s v).
Proof.
  intros w inline c s v [CN CR] H t' I S R. apply In_nth_error in I as [n E']. destruct (changes w inline s v n t' E') as [t N E M|d p -> _|d j q o E B V -> _|d b m o E B V -> _]; [|discriminate|cbn in *; subst; auto..].
  assert (calm_at (th_at t)) as K by (apply H; [now apply (nth_in _ _ n)|rewrite E in S; exact S|rewrite E in R; exact R]).
  destruct M as [|a A|m p A|q k A|i q k a A Q|i q k A]; auto; rewrite A in K; cbn in *; try contradiction; now inversion K.
Qed.
Lemma calm_run : forall w inline c h, calm w inline c -> calm_side c (talk_run w inline talk0 h).
Proof. intros w inline c h C. induction h as [|v h IH] using rev_ind; [intros t []|]. rewrite talk_app. now apply calm_step. Qed.

Lemma not_busy : forall c s, (forall t, In t (tk_threads s) -> th_side t = c -> th_reader t = true -> exists a, th_at t = Over a) -> busy c s = false.
Proof.
  intros c s H. unfold busy. destruct (existsb (reads c) (tk_threads s)) eqn:E; [|easy]. apply existsb_exists in E as (t & I & R). unfold reads in R. apply andb_prop in R as [R1 R3]. apply andb_prop in R1 as [R1 R2].
  apply eqb_prop in R1. destruct (H t I R1 R2) as [a A]. rewrite A in R3. discriminate.
Qed.
Lemma busy_false : forall c s t, busy c s = false -> In t (tk_threads s) -> th_side t = c -> th_reader t = true -> exists a, th_at t = Over a.
Proof.
  intros c s t B I S R. unfold busy in B. destruct (th_at t) as [p|i q k|a] eqn:A; [| |eauto]; exfalso.
  all: assert (existsb (reads c) (tk_threads s) = true) by (apply existsb_exists; exists t; split; [exact I|]; unfold reads; rewrite S, R, A, eqb_reflx; reflexivity); congruence.
Qed.

Lemma stuck_settled : forall w inline h, calm w inline true -> calm w inline false -> let s := talk_run w inline talk0 h in
  (forall n, ~ enabled s (TStep n)) -> (forall c o, ~ enabled s (TRecv c o)) -> settled s.
Proof.
  intros w inline h C1 C0 s NS NR. assert (G : good w inline true s) by (apply good_run; now left). pose proof (live_run w inline h) as L. fold s in L.
  assert (NP : forall t p, In t (tk_threads s) -> th_at t <> Run p). { intros t p I A. apply In_nth_error in I as [n N]. apply (NS n). exists t, p. auto. }
  assert (NB : forall c, busy c s = false).
  { intros c. apply not_busy. intros t I S R. assert (calm_at (th_at t)) as K by (apply (calm_run w inline c h); [destruct c; assumption|assumption..]).
    destruct (th_at t) as [p|i q k|a] eqn:A; [now destruct (NP t p I)|contradiction|eauto]. }
  assert (GA : forall c, tk_got s c = length (tk_sent s c)).
  { intros c. pose proof (g_got _ _ _ _ G c). destruct (Nat.eq_dec (tk_got s c) (length (tk_sent s c))) as [E|E]; [exact E|]. exfalso. apply (NR c 0). split; [apply NB|]. apply nth_error_Some. lia. }
  split; [|exact GA].
  assert (NW : forall n t i q k, length (tk_asked s) - i <= n -> In t (tk_threads s) -> th_at t = Wait i q k -> False).
  { induction n as [|n IH]; intros t i q k D I A; pose proof (asked_lt _ _ _ _ (g_wait _ _ _ _ G t i q k I A)) as LT; [lia|].
    destruct (l_fly _ L t i q k I A) as [(x & q' & X & R)|[(u & U & U1 & U2 & U3)|(x & a & X & R)]].
    - rewrite GA in X. apply nth_error_None in X. congruence.
    - unfold not_over in U3. destruct (th_at u) as [p|j q' k'|a] eqn:A'; [now destruct (NP u p U)| |contradiction].
      pose proof (l_later _ L u i j q' k' U U2 A'). apply (IH u j q' k'); auto. lia.
    - rewrite GA in X. apply nth_error_None in X. congruence. }
  intros t I. destruct (th_at t) as [p|i q k|a] eqn:A; [now destruct (NP t p I)|exfalso; now apply (NW _ t i q k (le_n _))|eauto].
Qed.

(** ** A request is not overtaken where the reader handles it *)

Lemma inline_order : forall w inline h c x i q, inline c = true -> let s := talk_run w inline talk0 h in
  nth_error (tk_sent s c) x = Some (MReq i q) -> S x < tk_got s c -> exists y a, nth_error (tk_sent s (negb c)) y = Some (MRes i a).
Proof.
  intros w inline h c x i q IN. induction h as [|v h IH] using rev_ind; [intros s H; now destruct x|]. rewrite talk_app. cbn zeta in *. set (s := talk_run w inline talk0 h) in *.
  change (talk_run w inline s [v]) with (talk_step w inline s v). intros R X. assert (G : good w inline true s) by (apply good_run; now left). pose proof (live_run w inline h) as L. fold s in L.
  destruct (grows w inline s v) as (GS & _ & _). destruct (got_cases w inline s v c) as [K|(K & B & (o & ->) & NN)].
  - assert (nth_error (tk_sent s c) x = Some (MReq i q)) as R'.
    { destruct (sources w inline s v c x _ R) as [O|? ? ? ? ? ? ? ? X' _|? ? ? ? ? ? ? ? ? ? Y|? ? ? ? ? ? ? ? ? Y]; try discriminate; [exact O|]. pose proof (g_got _ _ _ _ G c). lia. }
    destruct (IH R') as (y & a & Y); [lia|]. exists y, a. auto.
  - assert (nth_error (tk_sent s c) x = Some (MReq i q)) as R'.
    { destruct (sources w inline s _ c x _ R) as [O|? ? ? ? V|? ? ? ? V|? ? ? ? V]; try discriminate. exact O. }
    destruct (l_taken _ L c x i q) as (u & U & U1 & U2); [lia|exact R'|].
    destruct (busy_false c s u B U U1) as [a A]; [rewrite (g_reader _ _ _ _ G u i U U2); congruence|].
    destruct (g_over _ _ _ _ G u i a U U2 A) as [y Y]. exists y, a. apply GS. rewrite <- U1. exact Y.
Qed.

(** ** A reader that waits *)

Lemma stuck_step : forall w inline s v n t i q k, nth_error (tk_threads s) n = Some t -> th_reader t = true -> th_at t = Wait i q k -> v <> TTimeout n ->
  nth_error (tk_threads (talk_step w inline s v)) n = Some t /\ tk_got (talk_step w inline s v) (th_side t) = tk_got s (th_side t).
Proof.
  intros w inline s v n t i q k N R A V.
  assert (B : busy (th_side t) s = true).
  { unfold busy. apply existsb_exists. exists t. split; [now apply (nth_in _ _ n)|]. unfold reads. now rewrite R, A, eqb_reflx. }
  split.
  - destruct (goes_on w inline s v n t N) as (t' & N' & E & M). rewrite N'. f_equal. rewrite E.
    destruct M as [|a A'|m p A'|q' k' A'|i' q' k' a A' Q (o & _ & B')|i' q' k' A' V']; try congruence. symmetry. apply go_at.
  - destruct (got_cases w inline s v (th_side t)) as [K|(_ & K & _)]; [exact K|congruence].
Qed.
Lemma stuck_run : forall w inline h s n t i q k, nth_error (tk_threads s) n = Some t -> th_reader t = true -> th_at t = Wait i q k -> ~ In (TTimeout n) h ->
  nth_error (tk_threads (talk_run w inline s h)) n = Some t /\ tk_got (talk_run w inline s h) (th_side t) = tk_got s (th_side t).
Proof.
  intros w inline. induction h as [|v h IH]; intros s n t i q k N R A T; [auto|]. change (talk_run w inline s (v :: h)) with (talk_run w inline (talk_step w inline s v) h).
  destruct (stuck_step w inline s v n t i q k N R A) as [N' K]; [intros ->; apply T; now left|].
  destruct (IH _ n t i q k N' R A) as [N2 K2]; [intros I; apply T; now right|]. split; [exact N2|congruence].
Qed.

(** ** Every conversation ends *)

Definition sum (l : list nat) : nat := fold_right plus 0 l.
Definition pcosts (w : world) (t : thread) (n : nat) : Prop :=
  match th_at t with Run p => costs w (th_side t) p n | Wait _ _ k => exists y, (forall a, costs w (th_side t) (k a) y) /\ y < n | Over _ => True end.
Definition mcosts (w : world) (c : bool) (m : msg) (n : nat) : Prop :=
  match m with
  | MReq _ q => exists x, (forall o, costs w c (w_req w c q o) x) /\ x < n
  | MRes _ _ => 0 < n
  | MNote _ m => exists x, (forall o, costs w c (w_note w c m o) x) /\ x < n
  end.
Definition budget (w : world) (s : talk) (n : nat) : Prop :=
  exists lt l1 l0, Forall2 (pcosts w) (tk_threads s) lt /\ Forall2 (mcosts w true) (skipn (tk_got s true) (tk_sent s true)) l1 /\
    Forall2 (mcosts w false) (skipn (tk_got s false) (tk_sent s false)) l0 /\ sum lt + sum l1 + sum l0 <= n.

Lemma sum_app : forall a b, sum (a ++ b) = sum a + sum b.
Proof. induction a as [|x a IH]; intros b; [easy|]. change (x + sum (a ++ b) = x + sum a + sum b). rewrite IH. lia. Qed.
Lemma sum_one : forall k, sum [k] = k.
Proof. intros k. cbn. lia. Qed.
Lemma sum_cons : forall k l, sum (k :: l) = k + sum l.
Proof. easy. Qed.
Local Opaque sum.

Lemma skipn_S : forall (A : Type) (l : list A) n y, nth_error l n = Some y -> skipn n l = y :: skipn (S n) l.
Proof. intros A l. induction l as [|x l IH]; intros [|n] y H; cbn in *; try discriminate; [congruence|]. now apply IH. Qed.
Lemma skipn_add : forall (A : Type) (l : list A) n y, n <= length l -> skipn n (l ++ [y]) = skipn n l ++ [y].
Proof. intros A l n y H. rewrite skipn_app. replace (n - length l) with 0 by lia. reflexivity. Qed.

(** The messages not yet taken, by side. *)
Definition left_ (w : world) (s : talk) (c : bool) (n : nat) : Prop := exists l, Forall2 (mcosts w c) (skipn (tk_got s c) (tk_sent s c)) l /\ sum l <= n.
Lemma budget_split : forall w s n, budget w s n <-> exists lt a b, Forall2 (pcosts w) (tk_threads s) lt /\ left_ w s true a /\ left_ w s false b /\ sum lt + a + b <= n.
Proof.
  intros w s n. split.
  - intros (lt & l1 & l0 & F & F1 & F0 & L). exists lt, (sum l1), (sum l0). repeat split; auto; [exists l1; auto|exists l0; auto].
  - intros (lt & a & b & F & (l1 & F1 & L1) & (l0 & F0 & L0) & L). exists lt, l1, l0. repeat split; auto. lia.
Qed.

Lemma left_put : forall w s c m d n k, tk_got s c <= length (tk_sent s c) -> left_ w s d n -> (d = c -> mcosts w c m k) -> left_ w (put c m s) d (if Bool.eqb d c then n + k else n).
Proof.
  intros w s c m d n k G (l & F & L) M. unfold left_. cbn. destruct (Bool.eqb d c) eqn:E; [|exists l; auto]. apply eqb_prop in E as ->.
  exists (l ++ [k]). rewrite skipn_add by easy. split; [apply Forall2_app; auto|]. rewrite sum_app, sum_one. lia.
Qed.
Lemma left_took : forall w s c y n, nth_error (tk_sent s c) (tk_got s c) = Some y -> left_ w s c n -> exists k n', mcosts w c y k /\ n' + k <= n /\ left_ w (took c s) c n' /\
  forall d m, d <> c -> left_ w s d m -> left_ w (took c s) d m.
Proof.
  intros w s c y n E (l & F & L). rewrite (skipn_S _ _ _ _ E) in F. inversion F as [|a k b l' M F' E1 E2]; subst. exists k, (sum l'). rewrite sum_cons in L. repeat split; auto; [lia| |].
  - exists l'. cbn. rewrite eqb_reflx. auto.
  - intros d m D (l2 & F2 & L2). exists l2. cbn. destruct (Bool.eqb d c) eqn:Q; [apply eqb_prop in Q; contradiction|]. auto.
Qed.

Lemma costs_more : forall w b p n m, costs w b p n -> n <= m -> costs w b p m.
Proof.
  intros w b p n m H L. destruct H as [b a n N|b x p n y z H1 H2 N|b q k n y z H1 H2 N].
  - constructor. lia.
  - apply (costs_tell w b x p m y z H1 H2). lia.
  - apply (costs_ask w b q k m y z H1 H2). lia.
Qed.

Lemma Forall2_answer : forall w c i a l ln, Forall2 (pcosts w) l ln -> Forall2 (pcosts w) (answer c i a l) ln.
Proof.
  intros w c i a l ln F. induction F as [|t k l ln R F IH]; [constructor|]. cbn. constructor; [|exact IH]. destruct (waits_for c i t); [|exact R].
  unfold pcosts in *. destruct (th_at t) as [p|j q f|x] eqn:A; cbn; rewrite ?A; auto. destruct R as (y & C & Y). apply (costs_more w _ _ y); [apply C|lia].
Qed.

Lemma costs_pos : forall w b p n, costs w b p n -> 2 <= n.
Proof. intros w b p n H. destruct H; lia. Qed.

(** One message taken by side c, with the threads changed to use at most what it costs, less one. *)
Lemma budget_took : forall w s n c y l', budget w s n -> nth_error (tk_sent s c) (tk_got s c) = Some y ->
  (forall lt k, Forall2 (pcosts w) (tk_threads s) lt -> mcosts w c y k -> exists lt', Forall2 (pcosts w) l' lt' /\ sum lt' < sum lt + k) ->
  exists n', n' < n /\ budget w (took c (set_threads l' s)) n'.
Proof.
  intros w s n c y l' B E H. apply budget_split in B as (lt & a & b & F & L1 & L0 & S).
  assert (forall d m, left_ w s d m -> left_ w (set_threads l' s) d m) as X by (intros d m K; exact K).
  destruct c.
  - destruct (left_took w (set_threads l' s) true y a E (X _ _ L1)) as (k & a' & M & Le & T1 & T0). destruct (H lt k F M) as (lt' & F' & S').
    exists (sum lt' + a' + b). split; [lia|]. apply budget_split. exists lt', a', b. repeat split; auto; apply T0; auto.
  - destruct (left_took w (set_threads l' s) false y b E (X _ _ L0)) as (k & b' & M & Le & T1 & T0). destruct (H lt k F M) as (lt' & F' & S').
    exists (sum lt' + a + b'). split; [lia|]. apply budget_split. exists lt', a, b'. repeat split; auto; apply T0; auto.
Qed.
(** One message sent to side c, with threads changed to pay for it, and one more. *)
Lemma budget_put : forall w s n c m l' as_, (forall d, tk_got s d <= length (tk_sent s d)) -> budget w s n ->
  (forall lt, Forall2 (pcosts w) (tk_threads s) lt -> exists lt' k, mcosts w c m k /\ Forall2 (pcosts w) l' lt' /\ sum lt' + k < sum lt) ->
  exists n', n' < n /\ budget w (put c m {| tk_threads := l'; tk_sent := tk_sent s; tk_got := tk_got s; tk_asked := as_ |}) n'.
Proof.
  intros w s n c m l' as_ G B H. apply budget_split in B as (lt & a & b & F & L1 & L0 & S). destruct (H lt F) as (lt' & k & M & F' & S').
  set (s' := {| tk_threads := l'; tk_sent := tk_sent s; tk_got := tk_got s; tk_asked := as_ |}).
  assert (forall d x, left_ w s d x -> left_ w s' d x) as X by (intros d x K; exact K).
  exists (sum lt' + (if Bool.eqb true c then a + k else a) + (if Bool.eqb false c then b + k else b)). split; [destruct c; cbn; lia|].
  apply budget_split. exists lt', (if Bool.eqb true c then a + k else a), (if Bool.eqb false c then b + k else b). repeat split; auto; apply left_put; auto; apply G.
Qed.

Lemma started_cost : forall w c f r p lt l k, Forall2 (pcosts w) l lt -> costs w c p k -> exists lt', Forall2 (pcosts w) (l ++ [started c f r p]) lt' /\ sum lt' = sum lt + k.
Proof.
  intros w c f r p lt l k F C. exists (lt ++ [k]). split; [apply Forall2_app; [exact F|repeat constructor; exact C]|]. rewrite sum_app, sum_one. lia.
Qed.

Lemma cost_of : forall w l lt, Forall2 (pcosts w) l lt -> forall m t, nth_error l m = Some t -> exists k, pcosts w t k /\
  forall pl k', pcosts w (go pl t) k' -> exists lt', Forall2 (pcosts w) (upd m (go pl) l) lt' /\ sum lt' + k = sum lt + k'.
Proof.
  intros w l lt F. induction F as [|x y l l2 R F IH]; intros [|m] t N; cbn in N; try discriminate.
  - injection N as ->. exists y. split; [exact R|]. intros pl k' R'. exists (k' :: l2). split; [now constructor|]. rewrite !sum_cons. lia.
  - destruct (IH m t N) as (k & Rk & H). exists k. split; [exact Rk|]. intros pl k' R'. destruct (H pl k' R') as (ln' & F' & E). exists (y :: ln'). split; [now constructor|]. rewrite !sum_cons. lia.
Qed.

Lemma budget_step : forall w inline timed s v n, good w inline timed s -> enabled s v -> budget w s n -> exists n', n' < n /\ budget w (talk_step w inline s v) n'.
Proof.
  intros w inline timed s v n G E B. destruct v as [c p|c o|m|m]; cbn in E.
  - contradiction.
  - destruct E as [Bz NN]. unfold talk_step, recv. rewrite Bz. destruct (nth_error (tk_sent s c) (tk_got s c)) as [[i q|i a|b x]|] eqn:E; [| | |congruence].
    + apply (budget_took w s n c _ _ B E). intros lt k F (x & C & L). destruct (started_cost w c (Some i) (inline c) (w_req w c q o) lt _ x F (C o)) as (lt' & F' & S). exists lt'. split; [exact F'|lia].
    + apply (budget_took w s n c _ _ B E). intros lt k F M. exists lt. split; [now apply Forall2_answer|]. cbn in M. lia.
    + apply (budget_took w s n c _ _ B E). intros lt k F (y & C & L). destruct (started_cost w c None true (w_note w c x o) lt _ y F (C o)) as (lt' & F' & S). exists lt'. split; [exact F'|lia].
  - destruct E as (t & p & N & A). unfold talk_step, tstep. rewrite N, A. pose proof (g_got _ _ _ _ G) as GG.
    assert (forall lt, Forall2 (pcosts w) (tk_threads s) lt -> exists k, costs w (th_side t) p k /\ forall pl k', pcosts w (go pl t) k' -> exists lt', Forall2 (pcosts w) (upd m (go pl) (tk_threads s)) lt' /\ sum lt' + k = sum lt + k') as U.
    { intros lt F. destruct (cost_of w (tk_threads s) lt F m t N) as (k & Rk & H). exists k. split; [unfold pcosts in Rk; now rewrite A in Rk|]. exact H. }
    destruct p as [a|x p|q k].
    + destruct (th_for t) as [i|].
      * apply (budget_put w s n (negb (th_side t)) (MRes i a) _ (tk_asked s) GG B). intros lt F. destruct (U lt F) as (k & C & H). destruct (H (Over a) 0 Logic.I) as (lt' & F' & S). exists lt', 1. repeat split; [cbn; lia|exact F'|]. apply costs_pos in C. lia.
      * apply budget_split in B as (lt & u & v & F & L1 & L0 & S). destruct (U lt F) as (k & C & H). destruct (H (Over a) 0 Logic.I) as (lt' & F' & S'). apply costs_pos in C.
        exists (sum lt' + u + v). split; [lia|]. apply budget_split. exists lt', u, v. repeat split; auto.
    + apply (budget_put w s n (negb (th_side t)) (MNote (th_for t) x) _ (tk_asked s) GG B). intros lt F. destruct (U lt F) as (c & C & H). inversion C as [|b m' p' n' y z C1 C2 L|]; subst.
      destruct (H (Run p) z C2) as (lt' & F' & S'). exists lt', (S y). repeat split; [exists y; auto|exact F'|lia].
    + apply (budget_put w s n (negb (th_side t)) (MReq (length (tk_asked s)) q) _ (tk_asked s ++ [(th_side t, q)]) GG B). intros lt F. destruct (U lt F) as (c & C & H). inversion C as [| |b q' k' n' y z C1 C2 L]; subst.
      destruct (H (Wait (length (tk_asked s)) q k) (S z)) as (lt' & F' & S'); [exists z; auto|]. exists lt', (S y). repeat split; [exists y; auto|exact F'|lia].
  - destruct E as (t & i & q & k & N & A). unfold talk_step, ttimeout. rewrite N, A. apply budget_split in B as (lt & u & v & F & L1 & L0 & S).
    destruct (cost_of w (tk_threads s) lt F m t N) as (c & Rc & H). unfold pcosts in Rc. rewrite A in Rc. destruct Rc as (y & C & Y). destruct (H (Run (k None)) y (C None)) as (lt' & F' & S').
    exists (sum lt' + u + v). split; [lia|]. apply budget_split. exists lt', u, v. repeat split; auto.
Qed.

Lemma budget_run : forall w inline h s n, good w inline true s -> lively w inline s h -> budget w s n -> length h <= n.
Proof.
  intros w inline. induction h as [|v h IH]; intros s n G L B; [cbn; lia|]. destruct L as [E L]. destruct (budget_step w inline true s v n G E B) as (n' & N & B').
  assert (length h <= n') by (apply (IH (talk_step w inline s v)); auto; apply good_step; auto). cbn. lia.
Qed.

Definition app_ev (x : bool * prog) : tev := TApp (fst x) (snd x).
Lemma apps_threads : forall w inline l s, let s' := talk_run w inline s (map app_ev l) in
  tk_threads s' = tk_threads s ++ map (fun x => started (fst x) None false (snd x)) l /\ tk_sent s' = tk_sent s /\ tk_got s' = tk_got s.
Proof.
  intros w inline. induction l as [|x l IH]; intros s; [cbn; rewrite app_nil_r; auto|]. cbn zeta. change (talk_run w inline s (map app_ev (x :: l))) with (talk_run w inline (talk_step w inline s (app_ev x)) (map app_ev l)).
  destruct (IH (talk_step w inline s (app_ev x))) as (A & B & C). rewrite A, B, C. cbn. rewrite <- app_assoc. auto.
Qed.

Lemma apps_budget : forall w inline l ns, Forall2 (fun x n => costs w (fst x) (snd x) n) l ns -> budget w (talk_run w inline talk0 (map app_ev l)) (sum ns).
Proof.
  intros w inline l ns F. destruct (apps_threads w inline l talk0) as (A & B & C). apply budget_split. exists ns, 0, 0. rewrite A. cbn. repeat split; [| | |lia].
  - clear A B C. induction F as [|x n l ns H F IH]; cbn; constructor; auto.
  - exists []. rewrite B, C. cbn. auto.
  - exists []. rewrite B, C. cbn. auto.
Qed.

(** ** The reader alone *)

Lemma reader_runs : forall w inline c p, quiet p -> forall s n t, nth_error (tk_threads s) n = Some t -> th_at t = Run p -> th_side t = c -> th_reader t = true -> th_for t = None ->
  exists h, reader_only w inline c s h /\ (forall m, m <> n -> nth_error (tk_threads (talk_run w inline s h)) m = nth_error (tk_threads s) m) /\
    (exists a, nth_error (tk_threads (talk_run w inline s h)) n = Some (go (Over a) t)) /\ length (tk_threads (talk_run w inline s h)) = length (tk_threads s) /\
    tk_sent (talk_run w inline s h) c = tk_sent s c /\ tk_got (talk_run w inline s h) c = tk_got s c.
Proof.
  intros w inline c p Q. induction Q as [a|m p Q IH]; intros s n t N A S R F.
  - exists [TStep n]. cbn. unfold tstep. rewrite N, A, F. cbn. repeat split; [exists t; auto| | |].
    + intros m D. apply upd_other. congruence.
    + exists a. now apply upd_same.
    + apply upd_length.
  - assert (E : talk_step w inline s (TStep n) = put (negb (th_side t)) (MNote (th_for t) m) (set_threads (upd n (go (Run p)) (tk_threads s)) s)) by (cbn; unfold tstep; now rewrite N, A).
    destruct (IH (talk_step w inline s (TStep n)) n (go (Run p) t)) as (h & H1 & H2 & (a & H3) & HL & H4 & H5); auto.
    + rewrite E. cbn. now apply upd_same.
    + exists (TStep n :: h). split; [split; [exists t; auto|exact H1]|]. change (talk_run w inline s (TStep n :: h)) with (talk_run w inline (talk_step w inline s (TStep n)) h). repeat split.
      * intros k D. rewrite H2 by exact D. rewrite E. cbn. apply upd_other. congruence.
      * exists a. exact H3.
      * rewrite HL, E. cbn. apply upd_length.
      * rewrite H4, E. cbn. subst c. now destruct (th_side t).
      * now rewrite H5, E.
Qed.

Lemma reader_app : forall w inline c h1 h2 s, reader_only w inline c s h1 -> reader_only w inline c (talk_run w inline s h1) h2 -> reader_only w inline c s (h1 ++ h2).
Proof.
  intros w inline c. induction h1 as [|v h1 IH]; intros h2 s H1 H2; [exact H2|]. destruct H1 as [A H1]. split; [exact A|]. now apply IH.
Qed.

Definition done_below (c : bool) (n : nat) (s : talk) : Prop :=
  forall m t, m < n -> nth_error (tk_threads s) m = Some t -> th_side t = c -> th_reader t = true -> exists a, th_at t = Over a.

Lemma reader_drains : forall w inline c h0, calm w inline c -> inline c = false -> forall n, let s := talk_run w inline talk0 h0 in
  exists h, reader_only w inline c s h /\ done_below c n (talk_run w inline s h) /\ length (tk_threads (talk_run w inline s h)) = length (tk_threads s) /\ tk_sent (talk_run w inline s h) c = tk_sent s c /\ tk_got (talk_run w inline s h) c = tk_got s c.
Proof.
  intros w inline c h0 CA IN n. cbn zeta. induction n as [|n (h & H1 & H2 & HL & H3 & H4)]; [exists []; cbn; repeat split; intros m t L; lia|].
  set (s := talk_run w inline talk0 h0) in *. set (s1 := talk_run w inline s h) in *.
  assert (E1 : s1 = talk_run w inline talk0 (h0 ++ h)) by (unfold s1, s; now rewrite talk_app).
  destruct (nth_error (tk_threads s1) n) as [t|] eqn:N.
  2:{ exists h. fold s1. repeat split; auto. intros m t L M. destruct (Nat.eq_dec m n) as [-> | D]; [congruence|]. apply (H2 m t); [lia|exact M]. }
  assert (Dn : (th_side t = c /\ th_reader t = true) \/ ~ (th_side t = c /\ th_reader t = true)).
  { destruct (Bool.bool_dec (th_side t) c); destruct (Bool.bool_dec (th_reader t) true); tauto. }
  destruct Dn as [[S R]|ND].
  2:{ exists h. fold s1. repeat split; auto. intros m u L M SU RU. destruct (Nat.eq_dec m n) as [-> | D]; [exfalso; apply ND; rewrite N in M; injection M as ->; auto|]. apply (H2 m u); [lia|assumption..]. }
  assert (K : calm_at (th_at t)) by (apply (calm_run w inline c (h0 ++ h) CA); [rewrite <- E1; now apply (nth_in _ _ n)|assumption..]).
  assert (G : good w inline true s1) by (rewrite E1; apply good_run; now left).
  destruct (th_at t) as [p|i q k|a] eqn:A; [|contradiction|].
  - assert (F : th_for t = None).
    { destruct (th_for t) as [i|] eqn:F; [|easy]. pose proof (g_reader _ _ _ _ G t i (nth_in _ _ _ _ N) F) as GR. rewrite R, S, IN in GR. discriminate. }
    destruct (reader_runs w inline c p K s1 n t N A S R F) as (h' & R1 & R2 & (a & R3) & RL & R4 & R5). exists (h ++ h'). rewrite talk_app. fold s1. repeat split; [now apply reader_app| |congruence..].
    intros m u L M SU RU. destruct (Nat.eq_dec m n) as [-> | D]; [rewrite R3 in M; injection M as <-; now exists a|]. rewrite R2 in M by exact D. apply (H2 m u); [lia|assumption..].
  - exists h. fold s1. repeat split; auto. intros m u L M SU RU. destruct (Nat.eq_dec m n) as [-> | D]; [rewrite N in M; injection M as <-; eauto|]. apply (H2 m u); [lia|assumption..].
Qed.

Lemma reader_takes : forall w inline c h0, calm w inline c -> inline c = false -> let s := talk_run w inline talk0 h0 in
  forall n, tk_got s c + n <= length (tk_sent s c) -> exists h, reader_only w inline c s h /\ tk_got (talk_run w inline s h) c = tk_got s c + n /\ tk_sent (talk_run w inline s h) c = tk_sent s c.
Proof.
  intros w inline c h0 CA IN s. induction n as [|n IH]; intros L; [exists []; cbn; repeat split; lia|].
  destruct IH as (h & H1 & H2 & H3); [lia|]. set (s1 := talk_run w inline s h) in *.
  assert (E1 : s1 = talk_run w inline talk0 (h0 ++ h)) by (unfold s1, s; now rewrite talk_app).
  destruct (reader_drains w inline c (h0 ++ h) CA IN (length (tk_threads (talk_run w inline talk0 (h0 ++ h))))) as (h' & D1 & D2 & DL & D3 & D4). rewrite <- E1 in D1, D2, DL, D3, D4.
  set (s2 := talk_run w inline s1 h') in *.
  assert (B : busy c s2 = false).
  { apply not_busy. intros t I. apply In_nth_error in I as [m M]. apply (D2 m t); [rewrite <- DL; apply nth_error_Some; congruence|exact M]. }
  assert (exists y, nth_error (tk_sent s2 c) (tk_got s2 c) = Some y) as [y Y].
  { destruct (nth_error (tk_sent s2 c) (tk_got s2 c)) as [y|] eqn:Y; [eauto|]. apply nth_error_None in Y. rewrite D3, D4, H2, H3 in Y. lia. }
  exists (h ++ h' ++ [TRecv c 0]). rewrite !talk_app. fold s1. fold s2. change (talk_run w inline s2 [TRecv c 0]) with (talk_step w inline s2 (TRecv c 0)). repeat split.
  - apply reader_app; [exact H1|]. fold s1. apply reader_app; [exact D1|]. cbn. auto.
  - rewrite (took_by w inline s2 c 0 y B Y). lia.
  - cbn. unfold recv. rewrite B, Y. destruct y; cbn; congruence.
Qed.

(** ** At most one answer *)

Lemma res_one : forall w inline h c x y i a b, let s := talk_run w inline talk0 h in
  nth_error (tk_sent s c) x = Some (MRes i a) -> nth_error (tk_sent s c) y = Some (MRes i b) -> x = y.
Proof.
  intros w inline h c x y i a b. induction h as [|v h IH] using rev_ind; [intros s H; now destruct x|]. rewrite talk_app. cbn zeta in *. set (s := talk_run w inline talk0 h) in *.
  assert (G : good w inline true s) by (apply good_run; now left).
  intros H1 H2. change (talk_run w inline s [v]) with (talk_step w inline s v) in *.
  destruct (sources w inline s v c x _ H1) as [O1|? ? ? ? ? ? ? ? ? Y1|n1 t1 j1 a1 V1 N1 A1 F1 C1 X1 Y1|? ? ? ? ? ? ? ? ? Y1]; try discriminate;
  destruct (sources w inline s v c y _ H2) as [O2|? ? ? ? ? ? ? ? ? Y2|n2 t2 j2 a2 V2 N2 A2 F2 C2 X2 Y2|? ? ? ? ? ? ? ? ? Y2]; try discriminate.
  - now apply IH.
  - exfalso. injection Y2 as -> ->. apply (g_replied _ _ _ _ G t2 j2 (nth_in _ _ _ _ N2) F2) with (x := x) (a := a); [unfold not_over; now rewrite A2|now rewrite <- C2].
  - exfalso. injection Y1 as -> ->. apply (g_replied _ _ _ _ G t1 j1 (nth_in _ _ _ _ N1) F1) with (x := y) (a := b); [unfold not_over; now rewrite A1|now rewrite <- C1].
  - congruence.
Qed.

(** ** A thread stays what it is *)

Lemma keeps_run : forall w inline h s n t, nth_error (tk_threads s) n = Some t -> exists t', nth_error (tk_threads (talk_run w inline s h)) n = Some t' /\ t' = go (th_at t') t.
Proof.
  intros w inline. induction h as [|v h IH]; intros s n t N; [exists t; split; [exact N|apply go_at]|]. destruct (goes_on w inline s v n t N) as (t1 & N1 & E1 & _).
  destruct (IH (talk_step w inline s v) n t1 N1) as (t2 & N2 & E2). exists t2. split; [exact N2|]. rewrite E2, E1. reflexivity.
Qed.
Lemma grows_run : forall w inline h s d x y, nth_error (tk_sent s d) x = Some y -> nth_error (tk_sent (talk_run w inline s h) d) x = Some y.
Proof. intros w inline. induction h as [|v h IH]; intros s d x y H; [exact H|]. apply (IH (talk_step w inline s v)). now apply grows. Qed.

Lemma waiting_run : forall w inline h s n t i q k, nth_error (tk_threads s) n = Some t -> th_at t = Wait i q k -> ~ In (TTimeout n) h ->
  (forall x a, nth_error (tk_sent (talk_run w inline s h) (th_side t)) x <> Some (MRes i a)) -> nth_error (tk_threads (talk_run w inline s h)) n = Some t.
Proof.
  intros w inline. induction h as [|v h IH]; intros s n t i q k N A T R; [exact N|]. change (talk_run w inline s (v :: h)) with (talk_run w inline (talk_step w inline s v) h) in *.
  apply (IH (talk_step w inline s v) n t i q k); auto; [|intros I; apply T; now right].
  destruct (goes_on w inline s v n t N) as (t' & N' & E & M). rewrite N'. f_equal. rewrite E.
  destruct M as [|a A'|m p A'|q' k' A'|i' q' k' a A' Q (o & V & B')|i' q' k' A' V']; try congruence; [symmetry; apply go_at| |exfalso; apply T; left; congruence].
  exfalso. rewrite A in A'. injection A' as <- <- <-. apply (R (tk_got s (th_side t)) a). apply grows_run, grows. exact Q.
Qed.

(** ** What a handler tells *)

Definition prog_of (p : place) : prog := match p with Run p => p | Wait _ q k => Ask q k | Over a => Ret a end.
Lemma tells_app : forall p l p', tells p l p' -> forall l' p'', tells p' l' p'' -> tells p (l ++ l') p''.
Proof.
  intros p l p' H. induction H as [p|m p l p' H IH|q k a l p' H IH]; intros l' p'' H'; cbn; [exact H'|constructor; auto|].
  apply (tells_ask q k a). auto.
Qed.
Lemma notes_app : forall i a b, notes_of i (a ++ b) = notes_of i a ++ notes_of i b.
Proof. intros i a b. induction a as [|[j q|j q|[j|] m] a IH]; cbn; auto. destruct (i =? j); cbn; now rewrite IH. Qed.
Lemma notes_none : forall i l, (forall y m, nth_error l y <> Some (MNote (Some i) m)) -> notes_of i l = [].
Proof.
  intros i l. induction l as [|x l IH]; intros H; [easy|]. assert (notes_of i l = []) as E by (apply IH; intros y m; apply (H (S y) m)).
  destruct x as [j q|j q|[j|] m]; cbn; auto. destruct (Nat.eqb_spec i j) as [->|D]; [|exact E]. now destruct (H 0 m).
Qed.

Record told (s : talk) : Prop := {
  td_path : forall t i, In t (tk_threads s) -> th_for t = Some i -> tells (th_main t) (notes_of i (tk_sent s (negb (th_side t)))) (prog_of (th_at t));
  td_owner : forall c y i m, nth_error (tk_sent s c) y = Some (MNote (Some i) m) -> exists t, In t (tk_threads s) /\ th_for t = Some i /\ th_side t = negb c }.

Lemma sent_step : forall w inline s v d, tk_sent (talk_step w inline s v) d = tk_sent s d \/
  exists y, tk_sent (talk_step w inline s v) d = tk_sent s d ++ [y] /\
    (forall b m, y = MNote b m -> exists n t p, v = TStep n /\ nth_error (tk_threads s) n = Some t /\ th_at t = Run (Tell m p) /\ b = th_for t).
Proof.
  intros w inline s v d. destruct (step_stepped w inline s v) as [v|c p|c o i q B E|c o b m B E|c o i a B E|k t a N A F|k t a i N A F|k t m p N A|k t q f N A|k t i q f N A]; cbn; auto.
  all: destruct (Bool.eqb d (negb (th_side t))); [right|now left]; eexists; split; [reflexivity|].
  all: intros b' m' [= <- <-]. exists k, t, p. auto.
Qed.

Lemma told_step : forall w inline s v, good w inline true s -> told s -> told (talk_step w inline s v).
Proof.
  intros w inline s v G T. assert (G' : good w inline true (talk_step w inline s v)) by (apply good_step; auto). constructor.
  - intros t' i I F. apply In_nth_error in I as [n E']. destruct (changes w inline s v n t' E') as [t N E M|c p -> _|c j q o E B V -> EN|c b m o E B V -> _]; try discriminate.
    + assert (F0 : th_for t = Some i) by (rewrite E in F; exact F).
      assert (TL : (exists m p, v = TStep n /\ th_at t = Run (Tell m p)) \/ ~ (exists m p, v = TStep n /\ th_at t = Run (Tell m p))).
      { destruct v as [? ?|? ?|k|?]; try (right; intros (m1 & p1 & V1 & _); discriminate V1). destruct (Nat.eq_dec k n) as [-> | D]; [|right; intros (m & p & [= V] & _); contradiction].
        destruct (th_at t) as [[a|m p|q k]|i' q k|a] eqn:A; try (right; intros (m' & p' & _ & K); discriminate). left. exists m, p. auto. }
      pose proof (td_path _ T t i (nth_in _ _ _ _ N) F0) as P. destruct TL as [(m & p & -> & A)|NT].
      * revert E'. unfold talk_step, tstep. rewrite N, A. cbn. rewrite (upd_same _ _ _ _ N). intros [= <-]. cbn. rewrite eqb_reflx, notes_app, F0. cbn. rewrite Nat.eqb_refl.
        rewrite A in P. cbn in P. apply (tells_app _ _ _ P). repeat constructor.
      * assert (NE : notes_of i (tk_sent (talk_step w inline s v) (negb (th_side t))) = notes_of i (tk_sent s (negb (th_side t)))).
        { destruct (sent_step w inline s v (negb (th_side t))) as [-> | (y & -> & Y)]; [easy|]. rewrite notes_app. destruct y as [j q|j q|[j|] m]; cbn; try apply app_nil_r.
          destruct (Nat.eqb_spec i j) as [<-|D]; [exfalso|apply app_nil_r]. destruct (Y _ _ eq_refl) as (k & u & p & V & NU & AU & FU).
          assert (n = k) by (apply (g_one _ _ _ _ G n k t u i); auto). subst k. rewrite N in NU. injection NU as <-. apply NT. eauto. }
        assert (S1 : th_side t' = th_side t) by (rewrite E; reflexivity). assert (S2 : th_main t' = th_main t) by (rewrite E; reflexivity). rewrite S1, S2, NE.
        destruct M as [|a A V|m p A V|q k A V|i' q k a A Q V|i' q k A V]; auto; rewrite A in P; cbn in P |- *.
        -- exact P.
        -- exfalso. apply NT. eauto.
        -- exact P.
        -- rewrite <- (app_nil_r (notes_of _ _)). apply (tells_app _ _ _ P). apply (tells_ask q k (Some a)). constructor.
        -- rewrite <- (app_nil_r (notes_of _ _)). apply (tells_app _ _ _ P). apply (tells_ask q k None). constructor.
    + cbn in F. injection F as ->. cbn [th_main th_side started th_at prog_of]. replace (notes_of i (tk_sent (talk_step w inline s v) (negb c))) with (@nil bstr); [constructor|]. symmetry.
      assert (tk_sent (talk_step w inline s v) (negb c) = tk_sent s (negb c)) as -> by (subst v; cbn; unfold recv; now rewrite B, E).
      apply notes_none. intros y' m K. destruct (td_owner _ T (negb c) y' i m K) as (u & U & U1 & U2). apply In_nth_error in U as [k U].
      destruct (goes_on w inline s v k u U) as (u' & NU & EU & _). assert (k = n) by (apply (g_one _ _ _ _ G' k n u' _ i NU E'); [rewrite EU; exact U1|easy]). rewrite EN in *. subst k.
      assert (length (tk_threads s) < length (tk_threads s)) by (apply nth_error_Some; congruence). lia.
  - intros c y i m H. assert (exists t, In t (tk_threads s) /\ th_for t = Some i /\ th_side t = negb c) as (t & I & F & S).
    { destruct (sources w inline s v c y _ H) as [O|? ? ? ? ? ? ? ? ? Y|? ? ? ? ? ? ? ? ? ? Y|n t m' p V N A C X Y]; try discriminate; [now apply (td_owner _ T c y i m)|].
      injection Y as F _. exists t. split; [now apply (nth_in _ _ n)|]. split; [easy|]. now rewrite C, negb_involutive. }
    apply In_nth_error in I as [n N]. destruct (goes_on w inline s v n t N) as (t' & N' & E & _). exists t'. split; [now apply (nth_in _ _ n)|]. rewrite E. auto.
Qed.

Lemma told_run : forall w inline h, told (talk_run w inline talk0 h).
Proof.
  intros w inline h. induction h as [|v h IH] using rev_ind; [constructor; [intros t i []|intros c [|y]; discriminate]|]. rewrite talk_app. apply told_step; [apply good_run; now left|exact IH].
Qed.

Lemma nth_firstn : forall (A : Type) (l : list A) n x y, nth_error (firstn n l) x = Some y <-> x < n /\ nth_error l x = Some y.
Proof.
  intros A l. induction l as [|z l IH]; intros [|n] [|x] y; cbn; split; try (intros; discriminate); try (intros [? ?]; try lia; discriminate); auto.
  - intros H. split; [lia|exact H].
  - now intros [_ H].
  - intros H. apply IH in H as [? ?]. split; [lia|auto].
  - intros [? H]. apply IH. split; [lia|auto].
Qed.

Lemma all_told : forall w inline h c x i a, let s := talk_run w inline talk0 h in nth_error (tk_sent s c) x = Some (MRes i a) ->
  exists q o, nth_error (tk_asked s) i = Some (c, q) /\ tells (w_req w (negb c) q o) (notes_of i (firstn x (tk_sent s c))) (Ret a) /\ notes_of i (skipn x (tk_sent s c)) = [].
Proof.
  intros w inline h c x i a s R. assert (G : good w inline true s) by (apply good_run; now left). pose proof (told_run w inline h) as T. pose proof (live_run w inline h) as L. fold s in T, L.
  destruct (g_res _ _ _ _ G c x i a R) as (y & q & o & Y & RQ & _). destruct (l_taken _ L (negb c) y i q Y RQ) as (u & U & U1 & U2).
  destruct (g_for _ _ _ _ G u i U U2) as (y' & q' & o' & _ & RQ' & EM). rewrite U1 in RQ', EM. rewrite (g_req_one _ _ _ _ G _ _ _ _ _ _ RQ' RQ) in RQ'. rewrite RQ in RQ'. injection RQ' as <-.
  exists q, o'. split; [rewrite <- (negb_involutive c); now apply (g_req _ _ _ _ G _ y)|].
  assert (Z : notes_of i (skipn x (tk_sent s c)) = []).
  { apply notes_none. intros z m Z. assert (nth_error (tk_sent s c) (x + z) = Some (MNote (Some i) m)) as K by (rewrite <- Z; clear; revert x; induction (tk_sent s c) as [|e l IH]; intros [|x]; cbn; auto; now destruct z).
    pose proof (ordered_run w inline h c x (x + z) i a m R K). lia. }
  split; [|exact Z].
  assert (AT : th_at u = Over a).
  { destruct (th_at u) as [p|j k f|b] eqn:A.
    1, 2: exfalso; apply (g_replied _ _ _ _ G u i U U2) with (x := x) (a := a); [unfold not_over; now rewrite A|rewrite U1, negb_involutive; exact R].
    destruct (g_over _ _ _ _ G u i b U U2 A) as [x' R']. rewrite U1, negb_involutive in R'. pose proof (res_one w inline h c x x' i a b R R') as <-. congruence. }
  pose proof (td_path _ T u i U U2) as P. rewrite U1, negb_involutive, EM, AT in P. cbn in P. rewrite <- (firstn_skipn x (tk_sent s c)), notes_app, Z, app_nil_r in P. exact P.
Qed.
