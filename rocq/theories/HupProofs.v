From Coq Require Import List Arith Bool Lia.
From Verif Require Import HupModel HupSpec.
Import ListNotations.
Local Open Scope nat_scope.

Lemma hup_app : forall s a b, hup_run s (a ++ b) = hup_run (hup_run s a) b.
Proof. intros s a b. apply fold_left_app. Qed.
Lemma fate_stays : forall h s f, hu_fate s = Some f -> hup_run s h = s.
Proof. induction h as [|v h IH]; intros s f F; [easy|]. cbn. assert (hup_step s v = s) as -> by (unfold hup_step; now rewrite F). now apply (IH s f). Qed.

(** Every event, as what it does to the parts. *)
Ltac look s := repeat match goal with
  | |- context [match hu_pc s with _ => _ end] => let E := fresh "P" in destruct (hu_pc s) eqn:E
  | |- context [match hu_accept s with _ => _ end] => let E := fresh "AC" in destruct (hu_accept s) eqn:E
  | |- context [match hu_io s with _ => _ end] => let E := fresh "IO" in destruct (hu_io s) as [[|]|] eqn:E
  | |- context [match hu_handlers s with _ => _ end] => let E := fresh "HA" in destruct (hu_handlers s) eqn:E
  | |- context [match nth_error (hu_streams s) ?j with _ => _ end] => let E := fresh "NS" in destruct (nth_error (hu_streams s) j) as [[? [| |]]|] eqn:E
  | |- context [if turning s then _ else _] => let E := fresh "TU" in destruct (turning s) eqn:E
  | |- context [if ?b then _ else _] => let E := fresh "B" in destruct b eqn:E
  end.

Lemma turning_up : forall s, turning s = true -> hu_io s = Some false /\ hu_halted s = false.
Proof. intros s H. unfold turning in H. destruct (hu_io s) as [[|]|], (hu_halted s); cbn in H; auto; discriminate. Qed.

(** ** What is true of every server *)

Record upright (s : hup) : Prop := {
  up_stop : hu_pc s = SIo \/ hu_pc s = SStreams -> hu_run s = false /\ hu_halted s = true;
  up_die : hu_pc s = DIo \/ hu_pc s = DStreams -> turning s = false;
  up_late : hu_pc s = SStreams \/ hu_pc s = DStreams -> hu_io s = None;
  up_open : hu_accept s = AOpen -> hu_ready s = Some true /\ (hu_io s = Some false \/ hu_pc s = DIo \/ hu_pc s = DStreams);
  up_wait : hu_ready s = Some false -> hu_accept s = APending;
  up_pend : hu_accept s = APending -> hu_ready s = Some false /\ (hu_halted s = false -> hu_io s = Some false);
  up_none : hu_accept s = ANone -> hu_ready s = None /\ hu_io s = None;
  up_run : hu_run s = true -> hu_io s <> None \/ hu_pc s = DStreams;
  up_live : hu_halted s = true -> hu_accept s = AOpen -> hu_pc s = DIo \/ hu_pc s = DStreams }.

Lemma upright0 : upright hup0.
Proof. constructor; cbn; try discriminate; intuition discriminate. Qed.
Lemma upright_step : forall s v, upright s -> upright (hup_step s v).
Proof.
  intros s v U. unfold hup_step. destruct (hu_fate s) eqn:F; [exact U|].
  destruct v; unfold hup_start, hup_go; look s; try exact U; destruct U as [U1 U2 U3 U4 U5 U6 U7 U8 U9]; try (apply turning_up in TU as [TU1 TU2]);
  constructor; unfold turning in *; cbn in *; rewrite ?F in *; intros; try congruence; try tauto; try intuition congruence.
  all: destruct (hu_accept s) eqn:A1; try discriminate; destruct (hu_io s) as [[|]|] eqn:I1; try discriminate; destruct (hu_halted s) eqn:H1; cbn in *; try discriminate; intuition congruence.
Qed.
Lemma upright_run : forall h, upright (hup_run hup0 h).
Proof. intros h. induction h as [|v h IH] using rev_ind; [apply upright0|]. rewrite hup_app. now apply upright_step. Qed.

(** ** The work that is left *)

Definition weight (x : nat * sse) : nat := match snd x with SWait => 1 | SWrite => 2 | SEnd => 0 end.
Fixpoint weights (l : list (nat * sse)) : nat := match l with [] => 0 | x :: l => weight x + weights l end.
Definition todo (s : hup) : nat :=
  match hu_fate s with Some _ => 0 | None =>
  match hu_pc s with UOut => 0 | SIo | DIo => 2 | SStreams | DStreams => 1 end + (match hu_io s with Some false => 1 | _ => 0 end) + weights (hu_streams s) end.

Lemma put_weights : forall l j x y, nth_error l j = Some x -> weights (put_at j y l) + weight x = weights l + weight y.
Proof. induction l as [|z l IH]; intros [|j] x y N; cbn in *; try discriminate; [injection N as ->; lia|]. pose proof (IH j x y N). lia. Qed.
Lemma weights_le : forall l, weights l <= 2 * length l.
Proof. induction l as [|[i [| |]] l IH]; cbn in *; lia. Qed.
Lemma todo_le : forall s, todo s <= 3 + 2 * length (hu_streams s).
Proof. intros s. unfold todo. destruct (hu_fate s); [lia|]. pose proof (weights_le (hu_streams s)). destruct (hu_pc s), (hu_io s) as [[|]|]; cbn; lia. Qed.
Lemma ended_weights : forall l, all_ended l = true <-> weights l = 0.
Proof. induction l as [|[i [| |]] l IH]; cbn in *; rewrite ?IH; split; intros H; try discriminate; try lia; auto. Qed.
Lemma not_ended : forall l, all_ended l = false -> exists j i x, nth_error l j = Some (i, x) /\ x <> SEnd.
Proof.
  induction l as [|[i x] l IH]; cbn; intros H; [discriminate|]. destruct x.
  - exists 0, i, SWait. now split.
  - exists 0, i, SWrite. now split.
  - destruct (IH H) as (j & k & y & N & D). exists (S j), k, y. auto.
Qed.

(** A server that is going down: in a call, and its streams will not go on. *)
Definition falling (s : hup) : Prop := hu_pc s <> UOut /\ hu_fate s = None /\ hu_run s = false /\ turning s = false.

Ltac same := split; [apply le_n|split; [let D := fresh in intros _ D; now destruct D|now left]].
Lemma falling_step : forall s v, falling s -> let s' := hup_step s v in
  todo s' <= todo s /\ (inner v = true -> s' <> s -> todo s' < todo s) /\
  (falling s' \/ (hu_pc s' = UOut /\ hu_fate s' = None) \/ (hu_fate s' = Some (match hu_handlers s with 0 => UFreed | S _ => UCorrupt end) /\ hu_pc s = DStreams)).
Proof.
  intros s v (P & F & R & T). cbn zeta. unfold hup_step. rewrite F.
  assert (FALL : falling s) by (repeat split; auto).
  assert (KEEP : forall s', hu_pc s' = hu_pc s -> hu_fate s' = hu_fate s -> hu_run s' = hu_run s -> hu_io s' = hu_io s \/ hu_io s' = Some true -> hu_halted s' = hu_halted s -> falling s').
  { intros s' E1 E2 E3 E4 E5. unfold falling, turning in *. rewrite E1, E2, E3, E5. destruct E4 as [-> | ->]; auto. }
  destruct v as [| | | |ok| | | | |i| |i|j|j ok|j].
  - destruct (hu_pc s); [now destruct P|same..].
  - destruct (hu_pc s); [now destruct P|same..].
  - destruct (hu_pc s); [now destruct P|same..].
  - unfold hup_go. destruct (hu_pc s) eqn:PC; [now destruct P| | | |].
    + destruct (hu_io s) as [[|]|] eqn:IO; [|same|]; unfold todo; cbn; rewrite F, IO, PC; cbn; (split; [lia|]; split; [intros; lia|]; left; repeat split; cbn; auto; discriminate).
    + destruct (all_ended (hu_streams s)) eqn:A; [|same]. apply ended_weights in A. unfold todo; cbn; rewrite F, PC, A; cbn. split; [lia|]. split; [intros; lia|]. right. left. auto.
    + destruct (hu_io s) as [[|]|] eqn:IO; [|same|]; unfold todo; cbn; rewrite F, IO, PC; cbn; (split; [lia|]; split; [intros; lia|]; left; repeat split; cbn; auto; discriminate).
    + destruct (all_ended (hu_streams s)) eqn:A; [|same]. apply ended_weights in A. unfold todo; cbn; rewrite F, PC, A. cbn. split; [lia|]. split; [intros; lia|right; right; auto].
  - rewrite T. destruct (hu_accept s); same.
  - rewrite T. destruct (hu_accept s); same.
  - destruct (hu_io s) as [[|]|] eqn:IO; try same. destruct (hu_halted s || _)%bool; [|same]. unfold todo; cbn; rewrite F, IO. split; [lia|]. split; [intros; lia|]. left. apply KEEP; auto.
  - rewrite T. destruct (hu_accept s); same.
  - destruct (hu_handlers s); [same|]. split; [apply le_n|]. split; [discriminate|]. left. apply KEEP; auto.
  - destruct (hu_handlers s); [same|]. split; [apply le_n|]. split; [discriminate|]. left. apply KEEP; auto.
  - split; [apply le_n|]. split; [discriminate|]. left. apply KEEP; auto.
  - rewrite T. destruct (hu_accept s); same.
  - rewrite R. destruct (nth_error (hu_streams s) j) as [[i [| |]]|]; same.
  - destruct (nth_error (hu_streams s) j) as [[i [| |]]|] eqn:N; try same. pose proof (put_weights _ _ _ (i, if ok then SWait else SEnd) N) as W.
    unfold todo. cbn [hu_pc hu_io hu_streams hu_fate set_streams]. rewrite F. destruct ok; cbn in W; (split; [lia|]; split; [intros; lia|]; left; apply KEEP; auto).
  - rewrite R. cbn. destruct (nth_error (hu_streams s) j) as [[i [| |]]|] eqn:N; try same. pose proof (put_weights _ _ _ (i, SEnd) N) as W. cbn in W.
    unfold todo. cbn [hu_pc hu_io hu_streams hu_fate set_streams]. rewrite F. (split; [lia|]; split; [intros; lia|]; left; apply KEEP; auto).
Qed.

Lemma pc_step : forall s v, hu_pc s <> UOut -> v = UGo \/ (hu_pc (hup_step s v) = hu_pc s /\ hu_fate (hup_step s v) = hu_fate s).
Proof.
  intros s v P. unfold hup_step. destruct (hu_fate s) eqn:F; [now right|]. destruct v; try (now left); right.
  all: try (destruct (hu_pc s); [now destruct P|auto..]; fail). all: look s; cbn; auto; congruence.
Qed.
Lemma go_pc : forall s, hu_fate s = None -> hu_pc s = SIo \/ hu_pc s = SStreams -> let s' := hup_step s UGo in
  hu_fate s' = None /\ (hu_pc s' = SIo \/ hu_pc s' = SStreams \/ hu_pc s' = UOut).
Proof. intros s F [P|P]; cbn zeta; unfold hup_step; rewrite F; unfold hup_go; rewrite P; look s; cbn; auto. Qed.
Lemma go_die : forall s, hu_fate s = None -> hu_pc s = DIo \/ hu_pc s = DStreams -> hu_pc (hup_step s UGo) = DIo \/ hu_pc (hup_step s UGo) = DStreams.
Proof. intros s F [P|P]; unfold hup_step; rewrite F; unfold hup_go; rewrite P; look s; cbn; auto. Qed.

Lemma no_more_handlers : forall s v, turning s = false -> hu_handlers (hup_step s v) <= hu_handlers s.
Proof.
  intros s v T. unfold hup_step. destruct (hu_fate s); [lia|]. destruct v; unfold hup_start, hup_go; try rewrite T; look s; cbn; try discriminate; lia.
Qed.

Lemma some_todo : forall s, falling s -> 0 < todo s.
Proof. intros s (P & F & _). unfold todo. rewrite F. destruct (hu_pc s); [now destruct P|lia..]. Qed.

(** In a call of Stop something happens, until it returns. *)
Lemma falling_goes : forall s, falling s -> (hu_io s = Some false -> hu_halted s = true) -> (hu_pc s = SStreams \/ hu_pc s = DStreams -> hu_io s = None) -> exists v, inner v = true /\ happens s v.
Proof.
  intros s (P & F & R & T) HL IN. unfold happens, hup_step. rewrite F. destruct (hu_pc s) eqn:PC; [now destruct P| | | |].
  1, 3: destruct (hu_io s) as [[|]|] eqn:IO.
  1, 3, 4, 6: exists UGo; split; [easy|]; unfold hup_go; rewrite PC, IO; intros E; apply (f_equal hu_pc) in E; cbn in E; congruence.
  1, 2: exists UIoEnd; split; [easy|]; rewrite (HL eq_refl); cbn; intros E; apply (f_equal hu_io) in E; cbn in E; congruence.
  all: destruct (all_ended (hu_streams s)) eqn:A.
  1, 3: exists UGo; split; [easy|]; unfold hup_go; rewrite PC, A; intros E.
  1: apply (f_equal hu_pc) in E; cbn in E; congruence.
  1: apply (f_equal hu_fate) in E; cbn in E; congruence.
  all: apply not_ended in A as (j & i & [| |] & N & D); [| |now destruct D].
  1, 3: exists (UTick j); split; [easy|]; rewrite N, R; cbn; intros E; apply (f_equal hu_streams) in E; cbn in E; pose proof (put_weights _ _ _ (i, SEnd) N) as W; rewrite E in W; cbn in W; lia.
  all: exists (UWritten j true); split; [easy|]; rewrite N; intros E; apply (f_equal hu_streams) in E; cbn in E; pose proof (put_weights _ _ _ (i, SWait) N) as W; rewrite E in W; cbn in W; lia.
Qed.

Lemma stop_run : forall s h n, worked s h n -> falling s -> (hu_pc s = SIo \/ hu_pc s = SStreams) -> todo s <= n -> returns s h.
Proof.
  intros s h n W. induction W as [s|s v h n I HP W IH|s v h n E W IH|s v h n I W IH]; intros FA P L.
  - pose proof (some_todo s FA). lia.
  - destruct (falling_step s v FA) as (_ & L2 & C). pose proof (L2 I HP) as L3. destruct C as [FA'|[[U F]|[F D]]].
    + assert (P' : hu_pc (hup_step s v) = SIo \/ hu_pc (hup_step s v) = SStreams).
      { destruct FA as (P0 & F0 & _). destruct (pc_step s v P0) as [-> | [-> _]]; [|exact P]. destruct (go_pc s F0 P) as [_ [Q|[Q|Q]]]; auto. destruct FA' as [P1 _]. contradiction. }
      destruct (IH FA' P') as (h1 & h2 & E & R); [lia|]. exists (v :: h1), h2. split; [now rewrite E|exact R].
    + exists [v], h. auto.
    + rewrite D in P. destruct P; discriminate.
  - destruct (IH FA P L) as (h1 & h2 & E1 & R). exists (v :: h1), h2. split; [now rewrite E1|]. cbn. now rewrite E.
  - destruct (falling_step s v FA) as (L1 & _ & C). destruct C as [FA'|[[U F]|[F D]]].
    + assert (P' : hu_pc (hup_step s v) = SIo \/ hu_pc (hup_step s v) = SStreams).
      { destruct FA as (P0 & F0 & _). destruct (pc_step s v P0) as [-> | [-> _]]; [|exact P]. destruct (go_pc s F0 P) as [_ [Q|[Q|Q]]]; auto. destruct FA' as [P1 _]. contradiction. }
      destruct (IH FA' P') as (h1 & h2 & E & R); [lia|]. exists (v :: h1), h2. split; [now rewrite E|exact R].
    + exists [v], h. auto.
    + rewrite D in P. destruct P; discriminate.
Qed.

Lemma die_run : forall s h n, worked s h n -> falling s -> (hu_pc s = DIo \/ hu_pc s = DStreams) -> hu_handlers s = 0 -> todo s <= n -> hu_fate (hup_run s h) = Some UFreed.
Proof.
  assert (D0 : forall s v, falling s -> (hu_pc s = DIo \/ hu_pc s = DStreams) -> hu_handlers s = 0 ->
    (falling (hup_step s v) /\ (hu_pc (hup_step s v) = DIo \/ hu_pc (hup_step s v) = DStreams) /\ hu_handlers (hup_step s v) = 0) \/ hu_fate (hup_step s v) = Some UFreed).
  { intros s v FA P H. destruct (falling_step s v FA) as (_ & _ & C). destruct FA as (P0 & F0 & _ & T). pose proof (no_more_handlers s v T) as NH. rewrite H in *.
    assert (P' : hu_pc (hup_step s v) = DIo \/ hu_pc (hup_step s v) = DStreams) by (destruct (pc_step s v P0) as [-> | [-> _]]; [now apply go_die|exact P]).
    destruct C as [FA'|[[U F]|[F D]]]; [left; repeat split; auto; try apply FA'; lia| |right; exact F]. rewrite U in P'. destruct P'; discriminate. }
  intros s h n W. induction W as [s|s v h n I HP W IH|s v h n E W IH|s v h n I W IH]; intros FA P H L.
  - pose proof (some_todo s FA). lia.
  - destruct (falling_step s v FA) as (_ & L2 & _). pose proof (L2 I HP) as L3. destruct (D0 s v FA P H) as [(A & B & C)|F]; [apply IH; auto; lia|].
    change (hu_fate (hup_run (hup_step s v) h) = Some UFreed). now rewrite (fate_stays h _ _ F).
  - cbn. rewrite E. now apply IH.
  - destruct (falling_step s v FA) as (L1 & _ & _). destruct (D0 s v FA P H) as [(A & B & C)|F]; [apply IH; auto; lia|].
    change (hu_fate (hup_run (hup_step s v) h) = Some UFreed). now rewrite (fate_stays h _ _ F).
Qed.

(** ** A halted loop *)

Lemma halted_step : forall s v, hu_halted s = true -> hu_halted (hup_step s v) = true.
Proof. intros s v H. unfold hup_step. destruct (hu_fate s); [easy|]. destruct v; unfold hup_start, hup_go; look s; cbn; auto. now destruct (hu_io s). Qed.
Definition dark (s : hup) : Prop := hu_halted s = true /\ hu_accept s <> AOpen /\ hu_ready s <> Some true.
Lemma dark_step : forall s v, dark s -> dark (hup_step s v).
Proof.
  intros s v (H & A & R). split; [now apply halted_step|]. assert (T : turning s = false) by (unfold turning; rewrite H; now destruct (hu_io s) as [[|]|]).
  unfold hup_step. destruct (hu_fate s); [auto|]. destruct v; unfold hup_start, hup_go; try rewrite T; look s; cbn; auto; try (split; congruence).
  split; [destruct (hu_accept s); congruence|auto].
Qed.
Lemma dark_run : forall h s, dark s -> dark (hup_run s h).
Proof. induction h as [|v h IH]; intros s D; [exact D|]. apply (IH (hup_step s v)). now apply dark_step. Qed.

Lemma quiet_run : forall h s, turning s = false -> ~ In UStart h -> turning (hup_run s h) = false /\ hu_handlers (hup_run s h) <= hu_handlers s.
Proof.
  induction h as [|v h IH]; intros s T N; [auto|]. assert (T' : turning (hup_step s v) = false).
  { assert (v <> UStart) as V by (intros ->; apply N; now left). unfold hup_step. destruct (hu_fate s); [easy|].
    destruct v; unfold hup_start, hup_go; try rewrite T; try (now destruct V); look s; auto; unfold turning in *; cbn in *; auto; rewrite ?IO in *; auto; try (now destruct (hu_io s) as [[|]|]). }
  pose proof (no_more_handlers s v T). destruct (IH (hup_step s v) T') as [A B]; [intros I; apply N; now right|]. cbn. split; [exact A|]. unfold hup_run in *. lia.
Qed.

(** ** What does not move *)

Lemma nth_put_other : forall {A : Type} (l : list A) j k x, j <> k -> nth_error (put_at j x l) k = nth_error l k.
Proof. induction l as [|y l IH]; intros [|j] [|k] x D; cbn; try easy. apply IH. lia. Qed.
Lemma nth_put_same : forall {A : Type} (l : list A) j x y, nth_error l j = Some y -> nth_error (put_at j x l) j = Some x.
Proof. induction l as [|z l IH]; intros [|j] x y D; cbn in *; try easy. now apply IH with y. Qed.
Lemma put_length : forall {A : Type} (l : list A) j x, length (put_at j x l) = length l.
Proof. induction l as [|y l IH]; intros [|j] x; cbn; auto. Qed.
Lemma not_all : forall l j i x, nth_error l j = Some (i, x) -> x <> SEnd -> all_ended l = false.
Proof. induction l as [|[k y] l IH]; intros [|j] i x N D; cbn in *; try discriminate; [injection N as -> ->; now destruct x|]. apply andb_false_intro2. exact (IH j i x N D). Qed.

(** A write that does not return. *)
Definition jammed (j : nat) (s : hup) : Prop := hu_fate s = None /\ (hu_pc s = SIo \/ hu_pc s = SStreams) /\ hu_halted s = true /\ exists i, nth_error (hu_streams s) j = Some (i, SWrite).
Lemma jammed_step : forall j s v, jammed j s -> (forall ok, v <> UWritten j ok) -> jammed j (hup_step s v).
Proof.
  intros j s v (F & P & T & i & N) V. assert (TU : turning s = false) by (unfold turning; rewrite T; apply andb_false_r).
  unfold hup_step. rewrite F. assert (J : jammed j s) by (repeat split; eauto).
  assert (K : forall k x, j <> k -> jammed j (set_streams (put_at k x (hu_streams s)) s)) by (intros k x D; repeat split; auto; exists i; cbn; rewrite nth_put_other; auto).
  destruct v as [| | | |ok| | | | |k| |k|k|k ok|k]; try rewrite TU.
  1-3: destruct P as [-> | ->]; exact J.
  - unfold hup_go. destruct P as [P|P]; rewrite P; [destruct (hu_io s) as [[|]|]; try exact J; repeat split; cbn; eauto|]. rewrite (not_all _ _ _ _ N); [exact J|discriminate].
  - destruct (hu_accept s); exact J.
  - destruct (hu_accept s); exact J.
  - destruct (hu_io s) as [[|]|]; try exact J. destruct (_ || _)%bool; [|exact J]. repeat split; cbn; eauto.
  - destruct (hu_accept s); exact J.
  - destruct (hu_handlers s); [exact J|]. repeat split; cbn; eauto.
  - destruct (hu_handlers s); [exact J|]. repeat split; cbn; eauto.
  - repeat split; cbn; eauto.
  - destruct (hu_accept s); exact J.
  - destruct (nth_error (hu_streams s) k) as [[m [| |]]|] eqn:E; try exact J. destruct (_ && _)%bool; [|exact J]. apply K. intros ->. congruence.
  - destruct (nth_error (hu_streams s) k) as [[m [| |]]|] eqn:E; try exact J. apply K. intros ->. now destruct (V ok).
  - destruct (nth_error (hu_streams s) k) as [[m [| |]]|] eqn:E; try exact J. destruct (_ && _)%bool; [exact J|]. apply K. intros ->. congruence.
Qed.
Lemma jammed_run : forall j h s, jammed j s -> (forall ok, ~ In (UWritten j ok) h) -> jammed j (hup_run s h).
Proof.
  intros j. induction h as [|v h IH]; intros s J N; [exact J|]. apply (IH (hup_step s v)); [apply jammed_step; [exact J|]|]; intros ok; [intros ->; apply (N ok); now left|intros I; apply (N ok); now right].
Qed.

(** A stream that goes on while the server is being destroyed. *)
Definition lingers (j i : nat) (s : hup) : Prop :=
  hu_fate s = None /\ (hu_pc s = DIo \/ hu_pc s = DStreams) /\ hu_run s = true /\ turning s = false /\ hu_handlers s = 0 /\ is_closed s i = false /\
  (nth_error (hu_streams s) j = Some (i, SWait) \/ nth_error (hu_streams s) j = Some (i, SWrite)).
Lemma lingers_step : forall j i s v, lingers j i s -> v <> UWritten j false -> lingers j i (hup_step s v).
Proof.
  intros j i s v (F & P & R & T & H & C & N) V. unfold hup_step. rewrite F. assert (J : lingers j i s) by (repeat split; auto).
  assert (K : forall k x, j <> k -> lingers j i (set_streams (put_at k x (hu_streams s)) s)) by (intros k x D; repeat split; auto; cbn; rewrite nth_put_other; auto).
  assert (A : all_ended (hu_streams s) = false) by (destruct N as [N|N]; apply (not_all _ _ _ _ N); discriminate).
  destruct v as [| | | |ok| | | | |k| |k|k|k ok|k]; try rewrite T; try rewrite H; try exact J.
  1-3: destruct P as [-> | ->]; exact J.
  - unfold hup_go. destruct P as [P|P]; rewrite P; [|rewrite A; exact J]. destruct (hu_io s) as [[|]|]; try exact J; repeat split; cbn; eauto.
  - destruct (hu_accept s); exact J.
  - destruct (hu_accept s); exact J.
  - destruct (hu_io s) as [[|]|]; try exact J. destruct (_ || _)%bool; [|exact J]. repeat split; cbn; eauto.
  - destruct (hu_accept s); exact J.
  - repeat split; cbn; eauto.
  - destruct (hu_accept s); exact J.
  - destruct (Nat.eq_dec j k) as [<-|D].
    + destruct N as [N|N]; rewrite N; [|exact J]. rewrite R, C. cbn. repeat split; auto. cbn. right. exact (nth_put_same _ _ _ _ N).
    + destruct (nth_error (hu_streams s) k) as [[m [| |]]|]; try exact J. destruct (_ && _)%bool; [|exact J]. now apply K.
  - destruct (Nat.eq_dec j k) as [<-|D].
    + destruct ok; [|now destruct V]. destruct N as [N|N]; rewrite N; [exact J|]. repeat split; auto. cbn. left. exact (nth_put_same _ _ _ _ N).
    + destruct (nth_error (hu_streams s) k) as [[m [| |]]|]; try exact J. now apply K.
  - destruct (Nat.eq_dec j k) as [<-|D].
    + destruct N as [N|N]; rewrite N; [|exact J]. rewrite R, C. exact J.
    + destruct (nth_error (hu_streams s) k) as [[m [| |]]|]; try exact J. destruct (_ && _)%bool; [exact J|]. now apply K.
Qed.
Lemma lingers_run : forall j i h s, lingers j i s -> ~ In (UWritten j false) h -> lingers j i (hup_run s h).
Proof. intros j i. induction h as [|v h IH]; intros s J N; [exact J|]. apply (IH (hup_step s v)); [apply lingers_step; [exact J|intros ->; apply N; now left]|intros I; apply N; now right]. Qed.

(** Listening goes on. *)
Definition hearing (s : hup) : Prop := hu_fate s = None /\ hu_pc s = UOut /\ hu_accept s = AOpen /\ turning s = true.
Lemma hearing_step : forall s v, hearing s -> calls_or_fails v = false -> hearing (hup_step s v).
Proof.
  intros s v (F & P & A & T) V. pose proof (turning_up s T) as [I H]. unfold hup_step. rewrite F. assert (J : hearing s) by (repeat split; auto).
  destruct v; try discriminate V; unfold hup_go; rewrite ?P, ?A, ?T, ?I, ?H; cbn [orb andb]; look s; try exact J; try (repeat split; auto; fail); cbn in *; try discriminate.
Qed.
Lemma hearing_run : forall h s, hearing s -> forallb (fun v => negb (calls_or_fails v)) h = true -> hearing (hup_run s h).
Proof.
  induction h as [|v h IH]; intros s J N; [exact J|]. cbn in N. apply andb_prop in N as [N1 N2]. apply (IH (hup_step s v)); [|exact N2]. apply hearing_step; [exact J|]. now destruct (calls_or_fails v).
Qed.

(** Listening has ended. *)
Lemma gone_run : forall h s, hu_accept s = AGone -> ~ In UStart h -> hu_accept (hup_run s h) = AGone.
Proof.
  induction h as [|v h IH]; intros s A N; [exact A|]. apply (IH (hup_step s v)); [|intros I; apply N; now right]. unfold hup_step. destruct (hu_fate s); [exact A|].
  destruct v; try (destruct N; now left); unfold hup_go; rewrite ?A; look s; cbn; rewrite ?A; auto.
Qed.
Lemma run_stays : forall h s, hu_run s = true -> ~ In UStop h -> hu_run (hup_run s h) = true.
Proof.
  induction h as [|v h IH]; intros s A N; [exact A|]. apply (IH (hup_step s v)); [|intros I; apply N; now right]. unfold hup_step. destruct (hu_fate s); [exact A|].
  destruct v; try (destruct N; now left); unfold hup_start, hup_go; look s; cbn; auto.
Qed.

(** Streams are only added. *)
Lemma streams_pile : forall h s, hu_pc s <> SIo -> hu_pc s <> SStreams -> ~ In UStop h -> length (hu_streams s) <= length (hu_streams (hup_run s h)).
Proof.
  induction h as [|v h IH]; intros s A1 A2 N; [apply le_n|]. assert (N' : ~ In UStop h) by (intros I; apply N; now right). assert (V : v <> UStop) by (intros ->; apply N; now left).
  assert (K : hu_pc (hup_step s v) <> SIo /\ hu_pc (hup_step s v) <> SStreams /\ length (hu_streams s) <= length (hu_streams (hup_step s v))).
  { unfold hup_step. destruct (hu_fate s); [auto|]. destruct v; try (now destruct V); unfold hup_start, hup_go; look s; cbn; rewrite ?put_length, ?app_length; cbn; repeat split; auto; try congruence; lia. }
  destruct K as (K1 & K2 & K3). pose proof (IH _ K1 K2 N'). change (hup_run s (v :: h)) with (hup_run (hup_step s v) h). lia.
Qed.
