From Coq Require Import List Arith Bool Lia.
From Verif Require Import LifeModel LifeSpec.
Import ListNotations.
Local Open Scope nat_scope.

Ltac lcbn := cbn [set_fate set_pc set_conn set_timer set_due set_reader set_writer reader_end writer_end
  lf_conn lf_reader lf_old_readers lf_writer lf_old_writers lf_rx lf_wx lf_timer lf_due lf_pc lf_started lf_closed lf_fate] in *.

Lemma life_app : forall s a b, life_run s (a ++ b) = life_run (life_run s a) b.
Proof. intros s a b. apply fold_left_app. Qed.

(** Every step, taken apart: each case is a record update of s. *)
Ltac split_step := unfold life_step, life_start, close_step, timer_step, notify;
  repeat (match goal with |- context [match ?x with _ => _ end] => destruct x eqn:? end; lcbn).

(** The first life: the exit flags mean what they say, and Close has cleared connected. *)
Record first (s : life) : Prop := {
  fi_none : lf_started s = 0 -> lf_reader s = None /\ lf_writer s = None /\ lf_timer s = None /\ lf_old_readers s = 0 /\ lf_old_writers s = 0 /\ lf_rx s = false /\ lf_wx s = false;
  fi_reader : lf_started s <= 1 -> forall e, lf_reader s = Some e -> lf_rx s = e /\ lf_old_readers s = 0;
  fi_writer : lf_started s <= 1 -> forall e, lf_writer s = Some e -> lf_wx s = e /\ lf_old_writers s = 0;
  fi_conn : in_close s -> lf_conn s = false }.

Ltac open_up := repeat (match goal with |- context [match ?x with _ => _ end] => is_var x; destruct x; cbn in * end).

Lemma first_step : forall s v, first s -> first (life_step s v).
Proof.
  intros s v [N R W C]. unfold in_close in C. destruct s as [conn rd oldr wr oldw rx wx tm due pc st cl ft].
  constructor; unfold in_close; destruct v; unfold life_step, life_start, close_step, timer_step, notify; cbn in *; open_up; try assumption;
    try (intros; exfalso; discriminate); try (intuition discriminate); try (intros; auto; fail);
    try (intros H; lia); try (intros H; specialize (N H); intuition (try congruence; discriminate));
    try (intros H e E; try discriminate; try injection E as <-; specialize (R H); specialize (W H);
         repeat match goal with X : forall e, Some ?b = Some e -> _ |- _ => specialize (X b eq_refl) end; intuition congruence).
  - intros H e [= <-]. assert (st = 0) as Z by lia. destruct (N Z) as (_ & _ & _ & ? & _ & ? & _). auto.
  - intros H e E. destruct (R H e E) as [_ X]. discriminate.
  - intros H e [= <-]. assert (st = 0) as Z by lia. destruct (N Z) as (_ & _ & _ & _ & ? & _ & ?). auto.
  - intros H e E. destruct (W H e E) as [_ X]. discriminate.
Qed.

Lemma first_run : forall h, first (life_run life0 h).
Proof.
  intros h. induction h as [|v h IH] using rev_ind.
  - constructor; cbn; auto; try (intros; discriminate); intuition discriminate.
  - rewrite life_app. now apply first_step.
Qed.

Definition own (v : lev) : Prop := v = LStep true \/ v = LTimer \/ v = LTimeout.

(** Close goes on to its end. *)
Record done (s s' : life) (h : list lev) : Prop := {
  do_run : life_run s h = s'; do_own : Forall own h; do_closed : lf_closed s' = S (lf_closed s); do_out : lf_pc s' = COut; do_fate : lf_fate s' = None }.

Lemma from_fail : forall s, lf_fate s = None -> lf_pc s = CFail -> exists s', done s s' [LStep true].
Proof.
  intros s F P. eexists. constructor; [reflexivity|constructor; [now left|constructor]|..]; cbn; unfold life_step, close_step; rewrite F, P; cbn; auto.
Qed.

Lemma cons_done : forall s v s' h, own v -> lf_closed (life_step s v) = lf_closed s -> done (life_step s v) s' h -> done s s' (v :: h).
Proof. intros s v s' h O C [A B D E F]. constructor; auto; congruence. Qed.

Lemma from_ended : forall s, lf_fate s = None -> lf_pc s = CTimer -> (lf_timer s = None \/ lf_timer s = Some TEnded) -> exists s' h, done s s' h /\ length h <= 2.
Proof.
  intros s F P T. destruct (from_fail (life_step s (LStep true))) as [s' D].
  - unfold life_step, close_step. rewrite F, P. destruct T as [-> | ->]; exact F.
  - unfold life_step, close_step. rewrite F, P. destruct T as [-> | ->]; reflexivity.
  - exists s', [LStep true; LStep true]. split; [|auto]. apply cons_done; [now left| |exact D]. unfold life_step, close_step. rewrite F, P. destruct T as [-> | ->]; reflexivity.
Qed.

Lemma timer_frame : forall s v, v = LTimer \/ v = LTimeout -> lf_fate s = None ->
  lf_fate (life_step s v) = None /\ lf_pc (life_step s v) = lf_pc s /\ lf_conn (life_step s v) = lf_conn s /\ lf_closed (life_step s v) = lf_closed s /\
  lf_started (life_step s v) = lf_started s.
Proof.
  intros s v V F. destruct s as [conn rd oldr wr oldw rx wx tm due pc st cl ft]. cbn in F. subst ft. destruct V as [-> | ->]; unfold life_step, timer_step; cbn; open_up; repeat split.
Qed.

Lemma from_timer : forall s, lf_fate s = None -> lf_pc s = CTimer -> lf_conn s = false -> lf_timer s <> Some (TChecked false) -> lf_timer s <> Some (TBlocked false) ->
  exists s' h, done s s' h /\ length h <= 5.
Proof.
  assert (forall s, lf_fate s = None -> lf_pc s = CTimer -> lf_conn s = false -> (lf_timer s = Some TTop \/ (exists b, lf_timer s = Some (TAwake b)) \/ lf_timer s = Some TFire) ->
    exists s' h, done s s' h /\ length h <= 3) as A.
  { intros s F P C T. destruct (timer_frame s LTimer (or_introl eq_refl) F) as (X1 & X2 & X3 & X4 & _). destruct (from_ended (life_step s LTimer)) as (s' & h & D & L); [congruence..| |].
    - right. unfold life_step, timer_step. rewrite F. destruct T as [-> |[[b ->]| ->]]; rewrite C; reflexivity.
    - exists s', (LTimer :: h). split; [|cbn; lia]. apply cons_done; auto. unfold own; auto. }
  assert (forall s, lf_fate s = None -> lf_pc s = CTimer -> lf_conn s = false -> lf_timer s = Some (TBlocked true) -> exists s' h, done s s' h /\ length h <= 4) as B.
  { intros s F P C T. destruct (timer_frame s LTimeout (or_intror eq_refl) F) as (X1 & X2 & X3 & X4 & _). destruct (A (life_step s LTimeout)) as (s' & h & D & L); [congruence..| |].
    - right. right. unfold life_step. now rewrite F, T.
    - exists s', (LTimeout :: h). split; [|cbn; lia]. apply cons_done; auto. unfold own; auto. }
  intros s F P C N1 N2. destruct (lf_timer s) as [[|[]|[]|b| |]|] eqn:T; try easy.
  - destruct (A s F P C) as (s' & h & D & L); [auto|]. exists s', h. split; [exact D|lia].
  - destruct (timer_frame s LTimer (or_introl eq_refl) F) as (X1 & X2 & X3 & X4 & _). destruct (B (life_step s LTimer)) as (s' & h & D & L); [congruence..| |].
    + unfold life_step, timer_step. now rewrite F, T.
    + exists s', (LTimer :: h). split; [|cbn; lia]. apply cons_done; auto. unfold own; auto.
  - destruct (B s F P C T) as (s' & h & D & L). exists s', h. split; [exact D|lia].
  - destruct (A s F P C) as (s' & h & D & L); [eauto|]. exists s', h. split; [exact D|lia].
  - destruct (A s F P C) as (s' & h & D & L); [auto|]. exists s', h. split; [exact D|lia].
  - destruct (from_ended s F P) as (s' & h & D & L); [auto|]. exists s', h. split; [exact D|lia].
  - destruct (from_ended s F P) as (s' & h & D & L); [auto|]. exists s', h. split; [exact D|lia].
Qed.

Lemma from_writer : forall s, lf_fate s = None -> lf_pc s = CWriter -> lf_conn s = false -> (forall e, lf_writer s = Some e -> lf_wx s = e) ->
  lf_timer s <> Some (TChecked false) -> lf_timer s <> Some (TBlocked false) -> exists s' h, done s s' h /\ length h <= 6.
Proof.
  intros s F P C W N1 N2.
  assert (lf_fate (life_step s (LStep true)) = None /\ lf_pc (life_step s (LStep true)) = CTimer /\ lf_conn (life_step s (LStep true)) = false /\
    lf_timer (life_step s (LStep true)) = lf_timer s /\ lf_closed (life_step s (LStep true)) = lf_closed s) as (X1 & X2 & X3 & X4 & X5).
  { unfold life_step, close_step. rewrite F, P. destruct (lf_writer s) as [e|]; [|auto]. rewrite (W e eq_refl). destruct e; cbn; auto. }
  destruct (from_timer _ X1 X2 X3) as (s' & h & D & L); [congruence..|]. exists s', (LStep true :: h). split; [|cbn; lia]. apply cons_done; auto. now left.
Qed.

Lemma from_reader : forall s, lf_fate s = None -> lf_pc s = CReader -> lf_conn s = false -> (forall e, lf_reader s = Some e -> lf_rx s = e) -> (forall e, lf_writer s = Some e -> lf_wx s = e) ->
  lf_timer s <> Some (TChecked false) -> lf_timer s <> Some (TBlocked false) -> exists s' h, done s s' h /\ length h <= 7.
Proof.
  intros s F P C R W N1 N2.
  assert (lf_fate (life_step s (LStep true)) = None /\ lf_pc (life_step s (LStep true)) = CWriter /\ lf_conn (life_step s (LStep true)) = false /\
    lf_timer (life_step s (LStep true)) = lf_timer s /\ lf_closed (life_step s (LStep true)) = lf_closed s /\
    lf_writer (life_step s (LStep true)) = lf_writer s /\ lf_wx (life_step s (LStep true)) = lf_wx s) as (X1 & X2 & X3 & X4 & X5 & X6 & X7).
  { unfold life_step, close_step. rewrite F, P. destruct (lf_reader s) as [e|]; [|cbn; auto 10]. rewrite (R e eq_refl). destruct e; cbn; auto 10. }
  destruct (from_writer _ X1 X2 X3) as (s' & h & D & L); [intros e; rewrite X6, X7; auto|congruence..|]. exists s', (LStep true :: h). split; [|cbn; lia]. apply cons_done; auto. now left.
Qed.

Lemma from_notify : forall s, lf_fate s = None -> lf_pc s = CNotify -> lf_conn s = false -> (forall e, lf_reader s = Some e -> lf_rx s = e) -> (forall e, lf_writer s = Some e -> lf_wx s = e) ->
  exists s' h, done s s' h /\ length h <= 9.
Proof.
  assert (forall s, lf_fate s = None -> lf_pc s = CNotify -> lf_conn s = false -> (forall e, lf_reader s = Some e -> lf_rx s = e) -> (forall e, lf_writer s = Some e -> lf_wx s = e) ->
    lf_timer s <> Some (TChecked false) -> exists s' h, done s s' h /\ length h <= 8) as A.
  { intros s F P C R W N.
    assert (lf_fate (life_step s (LStep true)) = None /\ lf_pc (life_step s (LStep true)) = CReader /\ lf_conn (life_step s (LStep true)) = false /\
      lf_closed (life_step s (LStep true)) = lf_closed s /\ lf_reader (life_step s (LStep true)) = lf_reader s /\ lf_rx (life_step s (LStep true)) = lf_rx s /\
      lf_writer (life_step s (LStep true)) = lf_writer s /\ lf_wx (life_step s (LStep true)) = lf_wx s /\
      lf_timer (life_step s (LStep true)) <> Some (TChecked false) /\ lf_timer (life_step s (LStep true)) <> Some (TBlocked false)) as (X1 & X2 & X3 & X4 & X5 & X6 & X7 & X8 & X9 & X10).
    { unfold life_step, close_step, notify. rewrite F, P. destruct (lf_timer s) as [[|b|b|b| |]|] eqn:T; cbn; rewrite ?T; repeat split; auto; try congruence. }
    destruct (from_reader _ X1 X2 X3) as (s' & h & D & L); [intros e; rewrite X5, X6; auto|intros e; rewrite X7, X8; auto|auto..|]. exists s', (LStep true :: h). split; [|cbn; lia]. apply cons_done; auto. now left. }
  intros s F P C R W. destruct (lf_timer s) as [[|[]|b|b| |]|] eqn:T; try (destruct (A s F P C R W) as (s' & h & D & L); [rewrite T; discriminate|exists s', h; split; [exact D|lia]]).
  destruct (timer_frame s LTimer (or_introl eq_refl) F) as (X1 & X2 & X3 & X4 & _).
  assert (life_step s LTimer = set_timer (Some (TBlocked false)) s) as E by (unfold life_step, timer_step; now rewrite F, T).
  destruct (A (life_step s LTimer)) as (s' & h & D & L); [congruence..|rewrite E; exact R|rewrite E; exact W|rewrite E; discriminate|].
  exists s', (LTimer :: h). split; [|cbn; lia]. apply cons_done; auto. unfold own; auto.
Qed.

Lemma close_ends : forall h, let s := life_run life0 h in lf_started s <= 1 -> lf_fate s = None -> in_close s -> ~ missed s ->
  exists h', Forall own h' /\ length h' <= 9 /\ lf_pc (life_run s h') = COut /\ lf_closed (life_run s h') = S (lf_closed s) /\ lf_fate (life_run s h') = None.
Proof.
  intros h s St F I M. destruct (first_run h) as [_ R W C]. fold s in R, W, C. specialize (C I).
  assert (forall e, lf_reader s = Some e -> lf_rx s = e) as R' by (intros e E; now apply R).
  assert (forall e, lf_writer s = Some e -> lf_wx s = e) as W' by (intros e E; now apply W).
  assert (In (lf_pc s) [CReader; CWriter; CTimer] -> lf_timer s <> Some (TChecked false) /\ lf_timer s <> Some (TBlocked false)) as N.
  { intros J. split; intros E; apply M; repeat split; auto. }
  assert (exists s' h', done s s' h' /\ length h' <= 9) as (s' & h' & [D1 D2 D3 D4 D5] & L); [|exists h'; rewrite D1; auto].
  destruct I as [P|[P|[P|[P|[P|[]]]]]]; symmetry in P; try (destruct N as [N1 N2]; [rewrite P; cbn; auto 6; fail|]).
  - now apply from_notify.
  - destruct (from_reader s F P C R' W' N1 N2) as (s' & h' & D & L). exists s', h'. split; [exact D|lia].
  - destruct (from_writer s F P C W' N1 N2) as (s' & h' & D & L). exists s', h'. split; [exact D|lia].
  - destruct (from_timer s F P C N1 N2) as (s' & h' & D & L). exists s', h'. split; [exact D|lia].
  - destruct (from_fail s F P) as (s' & D). exists s', [LStep true]. split; [exact D|cbn; lia].
Qed.

(** What was missed stays missed. *)
Lemma missed_step : forall s v, lf_fate s = None -> missed s -> missed (life_step s v) /\ lf_fate (life_step s v) = None /\ lf_closed (life_step s v) = lf_closed s.
Proof.
  intros s v F (C & P & T). unfold missed. destruct s as [conn rd oldr wr oldw rx wx tm due pc st cl ft]. cbn in *. subst ft conn.
  destruct P as [<-|[<-|[<-|[]]]]; destruct T as [-> | ->]; destruct v; unfold life_step, close_step, timer_step; cbn; open_up; repeat split; auto 10.
Qed.
Lemma missed_forever : forall h s, lf_fate s = None -> missed s -> missed (life_run s h) /\ lf_closed (life_run s h) = lf_closed s.
Proof.
  induction h as [|v h IH]; intros s F M; [auto|]. destruct (missed_step s v F M) as (M' & F' & C'). change (life_run s (v :: h)) with (life_run (life_step s v) h).
  destruct (IH _ F' M') as [A B]. split; [exact A|congruence].
Qed.

(** A second Close waits for a reader that does not end. *)
Definition waits (s : life) : Prop := lf_fate s = None /\ lf_reader s = Some false /\ lf_rx s = true /\ lf_old_readers s = 0 /\ lf_conn s = false /\ (lf_pc s = CNotify \/ lf_pc s = CReader).
Lemma waits_step : forall s v, v <> LReaderEnd -> waits s -> waits (life_step s v) /\ lf_closed (life_step s v) = lf_closed s.
Proof.
  intros s v N (F & R & X & O & C & P). unfold waits. destruct s as [conn rd oldr wr oldw rx wx tm due pc st cl ft]. cbn in *. subst.
  destruct P as [-> | ->]; destruct v; unfold life_step, close_step, timer_step, notify; cbn; open_up; repeat split; auto 10; try easy.
Qed.
Lemma waits_forever : forall h s, ~ In LReaderEnd h -> waits s -> waits (life_run s h) /\ lf_closed (life_run s h) = lf_closed s.
Proof.
  induction h as [|v h IH]; intros s N W; [auto|]. destruct (waits_step s v) as [W' C']; auto; [intros ->; apply N; now left|].
  change (life_run s (v :: h)) with (life_run (life_step s v) h). destruct (IH (life_step s v)) as [A B]; auto; [intros K; apply N; now right|]. split; [exact A|congruence].
Qed.

(** An orderly and prompt life. *)
Record sound (s : life) : Prop := {
  so_fate : lf_fate s = None \/ lf_fate s = Some Freed; so_readers : lf_old_readers s = 0; so_writers : lf_old_writers s = 0;
  so_dying : In (lf_pc s) [DReader; DTimer; DWriter] -> running s = false }.
Lemma sound_step : forall s v, v <> LStep true -> (v = LStart \/ v = LDestroy -> running s = false) -> sound s -> sound (life_step s v).
Proof.
  intros s v N O [F R W D]. destruct s as [conn rd oldr wr oldw rx wx tm due pc st cl ft]. unfold running in *. cbn in *. subst.
  destruct F as [-> | ->].
  - constructor; unfold running; destruct v as [| | |[]| | | | | | | |]; try easy; unfold life_step, life_start, close_step, timer_step, notify; cbn in *; open_up; auto;
      try (specialize (O (or_introl eq_refl)); discriminate); try (specialize (O (or_intror eq_refl)); discriminate); try (intuition discriminate); 
      exfalso; assert (match rd with Some _ | _ => true end = false) as K by (apply D; auto); destruct rd; discriminate.
  - constructor; unfold running; destruct v; cbn; auto.
Qed.
Lemma sound_run : forall h s, orderly s h -> prompt h -> sound s -> sound (life_run s h).
Proof.
  induction h as [|v h IH]; intros s O P S; [exact S|]. destruct O as [O1 O2]. change (life_run s (v :: h)) with (life_run (life_step s v) h).
  apply IH; [exact O2|intros K; apply P; now right|]. apply sound_step; [intros ->; apply P; now left| |exact S]. intros [-> | ->]; exact O1.
Qed.
Lemma sound0 : sound life0.
Proof. constructor; auto. Qed.

Lemma started_twice : forall s, lf_fate s = None -> lf_pc s = COut -> running s = true -> lf_fate (life_step s LStart) = Some Terminated.
Proof. intros s F P R. unfold life_step, life_start. rewrite F, P. unfold running in R. destruct (lf_reader s), (lf_writer s), (lf_timer s); try reflexivity. discriminate. Qed.

(** Without Close, a transport that was started is never destroyed. *)
Record unclosed (s : life) : Prop := {
  un_fate : 0 < lf_started s -> lf_fate s = None \/ lf_fate s = Some Terminated; un_writer : 0 < lf_started s -> lf_writer s <> None;
  un_pc : In (lf_pc s) [COut; DReader; DTimer; DWriter] }.
Lemma unclosed_step : forall s v, v <> LClose -> unclosed s -> unclosed (life_step s v).
Proof.
  intros s v N [F W P]. destruct s as [conn rd oldr wr oldw rx wx tm due pc st cl ft]. cbn in *.
  destruct ft as [[]|].
  - constructor; destruct v; cbn; auto.
  - constructor; destruct v; cbn; auto; open_up; auto; try discriminate. all: intros H; exfalso; destruct (F H); discriminate.
  - constructor; destruct v; cbn; auto.
  - destruct P as [<-|[<-|[<-|[<-|[]]]]]; constructor; destruct v; try easy; unfold life_step, life_start, close_step, timer_step, notify; cbn in *; open_up; auto; try discriminate;
      try (intuition discriminate); try (intros H; specialize (W H); easy); auto 10.
Qed.

Lemma unclosed_run : forall h, ~ In LClose h -> unclosed (life_run life0 h).
Proof.
  intros h. induction h as [|v h IH] using rev_ind; intros N.
  - constructor; cbn; auto; intros H; inversion H.
  - rewrite life_app. apply unclosed_step; [intros ->; apply N; apply in_or_app; right; now left|]. apply IH. intros K. apply N. apply in_or_app. now left.
Qed.

(** The destructor waits for a timeout thread that nobody wakes. *)
Definition asleep (s : life) : Prop := lf_fate s = None /\ lf_conn s = false /\ lf_pc s = DTimer /\ lf_timer s = Some (TBlocked false).
Lemma asleep_step : forall s v, asleep s -> asleep (life_step s v).
Proof.
  intros s v (F & C & P & T). destruct s as [conn rd oldr wr oldw rx wx tm due pc st cl ft]. cbn in *. subst.
  unfold asleep. destruct v; unfold life_step, close_step, timer_step, notify; cbn; open_up; repeat split.
Qed.
Lemma asleep_forever : forall h s, asleep s -> asleep (life_run s h).
Proof. induction h as [|v h IH]; intros s A; [exact A|]. change (life_run s (v :: h)) with (life_run (life_step s v) h). apply IH. now apply asleep_step. Qed.

(** What Close has dealt with stays dealt with. *)
Record dealt (s : life) : Prop := {
  de_reader : In (lf_pc s) [CWriter; CTimer; CFail] -> lf_reader s = None; de_writer : In (lf_pc s) [CTimer; CFail] -> lf_writer s = None; de_timer : lf_pc s = CFail -> lf_timer s = None }.
Lemma dealt_step : forall s v, dealt s -> dealt (life_step s v).
Proof.
  intros s v [R W T]. destruct s as [conn rd oldr wr oldw rx wx tm due pc st cl ft].
  constructor; destruct v; unfold life_step, life_start, close_step, timer_step, notify; cbn in *; open_up; try assumption; try (intros; exfalso; intuition discriminate);
    try (intros; reflexivity); intros X; try (now apply R; auto); try (now apply W; auto); try (now apply T; auto).
Qed.
Lemma dealt_run : forall h, dealt (life_run life0 h).
Proof.
  intros h. induction h as [|v h IH] using rev_ind; [constructor; reflexivity|]. rewrite life_app. now apply dealt_step.
Qed.
Lemma close_stopped : forall h v, let s := life_run life0 h in lf_closed (life_step s v) <> lf_closed s -> running (life_step s v) = false /\ lf_pc (life_step s v) = COut.
Proof.
  intros h v s C. destruct (dealt_run h) as [R W T]. fold s in R, W, T. destruct s as [conn rd oldr wr oldw rx wx tm due pc st cl ft]. unfold running.
  revert C. destruct v; unfold life_step, life_start, close_step, timer_step, notify; cbn in *; open_up; intros C; try (now destruct C);
    first [now split; auto|exfalso; first [discriminate R; auto|specialize (R (or_intror (or_intror (or_introl eq_refl)))); specialize (W (or_intror (or_introl eq_refl))); specialize (T eq_refl); discriminate]].
Qed.
