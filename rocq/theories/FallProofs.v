(** Proofs about the connections of an HTTP server. *)
From Coq Require Import Ascii String List Arith Bool Lia.
From Verif Require Import StrModel FallModel FallSpec.
Import ListNotations.
Local Open Scope nat_scope.

Lemma put_nth : forall c l i j, nth_error (put i c l) j = if Nat.eqb i j then option_map (fun _ => c) (nth_error l i) else nth_error l j.
Proof.
  intros c l. induction l as [|d l IH]; intros i j; [destruct i, j; cbn; try reflexivity; now destruct (Nat.eqb i j)|].
  destruct i, j; cbn [put nth_error Nat.eqb option_map]; try reflexivity. apply IH.
Qed.
Lemma put_length : forall c l i, length (put i c l) = length l.
Proof. intros c l. induction l as [|d l IH]; intros [|i]; cbn; try reflexivity. now rewrite IH. Qed.

Lemma run_snoc : forall st evs v, fall_run st (evs ++ [v]) = fall_step st (fall_run st evs) v.
Proof. intros. unfold fall_run. rewrite fold_left_app. reflexivity. Qed.
Lemma run_app : forall st a b, fall_run st (a ++ b) = fold_left (fall_step st) b (fall_run st a).
Proof. intros. unfold fall_run. apply fold_left_app. Qed.

Definition sess (p : pc) : bool := match p with PShake | PRead | PMake | PReply | PRefuse | PHand => true | _ => false end.
Definition strm (p : pc) : bool := match p with PHeader | PEvent => true | _ => false end.

(** One connection under an event. *)
Definition lstep (st : settings) (run tn : bool) (i : nat) (v : fev) (c : conn) : conn :=
  if negb (about i v) then c else
  match v with
  | FDone _ r a =>
      if sess (c_pc c) then if tn then match r with Fine => at_pc (session_next st a (c_pc c)) c | _ => session_fails st run r c end else c
      else if strm (c_pc c) then match r with Fine => at_pc PWait c | _ => fst (stream_fails st run r c) end else c
  | FMsg _ => match c_pc c with PWait => if run then at_pc PEvent c else c | _ => c end
  | FQuit _ => match c_pc c with PWait => stream_closes st c | _ => c end
  | FShut _ => match c_pc c with PShut | PHang => at_pc PEnd c | _ => c end
  | _ => c
  end.
(** Whether it ends the program. *)
Definition lkills (st : settings) (run : bool) (v : fev) (c : conn) : bool :=
  match v with
  | FDone _ r _ => if strm (c_pc c) then match r with Fine => false | _ => snd (stream_fails st run r c) end else false
  | _ => false
  end.

Lemma dead_stays : forall st s v, f_dead s = true -> fall_step st s v = s.
Proof. intros st s v H. unfold fall_step. now rewrite H. Qed.

Lemma conns_set : forall i c s, f_conns (set_conn i c s) = put i c (f_conns s).
Proof. reflexivity. Qed.

Ltac nth_put := unfold conn_at; cbn [set_io set_dead set_conn f_conns]; rewrite ?put_nth.

Lemma step_conn : forall st s v i c, f_dead s = false -> conn_at i s = Some c ->
  conn_at i (fall_step st s v) = Some (lstep st (f_run s) (turns s) i v c).
Proof.
  intros st s v i c D H. unfold fall_step. rewrite D. unfold lstep, conn_at in *.
  destruct v as [|j r a|j|j|j| |]; cbn [about negb].
  - destruct (turns s && f_run s)%bool; [|exact H]. cbn [f_conns]. rewrite nth_error_app1; [exact H|]. apply nth_error_Some. congruence.
  - destruct (Nat.eqb j i) eqn:E.
    + apply Nat.eqb_eq in E. subst j. cbn [negb]. rewrite H. destruct (c_pc c) eqn:P; cbn [sess strm];
        try exact H; try (destruct (turns s); [|exact H]).
      all: try (destruct r; cbv zeta; rewrite <- ?P; try (destruct (stream_fails _ _ _ c) as [c' b] eqn:F); try (destruct (session_next st a (c_pc c)) eqn:Q);
        nth_put; rewrite ?Nat.eqb_refl, ?H; cbn [option_map fst]; reflexivity).
    + cbn [negb]. destruct (nth_error (f_conns s) j) as [d|] eqn:J; [|exact H].
      destruct (c_pc d) eqn:P; try exact H; try (destruct (turns s); [|exact H]);
        destruct r; cbv zeta; try (destruct (stream_fails _ _ _ d) as [c' b] eqn:F);
        try (match goal with |- context [match ?q with PShake => _ | _ => _ end] => destruct q eqn:Q end); nth_put; rewrite ?E; exact H.
  - destruct (Nat.eqb j i) eqn:E; cbn [negb].
    + apply Nat.eqb_eq in E. subst j. rewrite H. destruct (c_pc c) eqn:P; try exact H. destruct (f_run s); [|exact H]. nth_put. now rewrite Nat.eqb_refl, H.
    + destruct (nth_error (f_conns s) j) as [d|]; [|exact H]. destruct (c_pc d); try exact H. destruct (f_run s); [|exact H]. nth_put. now rewrite E.
  - destruct (Nat.eqb j i) eqn:E; cbn [negb].
    + apply Nat.eqb_eq in E. subst j. rewrite H. destruct (c_pc c) eqn:P; try exact H. nth_put. now rewrite Nat.eqb_refl, H.
    + destruct (nth_error (f_conns s) j) as [d|]; [|exact H]. destruct (c_pc d); try exact H. nth_put. now rewrite E.
  - destruct (Nat.eqb j i) eqn:E; cbn [negb].
    + apply Nat.eqb_eq in E. subst j. rewrite H. destruct (c_pc c) eqn:P; try exact H; nth_put; now rewrite Nat.eqb_refl, H.
    + destruct (nth_error (f_conns s) j) as [d|]; [|exact H]. destruct (c_pc d); try exact H; nth_put; now rewrite E.
  - exact H.
  - destruct (f_run s); exact H.
Qed.

Lemma step_length : forall st s v, length (f_conns (fall_step st s v)) =
  match v with FOpen => if (negb (f_dead s) && (turns s && f_run s))%bool then S (length (f_conns s)) else length (f_conns s) | _ => length (f_conns s) end.
Proof.
  intros st s v. unfold fall_step. destruct (f_dead s); [now destruct v|]. destruct v as [|j r a|j|j|j| |]; cbn [negb andb].
  - destruct (turns s && f_run s)%bool; [|reflexivity]. cbn [f_conns]. rewrite app_length. cbn. lia.
  - destruct (nth_error (f_conns s) j) as [d|]; [|reflexivity]. destruct (c_pc d); try reflexivity; try (destruct (turns s); [|reflexivity]);
      destruct r; cbv zeta; try (destruct (stream_fails _ _ _ d) as [c' b] eqn:F);
      try (match goal with |- context [match ?q with PShake => _ | _ => _ end] => destruct q eqn:Q end); cbn [set_io set_dead set_conn f_conns]; now rewrite put_length.
  - destruct (nth_error (f_conns s) j) as [d|]; [|reflexivity]. destruct (c_pc d); try reflexivity. destruct (f_run s); [|reflexivity]. cbn [set_conn f_conns]. apply put_length.
  - destruct (nth_error (f_conns s) j) as [d|]; [|reflexivity]. destruct (c_pc d); try reflexivity. cbn [set_conn f_conns]. apply put_length.
  - destruct (nth_error (f_conns s) j) as [d|]; [|reflexivity]. destruct (c_pc d); try reflexivity; cbn [set_io set_conn f_conns]; apply put_length.
  - reflexivity.
  - destruct (f_run s); reflexivity.
Qed.

(** A connection that was not there is new. *)
Lemma step_new : forall st s v i c, conn_at i s = None -> conn_at i (fall_step st s v) = Some c ->
  v = FOpen /\ c = {| c_pc := if s_tls st then PShake else PRead; c_told := [] |}.
Proof.
  intros st s v i c N H. pose proof (step_length st s v) as L. unfold conn_at in *. apply nth_error_None in N.
  assert (i < length (f_conns (fall_step st s v))) as G by (apply nth_error_Some; congruence).
  destruct v; try lia. split; [reflexivity|]. unfold fall_step in *. destruct (f_dead s); [lia|]. destruct (turns s && f_run s)%bool; [|lia].
  cbn [f_conns] in *. rewrite app_length in G. cbn [length] in G. rewrite nth_error_app2 in H by lia. replace (i - length (f_conns s)) with 0 in H by lia. cbn in H. congruence.
Qed.

(** Induction over the history of one connection. *)
Lemma conn_ind : forall st i (P : list fev -> conn -> Prop),
  (forall evs, P evs {| c_pc := if s_tls st then PShake else PRead; c_told := [] |}) ->
  (forall evs v c, P evs c -> f_dead (fall_run st evs) = true -> P (evs ++ [v]) c) ->
  (forall evs v c, P evs c -> conn_at i (fall_run st evs) = Some c -> f_dead (fall_run st evs) = false ->
     P (evs ++ [v]) (lstep st (f_run (fall_run st evs)) (turns (fall_run st evs)) i v c)) ->
  forall evs c, conn_at i (fall_run st evs) = Some c -> P evs c.
Proof.
  intros st i P P0 PD PS evs. induction evs as [|v evs IH] using rev_ind; intros c H; [destruct i; discriminate|].
  rewrite run_snoc in H. destruct (f_dead (fall_run st evs)) eqn:D.
  - rewrite dead_stays in H by exact D. apply PD; [exact (IH c H)|exact D].
  - destruct (conn_at i (fall_run st evs)) as [d|] eqn:E.
    + rewrite (step_conn st _ v i d D E) in H. injection H as <-. apply PS; [exact (IH d eq_refl)|exact E|exact D].
    + destruct (step_new _ _ _ _ _ E H) as [_ ->]. apply P0.
Qed.

(** Told once. *)
Definition calm (c : conn) : Prop := c_told c = [] \/ (length (c_told c) = 1 /\ sess (c_pc c) = false /\ (strm (c_pc c) = false) /\ c_pc c <> PWait).

Lemma tell_len : forall st t c, c_told c = [] -> length (c_told (tell st t c)) <= 1.
Proof. intros st t c H. unfold tell. destruct (s_eh st); cbn; rewrite H; cbn; lia. Qed.

Lemma told_inv : forall st i evs c, conn_at i (fall_run st evs) = Some c -> length (c_told c) <= 1 /\ (f_dead (fall_run st evs) = false -> calm c).
Proof.
  intros st i. apply (conn_ind st i (fun evs c => length (c_told c) <= 1 /\ (f_dead (fall_run st evs) = false -> calm c))).
  - intros evs. split; [cbn; lia|]. intros _. now left.
  - intros evs v c [H1 H2] D. split; [exact H1|]. rewrite run_snoc, dead_stays by exact D. congruence.
  - intros evs v c [H1 H2] E D. specialize (H2 D). set (s := fall_run st evs) in *.
    assert (forall c', length (c_told c') <= 1 -> (lkills st (f_run s) v c = false \/ about i v = false -> calm c') ->
      length (c_told c') <= 1 /\ (f_dead (fall_run st (evs ++ [v])) = false -> calm c')) as K.
    { intros c' L G. split; [exact L|]. intro D'. apply G. destruct (about i v) eqn:B; [left|now right]. rewrite run_snoc in D'. fold s in D'. unfold lkills. destruct v as [|j r a|j|j|j| |]; try reflexivity.
      cbn [about] in B. apply Nat.eqb_eq in B. subst j. unfold fall_step in D'. rewrite D in D'. unfold conn_at in E. rewrite E in D'.
      destruct (c_pc c) eqn:Q; cbn [strm]; try reflexivity; destruct r; try reflexivity; destruct (stream_fails st (f_run s) _ c) as [c2 b]; exact D'. }
    apply K; clear K.
    + unfold lstep. destruct (negb (about i v)); [exact H1|]. destruct H2 as [T | (L & S1 & S2 & W)].
      * destruct v as [|j r a|j|j|j| |]; try exact H1; try (destruct (c_pc c); exact H1).
        -- destruct (sess (c_pc c)) eqn:Q1; [destruct (turns s); [|exact H1]|destruct (strm (c_pc c)); [|exact H1]].
           ++ destruct r; cbn [session_fails at_pc c_told]; try exact H1; destruct (negb (f_run s)); cbn [orb]; try exact H1; try (destruct (benign c0); [exact H1|]); now apply tell_len.
           ++ destruct r; unfold stream_fails; try exact H1; try (destruct (f_run s && negb (benign c0))%bool; [|exact H1]); destruct (eh_throws st); cbn [fst stream_closes at_pc c_told]; now apply tell_len.
        -- destruct (c_pc c); try exact H1. destruct (f_run s); exact H1.
      * destruct v as [|j r a|j|j|j| |]; try exact H1.
        -- now rewrite S1, S2.
        -- destruct (c_pc c); try exact H1. now destruct W.
        -- destruct (c_pc c); try exact H1.
        -- destruct (c_pc c); exact H1.
    + intro NK. unfold lstep. destruct (about i v) eqn:B; cbn [negb]; [|exact H2]. destruct NK as [NK|NK]; [|discriminate].
      destruct H2 as [T | (L & S1 & S2 & W)].
      * destruct v as [|j r a|j|j|j| |]; try (now left).
        -- destruct (sess (c_pc c)) eqn:Q1; [destruct (turns s); [|now left]|destruct (strm (c_pc c)) eqn:Q2; [|now left]].
           ++ assert (forall t, calm (at_pc PEnd (tell st t c))) as Kt.
              { intro t. unfold calm, tell. destruct (s_eh st); cbn; rewrite T; [right; cbn; repeat split; discriminate|now left]. }
              assert (calm (at_pc PEnd c)) as K0 by (left; exact T).
              destruct r; cbn [session_fails]; [left; exact T| | |exact K0].
              ** destruct (negb (f_run s) || benign c0)%bool; [exact K0|apply Kt].
              ** destruct (negb (f_run s)); [exact K0|apply Kt].
           ++ assert (forall t, calm (stream_closes st (tell st t c))) as Kt.
              { intro t. unfold calm, tell, stream_closes. destruct (s_eh st); cbn; rewrite T; [right; destruct (s_tls st); cbn; repeat split; discriminate|now left]. }
              assert (calm (stream_closes st c)) as K0 by (left; exact T).
              cbn [lkills] in NK. rewrite Q2 in NK. destruct r; cbn [stream_fails] in *; [left; exact T| | |discriminate].
              ** destruct (f_run s && negb (benign c0))%bool; [|exact K0]. destruct (eh_throws st); [discriminate|apply Kt].
              ** destruct (eh_throws st); [discriminate|apply Kt].
        -- destruct (c_pc c) eqn:Q; try (left; exact T). destruct (f_run s); left; exact T.
        -- destruct (c_pc c) eqn:Q; left; exact T.
        -- destruct (c_pc c) eqn:Q; left; exact T.
      * assert (calm c) as K0 by (right; now repeat split).
        destruct v as [|j r a|j|j|j| |]; try exact K0.
        -- now rewrite S1, S2.
        -- destruct (c_pc c) eqn:Q; try exact K0. now destruct W.
        -- destruct (c_pc c) eqn:Q; try exact K0. now destruct W.
        -- destruct (c_pc c) eqn:Q; try exact K0; right; cbn; repeat split; try exact L; discriminate.
Qed.

Lemma told_once : forall st evs i, length (told i (fall_run st evs)) <= 1.
Proof.
  intros st evs i. unfold told. destruct (conn_at i (fall_run st evs)) as [c|] eqn:E; [|cbn; lia]. exact (proj1 (told_inv _ _ _ _ E)).
Qed.

(** Hang-ups are not reported. *)
Lemma hang_up_sys : forall r, hang_up r -> exists c w, r = Sys c w /\ benign c = true.
Proof. intros r (w & H). decompose [or] H; subst; eexists; eexists; split; reflexivity. Qed.

Lemma quiet : forall st evs i, at_peace i evs -> told i (fall_run st evs) = [].
Proof.
  intros st evs i H. unfold told. destruct (conn_at i (fall_run st evs)) as [c|] eqn:E; [|reflexivity]. revert H. revert E. revert evs c.
  apply (conn_ind st i (fun evs c => at_peace i evs -> c_told c = [])).
  - reflexivity.
  - intros evs v c IH D H. apply IH. intros r a I. apply (H r a). apply in_or_app. now left.
  - intros evs v c IH E D H. set (s := fall_run st evs) in *.
    assert (c_told c = []) as T. { apply IH. intros r a I. apply (H r a). apply in_or_app. now left. }
    unfold lstep. destruct (about i v) eqn:B; cbn [negb]; [|exact T]. destruct v as [|j r a|j|j|j| |]; try exact T; try (destruct (c_pc c); exact T).
    + cbn [about] in B. apply Nat.eqb_eq in B. subst j.
      destruct (H r a) as [-> | U]; [apply in_or_app; right; now left| |].
      * destruct (sess (c_pc c)); [destruct (turns s); exact T|]. destruct (strm (c_pc c)); exact T.
      * destruct (hang_up_sys r U) as (k & w & -> & Bk). cbn [session_fails stream_fails]. rewrite Bk, orb_true_r. cbn [negb]. rewrite andb_false_r.
        destruct (sess (c_pc c)); [destruct (turns s); exact T|]. destruct (strm (c_pc c)); exact T.
    + destruct (c_pc c); try exact T. destruct (f_run s); exact T.
Qed.

(** Other failures are, with their text. *)
Lemma in_session_sess : forall p, in_session p -> sess p = true.
Proof. intros p H. unfold in_session in H. cbn in H. decompose [or] H; subst; try reflexivity; contradiction. Qed.
Lemma in_stream_strm : forall p, in_stream p -> strm p = true /\ sess p = false.
Proof. intros p H. unfold in_stream in H. cbn in H. decompose [or] H; subst; try (split; reflexivity); contradiction. Qed.

Lemma session_told : forall st evs i p r what a b, s_eh st = Some b -> f_dead (fall_run st evs) = false -> f_run (fall_run st evs) = true -> turns (fall_run st evs) = true ->
  is_at i p (fall_run st evs) -> in_session p -> fails_as r what ->
  told i (fall_run st (evs ++ [FDone i r a])) = [session_text st what] /\ is_at i PEnd (fall_run st (evs ++ [FDone i r a])).
Proof.
  intros st evs i p r what a b Eh D R T (c & E & <-) P F. rewrite run_snoc. unfold told, is_at. rewrite (step_conn st _ _ i c D E).
  apply in_session_sess in P. unfold lstep. cbn [about]. rewrite Nat.eqb_refl. cbn [negb]. rewrite P, T, R.
  destruct (proj2 (told_inv _ _ _ _ E) D) as [N | (_ & N & _)]; [|congruence].
  destruct F as [-> | (n & ->)]; cbn [session_fails negb orb benign]; unfold tell; rewrite Eh, N; (split; [reflexivity|]); eexists; split; reflexivity.
Qed.

Lemma stream_told : forall st evs i p r what a b, s_eh st = Some b -> f_dead (fall_run st evs) = false -> f_run (fall_run st evs) = true ->
  is_at i p (fall_run st evs) -> in_stream p -> fails_as r what ->
  told i (fall_run st (evs ++ [FDone i r a])) = [stream_text st what].
Proof.
  intros st evs i p r what a b Eh D R (c & E & <-) P F. rewrite run_snoc. unfold told. rewrite (step_conn st _ _ i c D E).
  apply in_stream_strm in P. destruct P as [P P']. unfold lstep. cbn [about]. rewrite Nat.eqb_refl. cbn [negb]. rewrite P, P', R.
  destruct (proj2 (told_inv _ _ _ _ E) D) as [N | (_ & _ & N & _)]; [|congruence].
  destruct F as [-> | (n & ->)]; cbn [stream_fails negb andb benign]; destruct (eh_throws st); cbn [fst stream_closes at_pc c_told]; unfold tell; rewrite Eh, N; reflexivity.
Qed.

(** Once it is going down. *)
Lemma step_down : forall st s v, f_run s = false -> f_run (fall_step st s v) = false.
Proof.
  intros st s v H. unfold fall_step. destruct (f_dead s); [exact H|]. destruct v as [|j r a|j|j|j| |].
  - rewrite H, andb_false_r. exact H.
  - destruct (nth_error (f_conns s) j) as [d|]; [|exact H]. destruct (c_pc d); try exact H; try (destruct (turns s); [|exact H]);
      destruct r; cbv zeta; try (destruct (stream_fails _ _ _ d) as [c' b] eqn:F);
      try (match goal with |- context [match ?q with PShake => _ | _ => _ end] => destruct q eqn:Q end); exact H.
  - destruct (nth_error (f_conns s) j) as [d|]; [|exact H]. destruct (c_pc d); try exact H. now rewrite H.
  - destruct (nth_error (f_conns s) j) as [d|]; [|exact H]. destruct (c_pc d); exact H.
  - destruct (nth_error (f_conns s) j) as [d|]; [|exact H]. destruct (c_pc d); exact H.
  - reflexivity.
  - rewrite H. reflexivity.
Qed.

Lemma down_quiet : forall st i evs s, f_run s = false -> (forall what a, ~ In (FDone i (Std what) a) evs) ->
  told i (fold_left (fall_step st) evs s) = told i s.
Proof.
  intros st i evs. induction evs as [|v evs IH]; intros s R H; [reflexivity|]. cbn [fold_left].
  rewrite IH; [|exact (step_down st s v R)|intros what a I; apply (H what a); now right].
  destruct (f_dead s) eqn:D; [now rewrite dead_stays by exact D|]. unfold told. destruct (conn_at i s) as [c|] eqn:E.
  - rewrite (step_conn st s v i c D E). unfold lstep. destruct (about i v) eqn:B; cbn [negb]; [|reflexivity].
    destruct v as [|j r a|j|j|j| |]; try reflexivity; try (destruct (c_pc c); reflexivity).
    + cbn [about] in B. apply Nat.eqb_eq in B. subst j. rewrite R. destruct r as [|k w|w|].
      * destruct (sess (c_pc c)); [destruct (turns s); reflexivity|destruct (strm (c_pc c)); reflexivity].
      * cbn [session_fails stream_fails negb orb andb]. destruct (sess (c_pc c)); [destruct (turns s); reflexivity|destruct (strm (c_pc c)); reflexivity].
      * destruct (H w a). now left.
      * destruct (sess (c_pc c)); [destruct (turns s); reflexivity|destruct (strm (c_pc c)); reflexivity].
    + rewrite R. destruct (c_pc c); reflexivity.
  - destruct (conn_at i (fall_step st s v)) as [c|] eqn:E2; [|reflexivity]. destruct (step_new _ _ _ _ _ E E2) as [_ ->]. reflexivity.
Qed.

(** The program goes on. *)
Definition tame (evs : list fev) : Prop := forall i a, ~ In (FDone i Alien a) evs.
Lemma alive : forall st evs, s_eh st <> Some true -> tame evs -> f_dead (fall_run st evs) = false.
Proof.
  intros st evs Eh. induction evs as [|v evs IH] using rev_ind; intro H; [reflexivity|].
  assert (f_dead (fall_run st evs) = false) as D by (apply IH; intros i a I; apply (H i a); apply in_or_app; now left).
  assert (eh_throws st = false) as ET by (unfold eh_throws; destruct (s_eh st) as [[]|]; [now destruct Eh|reflexivity|reflexivity]).
  rewrite run_snoc. unfold fall_step. rewrite D. set (s := fall_run st evs) in *. destruct v as [|j r a|j|j|j| |].
  - destruct (turns s && f_run s)%bool; first [exact D|reflexivity].
  - destruct (nth_error (f_conns s) j) as [d|]; [|first [exact D|reflexivity]].
    assert (r <> Alien) as NA by (intros ->; apply (H j a); apply in_or_app; right; now left).
    destruct (c_pc d); try first [exact D|reflexivity]; try (destruct (turns s); [|first [exact D|reflexivity]]);
      destruct r; cbv zeta; try (now destruct NA);
      try (match goal with |- context [match ?q with PShake => _ | _ => _ end] => destruct q eqn:Q end); try first [exact D|reflexivity].
    all: cbn [stream_fails]; rewrite ET; try (destruct (f_run s && negb (benign c))%bool); reflexivity.
  - destruct (nth_error (f_conns s) j) as [d|]; [|first [exact D|reflexivity]]. destruct (c_pc d); try first [exact D|reflexivity]. destruct (f_run s); first [exact D|reflexivity].
  - destruct (nth_error (f_conns s) j) as [d|]; [|first [exact D|reflexivity]]. destruct (c_pc d); first [exact D|reflexivity].
  - destruct (nth_error (f_conns s) j) as [d|]; [|first [exact D|reflexivity]]. destruct (c_pc d); first [exact D|reflexivity].
  - first [exact D|reflexivity].
  - destruct (f_run s); first [exact D|reflexivity].
Qed.

(** Without TLS nothing holds up the i/o thread. *)
Lemma plain_io : forall st evs, s_tls st = false -> f_io (fall_run st evs) = None.
Proof.
  intros st evs P. induction evs as [|v evs IH] using rev_ind; [reflexivity|]. rewrite run_snoc. set (s := fall_run st evs) in *.
  unfold fall_step. destruct (f_dead s); [exact IH|]. destruct v as [|j r a|j|j|j| |].
  - destruct (turns s && f_run s)%bool; exact IH.
  - destruct (nth_error (f_conns s) j) as [d|]; [|exact IH]. destruct (c_pc d) eqn:Q; try exact IH; try (destruct (turns s); [|exact IH]);
      destruct r; cbv zeta; try (destruct (stream_fails _ _ _ d) as [c' b] eqn:F); cbn [session_next]; rewrite ?P; try exact IH. destruct a; exact IH.
  - destruct (nth_error (f_conns s) j) as [d|]; [|exact IH]. destruct (c_pc d); try exact IH. destruct (f_run s); exact IH.
  - destruct (nth_error (f_conns s) j) as [d|]; [|exact IH]. destruct (c_pc d); exact IH.
  - destruct (nth_error (f_conns s) j) as [d|]; [|exact IH]. destruct (c_pc d); try exact IH; reflexivity.
  - exact IH.
  - destruct (f_run s); exact IH.
Qed.

Lemma step_flags : forall st s v, f_dead s = false ->
  f_run (fall_step st s v) = (match v with FDown => false | _ => f_run s end) /\
  f_halted (fall_step st s v) = (match v with FHalt => if f_run s then f_halted s else true | _ => f_halted s end).
Proof.
  intros st s v D. unfold fall_step. rewrite D. destruct v as [|j r a|j|j|j| |].
  - destruct (turns s && f_run s)%bool; now split.
  - destruct (nth_error (f_conns s) j) as [d|]; [|now split]. destruct (c_pc d); try (now split); try (destruct (turns s); [|now split]);
      destruct r; cbv zeta; try (destruct (stream_fails _ _ _ d) as [c' b] eqn:F);
      try (match goal with |- context [match ?q with PShake => _ | _ => _ end] => destruct q eqn:Q end); now split.
  - destruct (nth_error (f_conns s) j) as [d|]; [|now split]. destruct (c_pc d); try (now split). destruct (f_run s) eqn:R; split; try exact R; reflexivity.
  - destruct (nth_error (f_conns s) j) as [d|]; [|now split]. destruct (c_pc d); now split.
  - destruct (nth_error (f_conns s) j) as [d|]; [|now split]. destruct (c_pc d); now split.
  - now split.
  - destruct (f_run s) eqn:R; split; try exact R; reflexivity.
Qed.

Lemma step_dead : forall st s v, f_dead s = false -> f_dead (fall_step st s v) =
  match v with FDone j _ _ => match conn_at j s with Some c => lkills st (f_run s) v c | None => false end | _ => false end.
Proof.
  intros st s v D. unfold fall_step. rewrite D. destruct v as [|j r a|j|j|j| |].
  - destruct (turns s && f_run s)%bool; first [exact D|reflexivity].
  - unfold conn_at. destruct (nth_error (f_conns s) j) as [d|]; [|first [exact D|reflexivity]]. unfold lkills. destruct (c_pc d) eqn:Q; cbn [strm]; try first [exact D|reflexivity]; try (destruct (turns s); [|first [exact D|reflexivity]]);
      destruct r; cbv zeta; try (destruct (stream_fails _ _ _ d) as [c' b] eqn:F); try reflexivity;
      try (match goal with |- context [match ?q with PShake => _ | _ => _ end] => destruct q eqn:Q2 end); first [exact D|reflexivity].
  - destruct (nth_error (f_conns s) j) as [d|]; [|first [exact D|reflexivity]]. destruct (c_pc d); try first [exact D|reflexivity]. destruct (f_run s); first [exact D|reflexivity].
  - destruct (nth_error (f_conns s) j) as [d|]; [|first [exact D|reflexivity]]. destruct (c_pc d); first [exact D|reflexivity].
  - destruct (nth_error (f_conns s) j) as [d|]; [|first [exact D|reflexivity]]. destruct (c_pc d); first [exact D|reflexivity].
  - first [exact D|reflexivity].
  - destruct (f_run s); first [exact D|reflexivity].
Qed.

Lemma none_stays : forall st s v i, conn_at i s = None -> conn_at i (fall_step st s v) = None \/ v = FOpen.
Proof.
  intros st s v i H. destruct (conn_at i (fall_step st s v)) as [c|] eqn:E; [|now left]. right. exact (proj1 (step_new _ _ _ _ _ H E)).
Qed.

Lemma plain_apart : forall st, s_tls st = false -> apart st.
Proof.
  intros st P evs i. 
  assert (f_dead (fall_run st evs) = false -> let s := fall_run st evs in let t := fall_run st (filter (about i) evs) in
    f_dead t = false /\ f_run s = f_run t /\ f_halted s = f_halted t /\ length (f_conns s) = length (f_conns t) /\ conn_at i s = conn_at i t) as K.
  { induction evs as [|v evs IH] using rev_ind; intro D; [now repeat split|]. rewrite run_snoc in *.
    assert (f_dead (fall_run st evs) = false) as D0.
    { destruct (f_dead (fall_run st evs)) eqn:Q; [|reflexivity]. rewrite dead_stays in D by exact Q. congruence. }
    specialize (IH D0). rewrite filter_app. cbn [filter]. cbv zeta in *. destruct IH as (Dt & ER & EH & EL & EC).
    set (s := fall_run st evs) in *.
    pose proof (plain_io st evs P) as Is. fold s in Is.
    destruct (step_flags st s v D0) as [Fr Fh]. pose proof (step_length st s v) as Ls. rewrite D0 in Ls. cbn [negb andb] in Ls.
    destruct (about i v) eqn:B.
    - rewrite run_snoc. pose proof (plain_io st (filter (about i) evs) P) as It. set (t := fall_run st (filter (about i) evs)) in *.
      assert (turns s = turns t) as ET by (unfold turns; now rewrite Is, It, EH).
      destruct (step_flags st t v Dt) as [Gr Gh]. pose proof (step_length st t v) as Lt. rewrite Dt in Lt. cbn [negb andb] in Lt.
      refine (conj _ (conj _ (conj _ (conj _ _)))).
      + rewrite (step_dead st s v D0) in D. rewrite (step_dead st t v Dt). destruct v as [|j r a|j|j|j| |]; try reflexivity.
        cbn [about] in B. apply Nat.eqb_eq in B. subst j. rewrite <- EC, <- ER. exact D.
      + rewrite Fr, Gr. now rewrite ER.
      + rewrite Fh, Gh. now rewrite ER, EH.
      + rewrite Ls, Lt. now rewrite ET, ER, EL.
      + destruct (conn_at i s) as [c|] eqn:E.
        * rewrite (step_conn st s v i c D0 E), (step_conn st t v i c Dt (eq_sym EC)). now rewrite ER, ET.
        * destruct (none_stays st s v i E) as [N | ->].
          -- rewrite N. destruct (none_stays st t v i (eq_sym EC)) as [N2 | ->]; [now rewrite N2|].
             destruct (conn_at i (fall_step st t FOpen)) as [c|] eqn:E2; [|reflexivity]. unfold conn_at in N, E2. apply nth_error_None in N.
             assert (i < length (f_conns (fall_step st t FOpen))) as G by (apply nth_error_Some; congruence). rewrite Ls in N. rewrite Lt in G. rewrite ET, ER, EL in N. lia.
          -- destruct (conn_at i (fall_step st s FOpen)) as [c|] eqn:E2; destruct (conn_at i (fall_step st t FOpen)) as [d|] eqn:E3; try reflexivity.
             ++ destruct (step_new _ _ _ _ _ E E2) as [_ ->]. destruct (step_new _ _ _ _ _ (eq_sym EC) E3) as [_ ->]. reflexivity.
             ++ unfold conn_at in E2, E3. apply nth_error_None in E3. assert (i < length (f_conns (fall_step st s FOpen))) as G by (apply nth_error_Some; congruence).
                rewrite Lt in E3. rewrite Ls in G. rewrite ET, ER, EL in G. lia.
             ++ unfold conn_at in E2, E3. apply nth_error_None in E2. assert (i < length (f_conns (fall_step st t FOpen))) as G by (apply nth_error_Some; congruence).
                rewrite Ls in E2. rewrite Lt in G. rewrite ET, ER, EL in E2. lia.
    - rewrite app_nil_r. set (t := fall_run st (filter (about i) evs)) in *.
      assert (f_run (fall_step st s v) = f_run s /\ f_halted (fall_step st s v) = f_halted s /\ length (f_conns (fall_step st s v)) = length (f_conns s)) as (A1 & A2 & A3)
        by (destruct v; cbn [about] in B; try discriminate; now repeat split).
      refine (conj Dt (conj _ (conj _ (conj _ _)))); try congruence.
      destruct (conn_at i s) as [c|] eqn:E.
      + rewrite (step_conn st s v i c D0 E). unfold lstep. rewrite B. cbn [negb]. exact EC.
      + destruct (none_stays st s v i E) as [N | ->]; [now rewrite N|discriminate]. }
  intro D. destruct (K D) as (_ & _ & _ & _ & H). exact H.
Qed.

(** With TLS a shutdown that the peer does not answer does. *)
Lemma step_io : forall st s v, (forall k c, conn_at k s = Some c -> (c_pc c = PShut <-> f_io s = Some k)) ->
  forall k c, conn_at k (fall_step st s v) = Some c -> (c_pc c = PShut <-> f_io (fall_step st s v) = Some k).
Proof.
  intros st s v H k c E. destruct (f_dead s) eqn:D; [rewrite dead_stays in E |- * by exact D; exact (H k c E)|].
  destruct (conn_at k s) as [d|] eqn:Ed.
  2:{ destruct (step_new _ _ _ _ _ Ed E) as [-> ->]. unfold fall_step. rewrite D.
      assert (f_io s <> Some k -> (if s_tls st then PShake else PRead) = PShut <-> f_io s = Some k) as G by (intro Q; split; [destruct (s_tls st); discriminate|contradiction]).
      unfold fall_step in E. rewrite D in E. destruct (turns s && f_run s)%bool eqn:T; [|congruence]. cbn [c_pc f_io]. apply G.
      apply andb_true_iff in T. destruct T as [T _]. unfold turns in T. destruct (f_io s); discriminate. }
  rewrite (step_conn st s v k d D Ed) in E. injection E as <-. specialize (H k d Ed) as Hk. unfold lstep.
  unfold fall_step. rewrite D. destruct v as [|j r a|j|j|j| |]; cbn [about negb].
  - destruct (turns s && f_run s)%bool; exact Hk.
  - destruct (Nat.eqb j k) eqn:B; cbn [negb].
    + apply Nat.eqb_eq in B. subst j. unfold conn_at in Ed. rewrite Ed.
      assert (turns s = true -> f_io s = None) as TN by (unfold turns; destruct (f_io s); [discriminate|reflexivity]).
      destruct (c_pc d) eqn:Q; cbn [sess strm]; try (rewrite Q; exact Hk).
      7,8: (clear TN; assert (f_io s <> Some k) as NI by (intro Z; apply Hk in Z; discriminate Z);
        assert (c_pc (fst (stream_fails st (f_run s) r d)) <> PShut) as NS by
          (unfold stream_fails, tell, stream_closes; destruct r; repeat match goal with |- context [if ?b then _ else _] => destruct b end; destruct (s_eh st);
           cbn [fst at_pc c_pc]; rewrite ?Q; discriminate);
        destruct r; try (cbn; split; [discriminate|contradiction]);
        match goal with |- context [let '(_, _) := ?q in _] => destruct q as [c' b] eqn:F end; cbn [fst] in NS |- *; cbn [set_dead set_conn f_io]; split; contradiction).
      all: (destruct (turns s) eqn:T; [specialize (TN eq_refl)|rewrite Q; exact Hk]).
      all: destruct r; cbn [session_fails session_next at_pc c_pc]; cbv zeta;
        repeat match goal with |- context [if ?b then _ else _] => destruct b end; try destruct a;
        cbn [set_io set_dead set_conn f_io at_pc c_pc]; rewrite ?TN;
        try (split; [discriminate|intro Z; discriminate Z]); split; reflexivity.
    + apply Nat.eqb_neq in B. unfold conn_at in Ed. destruct (nth_error (f_conns s) j) as [e|] eqn:Ee; [|exact Hk].
      assert (turns s = true -> f_io s = None) as TN by (unfold turns; destruct (f_io s); [discriminate|reflexivity]).
      destruct (c_pc e) eqn:Q; try exact Hk; try (destruct (turns s) eqn:T; [specialize (TN eq_refl)|exact Hk]);
        destruct r; cbv zeta; try (destruct (stream_fails _ _ _ e) as [c' b] eqn:F);
        try (match goal with |- context [match ?q with PShake => _ | _ => _ end] => destruct q eqn:Q2 end); try exact Hk;
        cbn [set_io set_conn f_io]; (split; [intro Z; apply Hk in Z; congruence|intros [= Z]; congruence]).
  - destruct (Nat.eqb j k) eqn:B; cbn [negb].
    + apply Nat.eqb_eq in B. subst j. unfold conn_at in Ed. rewrite Ed. destruct (c_pc d) eqn:Q; try (rewrite Q; exact Hk).
      destruct (f_run s); [|rewrite Q; exact Hk]. cbn. split; [discriminate|]. intro Z. apply Hk in Z. discriminate.
    + destruct (nth_error (f_conns s) j) as [e|]; [|exact Hk]. destruct (c_pc e); try exact Hk. destruct (f_run s); exact Hk.
  - destruct (Nat.eqb j k) eqn:B; cbn [negb].
    + apply Nat.eqb_eq in B. subst j. unfold conn_at in Ed. rewrite Ed. destruct (c_pc d) eqn:Q; try (rewrite Q; exact Hk).
      unfold stream_closes. cbn. split; [destruct (s_tls st); discriminate|]. intro Z. apply Hk in Z. discriminate.
    + destruct (nth_error (f_conns s) j) as [e|]; [|exact Hk]. destruct (c_pc e); exact Hk.
  - destruct (Nat.eqb j k) eqn:B; cbn [negb].
    + apply Nat.eqb_eq in B. subst j. unfold conn_at in Ed. rewrite Ed. destruct (c_pc d) eqn:Q; try (rewrite Q; exact Hk).
      * cbn. split; discriminate.
      * cbn. split; [discriminate|]. intro Z. apply Hk in Z. discriminate.
    + apply Nat.eqb_neq in B. destruct (nth_error (f_conns s) j) as [e|] eqn:Ee; [|exact Hk]. destruct (c_pc e) eqn:Q; try exact Hk.
      cbn [set_io f_io]. split; [|discriminate]. intro Z. apply Hk in Z. pose proof (proj1 (H j e Ee) Q). congruence.
  - exact Hk.
  - destruct (f_run s); exact Hk.
Qed.

Lemma run_io : forall st evs k c, conn_at k (fall_run st evs) = Some c -> (c_pc c = PShut <-> f_io (fall_run st evs) = Some k).
Proof.
  intros st evs. induction evs as [|v evs IH] using rev_ind; [intros k c E; destruct k; discriminate|]. rewrite run_snoc. exact (step_io st _ v IH).
Qed.

Lemma blocked_step : forall st s v j, (forall k c, conn_at k s = Some c -> (c_pc c = PShut <-> f_io s = Some k)) -> f_io s = Some j -> v <> FShut j ->
  f_io (fall_step st s v) = Some j /\ length (f_conns (fall_step st s v)) = length (f_conns s) /\
  forall i c, conn_at i s = Some c -> sess (c_pc c) = true -> conn_at i (fall_step st s v) = Some c.
Proof.
  intros st s v j Inv Io N. destruct (f_dead s) eqn:D; [rewrite dead_stays by exact D; now repeat split|].
  assert (turns s = false) as T by (unfold turns; now rewrite Io).
  refine (conj _ (conj _ _)).
  - unfold fall_step. rewrite D, T. cbn [andb]. destruct v as [|k r a|k|k|k| |].
    + exact Io.
    + destruct (nth_error (f_conns s) k) as [d|]; [|exact Io]. destruct (c_pc d); try exact Io; destruct r; try exact Io; destruct (stream_fails _ _ _ d) as [c' b]; exact Io.
    + destruct (nth_error (f_conns s) k) as [d|]; [|exact Io]. destruct (c_pc d); try exact Io. destruct (f_run s); exact Io.
    + destruct (nth_error (f_conns s) k) as [d|]; [|exact Io]. destruct (c_pc d); exact Io.
    + destruct (nth_error (f_conns s) k) as [d|] eqn:Ek; [|exact Io]. destruct (c_pc d) eqn:Q; try exact Io.
      pose proof (proj1 (Inv k d Ek) Q) as Z. rewrite Io in Z. injection Z as ->. now destruct N.
    + exact Io.
    + destruct (f_run s); exact Io.
  - rewrite step_length, T. cbn [andb]. rewrite andb_false_r. now destruct v.
  - intros i c E S. rewrite (step_conn st s v i c D E). unfold lstep. destruct (negb (about i v)); [reflexivity|].
    destruct v; try reflexivity; [rewrite S, T; reflexivity| | |]; destruct (c_pc c); try discriminate; reflexivity.
Qed.

Lemma blocked : forall st more evs j, f_io (fall_run st evs) = Some j -> ~ In (FShut j) more ->
  f_io (fall_run st (evs ++ more)) = Some j /\
  length (f_conns (fall_run st (evs ++ more))) = length (f_conns (fall_run st evs)) /\
  forall i p, is_at i p (fall_run st evs) -> in_session p -> conn_at i (fall_run st (evs ++ more)) = conn_at i (fall_run st evs).
Proof.
  intros st more. induction more as [|v more IH]; intros evs j Io N; [rewrite app_nil_r; now repeat split|].
  destruct (blocked_step st (fall_run st evs) v j (run_io st evs) Io ltac:(intros ->; apply N; now left)) as (B1 & B2 & B3).
  rewrite <- run_snoc in B1, B2. replace (evs ++ v :: more) with ((evs ++ [v]) ++ more) by (now rewrite <- app_assoc).
  destruct (IH (evs ++ [v]) j B1 ltac:(intro I; apply N; now right)) as (C1 & C2 & C3). refine (conj C1 (conj _ _)); [congruence|].
  intros i p (c & E & Q) P. assert (conn_at i (fall_run st (evs ++ [v])) = Some c) as E2.
  { rewrite run_snoc. apply B3; [exact E|]. rewrite Q. now apply in_session_sess. }
  rewrite (C3 i p); [congruence|now exists c|exact P].
Qed.

(** The wait is over when the peer answers. *)
Lemma io_there : forall st evs j, f_io (fall_run st evs) = Some j -> j < length (f_conns (fall_run st evs)).
Proof.
  intros st evs. induction evs as [|v evs IH] using rev_ind; [discriminate|]. intros j H. rewrite run_snoc in *. set (s := fall_run st evs) in *.
  assert (length (f_conns s) <= length (f_conns (fall_step st s v))) as L.
  { rewrite step_length. destruct v; try lia. destruct (negb (f_dead s) && (turns s && f_run s))%bool; lia. }
  assert (f_io s = Some j -> j < length (f_conns (fall_step st s v))) as K by (intro Q; specialize (IH j Q); lia).
  assert (forall k d, nth_error (f_conns s) k = Some d -> k < length (f_conns (fall_step st s v))) as N.
  { intros k d Q. assert (k < length (f_conns s)) by (apply nth_error_Some; congruence). lia. }
  unfold fall_step in H. destruct (f_dead s); [exact (K H)|]. destruct v as [|k r a|k|k|k| |].
  - destruct (turns s && f_run s)%bool; exact (K H).
  - destruct (nth_error (f_conns s) k) as [d|] eqn:E; [|exact (K H)]. destruct (c_pc d); try exact (K H); try (destruct (turns s); [|exact (K H)]);
      destruct r; cbv zeta in H; try (destruct (stream_fails _ _ _ d) as [c' b] eqn:F); try exact (K H);
      match type of H with context [match ?q with PShake => _ | _ => _ end] => destruct q eqn:Q end; try exact (K H);
      cbn [set_io f_io] in H; injection H as <-; exact (N k d E).
  - destruct (nth_error (f_conns s) k) as [d|]; [|exact (K H)]. destruct (c_pc d); try exact (K H). destruct (f_run s); exact (K H).
  - destruct (nth_error (f_conns s) k) as [d|]; [|exact (K H)]. destruct (c_pc d); exact (K H).
  - destruct (nth_error (f_conns s) k) as [d|]; [|exact (K H)]. destruct (c_pc d); try exact (K H); discriminate.
  - exact (K H).
  - destruct (f_run s); exact (K H).
Qed.

Lemma freed : forall st evs j, f_io (fall_run st evs) = Some j -> f_dead (fall_run st evs) = false ->
  f_io (fall_run st (evs ++ [FShut j])) = None /\ is_at j PEnd (fall_run st (evs ++ [FShut j])).
Proof.
  intros st evs j H D. pose proof (io_there st evs j H) as L. rewrite run_snoc. set (s := fall_run st evs) in *.
  destruct (conn_at j s) as [c|] eqn:E; [|unfold conn_at in E; apply nth_error_None in E; lia].
  pose proof (proj2 (run_io st evs j c E) H) as P. split.
  - unfold fall_step. rewrite D. unfold conn_at in E. rewrite E, P. reflexivity.
  - unfold is_at. rewrite (step_conn st s _ j c D E). unfold lstep. cbn [about]. rewrite Nat.eqb_refl. cbn [negb]. rewrite P. eexists. split; reflexivity.
Qed.
