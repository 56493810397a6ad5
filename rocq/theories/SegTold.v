From Coq Require Import List Arith Bool Lia.
From Verif Require Import SegModel SegSpec SegProofs SegChan.
Import ListNotations.
Local Open Scope nat_scope.

Local Arguments Nat.ltb : simpl never.
Local Arguments Nat.even : simpl never.

(** ** A connected transport whose owner is not inside Start has a running thread *)
Definition up (s : seg) : Prop := sg_stop s = false /\ exists k, sg_thread s = Some k /\ k <> KEpi /\ k <> KEnded.
Definition on (s : seg) : Prop := sane s /\ (sg_conn s = true -> sg_pc s = SSpawn \/ up s).

Lemma on_step i v s s' : on s -> gmv i v s s' -> on s'.
Proof.
  intros [S U] M. split; [exact (sane_step i v s s' S M)|]. destruct S as [O C G].
  destruct M as [|E P|E P|E P|s' E R|old s' E W|E P|n E J P|E T]; auto.
  - cbn. intros X. destruct (U X) as [Y|Y]; [congruence|right; exact Y].
  - cbn. intros X. destruct (U X) as [Y|Y]; [congruence|right; exact Y].
  - cbn. discriminate.
  - destruct R as [NP|rx tx P|P Cr].
    + unfold own_next. destruct (sg_pc s) eqn:P; try congruence; cbn in *; try (rewrite P; exact U).
      * auto.
      * intros _. right. split; [reflexivity|]. exists KTop. repeat split; discriminate.
      * intros X. destruct (U X) as [Y|Y]; [congruence|right; exact Y].
      * destruct (sg_old s) as [[]|]; try rewrite P; cbn; try exact U; intros X; destruct (U X) as [Y|Y]; try congruence; right; exact Y.
      * intros X. destruct (U X) as [Y|Y]; [congruence|right; exact Y].
      * discriminate.
      * assert (sg_conn s = false) as Z by (apply C; auto 15). destruct (sg_thread s) as [[]|]; cbn; rewrite Z; discriminate.
      * assert (sg_conn s = false) as Z by (apply C; auto 15). destruct (sg_thread s) as [[]|]; cbn; rewrite Z; discriminate.
      * assert (sg_conn s = false) as Z by (apply C; auto 15). rewrite Z; discriminate.
      * assert (sg_conn s = false) as Z by (apply C; auto 15). rewrite Z; discriminate.
      * assert (sg_conn s = false) as Z by (apply C; auto 15). destruct (sg_thread s) as [[]|]; cbn; rewrite Z; discriminate.
      * assert (sg_conn s = false) as Z by (apply C; auto 15). destruct (sg_thread s) as [[]|]; cbn; rewrite Z; discriminate.
      * assert (sg_conn s = false) as Z by (apply C; auto 15). rewrite Z; discriminate.
    + cbn. intros X. destruct (U X) as [Y|Y]; [congruence|right; exact Y].
    + cbn. intros X. destruct (U X) as [Y|Y]; [congruence|right; exact Y].
  - destruct old.
    + destruct W as [H|H|q H|H|q m H|q H|H|H|H|H|H]; cbn; auto; discriminate.
    + assert (sg_conn s = true -> sg_pc s <> SSpawn -> up s) as U' by (intros X Y; destruct (U X); [contradiction|assumption]).
      assert (forall k, sg_thread s <> None -> k <> KEpi -> k <> KEnded -> forall s1, sg_conn s1 = sg_conn s -> sg_pc s1 = sg_pc s -> sg_thread s1 = Some k -> sg_stop s1 = sg_stop s ->
        sg_conn s1 = true -> sg_pc s1 = SSpawn \/ up s1) as K.
      { intros k N N1 N2 s1 E1 E2 E3 E4 X. rewrite E1 in X. destruct (U X) as [Y|[Y _]]; [left; congruence|right]. split; [congruence|]. exists k. auto. }
      destruct W as [H|H|q H X Y|H X|q m H|q H|H|H|H|H|H]; auto; cbn in H; try (cbn; discriminate).
      * apply (K (KRecv q)); cbn; congruence.
      * cbn. intros Z. destruct (U Z) as [Y|[Y _]]; [left; exact Y|]. cbn in X. destruct X; congruence.
      * apply (K (KBusy m)); cbn; congruence.
      * apply (K KTop); cbn; congruence.
      * apply (K KTop); cbn; congruence.
      * apply (K KTop); cbn; congruence.
      * apply (K KTop); cbn; congruence.
  - cbn. discriminate.
Qed.
Lemma on_run cap kinds h i s : let w := grun (segs0 cap kinds) h in gw_fate w = None -> at_ i w s -> on s.
Proof.
  intros w F A. destruct (at_start cap kinds i w s h eq_refl F A) as (k & A0).
  assert (on (seg0 k)) as O by (split; [apply sane0|discriminate]).
  destruct (grun_inv on on_step i h _ _ F A0 O) as (s' & A' & S). rewrite (at_fun i w s s' A A'). exact S.
Qed.

(** ** The opener is told *)
Definition knear (k : kwk) : nat := match k with KTop => 3 | KRecv _ => 2 | KBusy _ => 4 | KEpi | KEnded => 0 end.
Definition told (s : seg) : Prop := sg_conn s = false /\ sg_pend s = 0 /\ sg_pc s = KOut.
Inductive tell (i q : nat) (w : segs) : nat -> Prop :=
| TlQueue : forall s k l l', at_ i w s -> sg_conn s = true -> sg_stop s = false -> sg_pc s = KOut -> sg_old s = None -> sg_rx s = Some q ->
    sg_thread s = Some k -> k <> KEpi -> k <> KEnded -> queue q w = l ++ GBye :: l' -> tell i q w (3 * length l + knear k)
| TlBusy : forall s, at_ i w s -> sg_conn s = true -> sg_pc s = KOut -> sg_old s = None -> sg_thread s = Some (KBusy GBye) -> tell i q w 1
| TlTold : forall s, at_ i w s -> sg_old s = None -> told s -> tell i q w 0.

Definition alone (i : nat) (v : gact) : Prop := v <> GStart i /\ v <> GClose i /\ v <> GDestroy i.

Lemma told_step i v s s' : alone i v -> sg_old s = None -> told s -> gmv i v s s' -> sg_old s' = None /\ told s'.
Proof.
  intros (N1 & N2 & N3) O (C & P & Q) M. destruct M as [|E|E|E|s' E R|old s' E W|E X|n E J X|E T]; try contradiction; unfold told in *; cbn; auto; try congruence.
  - destruct R as [NP|rx tx X|X Cr]; try congruence. unfold own_next. rewrite Q. auto.
  - destruct old; [rewrite (workrel_none s s' O W); auto|]. rewrite (workrel_old s s' W). split; [exact O|].
    destruct W as [H|H|q H X Y|H X|q m H|q H|H|H|H|H|H]; cbn; auto. rewrite P. auto.
Qed.

Lemma tell_step i q w v n : (forall j s, j <> i -> at_ j w s -> sg_rx s <> Some q) -> q < length (gw_qs w) -> alone i v ->
  gw_fate (gstep w v) = None -> tell i q w n -> exists n', tell i q (gstep w v) n' /\ n' <= n /\ (v = GWork i false -> n' <= pred n).
Proof.
  intros Only B N F H. assert (gw_fate w = None) as Fw by (destruct (gw_fate w) eqn:X; [rewrite gfated_step in F; congruence|reflexivity]).
  destruct H as [s k l l' A C S P O R T K1 K2 Q|s A C P O T|s A O D].
  - destruct (ends_step i v w s A F) as (s' & A' & M & X).
    assert (sg_rx s' = Some q) as R' by (destruct X as [[X _]|(_ & X & _)]; congruence).
    destruct (queue_step q w v Fw B) as [(j & old & t & m & -> & At & Tt & Rt & Qt & Att)|(ms & Qs)].
    + destruct (Nat.eq_dec j i) as [-> |Nj]; [|exfalso; exact (Only j t Nj At Rt)].
      assert (t = s) as -> by exact (at_fun _ _ _ _ At A). assert (old = false) as -> by (destruct old; [cbn in Tt; congruence|reflexivity]).
      cbn in Tt. rewrite T in Tt. injection Tt as ->. rewrite Q in Qt. destruct l as [|m0 l].
      * injection Qt as <- Qt. exists 1. split; [apply TlBusy with (g_set false (KBusy GBye) s); auto|]. cbn. split; [lia|intros _; lia].
      * injection Qt as <- Qt. exists (3 * length l + knear (KBusy m0)). split; [|cbn; split; [lia|intros _; lia]].
        apply TlQueue with (g_set false (KBusy m0) s) l'; auto; try discriminate.
    + rewrite Q in Qs. rewrite <- app_assoc in Qs. cbn in Qs.
      destruct M as [|E Y|E Y|E Y|s' E Y|old s' E W|E Y|nj E J Y|E Y].
      * exists (3 * length l + knear k). split; [eapply TlQueue; eauto|]. split; [lia|contradiction].
      * destruct N as (N & _). contradiction.
      * destruct N as (_ & N & _). contradiction.
      * destruct N as (_ & _ & N). contradiction.
      * exists (3 * length l + knear k). split; [|split; [lia|rewrite E; discriminate]].
        destruct Y as [NP|rx tx Y|Y Cr]; try congruence. unfold own_next in *. rewrite P in *. eapply TlQueue; eauto.
      * destruct old.
        { rewrite (workrel_none s s' O W) in *. exists (3 * length l + knear k). split; [eapply TlQueue; eauto|]. split; [lia|rewrite E; discriminate]. }
        destruct W as [H|H HC HR|q1 H HC HS|H HX|q1 m H|q1 H|H|H|H|H|H]; cbn in H.
        { destruct H; congruence. }
        { congruence. }
        { exists (3 * length l + knear (KRecv q1)). rewrite T in H. injection H as ->. split; [|cbn; split; [lia|intros _; lia]].
          eapply TlQueue; eauto; discriminate. }
        { cbn in HX. destruct HX; congruence. }
        { exfalso. rewrite T in H. injection H as ->. (* it took a message without taking one *)
          assert (g_set false (KBusy m) s = g_set false KTop s \/ takes q w (GWork i false)) as Z.
          { unfold takes. subst v. unfold gstep in *. rewrite Fw in *. cbn [actor] in *. unfold at_ in A. rewrite A in *. unfold g_work in *. cbn [g_thread] in *. rewrite T in *.
            rewrite R in *. destruct (Nat.eqb_spec q1 q) as [Eq1|]; [subst q1|discriminate].
            destruct (nth_error (gw_qs w) q) as [[|m1 lq]|] eqn:Eq.
            - left. apply (at_fun i _ _ _ A'). apply (at_set i s). exact A.
            - exfalso. unfold queue in Q, Qs. cbn in Qs. rewrite (nth_error_nth _ _ [] Eq) in Q.
              pose proof (queue_upd q q lq w (set_end i (g_set false (KBusy m1) s) (set_qs (upd q lq (gw_qs w)) w)) eq_refl) as U. rewrite Nat.eqb_refl in U.
              apply Nat.ltb_lt in B. rewrite B in U. unfold queue in U. cbn in U. rewrite U in Qs. rewrite Qs in Q. apply (f_equal (@length gmsg)) in Q. cbn in Q.
              rewrite !app_length in Q. cbn in Q. rewrite app_length in Q. lia.
            - left. apply (at_fun i _ _ _ A'). apply (at_set i s). exact A. }
          destruct Z as [Z|(j & old & t & m1 & Ev & At & Tt & Rt & Qt & _)].
          { apply (f_equal sg_thread) in Z. discriminate. }
          { subst v. rewrite Qs, Q in Qt. apply (f_equal (@length gmsg)) in Qt. cbn in Qt. rewrite !app_length in Qt. cbn in Qt. rewrite app_length in Qt. lia. } }
        { exfalso. rewrite T in H. injection H as ->. (* the queue was not empty *)
          subst v. unfold gstep in *. rewrite Fw in *. cbn [actor] in *. unfold at_ in A. rewrite A in *. unfold g_work in *. cbn [g_thread] in *. rewrite T in *.
          rewrite R in *. destruct (Nat.eqb_spec q1 q) as [Eq1|]; [subst q1|discriminate].
          destruct (nth_error (gw_qs w) q) as [[|m1 lq]|] eqn:Eq.
          - unfold queue in Q. rewrite (nth_error_nth _ _ [] Eq) in Q. destruct l; discriminate.
          - assert (g_set false KTop s = g_set false (KBusy m1) s) as Z by (apply (at_fun i _ _ _ A'); apply (at_set i s); exact A).
            apply (f_equal sg_thread) in Z. discriminate.
          - apply nth_error_None in Eq. lia. }
        { exists (3 * length l + knear KTop). rewrite T in H. injection H as ->. split; [eapply TlQueue; eauto; discriminate|cbn; split; [lia|intros _; lia]]. }
        { exists (3 * length l + knear KTop). rewrite T in H. injection H as ->. split; [eapply TlQueue; eauto; discriminate|cbn; split; [lia|intros _; lia]]. }
        { exists (3 * length l + knear KTop). rewrite T in H. injection H as ->. split; [eapply TlQueue; eauto; discriminate|cbn; split; [lia|intros _; lia]]. }
        { exists 0. split; [|split; [lia|intros _; lia]]. eapply TlTold; eauto. unfold told. auto. }
        { congruence. }
      * exists (3 * length l + knear k). split; [eapply TlQueue; eauto|]. split; [lia|rewrite E; discriminate].
      * exists (3 * length l + knear k). split; [eapply TlQueue; eauto|]. split; [lia|rewrite E; discriminate].
      * exists 0. split; [|split; [lia|intros _; lia]]. eapply TlTold; eauto. unfold told. auto.
  - destruct (step_at i v w s A F) as (s' & A' & M).
    destruct M as [|E Y|E Y|E Y|s' E Y|old s' E W|E Y|nj E J Y|E Y].
    + exists 1. split; [eapply TlBusy; eauto|]. split; [lia|contradiction].
    + destruct N as (N & _). contradiction.
    + destruct N as (_ & N & _). contradiction.
    + destruct N as (_ & _ & N). contradiction.
    + exists 1. split; [|split; [lia|rewrite E; discriminate]]. destruct Y as [NP|rx tx Y|Y Cr]; try congruence. unfold own_next in *. rewrite P in *. eapply TlBusy; eauto.
    + destruct old.
      { rewrite (workrel_none s s' O W) in *. exists 1. split; [eapply TlBusy; eauto|]. split; [lia|rewrite E; discriminate]. }
      destruct W as [H|H HC HR|q1 H HC HS|H HX|q1 m H|q1 H|H|H|H|H|H]; cbn in H; try congruence.
      { destruct H; congruence. }
      exists 0. split; [|split; [lia|intros _; lia]]. eapply TlTold; eauto. unfold told. auto.
    + exists 1. split; [eapply TlBusy; eauto|]. split; [lia|rewrite E; discriminate].
    + exists 1. split; [eapply TlBusy; eauto|]. split; [lia|rewrite E; discriminate].
    + congruence.
  - destruct (step_at i v w s A F) as (s' & A' & M). destruct (told_step i v s s' N O D M) as [O' D'].
    exists 0. split; [eapply TlTold; eauto|]. split; [lia|intros _; lia].
Qed.

Lemma only_opener kinds i q w : wired kinds w -> (forall j, nth_error kinds j = Some false -> j = i) -> Nat.even q = false ->
  forall j s, j <> i -> at_ j w s -> sg_rx s <> Some q.
Proof.
  intros W U E j s N A R. destruct (wr_half _ _ W j s A) as [H _]. destruct (H q R) as [_ X]. pose proof (wr_kind _ _ W j s A) as K.
  rewrite <- X, E in K. exact (N (U j K)).
Qed.

Lemma tell_rounds kinds i q : (forall j, nth_error kinds j = Some false -> j = i) -> Nat.even q = false ->
  forall k h, rounds [GWork i false] k h -> (forall v, In v h -> alone i v) -> forall w n, gw_fate (grun w h) = None -> wired kinds w -> q < length (gw_qs w) ->
  tell i q w n -> exists n', tell i q (grun w h) n' /\ n' <= n - k.
Proof.
  intros U E.
  assert (forall b w n, (forall v, In v b -> alone i v) -> gw_fate (grun w b) = None -> wired kinds w -> q < length (gw_qs w) -> tell i q w n ->
    wired kinds (grun w b) /\ q < length (gw_qs (grun w b)) /\ exists n', tell i q (grun w b) n' /\ n' <= n /\ (In (GWork i false) b -> n' <= pred n)) as K.
  { induction b as [|v b IH]; intros w n L F W B T.
    - split; [exact W|]. split; [exact B|]. exists n. split; [exact T|]. split; [lia|]. intros [].
    - rewrite grun_cons in *. pose proof (unfated _ _ F) as F1.
      destruct (tell_step i q w v n (only_opener kinds i q w W U E) B (L v (or_introl eq_refl)) F1 T) as (n1 & T1 & L1 & P1).
      destruct (length_step w v) as [Ls _]. assert (q < length (gw_qs (gstep w v))) as B1 by lia.
      destruct (IH _ n1 (fun u X => L u (or_intror X)) F (wired_step _ _ _ F1 W) B1 T1) as (W2 & B2 & n2 & T2 & L2 & P2).
      split; [exact W2|]. split; [exact B2|]. exists n2. split; [exact T2|]. split; [lia|]. intros [X|X]; [specialize (P1 X)|specialize (P2 X)]; lia. }
  intros k h R. induction R as [h|k b h I R IH]; intros L w n F W B T.
  - destruct (K h w n L F W B T) as (_ & _ & n' & T' & X & _). exists n'. split; [exact T'|lia].
  - rewrite grun_app in *. destruct (K b w n (fun v X => L v (in_or_app _ _ _ (or_introl X))) (unfated _ _ F) W B T) as (W1 & B1 & n1 & T1 & X1 & P1).
    destruct (IH (fun v X => L v (in_or_app _ _ _ (or_intror X))) _ n1 F W1 B1 T1) as (n2 & T2 & X2). exists n2. split; [exact T2|].
    specialize (P1 (I _ (or_introl eq_refl))). lia.
Qed.

Lemma cap_step w v : gw_cap (gstep w v) = gw_cap w.
Proof.
  unfold gstep. destruct (gw_fate w); [reflexivity|]. destruct (nth_error (gw_ends w) (actor v)) as [s|]; [|reflexivity].
  destruct v as [j|j|j|j|j o|j|j|j|j|j].
  - destruct (sg_pc s); reflexivity.
  - destruct (sg_pc s); reflexivity.
  - destruct (sg_pc s); reflexivity.
  - unfold g_own. destruct (sg_pc s); try reflexivity.
    + destruct (sg_creator s); [reflexivity|]. destruct (gw_chan w) as [[c d]|]; reflexivity.
    + destruct (sg_old s) as [[]|]; reflexivity.
    + destruct (sg_creator s); reflexivity.
    + destruct (sg_thread s) as [[]|]; reflexivity.
    + destruct (sg_thread s) as [[]|]; reflexivity.
    + destruct (sg_creator s); reflexivity.
    + destruct (sg_thread s) as [[]|]; reflexivity.
    + destruct (sg_thread s) as [[]|]; reflexivity.
    + destruct (sg_creator s); reflexivity.
  - unfold g_work. destruct (g_thread o s) as [[|q'|m| |]|] eqn:T; try reflexivity.
    + destruct (sg_conn s); [destruct (g_stopped o s); [|destruct (sg_rx s)]|]; reflexivity.
    + destruct (match sg_rx s with Some q1 => Nat.eqb q' q1 | None => false end); [|reflexivity].
      destruct (nth_error (gw_qs w) q') as [[|m l]|] eqn:E; reflexivity.
    + destruct m; reflexivity.
  - destruct (sg_pc s); reflexivity.
  - destruct (g_send GRequest s w) as [qs ok]. destruct (sg_pc s); try reflexivity; destruct (sg_conn s); try reflexivity; destruct ok; reflexivity.
  - destruct (sg_jobs s); [reflexivity|]. destruct (sg_pc s); reflexivity.
  - destruct (sg_thread s) as [[|q'|[]| |]|] eqn:T; try reflexivity. destruct (sg_creator s); reflexivity.
  - destruct (sg_thread s) as [[|q'|[]| |]|]; reflexivity.
Qed.
Lemma cap_run h : forall w, gw_cap (grun w h) = gw_cap w.
Proof. induction h as [|v h IH]; intros w; [reflexivity|]. rewrite grun_cons, IH. apply cap_step. Qed.

Lemma opener_told cap kinds h c i sc s q h' :
  let w := grun (segs0 cap kinds) h in
  (forall j, nth_error kinds j = Some false -> j = i) -> nth_error kinds c = Some true ->
  at_ c w sc -> sg_pc sc = CBye -> sg_tx sc = Some q ->
  at_ i w s -> sg_conn s = true -> sg_pc s = KOut -> sg_rx s = Some q ->
  length (queue q w) < cap ->
  left_alone i h' -> rounds [GWork i false] (3 * length (queue q w) + 4) h' -> gw_fate (grun w (GOwn c :: h')) = None ->
  exists s', at_ i (grun w (GOwn c :: h')) s' /\ sg_conn s' = false /\ sg_pend s' = 0.
Proof.
  intros w U Kc Ac Pc Tc A C P R Room L Rd F. assert (gw_fate w = None) as Fw by exact (unfated _ _ F).
  pose proof (wired_run kinds cap h Fw) as W. fold w in W. destruct (on_run cap kinds h i s Fw A) as [[O _ _] [X|(S & k & T & K1 & K2)]]; [exact C|congruence|].
  rewrite P in O. destruct O as [O|O]; [|cbn in O; repeat (destruct O as [O|O]; try discriminate); contradiction].
  destruct (wr_half _ _ W c sc Ac) as [_ Hx]. destruct (Hx q Tc) as [B Eq]. assert (sg_creator sc = true) as Cc by (pose proof (wr_kind _ _ W c sc Ac); congruence).
  rewrite Cc in Eq. cbn in Eq.
  assert (c <> i) as N. { intros ->. rewrite (at_fun _ _ _ _ A Ac) in P. congruence. }
  rewrite grun_cons in *. set (w1 := gstep w (GOwn c)) in *.
  assert (at_ i w1 s) as A1 by (apply step_other; [cbn; congruence|exact A]).
  assert (queue q w1 = queue q w ++ [GBye]) as Q.
  { unfold w1, gstep. rewrite Fw. cbn [actor]. unfold at_ in Ac. rewrite Ac. unfold g_own. rewrite Pc, Cc. unfold queue at 1. cbn [gw_qs set_end set_qs].
    destruct (send_queue GBye sc w) as [_ Sq]. destruct (Sq q) as (ms & E & M). rewrite E. unfold queue. f_equal. apply M; [exact Tc| |exact B].
    unfold w at 2. rewrite cap_run. exact Room. }
  assert (tell i q w1 (3 * length (queue q w) + knear k)) as Tl by (apply TlQueue with s []; auto).
  destruct (length_step w (GOwn c)) as [Ls _].
  destruct (tell_rounds kinds i q U Eq _ h' Rd L w1 _ F (wired_step _ _ _ (unfated _ _ F) W) (Nat.lt_le_trans _ _ _ B Ls) Tl) as (n & Tn & Ln).
  assert (n = 0) as -> by (destruct k; cbn in Ln; lia).
  inversion Tn as [s1 k1 l l' A' C' S' P' O' R' T' K1' K2' Q' En| |s1 A' O' (D1 & D2 & D3)].
  - destruct k1; cbn in En; try lia; congruence.
  - exists s1. auto.
Qed.

(** ** Nobody tells a creator *)
Record quiet (w : segs) : Prop := {
  qt_queue : forall q, Nat.even q = true -> ~ In GBye (queue q w);
  qt_thread : forall i s, at_ i w s -> sg_creator s = true -> sg_thread s <> Some (KBusy GBye) /\ sg_old s <> Some (KBusy GBye) }.

Lemma queue_bye q w v m : gw_fate w = None -> In m (queue q (gstep w v)) -> In m (queue q w) \/
  (exists s, at_ (actor v) w s /\ sg_tx s = Some q /\ (m = GBye -> sg_creator s = true)).
Proof.
  intros F. assert (forall w', gw_qs w' = gw_qs w -> In m (queue q w') -> In m (queue q w)) as Same by (unfold queue; intros w' ->; auto).
  unfold gstep. rewrite F. destruct (nth_error (gw_ends w) (actor v)) as [s|] eqn:A; [|auto].
  assert (forall w' m0, (m0 = GBye -> sg_creator s = true) -> gw_qs w' = fst (g_send m0 s w) -> In m (queue q w') -> In m (queue q w) \/
    exists s, at_ (actor v) w s /\ sg_tx s = Some q /\ (m = GBye -> sg_creator s = true)) as Sent.
  { intros w' m0 C E I. unfold queue in I. rewrite E in I. unfold g_send in I. destruct (sg_tx s) as [q0|] eqn:T; [|left; exact I].
    destruct (nth_error (gw_qs w) q0) as [l|] eqn:El; [|left; exact I]. destruct (length l <? gw_cap w); [|left; exact I]. cbn [fst] in I.
    pose proof (queue_upd q q0 (l ++ [m0]) w (set_qs (upd q0 (l ++ [m0]) (gw_qs w)) w) eq_refl) as U. unfold queue in U. cbn [gw_qs set_qs] in U. rewrite U in I.
    destruct (Nat.eqb_spec q0 q) as [Eq|N]; [|left; exact I]. subst q0. destruct (q <? length (gw_qs w)); [|destruct I]. apply in_app_iff in I.
    destruct I as [I|[I|[]]].
    - left. unfold queue. rewrite (nth_error_nth _ _ [] El). exact I.
    - right. exists s. subst m0. auto. }
  assert (forall w', gw_qs w' = gw_qs w -> In m (queue q w') -> In m (queue q w) \/
    exists s, at_ (actor v) w s /\ sg_tx s = Some q /\ (m = GBye -> sg_creator s = true)) as Same' by (intros w' E I; left; exact (Same w' E I)).
  destruct v as [j|j|j|j|j o|j|j|j|j|j]; cbn [actor] in *.
  - destruct (sg_pc s); apply Same'; reflexivity.
  - destruct (sg_pc s); apply Same'; reflexivity.
  - destruct (sg_pc s); apply Same'; reflexivity.
  - unfold g_own. destruct (sg_pc s); try (apply Same'; reflexivity).
    + destruct (sg_creator s); [|destruct (gw_chan w) as [[c d]|]; apply Same'; reflexivity].
      intros I. left. unfold queue in *. cbn in I. destruct (Nat.lt_ge_cases q (length (gw_qs w))) as [L|L]; [rewrite app_nth1 in I by exact L; exact I|].
      rewrite app_nth2 in I by exact L. destruct (q - length (gw_qs w)) as [|[|[|]]]; destruct I.
    + destruct (sg_old s) as [[]|]; apply Same'; reflexivity.
    + destruct (sg_creator s) eqn:C; [|apply Same'; reflexivity]. apply (Sent _ GBye); auto.
    + destruct (sg_thread s) as [[]|]; apply Same'; reflexivity.
    + destruct (sg_thread s) as [[]|]; apply Same'; reflexivity.
    + destruct (sg_creator s); apply Same'; reflexivity.
    + destruct (sg_thread s) as [[]|]; apply Same'; reflexivity.
    + destruct (sg_thread s) as [[]|]; apply Same'; reflexivity.
    + destruct (sg_creator s); apply Same'; reflexivity.
  - unfold g_work. destruct (g_thread o s) as [[|q'|m0| |]|] eqn:T; try (apply Same'; reflexivity).
    + destruct (sg_conn s); [destruct (g_stopped o s); [|destruct (sg_rx s)]|]; apply Same'; reflexivity.
    + destruct (match sg_rx s with Some q1 => Nat.eqb q' q1 | None => false end); [|apply Same'; reflexivity].
      destruct (nth_error (gw_qs w) q') as [[|m0 l]|] eqn:E; try (apply Same'; reflexivity).
      rewrite (queue_upd q q' l w (set_end j (g_set o (KBusy m0) s) (set_qs (upd q' l (gw_qs w)) w)) eq_refl). intros I. left.
      destruct (Nat.eqb_spec q' q) as [X|N]; [|exact I]. subst q'. destruct (q <? length (gw_qs w)); [|destruct I]. unfold queue. rewrite (nth_error_nth _ _ [] E). right. exact I.
    + destruct m0; apply Same'; reflexivity.
  - destruct (sg_pc s); try (apply (Sent _ GNote); [discriminate|reflexivity]); apply Same'; reflexivity.
  - destruct (g_send GRequest s w) as [qs ok] eqn:E. assert (forall w', gw_qs w' = qs -> In m (queue q w') -> In m (queue q w) \/
      exists s, at_ j w s /\ sg_tx s = Some q /\ (m = GBye -> sg_creator s = true)) as Q.
    { intros w' X. apply (Sent w' GRequest); [discriminate|rewrite E; exact X]. }
    destruct (sg_pc s); try (destruct (sg_conn s); [apply Q; reflexivity|]); apply Same'; reflexivity.
  - destruct (sg_jobs s); [apply Same'; reflexivity|]. destruct (sg_pc s); try (apply (Sent _ GReply); [discriminate|reflexivity]); apply Same'; reflexivity.
  - destruct (sg_thread s) as [[|q'|[]| |]|]; try (apply Same'; reflexivity). destruct (sg_creator s) eqn:C; [|apply Same'; reflexivity].
    apply (Sent _ GBye); auto.
  - destruct (sg_thread s) as [[|q'|[]| |]|]; apply Same'; reflexivity.
Qed.

Lemma quiet_step kinds w v : gw_fate (gstep w v) = None -> wired kinds w -> quiet w -> quiet (gstep w v).
Proof.
  intros F W [Q T]. assert (gw_fate w = None) as Fw by (destruct (gw_fate w) eqn:X; [rewrite gfated_step in F; congruence|reflexivity]).
  constructor.
  - intros q E I. destruct (queue_bye q w v GBye Fw I) as [J|(s & A & X & C)]; [exact (Q q E J)|].
    destruct (wr_half _ _ W _ s A) as [_ H]. destruct (H q X) as [_ Y]. rewrite (C eq_refl), E in Y. discriminate.
  - intros i s' A' C'. destruct (ends_back i v w s' A') as [s A]. destruct (step_at i v w s A F) as (s1 & A1 & M).
    rewrite (at_fun _ _ _ _ A' A1) in *. clear s' A'. rewrite (creator_step _ _ _ _ M) in C'. destruct (T i s A C') as [T1 T2].
    destruct M as [|E P|E P|E P|s' E R|old s' E Wk|E P|n E J P|E X]; auto.
    + destruct R as [NP|rx tx P|P Cr]; auto. unfold own_next. destruct (sg_pc s); cbn; auto; try (split; congruence);
        try (destruct (sg_old s) as [[]|] eqn:Eo; cbn; split; congruence); try (destruct (sg_thread s) as [[]|] eqn:Et; cbn; split; congruence).
    + assert (forall k, k <> KBusy GBye -> forall s2, (if old then sg_old s2 else sg_thread s2) = Some k -> (if old then sg_thread s2 else sg_old s2) = (if old then sg_thread s else sg_old s) ->
        sg_thread s2 <> Some (KBusy GBye) /\ sg_old s2 <> Some (KBusy GBye)) as K.
      { intros k N s2 E1 E2. destruct old; split; congruence. }
      destruct Wk as [H|H HC HR|q1 H HC HS|H HX|q1 m H|q1 H|H|H|H|H|H]; auto.
      * apply (K (KRecv q1)); [discriminate| |]; destruct old; reflexivity.
      * apply (K KEpi); [discriminate| |]; destruct old; reflexivity.
      * assert (m <> GBye) as Nm.
        { intros Em. subst m v. unfold gstep in F, A1. rewrite Fw in F, A1. cbn [actor] in F, A1. unfold at_ in A. rewrite A in F, A1. unfold g_work in F, A1. rewrite H in F, A1.
          destruct (sg_rx s) as [q2|] eqn:R2; [|discriminate]. destruct (Nat.eqb_spec q1 q2) as [Eq|]; [|discriminate]. subst q2.
          destruct (wr_half _ _ W i s A) as [Hq _]. destruct (Hq q1 R2) as [_ Ev]. rewrite C' in Ev.
          destruct (nth_error (gw_qs w) q1) as [[|m1 l]|] eqn:Eq.
          - assert (g_set old (KBusy GBye) s = g_set old KTop s) as Z by (apply (at_fun i _ _ _ A1); apply (at_set i s); exact A).
            destruct old; [apply (f_equal sg_old) in Z|apply (f_equal sg_thread) in Z]; discriminate.
          - assert (g_set old (KBusy GBye) s = g_set old (KBusy m1) s) as Z by (apply (at_fun i _ _ _ A1); apply (at_set i s); exact A).
            assert (m1 = GBye) as -> by (destruct old; [apply (f_equal sg_old) in Z|apply (f_equal sg_thread) in Z]; cbn in Z; congruence).
            apply (Q q1 Ev). unfold queue. rewrite (nth_error_nth _ _ [] Eq). left. reflexivity.
          - assert (g_set old (KBusy GBye) s = g_set old KTop s) as Z by (apply (at_fun i _ _ _ A1); apply (at_set i s); exact A).
            destruct old; [apply (f_equal sg_old) in Z|apply (f_equal sg_thread) in Z]; discriminate. }
        apply (K (KBusy m)); [congruence| |]; destruct old; reflexivity.
      * apply (K KTop); [discriminate| |]; destruct old; reflexivity.
      * apply (K KTop); [discriminate| |]; destruct old; reflexivity.
      * apply (K KTop); [discriminate| |]; destruct old; reflexivity.
      * apply (K KTop); [discriminate| |]; destruct old; reflexivity.
      * apply (K KTop); [discriminate| |]; destruct old; reflexivity.
      * apply (K KEnded); [discriminate| |]; destruct old; reflexivity.
Qed.

Lemma quiet_run kinds cap h : gw_fate (grun (segs0 cap kinds) h) = None -> quiet (grun (segs0 cap kinds) h).
Proof.
  assert (forall h w, gw_fate (grun w h) = None -> wired kinds w -> quiet w -> quiet (grun w h)) as K.
  { clear. induction h as [|v h IH]; intros w F W Q; [exact Q|]. rewrite grun_cons in *. pose proof (unfated _ _ F) as F1.
    apply IH; [exact F| |]; [apply wired_step|apply (quiet_step kinds)]; auto. }
  intros F. apply K; [exact F|apply (wired_run kinds cap []); reflexivity|]. constructor.
  - intros q _. unfold queue. cbn. destruct q; intros [].
  - intros i s A _. unfold at_ in A. cbn in A. rewrite nth_error_map in A. destruct (nth_error kinds i); [|discriminate]. injection A as <-. split; discriminate.
Qed.

(** A creator leaves only by its own doing. *)
Definition cstay (s : seg) : Prop := on s /\ sg_creator s = true /\ sg_conn s = true /\ In (sg_pc s) [KOut; SStop; SJoin] /\ sg_old s = None.
Lemma cstay_step kinds w v i s : wired kinds w -> quiet w -> gw_fate (gstep w v) = None -> at_ i w s -> cstay s -> alone i v -> v <> GInClose i ->
  exists s', at_ i (gstep w v) s' /\ cstay s' /\ (sg_pc s' = sg_pc s \/ v = GOwn i) /\
    (v = GOwn i -> sg_pc s = SStop -> sg_pc s' = SJoin) /\ (v = GOwn i -> In (sg_pc s) [KOut; SJoin] -> sg_pc s' = KOut).
Proof.
  intros W Q F A (O & C & X & P & Z) (N1 & N2 & N3) N4. destruct (step_at i v w s A F) as (s' & A' & M). exists s'. split; [exact A'|].
  pose proof (on_step i v s s' O M) as O'. destruct (qt_thread _ Q i s A C) as [T1 T2]. unfold cstay.
  destruct O as [_ U]. destruct (U X) as [Y|(S & k & T & K1 & K2)]; [rewrite Y in P; cbn in P; repeat (destruct P as [P|P]; try discriminate); contradiction|].
  destruct M as [|E Y|E Y|E Y|s' E R|old s' E Wk|E Y|n E J Y|E Y]; try contradiction.
  - split; [auto 10|]. split; [auto|]. split; intros ->; contradiction.
  - destruct R as [NP|rx tx Y|Y Cr]; try (rewrite Y in P; cbn in P; repeat (destruct P as [P|P]; try discriminate); contradiction).
    unfold own_next in *. cbn in P. destruct P as [P|[P|[P|[]]]]; rewrite <- P in *; try rewrite Z in *; cbn in *; rewrite <- ?P in *; repeat split; auto 10; try apply O'; intros; try congruence;
      repeat match goal with H : _ \/ _ |- _ => destruct H end; try congruence; try contradiction.
  - destruct old; [rewrite (workrel_none s s' Z Wk) in *; split; [auto 10|]; split; [auto|]; split; intros ->; discriminate|].
    assert (sg_pc s' = sg_pc s) as Ep by apply (workrel_pc _ _ _ Wk). assert (sg_creator s' = true) as Ec by (rewrite <- C; apply (workrel_pc _ _ _ Wk)).
    assert (sg_old s' = None) as Eo by (rewrite (workrel_old _ _ Wk); exact Z).
    split; [|split; [auto|split; subst v; discriminate]]. split; [exact O'|]. split; [exact Ec|]. split; [|rewrite Ep; auto].
    destruct Wk as [H|H HC HR|q1 H HC HS|H HX|q1 m H|q1 H|H|H|H|H|H]; auto; cbn in H; congruence.
  - split; [cbn; auto 10|]. split; [auto|]. split; subst v; discriminate.
  - split; [cbn; auto 10|]. split; [auto|]. split; subst v; discriminate.
Qed.

Lemma creator_stays cap kinds h i s h' :
  let w := grun (segs0 cap kinds) h in
  at_ i w s -> sg_creator s = true -> sg_conn s = true -> sg_pc s = KOut -> left_alone i h' -> ~ In (GInClose i) h' -> gw_fate (grun w h') = None ->
  exists s', at_ i (grun w h') s' /\ sg_conn s' = true.
Proof.
  intros w A C X P L N F. pose proof (unfated _ _ F) as Fw.
  assert (cstay s) as S.
  { pose proof (on_run cap kinds h i s Fw A) as O. split; [exact O|]. rewrite P. destruct O as [[O _ _] _]. rewrite P in O.
    destruct O as [O|O]; [cbn; auto 10|]. cbn in O; repeat (destruct O as [O|O]; try discriminate); contradiction. }
  assert (forall h w s, wired kinds w -> quiet w -> gw_fate (grun w h) = None -> at_ i w s -> cstay s -> (forall v, In v h -> alone i v) -> ~ In (GInClose i) h ->
    exists s', at_ i (grun w h) s' /\ cstay s') as K.
  { clear. induction h as [|v h IH]; intros w s W Q F A S L N; [exists s; auto|]. rewrite grun_cons in *. pose proof (unfated _ _ F) as F1.
    destruct (cstay_step kinds w v i s W Q F1 A S (L v (or_introl eq_refl))) as (s1 & A1 & S1 & _). { intros ->. apply N. left. reflexivity. }
    apply (IH _ s1); auto; [apply wired_step; auto|apply (quiet_step kinds); auto| |]; intros; [apply L; right; assumption|intros I; apply N; right; exact I]. }
  destruct (K h' w s (wired_run _ _ _ Fw) (quiet_run _ _ _ Fw) F A S L N) as (s' & A' & (_ & _ & X' & _)). exists s'. auto.
Qed.
