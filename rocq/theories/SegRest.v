From Coq Require Import List Arith Bool Lia.
From Verif Require Import SegModel SegSpec SegProofs SegChan SegTold.
Import ListNotations.
Local Open Scope nat_scope.

Local Arguments Nat.ltb : simpl never.
Local Arguments Nat.even : simpl never.

(** ** Who owns the channel *)
Lemma sole_creator n i : nth_error (sole n) i = Some true -> i = 0.
Proof. destruct i; [reflexivity|]. cbn. intros H. apply nth_error_In, repeat_spec in H. discriminate. Qed.

Definition holds_chan (w : segs) : Prop := forall s, at_ 0 w s -> sg_conn s = true \/ sg_pc s = SConn ->
  exists a b, gw_chan w = Some (a, b) /\ sg_rx s = Some a /\ sg_tx s = Some b.

Lemma step_no_fate w v : gw_fate (gstep w v) = None -> gw_fate w = None.
Proof. intros F. destruct (gw_fate w) eqn:X; [rewrite gfated_step in F; congruence|reflexivity]. Qed.

Lemma conn_from i v s s' : gmv i v s s' -> sg_conn s' = true \/ sg_pc s' = SConn -> (sg_conn s = true \/ sg_pc s = SConn) \/ v = GOwn i /\ sg_pc s = SOpen.
Proof.
  intros M X. destruct M as [|E Y|E Y|E Y|s' E Y|old s' E Y|E Y|m E J Y|E Y]; cbn in X; auto; try (destruct X; auto; congruence).
  - destruct Y as [NP|rx tx Y|Y Y']; auto. unfold own_next in X. destruct (sg_pc s) eqn:P; cbn in X; rewrite ?P in X; auto;
      try (destruct (sg_old s) as [[]|]; cbn in X; rewrite ?P in X); try (destruct (sg_thread s) as [[]|]; cbn in X; rewrite ?P in X); destruct X; auto; congruence.
  - destruct (workrel_pc _ _ _ Y) as (Ep & _). rewrite Ep in X. destruct X as [X|X]; [|auto]. destruct (sg_conn s) eqn:Z; [auto|rewrite (workrel_conn _ _ _ Y Z) in X; discriminate].
Qed.

Lemma holds_step n w v : wired (sole n) w -> (forall s, at_ 0 w s -> on s) -> gw_fate (gstep w v) = None -> v <> GInClose 0 -> holds_chan w -> holds_chan (gstep w v).
Proof.
  intros W On F N H s' A' X. pose proof (step_no_fate w v F) as Fw. destruct (ends_back 0 v w s' A') as [s A].
  destruct (ends_step 0 v w s A F) as (s1 & A1 & M & R). rewrite <- (at_fun _ _ _ _ A' A1) in M, R. clear s1 A1.
  assert (sg_creator s = true) as Cr by (pose proof (wr_kind _ _ W 0 s A) as K; cbn in K; congruence).
  destruct (On s A) as [[O C G] _].
  assert (v = GOwn 0 /\ sg_pc s = SOpen \/ ~ (v = GOwn 0 /\ sg_pc s = SOpen)) as [[Ev P]|No].
  { destruct (gact_eq v (GOwn 0)) as [E|E]; [|right; intros [? _]; contradiction]. destruct (sg_pc s); auto; right; intros [_ ?]; discriminate. }
  { subst v. unfold gstep in A' |- *. rewrite Fw in *. cbn [actor] in *. unfold at_ in A. rewrite A in *. unfold g_own in *. rewrite P, Cr in *.
    assert (s' = g_pc SConn (g_open (length (gw_qs w)) (S (length (gw_qs w))) s)) as -> by (apply (at_fun 0 _ _ _ A'); apply (at_set 0 s); exact A).
    exists (length (gw_qs w)), (S (length (gw_qs w))). auto. }
  assert (sg_rx s' = sg_rx s /\ sg_tx s' = sg_tx s) as [-> ->] by (destruct R as [R|(Y & Z & _)]; [exact R|exfalso; apply No; auto]).
  destruct (conn_from 0 v s s' M X) as [X0|X0]; [|contradiction].
  destruct (chan_step w v) as [Y|(t & At & Ct & Y)]; [rewrite Y; exact (H s A X0)|exfalso].
  assert (actor v = 0) as Ea by (apply (sole_creator n); rewrite (wr_kind _ _ W _ t At), Ct; reflexivity).
  rewrite Ea in *. assert (t = s) as Et by exact (at_fun _ _ _ _ At A). subst t.
  destruct Y as [(_ & [[Y _]|[Y Z]])|(Y & Z & _)]; [contradiction| |apply No; auto].
  rewrite C in X0.
  - destruct X0 as [X0|X0]; [discriminate|]. rewrite X0 in Z. cbn in Z. repeat (destruct Z as [Z|Z]; try discriminate). contradiction.
  - cbn in Z. destruct Z as [Z|[Z|[]]]; rewrite <- Z; cbn; auto 15.
Qed.

Lemma holds_run n cap : forall h, ~ In (GInClose 0) h -> gw_fate (grun (segs0 cap (sole n)) h) = None -> holds_chan (grun (segs0 cap (sole n)) h).
Proof.
  induction h as [|v h IH] using rev_ind; intros N F.
  - intros s A [X|X]; unfold at_ in A; cbn in A; injection A as <-; discriminate.
  - rewrite grun_app in *. cbn [grun fold_left] in *. change (fold_left gstep h (segs0 cap (sole n))) with (grun (segs0 cap (sole n)) h) in *.
    pose proof (step_no_fate _ _ F) as F1. apply (holds_step n); auto.
    + apply wired_run. exact F1.
    + intros s A. exact (on_run cap (sole n) h 0 s F1 A).
    + intros ->. apply N, in_or_app. right. left. reflexivity.
    + apply IH; [|exact F1]. intros I. apply N, in_or_app. left. exact I.
Qed.

Lemma opener_joins n cap h s j t :
  let w := grun (segs0 cap (sole n)) h in
  gw_fate w = None -> ~ In (GInClose 0) h -> at_ 0 w s -> sg_conn s = true -> at_ j w t -> j <> 0 -> sg_pc t = SOpen ->
  exists t', at_ j (gstep w (GOwn j)) t' /\ sg_pc t' = SConn /\ sg_rx t' = sg_tx s /\ sg_tx t' = sg_rx s /\ sg_rx t' <> sg_tx t' /\ sg_rx t' <> None /\ sg_tx t' <> None.
Proof.
  intros w F N A C At Nj P. destruct (holds_run n cap h N F s A (or_introl C)) as (a & b & Ch & Ra & Tb). fold w in Ch.
  pose proof (wired_run (sole n) cap h F) as W. fold w in W.
  assert (sg_creator t = false) as Cr.
  { pose proof (wr_kind _ _ W j t At) as K. destruct (sg_creator t); [|reflexivity]. apply sole_creator in K. contradiction. }
  exists (g_pc SConn (g_open b a t)). split; [|rewrite Ra, Tb; cbn; repeat split; try discriminate].
  - unfold gstep. rewrite F. cbn [actor]. unfold at_ in At. rewrite At. unfold g_own. rewrite P, Cr, Ch. apply (at_set j t). exact At.
  - intros E. injection E as ->. destruct (wr_chan _ _ W a a Ch) as [H1 H2]. destruct (H1 a eq_refl) as [_ E1]. destruct (H2 a eq_refl) as [_ E2]. rewrite E1 in E2. discriminate.
Qed.

(** ** Starting again after Close *)
Definition spos (c : kpc) : nat := match c with SOpen => 5 | SConn => 4 | SSpawn => 3 | SStop => 2 | SJoin => 1 | _ => 0 end.
Definition cstart (s : seg) : Prop := on s /\ sg_creator s = true /\ (In (sg_pc s) [SOpen; SConn] /\ sg_thread s = None \/ sg_pc s = SSpawn /\ sg_thread s = None /\ sg_conn s = true) \/ cstay s.

Lemma cstart_step kinds w v i s : wired kinds w -> quiet w -> gw_fate (gstep w v) = None -> at_ i w s -> cstart s -> alone i v -> v <> GInClose i ->
  exists s', at_ i (gstep w v) s' /\ cstart s' /\ spos (sg_pc s') <= spos (sg_pc s) /\ (v = GOwn i -> spos (sg_pc s') <= pred (spos (sg_pc s))).
Proof.
  intros W Q F A [(O & C & H)|S] L N.
  2: { destruct (cstay_step kinds w v i s W Q F A S L N) as (s' & A' & S' & E & K1 & K2). exists s'. split; [exact A'|]. split; [right; exact S'|].
       destruct S as (_ & _ & _ & P & _). cbn in P. destruct (gact_eq v (GOwn i)) as [Ev|Nv].
       - destruct P as [P|[P|[P|[]]]]; rewrite <- P in *.
         + rewrite (K2 Ev) by (cbn; auto). cbn. auto.
         + rewrite (K1 Ev eq_refl). cbn. auto.
         + rewrite (K2 Ev) by (cbn; auto). cbn. auto.
       - destruct E as [-> |E]; [split; [auto|contradiction]|contradiction]. }
  destruct (step_at i v w s A F) as (s' & A' & M). exists s'. split; [exact A'|]. pose proof (on_step i v s s' O M) as O'.
  pose proof (creator_step i v s s' M) as C'. rewrite C in C'. destruct L as (N1 & N2 & N3).
  assert (sg_thread s = None) as T by (destruct H as [[_ T]|[_ [T _]]]; exact T).
  assert (sg_old s = None) as Z.
  { destruct O as [[[Z|Z] _ _] _]; [exact Z|]. exfalso. cbn in Z. destruct H as [[P _]|[P _]]; cbn in P; destruct Z as [Z|[Z|[]]]; rewrite <- Z in P; repeat (destruct P as [P|P]; try discriminate); try contradiction; discriminate. }
  destruct M as [|E Y|E Y|E Y|s' E R|old s' E Wk|E Y|n E J Y|E Y]; try contradiction.
  - split; [left; auto|]. split; [auto|]. intros ->. contradiction.
  - assert (cstart s' /\ spos (sg_pc s') <= pred (spos (sg_pc s))) as [K1 K2]; [|split; [exact K1|split; [lia|auto]]].
    destruct R as [NP|rx tx Y|Y Cr]; [| |congruence].
    + destruct H as [[[P|[P|[]]] _]|(P & _ & X)].
      * congruence.
      * unfold own_next in *. rewrite <- P in *. cbn. split; [left; split; [exact O'|]; split; [exact C'|]; right; cbn; auto|lia].
      * unfold own_next in *. rewrite P in *. cbn. split; [right|lia]. split; [exact O'|]. split; [exact C'|]. cbn. auto.
    + rewrite Y. cbn. split; [left; split; [exact O'|]; split; [exact C'|]; left; cbn; auto|lia].
  - assert (s' = s) as -> by (destruct old; [exact (workrel_none _ _ Z Wk)|]; destruct Wk as [X|X|q X|X|q m X|q X|X|X|X|X|X]; auto; cbn in X; congruence).
    split; [left; auto|]. split; [auto|]. subst v. discriminate.
  - split; [left; split; [exact O'|]; split; [exact C'|exact H]|]. split; [auto|]. subst v. discriminate.
  - split; [left; split; [exact O'|]; split; [exact C'|exact H]|]. split; [auto|]. subst v. discriminate.
Qed.

Lemma creator_starts cap kinds h i s h' :
  let w := grun (segs0 cap kinds) h in
  at_ i w s -> sg_creator s = true -> sg_pc s = KOut -> sg_thread s = None -> left_alone i h' -> ~ In (GInClose i) h' -> rounds [GOwn i] 5 h' ->
  gw_fate (grun w (GStart i :: h')) = None ->
  exists s', at_ i (grun w (GStart i :: h')) s' /\ sg_pc s' = KOut /\ sg_conn s' = true /\ live s' /\ sg_old s' = None.
Proof.
  intros w A C P T L N R F. pose proof (unfated _ _ F) as Fw.
  assert (forall b w s, wired kinds w -> quiet w -> gw_fate (grun w b) = None -> at_ i w s -> cstart s -> (forall v, In v b -> alone i v) -> ~ In (GInClose i) b ->
    exists s', at_ i (grun w b) s' /\ cstart s' /\ wired kinds (grun w b) /\ quiet (grun w b) /\ spos (sg_pc s') <= spos (sg_pc s) /\ (In (GOwn i) b -> spos (sg_pc s') <= pred (spos (sg_pc s)))) as K.
  { clear. induction b as [|v b IH]; intros w s W Q F A S L N; [exists s; cbn; intuition|]. rewrite grun_cons in *. pose proof (unfated _ _ F) as F1.
    destruct (cstart_step kinds w v i s W Q F1 A S (L v (or_introl eq_refl))) as (s1 & A1 & S1 & E1 & E2). { intros ->. apply N. left. reflexivity. }
    destruct (IH _ s1 (wired_step _ _ _ F1 W) (quiet_step _ _ _ F1 W Q) F A1 S1 (fun u X => L u (or_intror X))) as (s2 & A2 & S2 & W2 & Q2 & E3 & E4). { intros I. apply N. right. exact I. }
    exists s2. split; [exact A2|]. split; [exact S2|]. split; [exact W2|]. split; [exact Q2|]. split; [lia|]. intros [X|X]; [specialize (E2 X)|specialize (E4 X)]; lia. }
  assert (forall k b, rounds [GOwn i] k b -> (forall v, In v b -> alone i v) -> ~ In (GInClose i) b -> forall w s, wired kinds w -> quiet w -> gw_fate (grun w b) = None -> at_ i w s -> cstart s ->
    exists s', at_ i (grun w b) s' /\ cstart s' /\ spos (sg_pc s') <= spos (sg_pc s) - k) as K2.
  { intros k b Rb. induction Rb as [b|k b b' I Rb IH]; intros L1 N1 w1 s1 W1 Q1 F1 A1 S1.
    - destruct (K b w1 s1 W1 Q1 F1 A1 S1 L1 N1) as (s2 & A2 & S2 & _ & _ & E & _). exists s2. split; [exact A2|]. split; [exact S2|lia].
    - rewrite grun_app in *. destruct (K b w1 s1 W1 Q1 (unfated _ _ F1) A1 S1) as (s2 & A2 & S2 & W2 & Q2 & _ & E2).
      { intros v X. apply L1, in_or_app. auto. } { intros X. apply N1, in_or_app. auto. }
      destruct (IH (fun v X => L1 v (in_or_app _ _ _ (or_intror X))) (fun X => N1 (in_or_app _ _ _ (or_intror X))) _ s2 W2 Q2 F1 A2 S2) as (s3 & A3 & S3 & E3).
      exists s3. split; [exact A3|]. split; [exact S3|]. specialize (E2 (I _ (or_introl eq_refl))). lia. }
  rewrite grun_cons in *. pose proof (unfated _ _ F) as F1.
  assert (at_ i (gstep w (GStart i)) (g_start s)) as A1.
  { unfold gstep. rewrite Fw. cbn [actor]. unfold at_ in A. rewrite A, P. apply (at_set i s). exact A. }
  pose proof (on_run cap kinds h i s Fw A) as O.
  assert (cstart (g_start s)) as S1.
  { left. split; [|cbn; auto 10]. destruct (step_at i (GStart i) w s A F1) as (s2 & A2 & M). rewrite (at_fun _ _ _ _ A1 A2). exact (on_step _ _ _ _ O M). }
  destruct (K2 5 h' R L N _ _ (wired_step _ _ _ F1 (wired_run kinds cap h Fw)) (quiet_step _ _ _ F1 (wired_run kinds cap h Fw) (quiet_run kinds cap h Fw)) F A1 S1) as (s' & A' & S' & E).
  cbn in E. exists s'. split; [exact A'|]. destruct S' as [(_ & _ & [[[X|[X|[]]] _]|(X & _)])|(O' & C' & X' & P' & Z')].
  1-2: rewrite <- X in E; cbn in E; lia. 1: rewrite X in E; cbn in E; lia.
  cbn in P'. destruct P' as [P'|[P'|[P'|[]]]]; rewrite <- P' in *; cbn in E; try lia. split; [reflexivity|]. split; [exact X'|]. split; [|exact Z'].
  destruct O' as [_ U]. destruct (U X') as [Y|(_ & k & Tk & K1 & K3)]; [congruence|]. unfold live. rewrite Tk. split; congruence.
Qed.

(** An opener, while the channel is there and before its thread runs. *)
Definition ostart (s : seg) : Prop := sane s /\
  (In (sg_pc s) [SOpen; SConn] /\ sg_thread s = None \/ sg_pc s = SSpawn /\ sg_thread s = None /\ sg_conn s = true \/
   In (sg_pc s) [SStop; SJoin; KOut] /\ sg_thread s = Some KTop /\ sg_conn s = true /\ sg_old s = None).

Lemma ostart_step w v i s : gw_chan w <> None -> gw_fate (gstep w v) = None -> at_ i w s -> ostart s -> alone i v -> v <> GWork i false ->
  exists s', at_ i (gstep w v) s' /\ ostart s' /\ spos (sg_pc s') <= spos (sg_pc s) /\ (v = GOwn i -> spos (sg_pc s') <= pred (spos (sg_pc s))).
Proof.
  intros Ch F A (S & H) (N1 & N2 & N3) N. destruct (step_at i v w s A F) as (s' & A' & M). exists s'. split; [exact A'|].
  pose proof (sane_step i v s s' S M) as S'.
  assert (sg_old s = None) as Z.
  { destruct S as [[Z|Z] _ _]; [exact Z|]. cbn in Z. destruct H as [[P _]|[[P _]|(_ & _ & _ & H)]]; [| |exact H]; exfalso; cbn in P;
      destruct Z as [Z|[Z|[]]]; rewrite <- Z in P; repeat (destruct P as [P|P]; try discriminate); try contradiction; discriminate. }
  destruct M as [|E Y|E Y|E Y|s' E R|old s' E Wk|E Y|n E J Y|E Y]; try contradiction.
  - split; [split; auto|]. split; [auto|]. intros ->. contradiction.
  - assert (ostart s' /\ spos (sg_pc s') <= pred (spos (sg_pc s))) as [K1 K2]; [|split; [exact K1|split; [lia|auto]]].
    destruct R as [NP|rx tx Y|Y Cr].
    + destruct H as [[[P|[P|[]]] T]|[(P & T & X)|([P|[P|[P|[]]]] & T & X & _)]]; try congruence; unfold own_next in *; (match type of P with sg_pc s = _ => rewrite P in * | _ => rewrite <- P in * end); try rewrite Z in *; cbn.
      * split; [split; [exact S'|]; right; left; cbn; auto|lia].
      * split; [split; [exact S'|]; right; right; cbn; auto 10|lia].
      * split; [split; [exact S'|]; right; right; cbn; auto 10|lia].
      * split; [split; [exact S'|]; right; right; cbn; auto 10|lia].
      * rewrite <- P. split; [split; [exact S'|]; right; right; rewrite <- P; cbn; auto 10|cbn; lia].
    + rewrite Y. cbn. split; [split; [exact S'|]|lia]. left. cbn. split; [auto|]. destruct H as [[_ T]|[(P & T & X)|(P & _)]]; [exact T|exact T|].
      rewrite Y in P. cbn in P. repeat (destruct P as [P|P]; try discriminate); contradiction.
    + exfalso. pose proof (step_no_fate w v F) as Fw. subst v. unfold gstep in A'. rewrite Fw in A'. cbn [actor] in A'. unfold at_ in A. rewrite A in A'. unfold g_own in A'. rewrite Y, Cr in A'.
      destruct (gw_chan w) as [[c d]|]; [|contradiction].
      assert (g_pc KOut s = g_pc SConn (g_open d c s)) as X by (apply (at_fun i _ _ _ A'); apply (at_set i s); exact A). apply (f_equal sg_pc) in X. discriminate.
  - destruct old; [|contradiction]. rewrite (workrel_none _ _ Z Wk) in *. split; [split; auto|]. split; [auto|]. subst v. discriminate.
  - split; [split; [exact S'|exact H]|]. split; [auto|]. subst v. discriminate.
  - split; [split; [exact S'|exact H]|]. split; [auto|]. subst v. discriminate.
  - exfalso. destruct H as [[_ T]|[(_ & T & _)|(_ & T & _)]]; congruence.
Qed.

Lemma opener_starts cap kinds h i s h' :
  let w := grun (segs0 cap kinds) h in
  at_ i w s -> sg_pc s = KOut -> sg_thread s = None -> left_alone i h' -> ~ In (GWork i false) h' -> rounds [GOwn i] 5 h' ->
  gw_fate (grun w (GStart i :: h')) = None -> chan_kept w (GStart i :: h') ->
  exists s', at_ i (grun w (GStart i :: h')) s' /\ sg_pc s' = KOut /\ sg_conn s' = true /\ live s' /\ sg_old s' = None.
Proof.
  intros w A P T L N R F Ch. pose proof (unfated _ _ F) as Fw.
  assert (forall b w s, chan_kept w b -> gw_fate (grun w b) = None -> at_ i w s -> ostart s -> (forall v, In v b -> alone i v) -> ~ In (GWork i false) b ->
    exists s', at_ i (grun w b) s' /\ ostart s' /\ spos (sg_pc s') <= spos (sg_pc s) /\ (In (GOwn i) b -> spos (sg_pc s') <= pred (spos (sg_pc s)))) as K.
  { clear. induction b as [|v b IH]; intros w s Ch F A S L N; [exists s; cbn; intuition|]. rewrite grun_cons in *. pose proof (unfated _ _ F) as F1.
    destruct (ostart_step w v i s (Ch [] _ eq_refl) F1 A S (L v (or_introl eq_refl))) as (s1 & A1 & S1 & E1 & E2). { intros ->. apply N. left. reflexivity. }
    assert (chan_kept (gstep w v) b) as Ch1. { intros p r ->. exact (Ch (v :: p) r eq_refl). }
    destruct (IH _ s1 Ch1 F A1 S1 (fun u X => L u (or_intror X))) as (s2 & A2 & S2 & E3 & E4). { intros I. apply N. right. exact I. }
    exists s2. split; [exact A2|]. split; [exact S2|]. split; [lia|]. intros [X|X]; [specialize (E2 X)|specialize (E4 X)]; lia. }
  assert (forall k b, rounds [GOwn i] k b -> (forall v, In v b -> alone i v) -> ~ In (GWork i false) b -> forall w s, chan_kept w b -> gw_fate (grun w b) = None -> at_ i w s -> ostart s ->
    exists s', at_ i (grun w b) s' /\ ostart s' /\ spos (sg_pc s') <= spos (sg_pc s) - k) as K2.
  { intros k b Rb. induction Rb as [b|k b b' I Rb IH]; intros L1 N1 w1 s1 Ch1 F1 A1 S1.
    - destruct (K b w1 s1 Ch1 F1 A1 S1 L1 N1) as (s2 & A2 & S2 & E & _). exists s2. split; [exact A2|]. split; [exact S2|lia].
    - rewrite grun_app in *. destruct (K b w1 s1) as (s2 & A2 & S2 & _ & E2); auto.
      { intros p r ->. apply (Ch1 p (r ++ b')). rewrite app_assoc. reflexivity. } { exact (unfated _ _ F1). } { intros v X. apply L1, in_or_app. auto. } { intros X. apply N1, in_or_app. auto. }
      assert (chan_kept (grun w1 b) b') as Ch2. { intros p r ->. rewrite <- grun_app. apply (Ch1 (b ++ p) r). rewrite app_assoc. reflexivity. }
      destruct (IH (fun v X => L1 v (in_or_app _ _ _ (or_intror X))) (fun X => N1 (in_or_app _ _ _ (or_intror X))) _ s2 Ch2 F1 A2 S2) as (s3 & A3 & S3 & E3).
      exists s3. split; [exact A3|]. split; [exact S3|]. specialize (E2 (I _ (or_introl eq_refl))). lia. }
  assert (chan_kept (gstep w (GStart i)) h') as Ch1. { intros p r ->. exact (Ch (GStart i :: p) r eq_refl). }
  rewrite grun_cons in *. pose proof (unfated _ _ F) as F1.
  assert (at_ i (gstep w (GStart i)) (g_start s)) as A1.
  { unfold gstep. rewrite Fw. cbn [actor]. unfold at_ in A. rewrite A, P. apply (at_set i s). exact A. }
  assert (ostart (g_start s)) as S1.
  { split; [|cbn; auto 10]. destruct (step_at i (GStart i) w s A F1) as (s2 & A2 & M). rewrite (at_fun _ _ _ _ A1 A2). exact (sane_step _ _ _ _ (sane_run cap kinds h i s Fw A) M). }
  destruct (K2 5 h' R L N _ _ Ch1 F A1 S1) as (s' & A' & (_ & S') & E). cbn in E. exists s'. split; [exact A'|].
  destruct S' as [[[X|[X|[]]] _]|[(X & _)|(P' & T' & X' & Z')]].
  1-2: rewrite <- X in E; cbn in E; lia. 1: rewrite X in E; cbn in E; lia.
  cbn in P'. destruct P' as [P'|[P'|[P'|[]]]]; rewrite <- P' in *; cbn in E; try lia. split; [reflexivity|]. split; [exact X'|]. split; [|exact Z'].
  unfold live. rewrite T'. split; discriminate.
Qed.

Fixpoint chan_keptb (w : segs) (h : list gact) : bool :=
  match gw_chan w with None => false | Some _ => match h with [] => true | v :: h => chan_keptb (gstep w v) h end end.
Lemma chan_keptb_ok : forall h w, chan_keptb w h = true -> chan_kept w h.
Proof.
  induction h as [|v h IH]; intros w K p r E.
  - destruct p; [|discriminate]. cbn in *. destruct (gw_chan w); [discriminate|discriminate K].
  - destruct p as [|u p].
    + cbn in *. destruct (gw_chan w); [discriminate|discriminate K].
    + injection E as <- E. rewrite grun_cons. cbn in K. destruct (gw_chan w); [|discriminate]. exact (IH _ K p r E).
Qed.
