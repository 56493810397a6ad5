From Coq Require Import List Arith Bool Lia.
From Verif Require Import SegModel SegSpec SegProofs.
Import ListNotations.
Local Open Scope nat_scope.

Local Arguments Nat.ltb : simpl never.
Local Arguments Nat.even : simpl never.

(** ** The queues *)
Lemma queue_upd q q' l w w' : gw_qs w' = upd q' l (gw_qs w) -> queue q w' =
  if Nat.eqb q' q then if q <? length (gw_qs w) then l else [] else queue q w.
Proof.
  unfold queue. intros ->. generalize (gw_qs w). clear w w'. intros qs.
  destruct (Nat.eqb_spec q' q) as [-> |N].
  - destruct (Nat.ltb_spec q (length qs)).
    + apply nth_error_nth. rewrite nth_upd, Nat.eqb_refl. destruct (nth_error qs q) eqn:E; [reflexivity|]. apply nth_error_None in E. lia.
    + apply nth_overflow. rewrite length_upd. lia.
  - destruct (nth_error qs q) eqn:E.
    + rewrite (nth_error_nth qs q [] E). apply nth_error_nth. rewrite nth_upd. destruct (Nat.eqb_spec q' q); [congruence|exact E].
    + apply nth_error_None in E. rewrite !nth_overflow; [reflexivity|exact E|rewrite length_upd; exact E].
Qed.

Lemma send_queue m s w : let r := g_send m s w in
  length (fst r) = length (gw_qs w) /\
  forall q, exists ms, nth q (fst r) [] = nth q (gw_qs w) [] ++ ms /\
    (sg_tx s = Some q -> length (nth q (gw_qs w) []) < gw_cap w -> q < length (gw_qs w) -> ms = [m]).
Proof.
  intros r. unfold r, g_send. destruct (sg_tx s) as [q0|]; [|split; [reflexivity|]; intros q; exists []; rewrite app_nil_r; split; [reflexivity|discriminate]].
  destruct (nth_error (gw_qs w) q0) as [l|] eqn:E.
  2: { split; [reflexivity|]. intros q. exists []. rewrite app_nil_r. split; [reflexivity|]. intros H _ L. injection H as <-. apply nth_error_None in E. lia. }
  pose proof (nth_error_nth _ _ [] E) as En.
  destruct (Nat.ltb_spec (length l) (gw_cap w)) as [L|L].
  - split; [apply length_upd|]. intros q. cbn [fst].
    pose proof (queue_upd q q0 (l ++ [m]) w (set_qs (upd q0 (l ++ [m]) (gw_qs w)) w) eq_refl) as U. unfold queue in U. cbn [gw_qs set_qs] in U. rewrite U.
    destruct (Nat.eqb_spec q0 q) as [-> |N].
    + exists [m]. assert (q < length (gw_qs w)) as B by (apply nth_error_Some; congruence). apply Nat.ltb_lt in B. rewrite B, En. auto.
    + exists []. rewrite app_nil_r. split; [reflexivity|]. intros H. congruence.
  - split; [reflexivity|]. intros q. exists []. rewrite app_nil_r. split; [reflexivity|]. intros H X _. injection H as <-. rewrite En in X. lia.
Qed.

(** What a step does to a queue: something is appended, or a thread takes the oldest message. *)
Definition takes (q : nat) (w : segs) (v : gact) : Prop := exists j old s m,
  v = GWork j old /\ at_ j w s /\ g_thread old s = Some (KRecv q) /\ sg_rx s = Some q /\ queue q w = m :: queue q (gstep w v) /\
  at_ j (gstep w v) (g_set old (KBusy m) s).

Lemma queue_step q w v : gw_fate w = None -> q < length (gw_qs w) -> takes q w v \/ exists ms, queue q (gstep w v) = queue q w ++ ms.
Proof.
  intros F B. assert (forall w', gw_qs w' = gw_qs w -> exists ms, queue q w' = queue q w ++ ms) as Same.
  { intros w' E. exists []. unfold queue. rewrite E, app_nil_r. reflexivity. }
  assert (forall w' m s, gw_qs w' = fst (g_send m s w) -> exists ms, queue q w' = queue q w ++ ms) as Sent.
  { intros w' m s E. destruct (send_queue m s w) as [_ H]. destruct (H q) as (ms & X & _). exists ms. unfold queue. rewrite E. exact X. }
  unfold takes. unfold gstep. rewrite F. destruct (nth_error (gw_ends w) (actor v)) as [s|] eqn:A; [|right; apply Same; reflexivity].
  destruct v as [j|j|j|j|j o|j|j|j|j|j]; cbn [actor] in A.
  - right. apply Same. destruct (sg_pc s); reflexivity.
  - right. apply Same. destruct (sg_pc s); reflexivity.
  - right. apply Same. destruct (sg_pc s); reflexivity.
  - right. unfold g_own. destruct (sg_pc s); try (apply Same; reflexivity).
    + destruct (sg_creator s).
      * exists []. unfold queue. cbn. rewrite app_nil_r. apply app_nth1. exact B.
      * apply Same. destruct (gw_chan w) as [[c d]|]; reflexivity.
    + apply Same. destruct (sg_old s) as [[]|]; reflexivity.
    + destruct (sg_creator s); [|apply Same; reflexivity]. apply (Sent _ GBye s). reflexivity.
    + apply Same. destruct (sg_thread s) as [[]|]; reflexivity.
    + apply Same. destruct (sg_thread s) as [[]|]; reflexivity.
    + apply Same. destruct (sg_creator s); reflexivity.
    + apply Same. destruct (sg_thread s) as [[]|]; reflexivity.
    + apply Same. destruct (sg_thread s) as [[]|]; reflexivity.
    + apply Same. destruct (sg_creator s); reflexivity.
  - unfold g_work. destruct (g_thread o s) as [[|q'|m| |]|] eqn:T; try (right; apply Same; reflexivity).
    + right. apply Same. destruct (sg_conn s); [destruct (g_stopped o s); [|destruct (sg_rx s)]|]; reflexivity.
    + destruct (sg_rx s) as [q1|] eqn:R; [|right; apply Same; reflexivity].
      destruct (Nat.eqb_spec q' q1) as [<-|N]; [|right; apply Same; reflexivity].
      destruct (nth_error (gw_qs w) q') as [[|m l]|] eqn:E; try (right; apply Same; reflexivity).
      destruct (Nat.eq_dec q' q) as [-> |N].
      * left. exists j, o, s, m. split; [reflexivity|]. split; [exact A|]. split; [exact T|]. split; [exact R|]. split.
        { rewrite (queue_upd q q l w (set_end j (g_set o (KBusy m) s) (set_qs (upd q l (gw_qs w)) w)) eq_refl), Nat.eqb_refl. apply Nat.ltb_lt in B. rewrite B. unfold queue. apply (nth_error_nth _ _ [] E). }
        { apply (at_set j s). exact A. }
      * right. exists []. rewrite app_nil_r. rewrite (queue_upd q q' l w (set_end j (g_set o (KBusy m) s) (set_qs (upd q' l (gw_qs w)) w)) eq_refl). destruct (Nat.eqb_spec q' q); [congruence|reflexivity].
    + right. apply Same. destruct m; reflexivity.
  - right. destruct (sg_pc s); try (apply (Sent _ GNote s); reflexivity); apply Same; reflexivity.
  - right. destruct (g_send GRequest s w) as [qs ok] eqn:E.
    assert (forall w', gw_qs w' = qs -> exists ms, queue q w' = queue q w ++ ms) as Q.
    { intros w' X. apply (Sent w' GRequest s). rewrite E. exact X. }
    destruct (sg_pc s); try (destruct (sg_conn s); [apply Q; reflexivity|]); apply Same; reflexivity.
  - right. destruct (sg_jobs s); [apply Same; reflexivity|]. destruct (sg_pc s); try (apply (Sent _ GReply s); reflexivity); apply Same; reflexivity.
  - right. destruct (sg_thread s) as [[|q'|[]| |]|]; try (apply Same; reflexivity). destruct (sg_creator s); [|apply Same; reflexivity]. apply (Sent _ GBye s). reflexivity.
  - right. apply Same. destruct (sg_thread s) as [[|q'|[]| |]|]; reflexivity.
Qed.

Lemma length_step w v : length (gw_qs w) <= length (gw_qs (gstep w v)) /\ (Nat.even (length (gw_qs w)) = true -> Nat.even (length (gw_qs (gstep w v))) = true).
Proof.
  assert (forall w', length (gw_qs w') = length (gw_qs w) -> length (gw_qs w) <= length (gw_qs w') /\ (Nat.even (length (gw_qs w)) = true -> Nat.even (length (gw_qs w')) = true)) as Same.
  { intros w' E. rewrite E. auto. }
  unfold gstep. destruct (gw_fate w); [apply Same; reflexivity|]. destruct (nth_error (gw_ends w) (actor v)) as [s|]; [|apply Same; reflexivity].
  destruct v as [j|j|j|j|j o|j|j|j|j|j].
  - apply Same. destruct (sg_pc s); reflexivity.
  - apply Same. destruct (sg_pc s); reflexivity.
  - apply Same. destruct (sg_pc s); reflexivity.
  - unfold g_own. destruct (sg_pc s); try (apply Same; reflexivity).
    + destruct (sg_creator s); [|apply Same; destruct (gw_chan w) as [[c d]|]; reflexivity].
      cbn. rewrite app_length. cbn. split; [lia|]. intros E. rewrite Nat.even_add, E. reflexivity.
    + apply Same. destruct (sg_old s) as [[]|]; reflexivity.
    + apply Same. destruct (sg_creator s); [|reflexivity]. cbn. apply (send_queue GBye s w).
    + apply Same. destruct (sg_thread s) as [[]|]; reflexivity.
    + apply Same. destruct (sg_thread s) as [[]|]; reflexivity.
    + apply Same. destruct (sg_creator s); reflexivity.
    + apply Same. destruct (sg_thread s) as [[]|]; reflexivity.
    + apply Same. destruct (sg_thread s) as [[]|]; reflexivity.
    + apply Same. destruct (sg_creator s); reflexivity.
  - apply Same. unfold g_work. destruct (g_thread o s) as [[|q'|m| |]|] eqn:T; try reflexivity.
    + destruct (sg_conn s); [destruct (g_stopped o s); [|destruct (sg_rx s)]|]; reflexivity.
    + destruct (match sg_rx s with Some q1 => Nat.eqb q' q1 | None => false end); [|reflexivity].
      destruct (nth_error (gw_qs w) q') as [[|m l]|] eqn:E; try reflexivity. cbn. apply length_upd.
    + destruct m; reflexivity.
  - apply Same. destruct (sg_pc s); try reflexivity; cbn; apply (send_queue GNote s w).
  - apply Same. pose proof (send_queue GRequest s w) as [L _]. destruct (g_send GRequest s w) as [qs ok]. cbn in L.
    destruct (sg_pc s); try reflexivity; destruct (sg_conn s); try reflexivity; destruct ok; exact L.
  - apply Same. destruct (sg_jobs s); [reflexivity|]. destruct (sg_pc s); try reflexivity; cbn; apply (send_queue GReply s w).
  - apply Same. destruct (sg_thread s) as [[|q'|[]| |]|]; try reflexivity. destruct (sg_creator s); [|reflexivity]. cbn. apply (send_queue GBye s w).
  - apply Same. destruct (sg_thread s) as [[|q'|[]| |]|]; reflexivity.
Qed.

(** ** Who has which queue *)
Definition half (creator : bool) (w : segs) (rx tx : option nat) : Prop :=
  (forall q, rx = Some q -> q < length (gw_qs w) /\ Nat.even q = creator) /\
  (forall q, tx = Some q -> q < length (gw_qs w) /\ Nat.even q = negb creator).
Record wired (kinds : list bool) (w : segs) : Prop := {
  wr_even : Nat.even (length (gw_qs w)) = true;
  wr_kind : forall i s, at_ i w s -> nth_error kinds i = Some (sg_creator s);
  wr_half : forall i s, at_ i w s -> half (sg_creator s) w (sg_rx s) (sg_tx s);
  wr_chan : forall a b, gw_chan w = Some (a, b) -> half true w (Some a) (Some b) }.

Lemma half_grows c w v rx tx : half c w rx tx -> half c (gstep w v) rx tx.
Proof.
  intros [H1 H2]. destruct (length_step w v) as [L _]. split; intros q E.
  - destruct (H1 q E). split; [lia|assumption].
  - destruct (H2 q E). split; [lia|assumption].
Qed.

(** The channel changes only when a creator opens or removes it. *)
Lemma chan_step w v : gw_chan (gstep w v) = gw_chan w \/
  exists s, at_ (actor v) w s /\ sg_creator s = true /\
    (gw_chan (gstep w v) = None /\ (v = GInClose (actor v) /\ sg_thread s = Some (KBusy GNote) \/ v = GOwn (actor v) /\ In (sg_pc s) [CRemove; DRemove]) \/
     v = GOwn (actor v) /\ sg_pc s = SOpen /\ gw_chan (gstep w v) = Some (length (gw_qs w), S (length (gw_qs w)))).
Proof.
  unfold gstep. destruct (gw_fate w); [left; reflexivity|]. unfold at_. destruct (nth_error (gw_ends w) (actor v)) as [s|] eqn:A; [|left; reflexivity].
  destruct v as [j|j|j|j|j o|j|j|j|j|j]; cbn [actor] in *.
  - left. destruct (sg_pc s); reflexivity.
  - left. destruct (sg_pc s); reflexivity.
  - left. destruct (sg_pc s); reflexivity.
  - unfold g_own. destruct (sg_pc s) eqn:P; try (left; reflexivity).
    + destruct (sg_creator s) eqn:C; [right; exists s; auto 10|left; destruct (gw_chan w) as [[c d]|] eqn:E; cbn; congruence].
    + left. destruct (sg_old s) as [[]|]; reflexivity.
    + left. destruct (sg_creator s); reflexivity.
    + left. destruct (sg_thread s) as [[]|]; reflexivity.
    + left. destruct (sg_thread s) as [[]|]; reflexivity.
    + destruct (sg_creator s) eqn:C; [right; exists s|left; reflexivity]. rewrite P. cbn. auto 10.
    + left. destruct (sg_thread s) as [[]|]; reflexivity.
    + left. destruct (sg_thread s) as [[]|]; reflexivity.
    + destruct (sg_creator s) eqn:C; [right; exists s|left; reflexivity]. rewrite P. cbn. auto 10.
  - left. unfold g_work. destruct (g_thread o s) as [[|q'|m| |]|] eqn:T; try reflexivity.
    + destruct (sg_conn s); [destruct (g_stopped o s); [|destruct (sg_rx s)]|]; reflexivity.
    + destruct (match sg_rx s with Some q1 => Nat.eqb q' q1 | None => false end); [|reflexivity].
      destruct (nth_error (gw_qs w) q') as [[|m l]|] eqn:E; reflexivity.
    + destruct m; reflexivity.
  - left. destruct (sg_pc s); reflexivity.
  - left. destruct (g_send GRequest s w) as [qs ok]. destruct (sg_pc s); try reflexivity; destruct (sg_conn s); try reflexivity; destruct ok; reflexivity.
  - left. destruct (sg_jobs s); [reflexivity|]. destruct (sg_pc s); reflexivity.
  - destruct (sg_thread s) as [[|q'|[]| |]|] eqn:T; try (left; reflexivity). destruct (sg_creator s) eqn:C; [right|left; reflexivity].
    exists s. rewrite T. auto 10.
  - left. destruct (sg_thread s) as [[|q'|[]| |]|]; reflexivity.
Qed.

Lemma creator_step i v s s' : gmv i v s s' -> sg_creator s' = sg_creator s.
Proof.
  intros M. destruct M as [|E P|E P|E P|s' E R|old s' E W|E P|n E J P|E T]; cbn; auto.
  - destruct R as [NP|rx tx P|P Cr]; cbn; auto. unfold own_next. destruct (sg_pc s); cbn; auto;
      try (destruct (sg_old s) as [[]|]; cbn; auto); try (destruct (sg_thread s) as [[]|]; cbn; auto).
  - destruct (workrel_pc _ _ _ W) as (_ & _ & _ & C & _). exact C.
Qed.

(** The queues of a transport change only when Start opens them. *)
Lemma ends_step i v w s : at_ i w s -> gw_fate (gstep w v) = None -> exists s', at_ i (gstep w v) s' /\ gmv i v s s' /\
  (sg_rx s' = sg_rx s /\ sg_tx s' = sg_tx s \/
   v = GOwn i /\ sg_pc s = SOpen /\ sg_pc s' = SConn /\
   (sg_creator s = true /\ sg_rx s' = Some (length (gw_qs w)) /\ sg_tx s' = Some (S (length (gw_qs w))) \/
    sg_creator s = false /\ exists a b, gw_chan w = Some (a, b) /\ sg_rx s' = Some b /\ sg_tx s' = Some a)).
Proof.
  intros A F. destruct (step_at i v w s A F) as (s' & A' & M). exists s'. split; [exact A'|]. split; [exact M|].
  destruct M as [|E P|E P|E P|s' E R|old s' E W|E P|n E J P|E T]; auto.
  - subst v. destruct R as [NP|rx tx P|P Cr].
    + left. unfold own_next. destruct (sg_pc s); auto;
        try (destruct (sg_old s) as [[]|]; cbn; auto); try (destruct (sg_thread s) as [[]|]; cbn; auto).
    + right. split; [reflexivity|]. split; [exact P|]. split; [reflexivity|].
      assert (gw_fate w = None) as Fw by (destruct (gw_fate w) eqn:X; [rewrite gfated_step in F; congruence|reflexivity]).
      unfold gstep in A'. rewrite Fw in A'. unfold at_ in A. cbn [actor] in A'. rewrite A in A'. unfold g_own in A'. rewrite P in A'.
      destruct (sg_creator s) eqn:C.
      * left. split; [reflexivity|].
        assert (g_pc SConn (g_open rx tx s) = g_pc SConn (g_open (length (gw_qs w)) (S (length (gw_qs w))) s)) as E.
        { apply (at_fun i _ _ _ A'). apply (at_set i s). exact A. }
        rewrite E. auto.
      * right. split; [reflexivity|]. destruct (gw_chan w) as [[a b]|].
        { exists a, b. assert (g_pc SConn (g_open rx tx s) = g_pc SConn (g_open b a s)) as E.
          { apply (at_fun i _ _ _ A'). apply (at_set i s). exact A. }
          rewrite E. auto. }
        { exfalso. assert (g_pc SConn (g_open rx tx s) = g_pc KOut s) as E.
          { apply (at_fun i _ _ _ A'). apply (at_set i s). exact A. }
          apply (f_equal sg_pc) in E. discriminate. }
    + left. auto.
  - left. destruct (workrel_pc _ _ _ W) as (_ & _ & _ & _ & R & T). auto.
Qed.

Lemma ends_back i v w s' : at_ i (gstep w v) s' -> exists s, at_ i w s.
Proof.
  intros A. unfold at_ in *. destruct (nth_error (gw_ends w) i) as [s|] eqn:E; [exists s; reflexivity|].
  exfalso. assert (length (gw_ends (gstep w v)) = length (gw_ends w)) as K.
  { clear. unfold gstep. destruct (gw_fate w); [reflexivity|].
        destruct (nth_error (gw_ends w) (actor v)) as [t|]; [|reflexivity].
        destruct v as [j|j|j|j|j o|j|j|j|j|j]; unfold g_own, g_work;
          repeat match goal with
          | |- context [match ?x with _ => _ end] => destruct x
          end; cbn; rewrite ?length_upd; reflexivity. }
  apply nth_error_None in E. assert (nth_error (gw_ends (gstep w v)) i <> None) as X by congruence. apply nth_error_Some in X. lia.
Qed.

Lemma wired_step kinds w v : gw_fate (gstep w v) = None -> wired kinds w -> wired kinds (gstep w v).
Proof.
  intros F [E K H C]. destruct (length_step w v) as [L LE]. constructor.
  - apply LE, E.
  - intros i s' A'. destruct (ends_back i v w s' A') as [s A]. destruct (ends_step i v w s A F) as (s1 & A1 & M & _).
    rewrite (at_fun _ _ _ _ A' A1), (creator_step _ _ _ _ M). exact (K i s A).
  - intros i s' A'. destruct (ends_back i v w s' A') as [s A]. destruct (ends_step i v w s A F) as (s1 & A1 & M & X).
    rewrite (at_fun _ _ _ _ A' A1), (creator_step _ _ _ _ M). destruct X as [[-> ->]|(Ev & P & P1 & X)].
    + apply half_grows, (H i s A).
    + assert (length (gw_qs (gstep w v)) = length (gw_qs w) + if sg_creator s then 2 else 0) as LL.
      { assert (gw_fate w = None) as Fw by (destruct (gw_fate w) eqn:Y; [rewrite gfated_step in F; congruence|reflexivity]).
        subst v. unfold gstep. rewrite Fw. cbn [actor]. unfold at_ in A. rewrite A. unfold g_own. rewrite P. destruct (sg_creator s); cbn.
        - rewrite app_length. reflexivity.
        - destruct (gw_chan w) as [[a b]|]; cbn; lia. }
      destruct X as [(Cr & -> & ->)|(Cr & a & b & Ch & -> & ->)]; rewrite Cr in *.
      * split; intros q Q; injection Q as <-; (split; [lia|]).
        { exact E. }
        { rewrite Nat.even_succ, <- Nat.negb_even, E. reflexivity. }
      * destruct (C a b Ch) as [Ha Hb]. split; intros q Q; injection Q as <-.
        { destruct (Hb b eq_refl). split; [lia|assumption]. }
        { destruct (Ha a eq_refl). split; [lia|assumption]. }
  - intros a b Ch. destruct (chan_step w v) as [X|(s & A & Cr & [[X _]|(Ev & P & X)])].
    + rewrite X in Ch. apply half_grows, C, Ch.
    + congruence.
    + rewrite X in Ch. injection Ch as <- <-.
      assert (length (gw_qs (gstep w v)) = length (gw_qs w) + 2) as LL.
      { assert (gw_fate w = None) as Fw by (destruct (gw_fate w) eqn:Y; [rewrite gfated_step in F; congruence|reflexivity]).
        unfold gstep. rewrite Fw. unfold at_ in A. rewrite A. rewrite Ev. cbn [actor]. unfold g_own. rewrite P, Cr. cbn. rewrite app_length. reflexivity. }
      split; intros q Q; injection Q as <-; (split; [lia|]).
      { exact E. }
      { rewrite Nat.even_succ, <- Nat.negb_even, E. reflexivity. }
Qed.

Lemma wired_run kinds cap : forall h, gw_fate (grun (segs0 cap kinds) h) = None -> wired kinds (grun (segs0 cap kinds) h).
Proof.
  intros h F. assert (forall h w, gw_fate (grun w h) = None -> wired kinds w -> wired kinds (grun w h)) as K.
  { clear. induction h as [|v h IH]; intros w F W; [exact W|]. rewrite grun_cons in *. apply IH; [exact F|]. apply wired_step; [exact (unfated _ _ F)|exact W]. }
  apply K; [exact F|]. constructor; cbn; try discriminate; try reflexivity.
  - intros i s A. unfold at_ in A. cbn in A. rewrite nth_error_map in A. destruct (nth_error kinds i); [|discriminate]. injection A as <-. reflexivity.
  - intros i s A. unfold at_ in A. cbn in A. rewrite nth_error_map in A. destruct (nth_error kinds i); [|discriminate]. injection A as <-. split; discriminate.
Qed.
