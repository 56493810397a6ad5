(** The write queue: bounded, in order. *)
From Coq Require Import Ascii String List Permutation Arith NArith ZArith Bool Lia ZifyBool ZifyNat ZifyN.
From Verif Require Import StrModel StrProofs FramerModel FramerProofs DoubleModel JsonModel RpcModel RouterModel MapModel PendModel WqModel StdioModel StdioSpec.
Import ListNotations.
Local Open Scope nat_scope.

Definition rest_of (w : wq) : bstr :=
  match w_writer w with WFrame f t => skipn t f | _ => [] end ++ concat (w_queue w).

Record wq_inv (w : wq) : Prop := {
  qi_bytes : w_bytes w = total (held w);
  qi_bound : (w_bytes w <= w_max w)%N;
  qi_frame : forall f t, w_writer w = WFrame f t -> t <= length f;
  qi_nonempty : Forall (fun f => f <> []) (held w);
  qi_text : concat (w_accepted w) = w_wrote w ++ rest_of w \/
            (w_connected w = false /\ (w_writer w = WTop \/ w_writer w = WExit) /\
             exists r, concat (w_accepted w) = w_wrote w ++ r)
}.

Lemma skipn_add : forall (A : Type) n m (l : list A), skipn n (skipn m l) = skipn (m + n) l.
Proof. intros A n m. induction m as [|m IH]; intros l; [reflexivity|]. destruct l; [now rewrite !skipn_nil|]. apply IH. Qed.

Lemma total_cons : forall x a, total (x :: a) = (size x + total a)%N.
Proof. reflexivity. Qed.
Lemma total_app : forall a b, total (a ++ b) = (total a + total b)%N.
Proof.
  induction a as [|x a IH]; intro b; [reflexivity|]. cbn [app]. rewrite !total_cons, IH. lia.
Qed.

Lemma encode_nonempty : forall p, encode p <> [].
Proof. intros p H. apply (f_equal (@length _)) in H. unfold encode in H. rewrite app_length in H. cbn in H. lia. Qed.

Lemma wq_inv_start : forall max, wq_inv (wq_start max).
Proof.
  intro max. constructor; cbn; try easy; try lia; auto.
Qed.

Lemma wq_inv_disconnect : forall w, wq_inv w -> wq_inv (wq_disconnect w).
Proof.
  intros w [I1 I2 I3 I4 I5]. constructor; cbn; auto. destruct I5 as [H|(H1 & H2 & H3)]; [left; exact H|right; auto].
Qed.

Lemma wq_inv_enqueue : forall p w, wq_inv w -> wq_inv (snd (enqueue p w)).
Proof.
  intros p w [I1 I2 I3 I4 I5]. unfold enqueue.
  destruct (N.ltb (w_max w) (w_bytes w + size (encode p))) eqn:E; cbn [snd].
  - constructor; cbn; auto. destruct I5 as [H|(H1 & H2 & H3)]; [left; exact H|right; auto].
  - assert (forall q, match w_writer w with WFrame f _ => [f] | _ => [] end ++ w_queue w ++ [q] = held w ++ [q]) as Eh.
    { intro q. unfold held. now rewrite app_assoc. }
    apply N.ltb_ge in E. constructor; cbn [w_bytes w_max w_writer].
    + unfold held. cbn [w_writer w_queue]. rewrite Eh, total_app, total_cons, I1. change (total []) with 0%N. lia.
    + exact E.
    + exact I3.
    + unfold held. cbn [w_writer w_queue]. rewrite Eh. apply Forall_app. split; [exact I4|]. constructor; [apply encode_nonempty|constructor].
    + unfold rest_of in *. cbn [w_accepted w_wrote w_writer w_queue w_connected]. rewrite !concat_app. cbn [concat]. rewrite app_nil_r.
      destruct I5 as [H|(H1 & H2 & r & H3)].
      * left. rewrite H, <- !app_assoc. reflexivity.
      * right. split; [exact H1|]. split; [exact H2|]. exists (r ++ encode p). rewrite H3. now rewrite app_assoc.
Qed.

Lemma wq_inv_step : forall v w, wq_inv w -> wq_inv (wq_step w v).
Proof.
  intros v w [I1 I2 I3 I4 I5].
  assert (wq_inv w) as I0 by now constructor.
  destruct v as [| |n|msg|]; unfold wq_step; destruct (w_writer w) as [| |f t|] eqn:Ew; try exact I0.
  - (* WLoop *)
    unfold held, rest_of in *. rewrite Ew in *. constructor; cbn; auto.
    + destruct (w_connected w); exact I1.
    + now destruct (w_connected w).
    + destruct (w_connected w); exact I4.
    + unfold rest_of. cbn. destruct I5 as [H|(H1 & H2 & r & H3)].
      * left. destruct (w_connected w); exact H.
      * right. rewrite H1. split; [reflexivity|]. split; [now right|]. now exists r.
  - (* WPop *)
    unfold held, rest_of in *. rewrite Ew in *. destruct (w_queue w) as [|f q] eqn:Eq.
    + destruct (w_connected w) eqn:Ec; [exact I0|]. constructor; unfold held, rest_of; cbn; rewrite ?Eq; auto; try easy.
      destruct I5 as [H|(H1 & H2 & H3)]; [left; exact H|]. right. rewrite Ec. auto.
    + cbn in I4. inversion I4 as [|? ? Hf Hq]; subst. destruct f as [|c f]; [congruence|].
      constructor; unfold held, rest_of; cbn; auto.
      * intros f0 t0 E. injection E as <- <-. cbn. lia.
      * destruct I5 as [H|(_ & [H2|H2] & _)]; [left; exact H|discriminate|discriminate].
  - (* WPut *)
    destruct (Nat.ltb 0 n && Nat.leb (t + n) (length f))%bool eqn:E; [|exact I0].
    apply andb_true_iff in E as [E1 E2]. apply Nat.ltb_lt in E1. apply Nat.leb_le in E2.
    unfold held, rest_of in *. rewrite Ew in *. constructor; unfold held, rest_of; cbn; auto.
    + intros f0 t0 E. injection E as <- <-. exact E2.
    + left. destruct I5 as [H|(_ & [H2|H2] & _)]; [|discriminate|discriminate]. rewrite H, <- !app_assoc. f_equal.
      rewrite app_assoc. f_equal. rewrite <- (firstn_skipn n (skipn t f)) at 1. now rewrite skipn_add.
  - (* WFail *)
    destruct (Nat.ltb t (length f)); [|exact I0]. unfold held, rest_of in *. rewrite Ew in *.
    constructor; unfold held, rest_of; cbn; auto.
    destruct I5 as [H|(_ & [H2|H2] & _)]; [left; exact H|discriminate|discriminate].
  - (* WEnd *)
    destruct (negb (w_connected w) || Nat.leb (length f) t)%bool eqn:E; [|exact I0].
    unfold held, rest_of in *. rewrite Ew in *. cbn [app] in I1. rewrite total_cons in I1.
    constructor; unfold held, rest_of; cbn [w_bytes w_max w_writer w_queue w_accepted w_wrote w_connected app].
    + unfold account. rewrite I1. destruct (N.leb_spec (size f) (size f + total (w_queue w))); lia.
    + unfold account. destruct (N.leb_spec (size f) (w_bytes w)); lia.
    + easy.
    + cbn in I4. now inversion I4.
    + destruct I5 as [H|(_ & [H2|H2] & _)]; [|discriminate|discriminate].
      destruct (w_connected w) eqn:Ec; cbn in E.
      * left. apply Nat.leb_le in E. rewrite skipn_all2 in H by exact E. exact H.
      * right. split; [reflexivity|]. split; [now left|]. eexists. exact H.
Qed.

(** The queue inside the whole transport. *)
Lemma wq_lift : forall (P : wq -> Prop),
  (forall p w, P w -> P (snd (enqueue p w))) -> (forall w, P w -> P (wq_disconnect w)) ->
  (forall v w, P w -> P (wq_step w v)) ->
  forall s v, P (st_wq s) -> P (st_wq (stdio_step s v)).
Proof.
  intros P H1 H2 H3 s v H. destruct v; cbn [stdio_step]; auto.
  - unfold stdio_begin. destruct (st_connected s); [|exact H]. destruct (stdio_id (st_counter s) (rq_id r)). exact H.
  - destruct (take_nth n (st_entering s)) as [[r rest]|]; [|exact H]. unfold stdio_register.
    destruct (deadline_of (st_now s) (st_timeout s)); exact H.
  - destruct (take_nth n (st_out s)) as [[r rest]|]; [|exact H]. cbn. now apply H1.
  - cbn. now apply H1.
  - unfold stdio_message. destruct (route h m) as [calls result].
    assert (forall cs st, P (st_wq st) -> P (st_wq (fold_left (fun st c => match c with CResolve r => stdio_resolve r st | _ => st end) cs st))) as F.
    { induction cs as [|c cs IH]; intros st Hs; [exact Hs|]. cbn. apply IH. destruct c; exact Hs. }
    assert (P (st_wq (fold_left (fun st c => match c with CResolve r => stdio_resolve r st | _ => st end) calls (with_msg m s)))) as K
      by now apply F.
    destruct result as [[text|]|]; [|exact K|exact K]. cbn. now apply H1.
  - destruct (st_sleep s); try exact H. destruct (st_connected s); exact H.
  - destruct (st_sleep s); try exact H; [destruct (st_dead s); exact H|].
    match goal with |- context [Z.leb ?a ?b] => destruct (Z.leb a b) end; exact H.
  - destruct (st_connected s); exact H.
  - cbn. now apply H2.
  - cbn. now apply H3.
Qed.

Lemma wq_lift_run : forall (P : wq -> Prop),
  (forall p w, P w -> P (snd (enqueue p w))) -> (forall w, P w -> P (wq_disconnect w)) ->
  (forall v w, P w -> P (wq_step w v)) ->
  forall vs s, P (st_wq s) -> P (st_wq (stdio_run s vs)).
Proof.
  intros P H1 H2 H3 vs. induction vs as [|v vs IH]; intros s H; [exact H|]. cbn. apply IH. now apply wq_lift.
Qed.

Lemma wq_reachable : forall now ms max vs, wq_inv (st_wq (stdio_run (stdio_start now ms max) vs)).
Proof.
  intros now ms max vs. apply wq_lift_run; [intros; now apply wq_inv_enqueue|intros; now apply wq_inv_disconnect|
    intros; now apply wq_inv_step|apply wq_inv_start].
Qed.

Lemma wq_max : forall now ms max vs,
  w_max (st_wq (stdio_run (stdio_start now ms max) vs)) = if N.eqb max 0 then 1%N else max.
Proof.
  intros now ms max vs. apply (wq_lift_run (fun w => w_max w = if N.eqb max 0 then 1%N else max)); auto.
  - intros p w H. unfold enqueue. destruct (N.ltb (w_max w) (w_bytes w + size (encode p))); exact H.
  - intros v w H. unfold wq_step. destruct v, (w_writer w); auto.
    + destruct (w_queue w); [now destruct (w_connected w)|exact H].
    + destruct (Nat.ltb 0 n && Nat.leb (total + n) (length frame))%bool; exact H.
    + destruct (Nat.ltb total (length frame)); exact H.
    + destruct (negb (w_connected w) || Nat.leb (length frame) total)%bool; exact H.
Qed.

Lemma size_concat : forall l, size (concat l) = total l.
Proof. induction l as [|f l IH]; [reflexivity|]. cbn [concat]. rewrite total_cons. unfold size in *. rewrite app_length. lia. Qed.

(** What is held is what was accepted minus what was written. *)
Lemma held_balance : forall w, wq_inv w -> w_connected w = true ->
  (w_bytes w + size (w_wrote w) = total (w_accepted w) + partial w)%N.
Proof.
  intros w [I1 I2 I3 I4 I5] Hc. destruct I5 as [H|(H & _)]; [|congruence].
  rewrite <- size_concat, H, I1. unfold rest_of, held, partial.
  assert (forall a b : bstr, size (a ++ b) = (size a + size b)%N) as Sa.
  { intros a b. unfold size. rewrite app_length. lia. }
  rewrite !Sa, size_concat, total_app. destruct (w_writer w) as [| |f t|] eqn:Ew; try (change (total []) with 0%N; change (size []) with 0%N; lia).
  specialize (I3 f t eq_refl). rewrite total_cons. change (total []) with 0%N. unfold size. rewrite skipn_length. lia.
Qed.

Lemma written_prefix : forall w, wq_inv w -> exists r, concat (w_accepted w) = w_wrote w ++ r.
Proof. intros w [I1 I2 I3 I4 [H|(_ & _ & r & H)]]; [eexists; exact H|now exists r]. Qed.

(** The writer, left alone, writes everything. *)
Definition wq_run (w : wq) (vs : list wev) : wq := fold_left wq_step vs w.

Lemma wq_run_app : forall w a b, wq_run w (a ++ b) = wq_run (wq_run w a) b.
Proof. intros. apply fold_left_app. Qed.

Lemma writer_frame : forall w f t, w_writer w = WFrame f t -> t <= length f -> w_connected w = true ->
  exists vs, let w' := wq_run w vs in
    w_writer w' = WTop /\ w_connected w' = true /\ w_queue w' = w_queue w /\
    w_wrote w' = w_wrote w ++ skipn t f /\ w_accepted w' = w_accepted w.
Proof.
  intros w f t Ew Ht Hc. destruct (Nat.eq_dec t (length f)) as [E|E].
  - exists [WEnd]. cbn. rewrite Ew. destruct (negb (w_connected w) || Nat.leb (length f) t)%bool eqn:K; [|lia].
    cbn. rewrite skipn_all2 by lia. rewrite app_nil_r. repeat split; auto.
  - exists [WPut (length f - t); WEnd].
    assert ((Nat.ltb 0 (length f - t) && Nat.leb (t + (length f - t)) (length f))%bool = true) as K1 by lia.
    assert (Nat.leb (length f) (t + (length f - t)) = true) as K2 by lia.
    set (w1 := wq_step w (WPut (length f - t))).
    assert (w1 = {| w_connected := true; w_max := w_max w; w_queue := w_queue w; w_bytes := w_bytes w;
                    w_writer := WFrame f (t + (length f - t)); w_wrote := w_wrote w ++ skipn t f;
                    w_accepted := w_accepted w; w_errors := w_errors w |}) as E1.
    { unfold w1, wq_step. rewrite Ew, K1, Hc. rewrite firstn_all2 by (rewrite skipn_length; lia). reflexivity. }
    change (wq_run w [WPut (length f - t); WEnd]) with (wq_step w1 WEnd). rewrite E1.
    unfold wq_step. cbn [w_writer w_connected]. rewrite K2. cbn. repeat split; auto.
Qed.

Lemma writer_queue : forall n w, length (w_queue w) = n -> w_writer w = WTop -> w_connected w = true ->
  Forall (fun f => f <> []) (w_queue w) ->
  exists vs, w_wrote (wq_run w vs) = w_wrote w ++ concat (w_queue w).
Proof.
  induction n as [|n IH]; intros w Hl Ew Hc Hf.
  - exists []. destruct (w_queue w); [|discriminate]. cbn. now rewrite app_nil_r.
  - destruct (w_queue w) as [|f q] eqn:Eq; [discriminate|]. inversion Hf as [|? ? F1 F2]; subst.
    assert (wq_run w [WLoop; WPop] =
      {| w_connected := true; w_max := w_max w; w_queue := q; w_bytes := w_bytes w; w_writer := WFrame f 0;
         w_wrote := w_wrote w; w_accepted := w_accepted w; w_errors := w_errors w |}) as E1.
    { cbn. rewrite Ew, Hc. cbn. rewrite Eq. destruct f; [congruence|]. now rewrite Hc. }
    set (w1 := wq_run w [WLoop; WPop]) in *.
    destruct (writer_frame w1 f 0) as (vs1 & A1 & A2 & A3 & A4 & A5); [now rewrite E1|lia|now rewrite E1|].
    set (w2 := wq_run w1 vs1) in *. 
    assert (w_queue w1 = q) as Q1 by now rewrite E1. assert (w_wrote w1 = w_wrote w) as Q2 by now rewrite E1.
    cbv zeta in A1, A2, A3, A4. fold w2 in A1, A2, A3, A4. rewrite Q1 in A3. rewrite Q2 in A4. cbn [skipn] in A4.
    destruct (IH w2) as (vs2 & B); [rewrite A3; now injection Hl|exact A1|exact A2|now rewrite A3|].
    exists ([WLoop; WPop] ++ vs1 ++ vs2). rewrite !wq_run_app. fold w1 w2. rewrite B, A3, A4, <- app_assoc. reflexivity.
Qed.

Lemma writer_drains : forall w, wq_inv w -> w_connected w = true -> w_writer w <> WExit ->
  exists vs, w_wrote (wq_run w vs) = concat (w_accepted w).
Proof.
  intros w I Hc Hw. destruct I as [I1 I2 I3 I4 [H|(H & _)]]; [|congruence].
  unfold rest_of, held in *. destruct (w_writer w) as [| |f t|] eqn:Ew; [| | |congruence].
  - destruct (writer_queue _ w eq_refl Ew Hc I4) as (vs & E). exists vs. rewrite E, H. reflexivity.
  - destruct (w_queue w) as [|f q] eqn:Eq.
    + exists []. cbn. rewrite H. cbn. now rewrite app_nil_r.
    + cbn in I4. inversion I4 as [|? ? F1 F2]; subst.
      assert (wq_run w [WPop] =
        {| w_connected := true; w_max := w_max w; w_queue := q; w_bytes := w_bytes w; w_writer := WFrame f 0;
           w_wrote := w_wrote w; w_accepted := w_accepted w; w_errors := w_errors w |}) as E1.
      { cbn. rewrite Ew, Eq. destruct f; [congruence|]. now rewrite Hc. }
      set (w1 := wq_run w [WPop]) in *.
      destruct (writer_frame w1 f 0) as (vs1 & A1 & A2 & A3 & A4 & A5); [now rewrite E1|lia|now rewrite E1|].
      set (w2 := wq_run w1 vs1) in *. 
    assert (w_queue w1 = q) as Q1 by now rewrite E1. assert (w_wrote w1 = w_wrote w) as Q2 by now rewrite E1.
    cbv zeta in A1, A2, A3, A4. fold w2 in A1, A2, A3, A4. rewrite Q1 in A3. rewrite Q2 in A4. cbn [skipn] in A4.
      destruct (writer_queue _ w2 eq_refl A1 A2) as (vs2 & B); [now rewrite A3|].
      exists ([WPop] ++ vs1 ++ vs2). rewrite !wq_run_app. fold w1 w2. rewrite B, A3, A4, H. cbn. now rewrite <- app_assoc.
  - cbn in I4. inversion I4 as [|? ? F1 F2]; subst.
    destruct (writer_frame w f t Ew (I3 f t eq_refl) Hc) as (vs1 & A1 & A2 & A3 & A4 & A5).
    set (w2 := wq_run w vs1) in *. cbv zeta in A1, A2, A3, A4. fold w2 in A1, A2, A3, A4.
    destruct (writer_queue _ w2 eq_refl A1 A2) as (vs2 & B); [now rewrite A3|].
    exists (vs1 ++ vs2). rewrite wq_run_app. fold w2. rewrite B, A3, A4, H. now rewrite <- app_assoc.
Qed.

(** The writer does not leave while connected. *)
Lemma writer_stays : forall now ms max vs,
  w_connected (st_wq (stdio_run (stdio_start now ms max) vs)) = true ->
  w_writer (st_wq (stdio_run (stdio_start now ms max) vs)) <> WExit.
Proof.
  intros now ms max vs.
  apply (wq_lift_run (fun w => w_connected w = true -> w_writer w <> WExit)).
  - intros p w H. unfold enqueue. destruct (N.ltb (w_max w) (w_bytes w + size (encode p))); [discriminate|exact H].
  - intros w H. discriminate.
  - intros v w H. unfold wq_step. destruct v, (w_writer w) eqn:Ew; auto; try (rewrite Ew; exact H).
    + cbn. intro Hc. now rewrite Hc.
    + destruct (w_queue w) as [|f q]; [destruct (w_connected w) eqn:Ec; [rewrite Ew; congruence|cbn; congruence]|].
      cbn. destruct f; discriminate.
    + destruct (Nat.ltb 0 n && Nat.leb (total + n) (length frame))%bool; [cbn; discriminate|rewrite Ew; exact H].
    + destruct (Nat.ltb total (length frame)); [cbn; discriminate|rewrite Ew; exact H].
    + destruct (negb (w_connected w) || Nat.leb (length frame) total)%bool; [cbn; discriminate|rewrite Ew; exact H].
  - cbn. discriminate.
Qed.
