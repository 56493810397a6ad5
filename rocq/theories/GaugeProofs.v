(** Proofs about message sizes. *)
From Coq Require Import Ascii String List Arith NArith ZArith Bool Lia ZifyBool ZifyNat ZifyN.
From Verif Require Import StrModel StrProofs DoubleModel JsonModel RpcModel RouterModel MapModel MapProofs MemModel MemSpec MemProofs PendModel ShmModel ShmSpec ShmProofs ShmWords ShmPair GaugeModel GaugeSpec.
Import ListNotations.
Local Open Scope nat_scope.

Lemma grun_snoc : forall ha hb ma mb vs v, grun ha hb ma mb (vs ++ [v]) = gstep ma (grun ha hb ma mb vs) v.
Proof. intros. unfold grun. now rewrite fold_left_app. Qed.

(** A step is no step or a step of the pair. *)
Definition chosen (cap : N) (s : hpair) (x : side) (g : gact) : option hact :=
  match g with
  | GTurn => turn cap (hp_ep s x) (hp_q s x)
  | GDo (AReceive _) | GDo AReceiveError => None
  | GDo a => Some (fit cap (is_creator x) (hp_ep s x) a)
  end.

Lemma gstep_chosen : forall cap s x g,
  gstep cap s (x, g) = match chosen cap s x g with Some a => hpstep s (x, a) | None => s end.
Proof. intros cap s x [[]|]; reflexivity. Qed.

Lemma fit_cases : forall cap c e a, fit cap c e a = a \/ fit cap c e a = refuse a.
Proof. intros. unfold fit. destruct (snd (hstep c e a)) as [m|]; [destruct (N.ltb _ _)|]; auto. Qed.

Lemma good_refuse : forall a, good_hact a -> good_hact (refuse a).
Proof. intros []; cbn; auto. Qed.

Definition good_gact (g : gact) : Prop := match g with GDo a => good_hact a | GTurn => True end.

Lemma grun_pair : forall ha hb ma mb vs, exists ws, grun ha hb ma mb vs = hprun (hpair0 ha hb ma mb) ws /\
  (Forall (fun v => good_gact (snd v)) vs -> Forall (fun v => good_hact (snd v)) ws).
Proof.
  intros ha hb ma mb vs. induction vs as [|[x g] vs (ws & E & G)] using rev_ind; [exists []; split; [reflexivity|constructor]|].
  rewrite grun_snoc, gstep_chosen. destruct (chosen ma (grun ha hb ma mb vs) x g) as [a|] eqn:C.
  - exists (ws ++ [(x, a)]). split; [now rewrite hprun_snoc, E|]. intro H. apply Forall_app in H as [H1 H2]. apply Forall_app. split; [now apply G|].
    constructor; [|constructor]. inversion H2 as [|? ? B _]; subst. cbn [snd] in *. destruct g as [a0|].
    + cbn [good_gact] in B. assert (a = a0 \/ a = refuse a0) as [-> | ->]; [|exact B|now apply good_refuse].
      cbn [chosen] in C. destruct a0; try discriminate C; injection C as <-; apply fit_cases.
    + cbn [chosen] in C. unfold turn in C. destruct (hm_live _); [|discriminate]. destruct (N.ltb _ _); [injection C as <-; exact I|].
      destruct (hp_q _ x); [discriminate|]. injection C as <-. exact I.
  - exists ws. split; [exact E|]. intro H. apply Forall_app in H as [H1 _]. now apply G.
Qed.

(** ** The size of an end never changes *)
Lemma send_max : forall p ok e, hm_max (snd (shm_send p ok e)) = hm_max e.
Proof. intros. unfold shm_send. destruct (negb _); [reflexivity|]. destruct (N.ltb _ _); [reflexivity|]. now destruct ok. Qed.

Lemma put_max : forall p ok e, hm_max (fst (put p ok e)) = hm_max e.
Proof. intros. unfold put. pose proof (send_max p ok e) as H. now destruct (shm_send p ok e). Qed.

Lemma note_max : forall m e, hm_max (shm_notification m e) = hm_max e.
Proof. intros. unfold shm_notification. destruct (deser_notification _ _) as [[] n]; [|reflexivity]. now destruct (beq _ _). Qed.

Lemma process_max : forall m e, hm_max (shm_process m e) = hm_max e.
Proof.
  intros. assert (hm_max (shm_request m e) = hm_max e) as R.
  { unfold shm_request. match goal with |- context [if contains ?a m then ?b else ?c] => destruct (if contains a m then b else c) end; try apply note_max.
    destruct (deser_request _ _) as [[] r]; [|apply note_max]. destruct (hm_handler e); [reflexivity|apply note_max]. }
  unfold shm_process. destruct (_ || _)%bool; [|exact R]. destruct (deser_response _ _) as [[] r]; [reflexivity|exact R].
Qed.

Lemma hstep_max : forall c e a, hm_max (fst (hstep c e a)) = hm_max e.
Proof.
  intros c e a. destruct a as [|r old|n|n ok|n|nt ok|m| | |n h ok|ok|]; cbn [hstep].
  - now destruct (hm_started e).
  - unfold shm_begin. now destruct (hm_connected e).
  - now destruct (take_nth n (hm_entering e)) as [[r rest]|].
  - destruct (take_nth n (hm_out e)) as [[r rest]|]; [|reflexivity]. unfold shm_transmit. destruct (N.ltb _ _); [reflexivity|].
    match goal with |- context [shm_send ?p ?o ?d] => pose proof (send_max p o d) as H; destruct (shm_send p o d) as [[] e2] end; exact H.
  - now destruct (take_nth n (hm_failing e)) as [[[r msg] rest]|].
  - apply put_max.
  - destruct (hm_live e); [|reflexivity]. cbn [fst]. now rewrite process_max.
  - now destruct (hm_live e).
  - now destruct (hm_live e && negb (hm_connected e))%bool.
  - destruct (take_nth n (hm_running e)) as [[r rest]|]; [|reflexivity]. now rewrite put_max.
  - destruct (c && hm_started e)%bool; [|reflexivity]. pose proof (put_max (ser_notification bye) ok e) as H. destruct (put _ ok e). exact H.
  - now destruct (hm_live e).
Qed.

Lemma run_max : forall ha hb ma mb ws x, hm_max (hp_ep (hprun (hpair0 ha hb ma mb) ws) x) = size_of ma mb x.
Proof.
  intros ha hb ma mb ws x. induction ws as [|[z a] ws IH] using rev_ind; [now destruct x|]. rewrite hprun_snoc.
  destruct (hpstep_spec (hprun (hpair0 ha hb ma mb) ws) z a) as [-> | (e & o & qx & E & _ & S)]; [exact IH|]. cbn zeta in S.
  destruct S as (S1 & S2 & _). destruct (side_cases z x) as [-> | ->]; [|now rewrite S2].
  rewrite S1. pose proof (hstep_max (is_creator z) (hp_ep (hprun (hpair0 ha hb ma mb) ws) z) a) as M. rewrite E in M. cbn [fst] in M. now rewrite M.
Qed.

Lemma size_now : forall ha hb ma mb vs x, hm_max (hp_ep (grun ha hb ma mb vs) x) = size_of ma mb x.
Proof. intros. destruct (grun_pair ha hb ma mb vs) as (ws & -> & _). apply run_max. Qed.

Lemma order : forall ha hb ma mb vs x, let s := grun ha hb ma mb vs in
  hp_sent s x = hm_got (hp_ep s (other x)) ++ hp_q s (other x).
Proof. intros. subst s. destruct (grun_pair ha hb ma mb vs) as (ws & -> & _). apply shm_fifo. Qed.

(** ** What is sent fits *)
Lemma put_out : forall p ok e m, snd (put p ok e) = Some m -> m = p /\ ok = true /\ (N.of_nat (length p) <= hm_max e)%N.
Proof.
  intros p ok e m. unfold put, shm_send. destruct (negb _); [discriminate|].
  destruct (N.ltb (hm_max e) (N.of_nat (length p))) eqn:L; [discriminate|]. apply N.ltb_ge in L.
  destruct ok; [|discriminate]. cbn. intro H. injection H as <-. now repeat split.
Qed.

Lemma hstep_out : forall c e a m, snd (hstep c e a) = Some m -> (N.of_nat (length m) <= hm_max e)%N /\ refuse a <> a.
Proof.
  intros c e a m. destruct a as [|r old|n|n ok|n|nt ok|m0| | |n h ok|ok|]; cbn [hstep].
  - now destruct (hm_started e).
  - discriminate.
  - now destruct (take_nth n (hm_entering e)) as [[r rest]|].
  - destruct (take_nth n (hm_out e)) as [[r rest]|]; [|discriminate]. unfold shm_transmit.
    destruct (N.ltb _ _) eqn:L; [discriminate|]. apply N.ltb_ge in L. unfold shm_send. cbn. destruct (negb _); [discriminate|].
    destruct (N.ltb _ _); [discriminate|]. destruct ok; [|discriminate]. cbn. intro H. injection H as <-. now split.
  - now destruct (take_nth n (hm_failing e)) as [[[r msg] rest]|].
  - intro H. apply put_out in H as (-> & -> & L). now split.
  - now destruct (hm_live e).
  - now destruct (hm_live e).
  - now destruct (hm_live e && negb (hm_connected e))%bool.
  - destruct (take_nth n (hm_running e)) as [[r rest]|]; [|discriminate]. intro H. apply put_out in H as (-> & -> & L). now split.
  - destruct (c && hm_started e)%bool; [|discriminate]. destruct (put (ser_notification bye) ok e) as [e1 o] eqn:P. cbn [snd]. intros ->.
    destruct (put_out (ser_notification bye) ok e m) as (-> & -> & L); [now rewrite P|]. now split.
  - now destruct (hm_live e).
Qed.

Lemma refused_none : forall c e a m, snd (hstep c e (refuse a)) = Some m -> False.
Proof. intros c e a m H. apply hstep_out in H as (_ & H). apply H. now destruct a. Qed.

Lemma chosen_out : forall cap s x g a m, chosen cap s x g = Some a -> snd (hstep (is_creator x) (hp_ep s x) a) = Some m ->
  (N.of_nat (length m) <= hm_max (hp_ep s x))%N /\ (N.of_nat (length m) <= cap)%N.
Proof.
  intros cap s x g a m C O. pose proof (hstep_out _ _ _ _ O) as (L & R). split; [exact L|]. destruct g as [a0|].
  - assert (a = fit cap (is_creator x) (hp_ep s x) a0) as F by (cbn [chosen] in C; destruct a0; now (discriminate C || injection C as <-)).
    unfold fit in F. destruct (snd (hstep (is_creator x) (hp_ep s x) a0)) as [m'|] eqn:O'.
    + destruct (N.ltb cap (N.of_nat (length m'))) eqn:B; subst a; [destruct (refused_none _ _ _ _ O)|].
      rewrite O in O'. injection O' as <-. now apply N.ltb_ge.
    + subst a. rewrite O in O'. discriminate.
  - cbn [chosen] in C. unfold turn in C. destruct (hm_live _); [|discriminate]. destruct (N.ltb _ _); [injection C as <-; now elim R|].
    destruct (hp_q s x); [discriminate|]. injection C as <-. now elim R.
Qed.

Lemma sent_fits : forall ha hb ma mb vs x m, In m (hp_sent (grun ha hb ma mb vs) x) -> fits ma mb x m.
Proof.
  intros ha hb ma mb vs x m. induction vs as [|[z g] vs IH] using rev_ind; [intros []|].
  rewrite grun_snoc, gstep_chosen. destruct (chosen ma (grun ha hb ma mb vs) z g) as [a|] eqn:C; [|exact IH].
  destruct (hpstep_spec (grun ha hb ma mb vs) z a) as [-> | (e & o & qx & E & _ & S)]; [exact IH|]. cbn zeta in S.
  destruct S as (_ & _ & _ & _ & S5 & S6). destruct (side_cases z x) as [-> | ->]; [|now rewrite S6].
  rewrite S5. intro H. apply in_app_or in H as [H|H]; [now apply IH|]. destruct o as [m'|]; [|destruct H].
  destruct H as [-> | []]. pose proof (chosen_out _ _ _ _ _ m C) as F. rewrite E in F. specialize (F eq_refl).
  rewrite size_now in F. exact F.
Qed.

(** ** Sending *)
Lemma send_in : forall cap s x n r rest, take_nth n (hm_out (hp_ep s x)) = Some (r, rest) -> hm_started (hp_ep s x) = true ->
  (N.of_nat (length (ser_request r)) <= hm_max (hp_ep s x))%N -> (N.of_nat (length (ser_request r)) <= cap)%N ->
  let s' := gstep cap s (x, GDo (ASend n true)) in
  hp_sent s' x = hp_sent s x ++ [ser_request r] /\ hp_q s' (other x) = hp_q s (other x) ++ [ser_request r] /\
  hm_failing (hp_ep s' x) = hm_failing (hp_ep s x).
Proof.
  intros cap s x n r rest T St L1 L2. assert (exists e, hstep (is_creator x) (hp_ep s x) (ASend n true) = (e, Some (ser_request r)) /\ hm_failing e = hm_failing (hp_ep s x)) as (e & E & F).
  { cbn [hstep]. rewrite T. unfold shm_transmit, shm_send. cbn [hset_calls hm_max hm_started]. rewrite (proj2 (N.ltb_ge _ _) L1), St. cbn [negb]. eexists. split; reflexivity. }
  cbn zeta. cbn [gstep]. unfold fit. rewrite E. cbn [snd]. rewrite (proj2 (N.ltb_ge _ _) L2).
  cbn [hpstep]. rewrite E. cbn [hp_ep hp_q hp_sent]. rewrite !hput_same. now repeat split.
Qed.

Lemma send_large : forall cap s x n ok r rest, take_nth n (hm_out (hp_ep s x)) = Some (r, rest) -> hm_started (hp_ep s x) = true ->
  (hm_max (hp_ep s x) < N.of_nat (length (ser_request r)))%N \/ (cap < N.of_nat (length (ser_request r)))%N ->
  let s' := gstep cap s (x, GDo (ASend n ok)) in
  hp_sent s' x = hp_sent s x /\ hp_q s' (other x) = hp_q s (other x) /\
  exists msg, hm_failing (hp_ep s' x) = hm_failing (hp_ep s x) ++ [(r, msg)] /\ gave_up msg.
Proof.
  intros cap s x n ok r rest T St L.
  assert (exists e msg, hstep (is_creator x) (hp_ep s x) (fit cap (is_creator x) (hp_ep s x) (ASend n ok)) = (e, None) /\
    hm_failing e = hm_failing (hp_ep s x) ++ [(r, msg)] /\ gave_up msg) as (e & msg & E & F & G).
  { assert (forall b, (b = true -> (hm_max (hp_ep s x) < N.of_nat (length (ser_request r)))%N) -> exists e msg, hstep (is_creator x) (hp_ep s x) (ASend n b) = (e, None) /\
      hm_failing e = hm_failing (hp_ep s x) ++ [(r, msg)] /\ gave_up msg) as K.
    { intros b Hb. cbn [hstep]. rewrite T. unfold shm_transmit, shm_send. cbn [hset_calls hm_max hm_started]. rewrite St.
      destruct (N.ltb (hm_max (hp_ep s x)) (N.of_nat (length (ser_request r)))) eqn:B.
      - do 2 eexists. split; [reflexivity|]. split; [reflexivity|]. unfold gave_up. now left.
      - destruct b; [apply N.ltb_ge in B; specialize (Hb eq_refl); lia|]. cbn [negb]. do 2 eexists. split; [reflexivity|]. split; [reflexivity|]. unfold gave_up. right. now left. }
    unfold fit. destruct (snd (hstep (is_creator x) (hp_ep s x) (ASend n ok))) as [m|] eqn:O.
    - assert (m = ser_request r) as ->.
      { cbn [hstep] in O. rewrite T in O. unfold shm_transmit, shm_send in O. cbn [hset_calls hm_max hm_started] in O. rewrite St in O.
        destruct (N.ltb _ _); [discriminate|]. cbn [negb] in O. destruct ok; [|discriminate]. cbn in O. now injection O as <-. }
      destruct (N.ltb cap (N.of_nat (length (ser_request r)))) eqn:B; [apply K; discriminate|].
      apply K. intros _. apply N.ltb_ge in B. lia.
    - destruct ok; [|apply K; discriminate]. apply K. intros _. cbn [hstep] in O. rewrite T in O. unfold shm_transmit, shm_send in O.
      cbn [hset_calls hm_max hm_started] in O. rewrite St in O.
      destruct (N.ltb (hm_max (hp_ep s x)) (N.of_nat (length (ser_request r)))) eqn:B; [now apply N.ltb_lt|]. discriminate O. }
  cbn zeta. cbn [gstep]. assert (exists b, fit cap (is_creator x) (hp_ep s x) (ASend n ok) = ASend n b) as (b & FB).
  { destruct (fit_cases cap (is_creator x) (hp_ep s x) (ASend n ok)) as [-> | ->]; eexists; reflexivity. }
  rewrite FB in E |- *. cbn [hpstep]. rewrite E. cbn [hp_ep hp_q hp_sent]. rewrite hput_same. repeat split; auto. now exists msg.
Qed.

(** ** Receiving *)
Lemma turn_takes : forall cap s x m q, (cap <= hm_max (hp_ep s x))%N -> hm_live (hp_ep s x) = true -> hp_q s x = m :: q ->
  let s' := gstep cap s (x, GTurn) in hm_got (hp_ep s' x) = hm_got (hp_ep s x) ++ [m] /\ hp_q s' x = q.
Proof.
  intros cap s x m q L Li Q. cbn zeta. rewrite gstep_chosen. cbn [chosen]. unfold turn. rewrite Li, (proj2 (N.ltb_ge _ _) L), Q.
  cbn [hpstep]. rewrite Q, Li, (proj2 (beq_eq m m) eq_refl). cbn [andb hstep]. rewrite Li. cbn [hp_ep hp_q]. rewrite !hput_same.
  split; [|reflexivity]. rewrite process_got. reflexivity.
Qed.

Lemma turn_idle : forall cap s x, (cap <= hm_max (hp_ep s x))%N -> hp_q s x = [] -> gstep cap s (x, GTurn) = s.
Proof.
  intros cap s x L Q. rewrite gstep_chosen. cbn [chosen]. unfold turn. rewrite (proj2 (N.ltb_ge _ _) L), Q. now destruct (hm_live _).
Qed.

Lemma turn_breaks : forall cap s x, (hm_max (hp_ep s x) < cap)%N -> hm_live (hp_ep s x) = true ->
  let s' := gstep cap s (x, GTurn) in hm_connected (hp_ep s' x) = false /\ same_traffic s s'.
Proof.
  intros cap s x L Li. cbn zeta. rewrite gstep_chosen. cbn [chosen]. unfold turn. rewrite Li, (proj2 (N.ltb_lt _ _) L).
  cbn [hpstep hstep]. rewrite Li. cbn [hp_ep hp_q hp_sent]. rewrite hput_same. split; [reflexivity|].
  intro y. cbn [hp_ep hp_q hp_sent]. repeat split; try reflexivity. destruct (side_cases x y) as [-> | ->]; [now rewrite hput_same|now rewrite hput_other].
Qed.

Lemma never_got : forall ha hb ma mb vs, (mb < ma)%N -> hm_got (hp_ep (grun ha hb ma mb vs) SideB) = [].
Proof.
  intros ha hb ma mb vs L. induction vs as [|[z g] vs IH] using rev_ind; [reflexivity|].
  rewrite grun_snoc, gstep_chosen. destruct (chosen ma (grun ha hb ma mb vs) z g) as [a|] eqn:C; [|exact IH].
  destruct (hpstep_spec (grun ha hb ma mb vs) z a) as [-> | (e & o & qx & E & _ & S)]; [exact IH|]. cbn zeta in S.
  destruct S as (S1 & S2 & _). destruct z; [cbn [other] in S2; now rewrite S2|]. rewrite S1. rewrite (flow_got _ _ _ _ _ E).
  assert (forall m, a <> AReceive m) as N; [|destruct a; try exact IH; now elim (N m)].
  intros m ->. destruct g as [a0|]; cbn [chosen] in C.
  - destruct a0; try discriminate C; injection C as C;
      match type of C with fit ?c ?d ?e ?b = _ => destruct (fit_cases c d e b) as [F|F]; rewrite F in C; discriminate C end.
  - unfold turn in C. rewrite size_now in C. cbn [size_of] in C. rewrite (proj2 (N.ltb_lt _ _) L) in C. destruct (hm_live _); discriminate C.
Qed.

(** ** Replies *)
Lemma reply_lost : forall cap s x n h ok r rest, take_nth n (hm_running (hp_ep s x)) = Some (r, rest) ->
  (hm_max (hp_ep s x) < N.of_nat (length (ser_response (reply (rq_id r) h))))%N \/ (cap < N.of_nat (length (ser_response (reply (rq_id r) h))))%N ->
  let s' := gstep cap s (x, GDo (AHandler n h ok)) in
  hp_ep s' (other x) = hp_ep s (other x) /\ same_traffic s s' /\ hm_running (hp_ep s' x) = rest.
Proof.
  intros cap s x n h ok r rest T L.
  assert (exists b e, fit cap (is_creator x) (hp_ep s x) (AHandler n h ok) = AHandler n h b /\ hstep (is_creator x) (hp_ep s x) (AHandler n h b) = (e, None)) as (b & e & F & E).
  { unfold fit. destruct (hstep (is_creator x) (hp_ep s x) (AHandler n h ok)) as [e o] eqn:E. cbn [snd]. destruct o as [m|]; [|now exists ok, e].
    assert (m = ser_response (reply (rq_id r) h) /\ (N.of_nat (length m) <= hm_max (hp_ep s x))%N) as (-> & B).
    { assert (snd (hstep (is_creator x) (hp_ep s x) (AHandler n h ok)) = Some m) as O by now rewrite E. cbn [hstep] in O. rewrite T in O.
      apply put_out in O as (-> & _ & B). split; [reflexivity|exact B]. }
    rewrite (proj2 (N.ltb_lt _ _)) by lia. cbn [refuse]. destruct (hstep (is_creator x) (hp_ep s x) (AHandler n h false)) as [e' o'] eqn:E'.
    destruct o' as [m'|]; [|exists false, e'; split; [reflexivity|exact E']]. elim (refused_none (is_creator x) (hp_ep s x) (AHandler n h ok) m'). cbn [refuse]. now rewrite E'. }
  cbn zeta. cbn [gstep]. rewrite F. cbn [hpstep]. rewrite E. cbn [hp_ep hp_q hp_sent]. split; [now rewrite hput_other|].
  pose proof (flow_got _ _ _ _ _ E) as G. split.
  - intro y. cbn [hp_ep hp_q hp_sent]. repeat split; try reflexivity. destruct (side_cases x y) as [-> | ->]; [now rewrite hput_same|now rewrite hput_other].
  - rewrite hput_same. cbn [hstep] in E. rewrite T in E. pose proof (put_flow _ _ _ _ _ E) as (S6 & _). now rewrite (s6_run _ _ S6).
Qed.
