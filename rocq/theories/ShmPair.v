(** Two shared-memory endpoints and their queues. *)
From Coq Require Import Ascii String List Permutation Arith NArith ZArith Bool Lia ZifyBool ZifyNat ZifyN.
From Verif Require Import StrModel StrProofs DoubleModel JsonModel JsonSpec DoubleProofs JsonProofs RpcModel RpcSpec RpcProofs RouterModel RouterProofs MapModel MapProofs MemModel MemSpec MemProofs PendModel PendProofs FramerSpec OauthModel LayoutSpec LayoutProofs ShmModel ShmSpec ShmProofs ShmWords.
Import ListNotations.
Local Open Scope nat_scope.

Definition olist {A} (o : option A) : list A := match o with Some a => [a] | None => [] end.

Lemma hput_same : forall A (f : side -> A) x v, hput f x v x = v.
Proof. intros A f [] v; reflexivity. Qed.
Lemma hput_other : forall A (f : side -> A) x v, hput f x v (other x) = f (other x).
Proof. intros A f [] v; reflexivity. Qed.
Lemma hput_other' : forall A (f : side -> A) x v, hput f (other x) v x = f x.
Proof. intros A f [] v; reflexivity. Qed.

Lemma hpstep_spec : forall s x a, hpstep s (x, a) = s \/ exists e o qx,
  hstep (is_creator x) (hp_ep s x) a = (e, o) /\
  match a with AReceive m => hp_q s x = m :: qx /\ hm_live (hp_ep s x) = true | _ => qx = hp_q s x end /\
  let s' := hpstep s (x, a) in
  hp_ep s' x = e /\ hp_ep s' (other x) = hp_ep s (other x) /\
  hp_q s' x = qx /\ hp_q s' (other x) = hp_q s (other x) ++ olist o /\
  hp_sent s' x = hp_sent s x ++ olist o /\ hp_sent s' (other x) = hp_sent s (other x).
Proof.
  intros s x a.
  assert (forall q, q (other x) = hp_q s (other x) ->
    let s' := (let (e, o) := hstep (is_creator x) (hp_ep s x) a in
      match o with
      | None => {| hp_ep := hput (hp_ep s) x e; hp_q := q; hp_sent := hp_sent s |}
      | Some m => {| hp_ep := hput (hp_ep s) x e; hp_q := hput q (other x) (q (other x) ++ [m]);
                     hp_sent := hput (hp_sent s) x (hp_sent s x ++ [m]) |}
      end) in
    exists e o, hstep (is_creator x) (hp_ep s x) a = (e, o) /\
      hp_ep s' x = e /\ hp_ep s' (other x) = hp_ep s (other x) /\
      hp_q s' x = q x /\ hp_q s' (other x) = hp_q s (other x) ++ olist o /\
      hp_sent s' x = hp_sent s x ++ olist o /\ hp_sent s' (other x) = hp_sent s (other x)) as G.
  { intros q Hq. cbn zeta. destruct (hstep (is_creator x) (hp_ep s x) a) as [e o]. exists e, o. split; [reflexivity|].
    destruct o as [m|]; cbn [hp_ep hp_q hp_sent olist];
      rewrite ?hput_same, ?hput_other, ?hput_other', ?app_nil_r, ?Hq; repeat split; reflexivity. }
  destruct a as [|r old|n|n ok|n|nt ok|m| | |n h ok|ok|];
    try (right; destruct (G (hp_q s) eq_refl) as (e & o & E & R); exists e, o, (hp_q s x);
         split; [exact E|]; split; [reflexivity|]; exact R).
  cbn [hpstep]. destruct (hp_q s x) as [|m' q'] eqn:Q; [now left|].
  destruct (hm_live (hp_ep s x)) eqn:L; cbn [andb]; [|now left].
  destruct (beq m m') eqn:B; [|now left]. apply beq_eq in B. subst m'. right.
  destruct (G (hput (hp_q s) x q')) as (e & o & E & R); [apply hput_other|].
  exists e, o, q'. split; [exact E|]. split; [now split|]. rewrite hput_same in R. exact R.
Qed.

Record same6 (e f : shm) : Prop := {
  s6_en : hm_entering f = hm_entering e;
  s6_out : hm_out f = hm_out e;
  s6_reg : hm_reg f = hm_reg e;
  s6_run : hm_running f = hm_running e;
  s6_got : hm_got f = hm_got e;
  s6_srv : hm_served f = hm_served e
}.

Lemma send_same6 : forall p ok e, same6 e (snd (shm_send p ok e)) /\ hm_handler (snd (shm_send p ok e)) = hm_handler e.
Proof. intros p ok e. destruct (send_same p ok e) as (b & l & -> & [-> | (m & ->)]); now repeat split. Qed.

Lemma put_flow : forall p ok e e' o, put p ok e = (e', o) -> same6 e e' /\ hm_handler e' = hm_handler e /\ (o = None \/ o = Some p).
Proof.
  intros p ok e e' o H. unfold put in H. pose proof (send_same6 p ok e) as [S1 S2].
  destruct (shm_send p ok e) as [b l]. injection H as <- <-. split; [exact S1|]. split; [exact S2|]. destruct b; auto.
Qed.

(** What one step does to the traffic. *)
Lemma hstep_flow : forall c e a e' o, hstep c e a = (e', o) -> hm_handler e' = hm_handler e /\
  ((same6 e e' /\ (o = None \/ (exists n, (n = bye \/ exists ok, a = ANotify n ok) /\ o = Some (ser_notification n)))) \/
   (exists r old, a = ABegin r old /\ o = None /\ hm_out e' = hm_out e /\ hm_reg e' = hm_reg e /\ hm_running e' = hm_running e /\
      hm_got e' = hm_got e /\ hm_served e' = hm_served e /\
      hm_entering e' = hm_entering e ++ [{| rq_id := shm_id old (rq_id r); rq_method := rq_method r; rq_params := rq_params r |}]) \/
   (exists n r rest t, take_nth n (hm_entering e) = Some (r, rest) /\ o = None /\ hm_entering e' = rest /\
      hm_out e' = hm_out e ++ [r] /\ hm_reg e' = hm_reg e ++ [(t, r)] /\ hm_running e' = hm_running e /\
      hm_got e' = hm_got e /\ hm_served e' = hm_served e) \/
   (exists n r rest, take_nth n (hm_out e) = Some (r, rest) /\ (o = None \/ o = Some (ser_request r)) /\
      hm_entering e' = hm_entering e /\ hm_out e' = rest /\ hm_reg e' = hm_reg e /\ hm_running e' = hm_running e /\
      hm_got e' = hm_got e /\ hm_served e' = hm_served e) \/
   (exists m, a = AReceive m /\ o = None /\ hm_live e = true /\ e' = shm_process m (hlog_got m e)) \/
   (exists n h ok r rest, a = AHandler n h ok /\ take_nth n (hm_running e) = Some (r, rest) /\
      (o = None \/ o = Some (ser_response (reply (rq_id r) h))) /\
      hm_entering e' = hm_entering e /\ hm_out e' = hm_out e /\ hm_reg e' = hm_reg e /\ hm_running e' = rest /\
      hm_got e' = hm_got e /\ hm_served e' = hm_served e ++ [(r, h)])).
Proof.
  intros c e a e' o H. destruct a as [|r old|n|n ok|n|nt ok|m| | |n h ok|ok|]; cbn [hstep] in H.
  - destruct (hm_started e); injection H as <- <-; (split; [reflexivity|]; left; split; [now constructor|now left]).
  - injection H as <- <-. unfold shm_begin. destruct (hm_connected e).
    + split; [reflexivity|]. right. left. exists r, old. now repeat split.
    + split; [reflexivity|]. left. split; [now constructor|now left].
  - destruct (take_nth n (hm_entering e)) as [[r rest]|] eqn:T; injection H as <- <-.
    + split; [reflexivity|]. right. right. left. exists n, r, rest, (pt_next (hm_tab e)). now repeat split.
    + split; [reflexivity|]. left. split; [now constructor|now left].
  - destruct (take_nth n (hm_out e)) as [[r rest]|] eqn:T.
    + unfold shm_transmit in H. destruct (N.ltb _ _).
      * injection H as <- <-. split; [reflexivity|]. do 3 right. left. exists n, r, rest.
        split; [exact T|]. split; [now left|]. now repeat split.
      * destruct (send_same6 (ser_request r) ok (hset_calls (hm_entering e) rest (hm_failing e) e)) as [[S1 S2 S3 S4 S5 S6] S7].
        destruct (shm_send (ser_request r) ok (hset_calls (hm_entering e) rest (hm_failing e) e)) as [b l]. cbn [snd] in *.
        destruct b; injection H as <- <-; (split; [exact S7|]); do 3 right; left; exists n, r, rest; (split; [exact T|]).
        -- split; [now right|]. repeat (split; [assumption|]). assumption.
        -- split; [now left|]. cbn. repeat (split; [assumption|]). assumption.
    + injection H as <- <-. split; [reflexivity|]. left. split; [now constructor|now left].
  - destruct (take_nth n (hm_failing e)) as [[[r msg] rest]|]; injection H as <- <-;
      (split; [reflexivity|]; left; split; [now constructor|now left]).
  - apply put_flow in H as (S & Hh & Ho). split; [exact Hh|]. left. split; [exact S|].
    destruct Ho as [->| ->]; [now left|]. right. exists nt. split; [right; now exists ok|reflexivity].
  - destruct (hm_live e) eqn:L; injection H as <- <-.
    + split.
      * unfold shm_process, shm_request, shm_notification. 
        repeat match goal with |- hm_handler (if ?b then _ else _) = _ => destruct b
          | |- hm_handler (match ?b with _ => _ end) = _ => destruct b end; reflexivity.
      * do 4 right. left. now exists m.
    + split; [reflexivity|]. left. split; [now constructor|now left].
  - destruct (hm_live e); injection H as <- <-; (split; [reflexivity|]; left; split; [now constructor|now left]).
  - destruct (hm_live e && negb (hm_connected e))%bool; injection H as <- <-; (split; [reflexivity|]; left; split; [now constructor|now left]).
  - destruct (take_nth n (hm_running e)) as [[r rest]|] eqn:T.
    + apply put_flow in H as ([S1 S2 S3 S4 S5 S6] & Hh & Ho). cbn in S1, S2, S3, S4, S5, S6, Hh. split; [exact Hh|]. do 5 right.
      exists n, h, ok, r, rest. repeat (split; [assumption || reflexivity|]). exact S6.
    + injection H as <- <-. split; [reflexivity|]. left. split; [now constructor|now left].
  - destruct (c && hm_started e)%bool.
    + destruct (put (ser_notification bye) ok e) as [e1 o1] eqn:P. apply put_flow in P as (S & Hh & Ho). injection H as <- <-.
      split; [exact Hh|]. left. split; [destruct S; now constructor|].
      destruct Ho as [->| ->]; [now left|]. right. exists bye. split; [now left|reflexivity].
    + injection H as <- <-. split; [reflexivity|]. left. split; [now constructor|now left].
  - destruct (hm_live e); injection H as <- <-; (split; [reflexivity|]; left; split; [now constructor|now left]).
Qed.

(** ** Order *)
Lemma process_got : forall m e, hm_got (shm_process m e) = hm_got e.
Proof. intros m e. now destruct (process_effect m e) as [_ [_ E _ _ _ _]]. Qed.

Lemma flow_got : forall c e a e' o, hstep c e a = (e', o) ->
  hm_got e' = match a with AReceive m => if hm_live e then hm_got e ++ [m] else hm_got e | _ => hm_got e end.
Proof.
  intros c e a e' o H. assert (match a with AReceive m => True | _ => hm_got e' = hm_got e end) as K.
  { apply hstep_flow in H as (_ & [([] & _)|[(r & old & -> & _ & _ & _ & _ & K & _)|[(n & r & rest & t & _ & _ & _ & _ & _ & _ & K & _)|
      [(n & r & rest & _ & _ & _ & _ & _ & _ & K & _)|[(m & -> & _)|(n & h & ok & r & rest & -> & _ & _ & _ & _ & _ & _ & K & _)]]]]]);
    try (destruct a; try exact I; assumption); exact I || exact K. }
  destruct a; try exact K. cbn [hstep] in H. destruct (hm_live e); injection H as <- _; [|reflexivity].
  now rewrite process_got.
Qed.

Lemma shm_fifo : forall ha hb ma mb vs x, let s := hprun (hpair0 ha hb ma mb) vs in
  hp_sent s x = hm_got (hp_ep s (other x)) ++ hp_q s (other x).
Proof.
  intros ha hb ma mb vs. induction vs as [|[z a] vs IH] using rev_ind; intros x s.
  - destruct x; reflexivity.
  - subst s. unfold hprun. rewrite fold_left_app. cbn [fold_left]. fold (hprun (hpair0 ha hb ma mb) vs).
    set (s := hprun (hpair0 ha hb ma mb) vs) in *.
    destruct (hpstep_spec s z a) as [->|(e & o & qx & E & Q & S)]; [apply IH|]. cbn zeta in S.
    destruct S as (S1 & S2 & S3 & S4 & S5 & S6). apply flow_got in E.
    pose proof (IH z) as I1. pose proof (IH (other z)) as I2. rewrite other_other in I2.
    destruct (side_cases z x) as [->| ->].
    + rewrite S5, S2, S4, I1. now rewrite app_assoc.
    + rewrite other_other, S6, S1, S3, I2. destruct a; subst qx; try (rewrite E; reflexivity).
      destruct Q as [Q L]. rewrite L in E. rewrite Q, E, <- app_assoc. reflexivity.
Qed.

(** ** Good traffic *)
Definition good_rq (r : request) : Prop := clean_request r /\ silent_request r.

Lemma digit_clean : forall c, implb (is_digit c) (cleanb [c]) = true.
Proof. apply all_ascii. vm_compute. reflexivity. Qed.

Lemma print_N_clean : forall n, clean (print_N n).
Proof.
  intro n. destruct (print_N_spec n) as (_ & F & _). unfold clean. rewrite Forall_forall. rewrite forallb_forall in F. intros c Hc.
  pose proof (digit_clean c) as D. rewrite (F c Hc) in D. cbn [implb] in D. apply cleanb_clean in D. now inversion D.
Qed.

Lemma shm_id_good : forall old r, good_rq r ->
  good_rq {| rq_id := shm_id old (rq_id r); rq_method := rq_method r; rq_params := rq_params r |}.
Proof.
  intros old [i m p] G. pose proof G as [((H1 & H2 & H3 & H4 & H5) & C1 & C2) (S1 & S2 & S3)]. cbn [rq_id rq_method rq_params] in *.
  assert (shm_id old i = i \/ exists n, shm_id old i = IdStr (bs "shm-req-" ++ print_N n)) as [E|(n & E)].
  { destruct i as [[|c s]|z|]; cbn [shm_id]; eauto. }
  - rewrite E. exact G.
  - rewrite E. clear G.
    assert (clean (bs "shm-req-" ++ print_N n)) as C.
    { apply Forall_app. split; [now apply cleanb_clean|apply print_N_clean]. }
    assert (forall k, (match k with c :: _ => c <> "s"%char | [] => True end) -> ~ says k (JStr (bs "shm-req-" ++ print_N n))) as S.
    { intros k Hk H. inversion H as [s [E1|(a & E1)]| | |].
      - subst k. cbn in Hk. easy.
      - assert (In QUOTE (bs "shm-req-" ++ print_N n)) as K by (change (In QUOTE (bs "shm-req-" ++ print_N n)) in |- *; cbn [bs app list_ascii_of_string]; rewrite E1; apply in_or_app; right; now left).
        unfold clean in C. rewrite Forall_forall in C. apply C in K. now destruct K as (_ & K & _). }
    split.
    + split; [|split]; cbn [rq_id rq_method].
      * split; [|split; [|split; [exact H3|split; [exact H4|exact H5]]]]; cbn [rq_id id_ok].
        -- intro K. unfold clean in C. rewrite Forall_forall in C. apply C in K. now destruct K as (_ & K & _).
        -- intros s [= <-]. unfold clean in C. rewrite Forall_forall in C.
           split; intro K; apply C in K; now destruct K as (_ & K1 & K2).
      * exact C1.
      * intros s [= <-]. exact C.
    + split; [exact S1|]. split; [|exact S3]. cbn [rq_id]. intros s [= <-]. split; apply S; discriminate.
Qed.

Lemma bye_good : clean_notification bye /\ silent_notification bye.
Proof.
  split; [split; [split; [discriminate|split]|]|split].
  - now apply plainb_plain.
  - intros p [= <-]. now apply okb_ok.
  - now apply cleanb_clean.
  - split; intro H; inversion H as [s Q| | |]; revert Q; apply quotes_no; try discriminate; cbn; intuition discriminate.
  - intros p [= <-]. split; intro H; inversion H; now auto.
Qed.

Definition isreq (m : bstr) : bool :=
  (contains (bs """method""") m && match classify m with KRequest => true | _ => false end && negb (mistaken m))%bool.

Lemma isreq_request : forall r, good_rq r -> isreq (ser_request r) = true.
Proof.
  intros r [C S]. unfold isreq. rewrite mistaken_request by assumption. destruct C as ((H1 & H2 & H3 & H4 & H5) & C1 & C2).
  now rewrite request_contains_method, classify_request by assumption.
Qed.
Lemma isreq_notification : forall n, clean_notification n -> isreq (ser_notification n) = false.
Proof.
  intros n ((H1 & H2 & H3) & C1). unfold isreq. now rewrite notification_contains_method, classify_notification by assumption.
Qed.
Lemma isreq_response : forall r, good_body r -> isreq (ser_response r) = false.
Proof. intros r (H & _). unfold isreq. rewrite response_mistaken by assumption. apply andb_false_r. Qed.

(** What is on a queue from side x. *)
Definition kind_of (e : shm) (m : bstr) : Prop :=
  (exists t r, In (t, r) (hm_reg e) /\ m = ser_request r) \/
  (exists n, clean_notification n /\ silent_notification n /\ m = ser_notification n) \/
  (exists r h, In (r, h) (hm_served e) /\ m = ser_response (reply (rq_id r) h)).

Record hpinv (s : hpair) : Prop := {
  pv_en : forall x r, In r (hm_entering (hp_ep s x)) -> good_rq r;
  pv_reg : forall x t r, In (t, r) (hm_reg (hp_ep s x)) -> good_rq r;
  pv_out : forall x r, In r (hm_out (hp_ep s x)) -> exists t, In (t, r) (hm_reg (hp_ep s x));
  pv_run : forall x r, In r (hm_running (hp_ep s x)) -> exists t, In (t, r) (hm_reg (hp_ep s (other x)));
  pv_srv : forall x r h, In (r, h) (hm_served (hp_ep s x)) ->
    (exists t, In (t, r) (hm_reg (hp_ep s (other x)))) /\ good_body (reply (rq_id r) h);
  pv_sent : forall x m, In m (hp_sent s x) -> kind_of (hp_ep s x) m;
  pv_count : forall x, exists l, Permutation (map (fun tr => ser_request (snd tr)) (hm_reg (hp_ep s x)))
    (map ser_request (hm_out (hp_ep s x)) ++ l ++ filter isreq (hp_sent s x));
  pv_done : forall x, exists l, Permutation (filter isreq (hm_got (hp_ep s x)))
    (map ser_request (hm_running (hp_ep s x) ++ map fst (hm_served (hp_ep s x))) ++ l)
}.

Lemma hpinv0 : forall ha hb ma mb, hpinv (hpair0 ha hb ma mb).
Proof.
  intros ha hb ma mb. constructor; try (intros []; cbn; now intros).
  - intros []; exists []; constructor.
  - intros []; exists []; constructor.
Qed.

Lemma kind_grow : forall e f m, (exists l, hm_reg f = hm_reg e ++ l) -> (exists l, hm_served f = hm_served e ++ l) ->
  kind_of e m -> kind_of f m.
Proof.
  intros e f m R S [(t & r & H & ->)|[H|(r & h & H & ->)]].
  - left. exists t, r. split; [eapply in_grow; eassumption|reflexivity].
  - right. now left.
  - right. right. exists r, h. split; [eapply in_grow; eassumption|reflexivity].
Qed.

Lemma hpinv_update : forall s s' z o, hpinv s ->
  let e := hp_ep s z in let e' := hp_ep s' z in
  hp_ep s' (other z) = hp_ep s (other z) -> hp_sent s' z = hp_sent s z ++ olist o -> hp_sent s' (other z) = hp_sent s (other z) ->
  (exists l, hm_reg e' = hm_reg e ++ l) -> (exists l, hm_served e' = hm_served e ++ l) ->
  (forall r, In r (hm_entering e') -> good_rq r) ->
  (forall t r, In (t, r) (hm_reg e') -> good_rq r) ->
  (forall r, In r (hm_out e') -> exists t, In (t, r) (hm_reg e')) ->
  (forall r, In r (hm_running e') -> exists t, In (t, r) (hm_reg (hp_ep s (other z)))) ->
  (forall r h, In (r, h) (hm_served e') -> (exists t, In (t, r) (hm_reg (hp_ep s (other z)))) /\ good_body (reply (rq_id r) h)) ->
  (forall m, In m (olist o) -> kind_of e' m) ->
  (exists l, Permutation (map (fun tr => ser_request (snd tr)) (hm_reg e'))
    (map ser_request (hm_out e') ++ l ++ filter isreq (hp_sent s z ++ olist o))) ->
  (exists l, Permutation (filter isreq (hm_got e')) (map ser_request (hm_running e' ++ map fst (hm_served e')) ++ l)) ->
  hpinv s'.
Proof.
  intros s s' z o I e e' Y S1 S2 R V A1 A2 A3 A4 A5 A6 A7 A8. constructor.
  - intros x r. destruct (side_cases z x) as [->| ->]; [apply A1|]. rewrite Y. apply (pv_en s I).
  - intros x t r. destruct (side_cases z x) as [->| ->]; [apply A2|]. rewrite Y. apply (pv_reg s I).
  - intros x r. destruct (side_cases z x) as [->| ->]; [apply A3|]. rewrite Y. apply (pv_out s I).
  - intros x r H. destruct (side_cases z x) as [->| ->].
    + rewrite Y. now apply A4.
    + rewrite Y in H. rewrite other_other. destruct (pv_run s I _ _ H) as (t & K). rewrite other_other in K. exists t. eapply in_grow; eassumption.
  - intros x r h H. destruct (side_cases z x) as [->| ->].
    + rewrite Y. now apply A5.
    + rewrite Y in H. rewrite other_other. destruct (pv_srv s I _ _ _ H) as ((t & K) & B). rewrite other_other in K.
      split; [|exact B]. exists t. eapply in_grow; eassumption.
  - intros x m H. destruct (side_cases z x) as [->| ->].
    + rewrite S1 in H. apply in_app_iff in H as [H|H]; [|now apply A6].
      eapply kind_grow; [exact R|exact V|]. now apply (pv_sent s I).
    + rewrite Y. rewrite S2 in H. now apply (pv_sent s I).
  - intro x. destruct (side_cases z x) as [->| ->].
    + rewrite S1. exact A7.
    + rewrite S2, Y. apply (pv_count s I).
  - intro x. destruct (side_cases z x) as [->| ->]; [exact A8|]. rewrite Y. apply (pv_done s I).
Qed.

Lemma notification_more : forall m e, hm_running (shm_notification m e) = hm_running e /\ hm_served (shm_notification m e) = hm_served e.
Proof.
  intros m e. unfold shm_notification. destruct (deser_notification notification0 m) as [[|] n]; [|now split].
  destruct (beq (nt_method n) (bs "transport/disconnected")); now split.
Qed.

Lemma hpinv_step : forall s z a, (forall x, hp_sent s x = hm_got (hp_ep s (other x)) ++ hp_q s (other x)) ->
  hpinv s -> good_hact a -> hpinv (hpstep s (z, a)).
Proof.
  intros s z a Fi I Ga. destruct (hpstep_spec s z a) as [->|(e' & o & qx & E & Q & S)]; [exact I|]. cbn zeta in S.
  destruct S as (S1 & S2 & S3 & S4 & S5 & S6). pose proof (hstep_flow _ _ _ _ _ E) as [Hh Fl].
  assert (forall l, l = @nil bstr -> filter isreq (hp_sent s z ++ l) = filter isreq (hp_sent s z)) as Nil.
  { intros l ->. now rewrite app_nil_r. }
  assert (forall (A : Type) (l : list A), exists k, l = l ++ k) as Same by (intros; exists []; now rewrite app_nil_r).
  destruct Fl as [([F1 F2 F3 F4 F5 F6] & Fo)|[(r & old & -> & -> & F2 & F3 & F4 & F5 & F6 & F1)|
    [(n & r & rest & t & T & -> & F1 & F2 & F3 & F4 & F5 & F6)|[(n & r & rest & T & Fo & F1 & F2 & F3 & F4 & F5 & F6)|
    [(m & -> & -> & L & ->)|(n & h & ok & r & rest & -> & T & Fo & F1 & F2 & F3 & F4 & F5 & F6)]]]]].
  - apply (hpinv_update s _ z o I S2 S5 S6); rewrite ?S1, ?F1, ?F2, ?F3, ?F4, ?F5, ?F6; auto; try apply I.
    + intros m Hm. destruct Fo as [->|(n & Hn & ->)]; [destruct Hm|]. destruct Hm as [<-|[]]. right. left. exists n.
      destruct Hn as [->|(ok & ->)]; [destruct bye_good; auto|destruct Ga; auto].
    + destruct Fo as [->|(n & Hn & ->)]; cbn [olist]; [rewrite app_nil_r; apply (pv_count s I)|].
      assert (clean_notification n) as Cn by (destruct Hn as [->|(ok & ->)]; [apply bye_good|apply Ga]).
      rewrite filter_app. cbn [filter]. rewrite isreq_notification by exact Cn. rewrite app_nil_r. apply (pv_count s I).
  - apply (hpinv_update s _ z None I S2 S5 S6); rewrite ?S1, ?F1, ?F2, ?F3, ?F4, ?F5, ?F6; auto; try apply I.
    + intros r0 H. apply in_app_iff in H as [H|[<-|[]]]; [now apply (pv_en s I) with z|]. now apply shm_id_good.
    + intros m [].
    + cbn [olist]. rewrite app_nil_r. apply (pv_count s I).
  - pose proof (take_nth_in _ _ _ _ _ T) as [T1 T2]. pose proof (pv_en s I z r T1) as Gr.
    apply (hpinv_update s _ z None I S2 S5 S6); rewrite ?S1, ?F1, ?F2, ?F3, ?F4, ?F5, ?F6; auto; try apply I.
    + eexists; reflexivity.
    + intros r0 H. apply (pv_en s I) with z. now apply T2.
    + intros t0 r0 H. apply in_app_iff in H as [H|[H|[]]]; [now apply (pv_reg s I) with z t0|]. now injection H as _ <-.
    + intros r0 H. apply in_app_iff in H as [H|[<-|[]]].
      * destruct (pv_out s I z r0 H) as (t0 & K). exists t0. apply in_or_app. now left.
      * exists t. apply in_or_app. right. now left.
    + intros m [].
    + cbn [olist]. rewrite app_nil_r. destruct (pv_count s I z) as (l & P). exists l. rewrite !map_app. cbn [map snd].
      rewrite P. rewrite <- !app_assoc. apply Permutation_app_head. cbn [app].
      rewrite app_assoc. symmetry. apply Permutation_cons_append.
  - pose proof (take_nth_in _ _ _ _ _ T) as [T1 T2]. destruct (pv_out s I z r T1) as (t & K). pose proof (pv_reg s I z t r K) as Gr.
    apply take_nth_perm in T.
    apply (hpinv_update s _ z o I S2 S5 S6); rewrite ?S1, ?F1, ?F2, ?F3, ?F4, ?F5, ?F6; auto; try apply I.
    + intros r0 H. apply (pv_out s I). now apply T2.
    + intros m Hm. destruct Fo as [->| ->]; [destruct Hm|]. destruct Hm as [<-|[]]. left. exists t, r.
      split; [now rewrite F3|reflexivity].
    + destruct (pv_count s I z) as (l & P). destruct Fo as [->| ->]; cbn [olist].
      * rewrite app_nil_r. exists (ser_request r :: l). rewrite P. rewrite (Permutation_map ser_request T). cbn [map app].
        apply Permutation_middle.
      * exists l. rewrite filter_app. cbn [filter]. rewrite isreq_request by exact Gr. rewrite P, (Permutation_map ser_request T).
        cbn [map app]. rewrite !app_assoc. rewrite <- Permutation_cons_append. reflexivity.
  - destruct Q as [Q _]. 
    assert (In m (hp_sent s (other z))) as Hm.
    { rewrite Fi, other_other, Q. apply in_or_app. right. now left. }
    apply (pv_sent s I) in Hm.
    pose proof (process_effect m (hlog_got m (hp_ep s z))) as [_ [R1 R2 R3 R4 R5 R6]].
    cbn [hlog_got hset_work hm_reg hm_got hm_max hm_entering hm_out hm_failing] in R1, R2, R3, R4, R5, R6.
    set (e' := shm_process m (hlog_got m (hp_ep s z))) in *.
    assert (hm_served e' = hm_served (hp_ep s z) /\
      ((hm_running e' = hm_running (hp_ep s z)) \/
       exists t r, In (t, r) (hm_reg (hp_ep s (other z))) /\ m = ser_request r /\ hm_running e' = hm_running (hp_ep s z) ++ [r])) as [V1 V2].
    { destruct Hm as [(t & r & K & ->)|[(n & C & Sn & ->)|(r & h & K & ->)]].
      - destruct (pv_reg s I _ _ _ K) as [C Sr]. destruct (hm_handler (hp_ep s z)) eqn:Hd.
        + unfold e'. rewrite process_request by assumption. cbn. split; [reflexivity|]. right. exists t, r. now repeat split.
        + unfold e'. rewrite process_request_nohandler by assumption.
          destruct (notification_more (ser_request r) (hlog_got (ser_request r) (hp_ep s z))) as [-> ->]. split; [reflexivity|now left].
      - unfold e'. rewrite process_notification_running by assumption.
        destruct (notification_more (ser_notification n) (hlog_got (ser_notification n) (hp_ep s z))) as [-> ->]. split; [reflexivity|now left].
      - destruct (pv_srv s I _ _ _ K) as ((t & K2) & B). rewrite other_other in K2. destruct (pv_reg s I _ _ _ K2) as [((G1 & _) & _) _].
        unfold e'. rewrite process_response; [|now rewrite reply_id|exact B]. split; [reflexivity|now left]. }
    apply (hpinv_update s _ z None I S2 S5 S6); rewrite ?S1, ?R1, ?R4, ?R5, ?V1; auto; try apply I.
    + intros r H. destruct V2 as [V2|(t & r0 & K & _ & V2)]; rewrite V2 in H; [now apply (pv_run s I)|].
      apply in_app_iff in H as [H|[<-|[]]]; [now apply (pv_run s I)|]. now exists t.
    + intros m0 [].
    + cbn [olist]. rewrite app_nil_r. apply (pv_count s I).
    + rewrite R2. destruct (pv_done s I z) as (l & P). rewrite filter_app. cbn [filter].
      destruct V2 as [V2|(t & r0 & K & -> & V2)]; rewrite V2.
      * destruct (isreq m); [|rewrite app_nil_r; now exists l]. exists (l ++ [m]). rewrite P. now rewrite app_assoc.
      * rewrite isreq_request by now apply (pv_reg s I) with (other z) t. exists l. rewrite P.
        rewrite !map_app. cbn [map]. rewrite <- !app_assoc. cbn [app]. apply Permutation_app_head.
        rewrite app_assoc. symmetry. apply Permutation_cons_append.
  - pose proof (take_nth_in _ _ _ _ _ T) as [T1 T2]. destruct (pv_run s I z r T1) as (t & K).
    assert (good_body (reply (rq_id r) h)) as B.
    { apply good_reply. intros r0 ->. exact Ga. }
    apply take_nth_perm in T.
    apply (hpinv_update s _ z o I S2 S5 S6); rewrite ?S1, ?F1, ?F2, ?F3, ?F4, ?F5, ?F6; auto; try apply I.
    + eexists; reflexivity.
    + intros r0 H. apply (pv_run s I). now apply T2.
    + intros r0 h0 H. apply in_app_iff in H as [H|[H|[]]]; [now apply (pv_srv s I)|]. injection H as <- <-.
      split; [now exists t|exact B].
    + intros m Hm. destruct Fo as [->| ->]; [destruct Hm|]. destruct Hm as [<-|[]]. right. right. exists r, h.
      split; [rewrite F6; apply in_or_app; right; now left|reflexivity].
    + destruct Fo as [->| ->]; cbn [olist]; [rewrite app_nil_r; apply (pv_count s I)|].
      rewrite filter_app. cbn [filter]. rewrite isreq_response by exact B. rewrite app_nil_r. apply (pv_count s I).
    + destruct (pv_done s I z) as (l & P). exists l. rewrite P. apply Permutation_app_tail, Permutation_map.
      rewrite T. rewrite map_app. cbn [map fst app]. rewrite app_assoc. apply Permutation_cons_append.
Qed.

Lemma hprun_snoc : forall s vs v, hprun s (vs ++ [v]) = hpstep (hprun s vs) v.
Proof. intros. unfold hprun. now rewrite fold_left_app. Qed.

Lemma hpinv_reachable : forall ha hb ma mb vs, Forall (fun v => good_hact (snd v)) vs -> hpinv (hprun (hpair0 ha hb ma mb) vs).
Proof.
  intros ha hb ma mb vs. induction vs as [|[z a] vs IH] using rev_ind; intro H; [apply hpinv0|].
  apply Forall_app in H as [H1 H2]. inversion H2; subst. rewrite hprun_snoc. apply hpinv_step; [|now apply IH|assumption].
  intro x. apply shm_fifo.
Qed.

(** ** The answers *)
Lemma ep_run : forall ha hb ma mb vs x, exists h m ws,
  hp_ep (hprun (hpair0 ha hb ma mb) vs) x = hrun (is_creator x) (shm0 h m) ws.
Proof.
  intros ha hb ma mb vs x. exists (match x with SideA => ha | SideB => hb end), (match x with SideA => ma | SideB => mb end).
  induction vs as [|[z a] vs IH] using rev_ind; [exists []; now destruct x|].
  destruct IH as (ws & IH). rewrite hprun_snoc.
  destruct (hpstep_spec (hprun (hpair0 ha hb ma mb) vs) z a) as [->|(e & o & qx & E & Q & S)]; [now exists ws|]. cbn zeta in S.
  destruct S as (S1 & S2 & _). destruct (side_cases z x) as [->| ->].
  - exists (ws ++ [a]). rewrite S1, hrun_snoc, <- IH, E. reflexivity.
  - exists ws. now rewrite S2.
Qed.

Lemma good_inj : forall r1 r2, good_rq r1 -> good_rq r2 -> ser_request r1 = ser_request r2 -> r1 = r2.
Proof.
  intros r1 r2 [((H1 & H2 & H3 & H4 & H5) & _) _] [((K1 & K2 & K3 & K4 & K5) & _) _] E.
  pose proof (request_roundtrip r1 H1 H3 (proj1 H4) H5) as A. rewrite E, (request_roundtrip r2 K1 K3 (proj1 K4) K5) in A.
  now injection A as A.
Qed.

Lemma shm_own_answer : forall ha hb ma mb vs x t o, Forall (fun v => good_hact (snd v)) vs ->
  let s := hprun (hpair0 ha hb ma mb) vs in NoDup (shm_keys (hp_ep s x)) ->
  In (t, o) (pt_done (hm_tab (hp_ep s x))) -> exists resp, o = Some resp /\
    ((exists r, In (t, r) (hm_reg (hp_ep s x)) /\
       ((exists h, In (r, h) (hm_served (hp_ep s (other x))) /\ resp = reply (rq_id r) h) \/
        (exists i msg, id_key i = id_key (rq_id r) /\ gave_up msg /\ resp = failed i msg))) \/
     (exists i, resp = failed i (bs "Peer not connected"))).
Proof.
  intros ha hb ma mb vs x t o G s N H. pose proof (hpinv_reachable ha hb ma mb vs G) as I. fold s in I.
  destruct (ep_run ha hb ma mb vs x) as (h & m & ws & E). fold s in E. pose proof N as N0. pose proof H as H0. rewrite E in N0, H0.
  destruct (shm_for_cause (is_creator x) h m ws t o N0 H0) as (resp & -> & K). exists resp. split; [reflexivity|].
  rewrite <- E in K.
  destruct K as [(r & K1 & K2)|(r & vs1 & vs2 & old & K1 & _)]; [left|right; now exists (rq_id r)].
  exists r. split; [exact K1|].
  destruct K2 as [[Ki (msg & M1 & M2 & M3)]|[[-> K2]|[[-> K2]|[[-> K2]|[-> K2]]]]].
  - left. assert (In msg (hp_sent s (other x))) as Hm.
    { pose proof (shm_fifo ha hb ma mb vs (other x)) as Fi. fold s in Fi. cbn zeta in Fi. rewrite other_other in Fi.
      rewrite Fi. apply in_or_app. now left. }
    apply (pv_sent s I) in Hm. change (mistaken msg = true) in M3. destruct Hm as [(t2 & r2 & L & ->)|[(n & C & Sn & ->)|(r2 & h2 & L & ->)]].
    + destruct (pv_reg s I _ _ _ L) as [C Sr]. rewrite mistaken_request in M3 by assumption. discriminate M3.
    + rewrite mistaken_notification in M3 by assumption. discriminate M3.
    + destruct (pv_srv s I _ _ _ L) as ((t2 & L2) & B). rewrite other_other in L2.
      destruct (pv_reg s I _ _ _ L2) as [((G1 & _) & _) _]. destruct B as (B1 & B2 & B3).
      rewrite response_roundtrip in M2; [|now rewrite reply_id|exact B2|exact B3]. injection M2 as <-.
      rewrite reply_id in Ki. destruct (nodup_key _ _ _ _ _ N L2 K1 Ki) as [-> ->]. now exists h2.
  - right. exists (rq_id r), (bs "Payload too large"). split; [reflexivity|]. split; [now left|reflexivity].
  - right. exists (rq_id r), (bs "Send failed"). split; [reflexivity|]. split; [right; now left|reflexivity].
  - right. exists (IdStr (id_key (rq_id r))), (bs "Transport closed"). split; [reflexivity|]. split; [right; right; now left|reflexivity].
  - right. exists (IdStr (id_key (rq_id r))), (bs "Peer not connected"). split; [reflexivity|]. split; [right; right; right; now left|reflexivity].
Qed.

Lemma nodup_app_l : forall (A : Type) (a b : list A), NoDup (a ++ b) -> NoDup a.
Proof.
  intros A a b. induction a as [|x a IH]; intro H; [constructor|]. inversion H; subst. constructor; [|now apply IH].
  intro K. apply H2. apply in_or_app. now left.
Qed.
Lemma nodup_app_r : forall (A : Type) (a b : list A), NoDup (a ++ b) -> NoDup b.
Proof. intros A a b. induction a as [|x a IH]; intro H; [exact H|]. inversion H; subst. now apply IH. Qed.

Lemma shm_at_most_once_run : forall ha hb ma mb vs x, Forall (fun v => good_hact (snd v)) vs ->
  let s := hprun (hpair0 ha hb ma mb) vs in NoDup (shm_keys (hp_ep s x)) ->
  NoDup (hm_running (hp_ep s (other x)) ++ map fst (hm_served (hp_ep s (other x)))) /\
  forall r, In r (hm_running (hp_ep s (other x)) ++ map fst (hm_served (hp_ep s (other x)))) ->
    exists t, In (t, r) (hm_reg (hp_ep s x)).
Proof.
  intros ha hb ma mb vs x G s N. pose proof (hpinv_reachable ha hb ma mb vs G) as I. fold s in I. split.
  - destruct (pv_count s I x) as (l & P). destruct (pv_done s I (other x)) as (k & D).
    pose proof (shm_fifo ha hb ma mb vs x) as Fi. fold s in Fi. cbn zeta in Fi. rewrite Fi, filter_app in P.
    assert (NoDup (map (fun tr => ser_request (snd tr)) (hm_reg (hp_ep s x)))) as M.
    { pose proof (pv_reg s I x) as R. unfold shm_keys in N. revert R N. clear. generalize (hm_reg (hp_ep s x)) as g. intros g R N. induction g as [|[t r] g IH]; [constructor|].
      cbn [map snd] in *. inversion N as [|a b N1 N2]; subst. constructor; [|apply IH; [intros t0 r0 K; apply (R t0); now right|exact N2]].
      intro K. apply in_map_iff in K as ([t2 r2] & E & K). cbn [snd] in E. apply good_inj in E.
      - subst r2. apply N1. exact (in_map (fun tr => id_key (rq_id (snd tr))) _ _ K).
      - apply (R t2). now right.
      - apply (R t). now left. }
    rewrite P in M. apply nodup_app_r, nodup_app_r, nodup_app_l in M. rewrite D in M. apply nodup_app_l in M.
    now apply NoDup_map_inv in M.
  - intros r H. apply in_app_iff in H as [H|H].
    + apply (pv_run s I) in H. now rewrite other_other in H.
    + apply in_map_iff in H as ([r0 h] & <- & H). apply (pv_srv s I) in H as [H _]. now rewrite other_other in H.
Qed.
