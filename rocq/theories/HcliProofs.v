(** Proofs for the HTTP client transport. *)
From Coq Require Import Ascii String List Permutation Arith NArith ZArith Bool Lia ZifyBool ZifyNat ZifyN.
From Verif Require Import StrModel StrProofs DoubleModel JsonModel JsonSpec JsonProofs RpcModel RpcSpec RpcProofs RouterModel RouterProofs MapModel MapProofs MemModel PendModel PendProofs HcliModel HcliSpec.
Import ListNotations.
Local Open Scope nat_scope.

Lemma hcrun_app : forall c h vs ws, hcrun c h (vs ++ ws) = hcrun c (hcrun c h vs) ws.
Proof. intros. unfold hcrun. now rewrite fold_left_app. Qed.

Lemma hcrun_snoc : forall c h vs a, hcrun c h (vs ++ [a]) = hcstep c (hcrun c h vs) a.
Proof. intros. now rewrite hcrun_app. Qed.

(** ** What the router makes of a text *)
Definition silent_text (m : bstr) : Prop :=
  (forall hd, route hd m = route_notification hd m) /\ (forall r, ~ is_response m r) /\ (forall r, ~ is_request m r).

Definition demo_hd : handlers := {| h_request := Some (fun _ => HNull); h_notification := None; h_error := false |}.

Lemma notification_calls : forall hd m, (exists n, fst (route_notification hd m) = [CNotification n]) \/
  (exists e, fst (route_notification hd m) = [CError e]) \/ fst (route_notification hd m) = [].
Proof.
  intros hd m. unfold route_notification. destruct (deser_notification notification0 m) as [[|] n].
  - destruct (h_notification hd); [left; now exists n|now right; right].
  - destruct (h_error hd); [right; left; eexists; reflexivity|now right; right].
Qed.

Lemma route_kinds : forall m,
  (exists r, is_response m r /\ (forall q, ~ is_request m q) /\ forall hd, route hd m = ([CResolve r], RReturn None)) \/
  (exists r, is_request m r /\ (forall q, ~ is_response m q) /\
     forall hd f, h_request hd = Some f -> route hd m = ([CRequest r], RReturn (Some (ser_response (reply (rq_id r) (f r)))))) \/
  silent_text m.
Proof.
  intro m. unfold silent_text, is_response, is_request.
  destruct (deser_response response0 m) as [ok resp] eqn:D1.
  destruct ((has_top_key (bs "result") m || has_top_key (bs "error") m) && ok)%bool eqn:B.
  - left. exists resp. assert (A : forall hd, route hd m = ([CResolve resp], RReturn None)).
    { intro hd. unfold route. now rewrite D1, B. }
    split; [intro hd; now rewrite A|]. split; [|exact A].
    intros q Q. specialize (Q demo_hd ltac:(discriminate)). rewrite A in Q. discriminate Q.
  - right. destruct (deser_request request0 m) as [okr r] eqn:D2.
    destruct (contains (bs """method""") m && has_top_key (bs "id") m && okr)%bool eqn:C.
    + left. exists r. assert (A : forall hd f, h_request hd = Some f -> route hd m = ([CRequest r], RReturn (Some (ser_response (reply (rq_id r) (f r)))))).
      { intros hd f F. unfold route. now rewrite D1, B, D2, F, C. }
      split; [|split; [|exact A]].
      * intros hd H. destruct (h_request hd) as [f|] eqn:F; [|now destruct H]. now rewrite (A hd f F).
      * intros q Q. specialize (Q demo_hd). rewrite (A demo_hd _ eq_refl) in Q. discriminate Q.
    + right. assert (A : forall hd, route hd m = route_notification hd m).
      { intro hd. unfold route. rewrite D1, B, D2, C. now destruct (h_request hd). }
      split; [exact A|]. split; intros q Q.
      * specialize (Q demo_hd). rewrite A in Q.
        destruct (notification_calls demo_hd m) as [(n & E)|[(e & E)|E]]; rewrite E in Q; discriminate Q.
      * specialize (Q demo_hd ltac:(discriminate)). rewrite A in Q.
        destruct (notification_calls demo_hd m) as [(n & E)|[(e & E)|E]]; rewrite E in Q; discriminate Q.
Qed.

Lemma response_unique : forall m a b, is_response m a -> is_response m b -> a = b.
Proof. intros m a b A B. specialize (A demo_hd). specialize (B demo_hd). rewrite A in B. now injection B. Qed.

(** ** How a step changes the transport *)
(** What handling an incoming text does to the table. *)
Inductive heard_effect (fb m : bstr) (p : ptab) : ptab -> Prop :=
| he_none : heard_effect fb m p p
| he_answer r t : is_response m r -> id_key (rs_id r) <> [] -> aget (id_key (rs_id r)) (pt_pend p) = Some t ->
    heard_effect fb m p (pt_complete (id_key (rs_id r)) r p)
| he_mismatch r : is_response m r -> fb <> [] -> (id_key (rs_id r) = [] \/ aget (id_key (rs_id r)) (pt_pend p) = None) ->
    heard_effect fb m p (pt_complete fb (gave (IdStr fb) (bs "Mismatched response id")) p)
| he_invalid : (forall r, ~ is_response m r) -> (forall r, ~ is_request m r) -> fb <> [] ->
    heard_effect fb m p (pt_complete fb (gave (IdStr fb) (bs "Invalid/empty HTTP response")) p).

(** The fields that handling a text leaves alone. *)
Record same_hc (h g : hcli) : Prop := {
  sh_connected : hc_connected g = hc_connected h;
  sh_thread : hc_thread g = hc_thread h;
  sh_stopped : hc_stopped g = hc_stopped h;
  sh_sse : hc_sse g = hc_sse h;
  sh_counter : hc_counter g = hc_counter h;
  sh_session : hc_session g = hc_session h;
  sh_version : hc_version g = hc_version h;
  sh_entering : hc_entering g = hc_entering h;
  sh_flight : hc_flight g = hc_flight h;
  sh_reg : hc_reg g = hc_reg h;
  sh_ended : hc_ended g = hc_ended h;
  sh_log : hc_log g = hc_log h
}.

Definition replies_to (hd : handlers) (m : bstr) : list (purpose * bstr) :=
  match route (wrap_handlers hd) m with
  | (_, RReturn (Some t)) => [(PuReply, t)]
  | _ => []
  end.

Lemma incoming_effect : forall io hd fb m h, let g := incoming io hd fb m h in
  same_hc h g /\ heard_effect fb m (hc_tab h) (hc_tab g) /\ hc_heard g = hc_heard h ++ [m] /\
  hc_calls g = hc_calls h ++ fst (route (wrap_handlers hd) m) /\
  hc_queue g = hc_queue h ++ replies_to hd m /\ hc_spawned g = hc_spawned h ++ replies_to hd m /\
  (hc_crashed g = true -> hc_crashed h = true \/ io = true /\ ~ calm hd).
Proof.
  intros io hd fb m h. cbn zeta. unfold incoming, replies_to.
  destruct (route_kinds m) as [(r & A & A1 & A2)|[(r & A & A1 & A2)|(A & A1 & A2)]].
  - rewrite A2. cbn [fst resolve_calls fold_left snd]. unfold deliver_response. cbn [hc_set_heard hc_tab].
    destruct (id_key (rs_id r)) as [|c k] eqn:K.
    + destruct fb as [|f fb].
      * repeat split; cbn; rewrite ?app_nil_r; auto. constructor.
      * unfold deliver_error. repeat split; cbn; rewrite ?app_nil_r; auto.
        apply he_mismatch with r; [exact A|discriminate|now left].
    + destruct (aget (c :: k) (pt_pend (hc_tab h))) as [t|] eqn:E.
      * repeat split; cbn; rewrite ?app_nil_r; auto. rewrite <- K. apply he_answer with t; [exact A|now rewrite K|now rewrite K].
      * destruct fb as [|f fb].
        -- repeat split; cbn; rewrite ?app_nil_r; auto. constructor.
        -- unfold deliver_error. repeat split; cbn; rewrite ?app_nil_r; auto.
           apply he_mismatch with r; [exact A|discriminate|right; now rewrite K].
  - rewrite (A2 (wrap_handlers hd) _ eq_refl). cbn [fst resolve_calls fold_left snd].
    repeat split; cbn; auto. constructor.
  - rewrite A. unfold route_notification. cbn [wrap_handlers h_notification h_error].
    destruct (deser_notification notification0 m) as [[|] n].
    + destruct (h_notification hd) as [f|] eqn:F.
      * cbn [fst resolve_calls fold_left snd]. destruct (f n) eqn:Fn.
        -- destruct fb as [|a fb]; unfold deliver_error; repeat split; cbn; rewrite ?app_nil_r; auto; [constructor|].
           apply he_invalid; [exact A1|exact A2|discriminate].
        -- destruct io; repeat split; cbn; rewrite ?app_nil_r; auto; try apply he_none.
           intros _. right. split; [reflexivity|]. intro C. specialize (C f F n). congruence.
      * cbn [fst resolve_calls fold_left snd].
        destruct fb as [|a fb]; unfold deliver_error; repeat split; cbn; rewrite ?app_nil_r; auto; [constructor|].
        apply he_invalid; [exact A1|exact A2|discriminate].
    + destruct (h_error hd); cbn [fst resolve_calls fold_left snd];
        destruct fb as [|a fb]; unfold deliver_error; repeat split; cbn; rewrite ?app_nil_r; auto; try apply he_none; try (apply he_invalid; [exact A1|exact A2|discriminate]).
Qed.

Lemma heard_inv : forall fb m p q, heard_effect fb m p q -> pt_inv p ->
  pt_inv q /\ pt_grows p q /\ pt_keys q = pt_keys p /\ pt_next q = pt_next p /\ (forall kt, In kt (pt_pend q) -> In kt (pt_pend p)).
Proof.
  assert (C : forall k r p, pt_inv p -> pt_inv (pt_complete k r p) /\ pt_grows p (pt_complete k r p) /\
    pt_keys (pt_complete k r p) = pt_keys p /\ pt_next (pt_complete k r p) = pt_next p /\
    (forall kt, In kt (pt_pend (pt_complete k r p)) -> In kt (pt_pend p))).
  { intros k r p I. split; [now apply pt_inv_complete|]. split; [apply pt_grows_complete|].
    split; [unfold pt_complete; now destruct (aget k (pt_pend p))|].
    split; [unfold pt_complete; now destruct (aget k (pt_pend p))|].
    intros kt H. now apply in_complete_pend in H as [H _]. }
  intros fb m p q H I. destruct H; try (apply C, I). split; [exact I|]. split; [apply pt_grows_refl|]. auto.
Qed.

Inductive step_effect (h : hcli) (a : hcact) (g : hcli) : Prop :=
| se_quiet : hc_tab g = hc_tab h -> hc_reg g = hc_reg h -> hc_ended g = hc_ended h -> hc_heard g = hc_heard h -> step_effect h a g
| se_refused r : a = TBegin r -> hc_connected h = false ->
    hc_tab g = pt_immediate (id_key (rq_id r)) (gave (rq_id r) (bs "Transport not connected")) (hc_tab h) ->
    hc_reg g = hc_reg h -> hc_ended g = hc_ended h -> hc_heard g = hc_heard h -> step_effect h a g
| se_register r : In r (hc_entering h) -> hc_tab g = pt_register (id_key (rq_id r)) (hc_tab h) ->
    hc_reg g = hc_reg h ++ [(pt_next (hc_tab h), r)] -> hc_ended g = hc_ended h -> hc_heard g = hc_heard h -> step_effect h a g
| se_empty k b ex : In (PuRequest k, b) (hc_flight h) -> ex_body ex = [] ->
    hc_tab g = pt_complete k (gave (IdStr k) (bs "Invalid/empty HTTP response")) (hc_tab h) ->
    hc_reg g = hc_reg h -> hc_ended g = hc_ended h ++ [(k, ex)] -> hc_heard g = hc_heard h -> step_effect h a g
| se_ended k b ex : In (PuRequest k, b) (hc_flight h) -> heard_effect k (ex_body ex) (hc_tab h) (hc_tab g) ->
    hc_reg g = hc_reg h -> hc_ended g = hc_ended h ++ [(k, ex)] -> hc_heard g = hc_heard h ++ [ex_body ex] -> step_effect h a g
| se_event m : heard_effect [] m (hc_tab h) (hc_tab g) -> hc_reg g = hc_reg h -> hc_ended g = hc_ended h ->
    hc_heard g = hc_heard h ++ [m] -> step_effect h a g
| se_closed : a = TClosed -> hc_tab g = pt_fail_all (fun k => gave (IdStr k) (bs "Transport closed")) (hc_tab h) ->
    hc_reg g = hc_reg h -> hc_ended g = hc_ended h -> hc_heard g = hc_heard h -> step_effect h a g.

Lemma step_does : forall c h a, step_effect h a (hcstep c h a).
Proof.
  intros c h a. unfold hcstep. destruct (hc_crashed h); [now apply se_quiet|].
  destruct a as [|r|n|nt|n|n ex hd|hs|text hd| | | | |].
  - destruct (hc_thread h); now apply se_quiet.
  - unfold hc_begin. destruct (hc_connected h) eqn:C.
    + destruct (rq_id r) as [[|]| |]; now apply se_quiet.
    + now apply (se_refused _ _ _ r).
  - destruct (take_nth n (hc_entering h)) as [[r rest]|] eqn:T; [|now apply se_quiet].
    destruct (take_nth_in _ _ _ _ _ T) as [T1 _]. now apply (se_register _ _ _ r).
  - destruct (hc_connected h); now apply se_quiet.
  - destruct (hc_thread h && negb (hc_stopped h))%bool; [|now apply se_quiet].
    destruct (take_nth n (hc_queue h)) as [[p rest]|]; now apply se_quiet.
  - destruct (hc_thread h && negb (hc_stopped h))%bool; [|now apply se_quiet].
    destruct (take_nth n (hc_flight h)) as [[[p b] rest]|] eqn:T; [|now apply se_quiet].
    destruct (take_nth_in _ _ _ _ _ T) as [T1 _]. cbn [fst]. unfold hc_end. destruct p as [k| |]; try now apply se_quiet.
    destruct (ex_body ex) as [|c0 b0] eqn:B.
    + now apply (se_empty _ _ _ k b ex).
    + rewrite <- B. clear B c0 b0.
      match goal with |- context [incoming true hd k ?m ?x] => destruct (incoming_effect true hd k m x) as ([] & A & A1 & _) end.
      apply (se_ended _ _ _ k b ex); auto.
  - destruct (hc_connected h && hc_sse h)%bool; now apply se_quiet.
  - destruct (hc_connected h && hc_sse h)%bool; [|now apply se_quiet].
    destruct (incoming_effect false hd [] text h) as ([] & A & A1 & _). now apply (se_event _ _ _ text).
  - destruct (hc_session h); [now apply se_quiet|]. destruct (_ && _)%bool; now apply se_quiet.
  - now apply se_quiet.
  - now apply se_quiet.
  - now apply se_quiet.
  - now apply se_closed.
Qed.

(** ** The table stays consistent *)
Record hcinv (h : hcli) : Prop := {
  hci_tab : pt_inv (hc_tab h);
  hci_reg : forall t r, In (t, r) (hc_reg h) -> In (t, id_key (rq_id r)) (pt_keys (hc_tab h));
  hci_pend : forall k t, In (k, t) (pt_pend (hc_tab h)) -> exists r, In (t, r) (hc_reg h) /\ id_key (rq_id r) = k
}.

Lemma hcinv0 : forall v, hcinv (hcli0 v).
Proof. intro v. constructor; cbn; try easy. apply pt_inv0. Qed.

Lemma hcinv_shrink : forall h g, hcinv h -> pt_inv (hc_tab g) -> pt_grows (hc_tab h) (hc_tab g) ->
  (forall kt, In kt (pt_pend (hc_tab g)) -> In kt (pt_pend (hc_tab h))) -> hc_reg g = hc_reg h -> hcinv g.
Proof.
  intros h g I P [[a Ga] _] S R. constructor; [exact P| |].
  - intros t r H. rewrite R in H. rewrite Ga. apply in_or_app. left. now apply (hci_reg h I).
  - intros k t H. rewrite R. apply (hci_pend h I). now apply S.
Qed.

Lemma hcinv_step : forall c h a, hcinv h -> hcinv (hcstep c h a).
Proof.
  intros c h a I. pose proof (hci_tab h I) as PI. destruct (step_does c h a) as [T R _ _|r _ _ T R _ _|r _ T R _ _|k b ex _ _ T R _ _|k b ex _ T R _ _|m T R _ _|_ T R _ _].
  - apply (hcinv_shrink h); rewrite ?T; auto. apply pt_grows_refl.
  - apply (hcinv_shrink h); rewrite ?T; auto; [now apply pt_inv_immediate|apply pt_grows_immediate].
  - constructor; rewrite T, ?R.
    + now apply pt_inv_register.
    + intros t r0 H. cbn. apply in_app_iff in H as [H|[H|[]]]; apply in_or_app; [left; now apply (hci_reg h I)|].
      injection H as <- <-. right. now left.
    + cbn. intros k t H. apply in_aset in H; [|apply PI]. destruct H as [H|[H _]].
      * injection H as -> ->. exists r. split; [apply in_or_app; right; now left|reflexivity].
      * destruct (hci_pend h I k t H) as (r0 & H1 & H2). exists r0. split; [apply in_or_app; now left|exact H2].
  - apply (hcinv_shrink h); rewrite ?T; auto; [now apply pt_inv_complete|apply pt_grows_complete|].
    intros kt H. now apply in_complete_pend in H as [H _].
  - destruct (heard_inv _ _ _ _ T PI) as (H1 & H2 & _ & _ & H3). now apply (hcinv_shrink h).
  - destruct (heard_inv _ _ _ _ T PI) as (H1 & H2 & _ & _ & H3). now apply (hcinv_shrink h).
  - apply (hcinv_shrink h); rewrite ?T; auto; [now apply pt_inv_fail_all|apply pt_grows_fail_all|easy].
Qed.

Lemma hcinv_run : forall c h vs, hcinv h -> hcinv (hcrun c h vs).
Proof.
  intros c h vs. revert h. induction vs as [|a vs IH]; intros h I; [exact I|]. cbn. apply IH. now apply hcinv_step.
Qed.

Lemma hcinv_reachable : forall c v vs, hcinv (hcrun c (hcli0 v) vs).
Proof. intros. apply hcinv_run, hcinv0. Qed.

Lemma hc_once : forall c v vs, NoDup (map fst (pt_done (hc_tab (hcrun c (hcli0 v) vs)))).
Proof. intros. apply pt_once, hcinv_reachable. Qed.

(** ** Causes *)
Definition justified (c : hccfg) (v : bstr) (vs : list hcact) (t : nat) (o : option response) : Prop :=
  let h := hcrun c (hcli0 v) vs in
  (exists r, In (t, r) (hc_reg h) /\
     match o with
     | Some resp => hc_cause vs h (id_key (rq_id r)) resp
     | None => exists t' r', In (t', r') (hc_reg h) /\ t < t' /\ id_key (rq_id r') = id_key (rq_id r)
     end) \/
  (exists r vs1 vs2, o = Some (gave (rq_id r) (bs "Transport not connected")) /\
     vs = vs1 ++ TBegin r :: vs2 /\ hc_connected (hcrun c (hcli0 v) vs1) = false /\ t = pt_next (hc_tab (hcrun c (hcli0 v) vs1)) /\
     ~ In t (map fst (hc_reg h))).

Lemma step_grows : forall c h a,
  (exists x, hc_reg (hcstep c h a) = hc_reg h ++ x) /\ (exists x, hc_ended (hcstep c h a) = hc_ended h ++ x) /\
  (exists x, hc_heard (hcstep c h a) = hc_heard h ++ x).
Proof.
  intros c h a. destruct (step_does c h a) as [T R E H|r _ _ T R E H|r _ T R E H|k b ex _ _ T R E H|k b ex _ T R E H|m T R E H|_ T R E H];
    rewrite R, E, H; repeat split; first [exists []; now rewrite app_nil_r | eexists; reflexivity].
Qed.

Lemma cause_grows : forall c vs h a k resp, hc_cause vs h k resp -> hc_cause (vs ++ [a]) (hcstep c h a) k resp.
Proof.
  intros c vs h a k resp H. destruct (step_grows c h a) as (_ & (e & E) & (m & M)). unfold hc_cause in *. rewrite E, M.
  destruct H as [(H1 & m0 & H2 & H3)|[(H1 & ex & H2 & H3)|[(H1 & ex & r & H2 & H3)|(H1 & H2)]]].
  - left. split; [exact H1|]. exists m0. split; [apply in_or_app; now left|exact H3].
  - right; left. split; [exact H1|]. exists ex. split; [apply in_or_app; now left|exact H3].
  - right; right; left. split; [exact H1|]. exists ex, r. split; [apply in_or_app; now left|exact H3].
  - right; right; right. split; [exact H1|]. apply in_or_app. now left.
Qed.

Lemma done_issued : forall p t o, pt_inv p -> In (t, o) (pt_done p) -> t < pt_next p.
Proof.
  intros p t o P H. assert (S : In t (seq 0 (pt_next p))); [|apply in_seq in S; lia].
  eapply Permutation_in; [apply Permutation_sym, (pi_tickets p P)|]. apply in_or_app. right. now apply (in_map fst) in H.
Qed.

Lemma reg_issued : forall h t, hcinv h -> In t (map fst (hc_reg h)) -> t < pt_next (hc_tab h).
Proof.
  intros h t I H. apply in_map_iff in H as ([t0 r] & <- & H). apply (hci_reg h I) in H. apply (in_map fst) in H.
  rewrite (pi_issued _ (hci_tab h I)) in H. apply in_seq in H. cbn in *. lia.
Qed.

Lemma reg_next : forall c h a t, In t (map fst (hc_reg (hcstep c h a))) -> In t (map fst (hc_reg h)) \/ t = pt_next (hc_tab h).
Proof.
  intros c h a t. destruct (step_does c h a) as [T R E M|r A C T R E M|r Hr T R E M|k b ex Hk B T R E M|k b ex Hk T R E M|m T R E M|A T R E M];
    rewrite R; auto. rewrite map_app. intro H. apply in_app_or in H as [H|[H|[]]]; auto.
Qed.

Lemma justified_grows : forall c v vs a t o, In (t, o) (pt_done (hc_tab (hcrun c (hcli0 v) vs))) ->
  justified c v vs t o -> justified c v (vs ++ [a]) t o.
Proof.
  intros c v vs a t o Dn H. pose proof (hcinv_reachable c v vs) as I. unfold justified in *. cbn zeta in *. rewrite hcrun_snoc. set (h := hcrun c (hcli0 v) vs) in *.
  destruct (step_grows c h a) as ((x & R) & _).
  destruct H as [(r & H1 & H2)|(r & vs1 & vs2 & H1 & H2 & H3 & H4 & H5)].
  - left. exists r. rewrite R. split; [apply in_or_app; now left|]. destruct o as [resp|]; [now apply cause_grows|].
    destruct H2 as (t' & r' & H2 & H3). exists t', r'. split; [apply in_or_app; now left|exact H3].
  - right. exists r, vs1, (vs2 ++ [a]). split; [exact H1|]. split; [now rewrite H2, <- app_assoc|]. split; [exact H3|]. split; [exact H4|].
    intro K. apply reg_next in K as [K|K]; [now apply H5|]. pose proof (done_issued _ _ _ (hci_tab h I) Dn). lia.
Qed.

Lemma empty_no_response : forall r, ~ is_response [] r.
Proof. intros r H. specialize (H demo_hd). discriminate H. Qed.
Lemma empty_no_request : forall r, ~ is_request [] r.
Proof. intros r H. specialize (H demo_hd ltac:(discriminate)). discriminate H. Qed.

Lemma all_justified : forall c v vs t o, In (t, o) (pt_done (hc_tab (hcrun c (hcli0 v) vs))) -> justified c v vs t o.
Proof.
  intros c v vs. induction vs as [|a vs IH] using rev_ind; intros t o H; [easy|].
  rewrite hcrun_snoc in H. pose proof (hcinv_reachable c v vs) as I. set (h := hcrun c (hcli0 v) vs) in *.
  assert (Old : In (t, o) (pt_done (hc_tab h)) -> justified c v (vs ++ [a]) t o) by (intro K; apply justified_grows; auto).
  assert (Done : forall k resp, aget k (pt_pend (hc_tab h)) = Some t -> o = Some resp -> hc_reg (hcstep c h a) = hc_reg h ->
    hc_cause (vs ++ [a]) (hcstep c h a) k resp -> justified c v (vs ++ [a]) t o).
  { intros k resp G -> R C. left. rewrite hcrun_snoc. fold h. rewrite R. apply aget_in in G.
    destruct (hci_pend h I k t G) as (r & H1 & <-). now exists r. }
  destruct (step_does c h a) as [T R E M|r A C T R E M|r Hr T R E M|k b ex Hk B T R E M|k b ex Hk T R E M|m T R E M|A T R E M].
  - rewrite T in H. auto.
  - rewrite T in H. cbn in H. apply in_app_iff in H as [H|[H|[]]]; [auto|]. injection H as <- <-. right.
    exists r, vs, []. subst a. repeat split; auto. rewrite hcrun_snoc. fold h. rewrite R. intro K. apply (reg_issued h _ I) in K. lia.
  - rewrite T in H. cbn in H. apply in_app_iff in H as [H|H]; [auto|].
    destruct (aget (id_key (rq_id r)) (pt_pend (hc_tab h))) as [t0|] eqn:G; [|easy]. destruct H as [H|[]]. injection H as <- <-.
    left. rewrite hcrun_snoc. fold h. rewrite R. apply aget_in in G. destruct (hci_pend h I _ _ G) as (r0 & H1 & H2).
    exists r0. split; [apply in_or_app; now left|]. exists (pt_next (hc_tab h)), r. split; [apply in_or_app; right; now left|].
    split; [|now symmetry]. pose proof (hci_reg h I _ _ H1) as H3. pose proof (hci_tab h I) as P. apply (in_map fst) in H3. rewrite (pi_issued _ P) in H3. apply in_seq in H3. cbn in H3. lia.
  - rewrite T in H. apply in_complete_done in H as [H|[H ->]]; [auto|]. apply (Done k _ H eq_refl R).
    right; left. split; [reflexivity|]. exists ex. rewrite E. split; [apply in_or_app; right; now left|]. rewrite B.
    split; [apply empty_no_response|apply empty_no_request].
  - destruct T as [|r0 t0 H1 H2 H3|r0 H1 H2 H3|H1 H2 H3]; [auto| | |]; apply in_complete_done in H as [H|[H ->]]; auto.
    + apply (Done _ _ H eq_refl R). left. split; [reflexivity|]. exists (ex_body ex). rewrite M. split; [apply in_or_app; right; now left|exact H1].
    + apply (Done _ _ H eq_refl R). right; right; left. split; [reflexivity|]. exists ex, r0. rewrite E. split; [apply in_or_app; right; now left|].
      split; [exact H1|]. intro K. rewrite K in H3. destruct H3 as [H3|H3]; [now apply H2|congruence].
    + apply (Done _ _ H eq_refl R). right; left. split; [reflexivity|]. exists ex. rewrite E. split; [apply in_or_app; right; now left|]. now split.
  - destruct T as [|r0 t0 H1 H2 H3|r0 H1 H2 H3|H1 H2 H3]; [auto| |now destruct H2|now destruct H3].
    apply in_complete_done in H as [H|[H ->]]; [auto|].
    apply (Done _ _ H eq_refl R). left. split; [reflexivity|]. exists m. rewrite M. split; [apply in_or_app; right; now left|exact H1].
  - rewrite T in H. cbn in H. apply in_app_iff in H as [H|H]; [auto|]. apply in_map_iff in H as ([k t0] & H1 & H2). cbn in H1. injection H1 as -> <-.
    apply (in_pend_aget _ _ _ (hci_tab h I)) in H2. apply (Done _ _ H2 eq_refl R). right; right; right. split; [reflexivity|].
    apply in_or_app. right. left. now symmetry.
Qed.

Lemma nodup_key : forall (l : list (nat * request)) t r t' r', NoDup (map (fun tr => id_key (rq_id (snd tr))) l) ->
  In (t, r) l -> In (t', r') l -> id_key (rq_id r) = id_key (rq_id r') -> t = t' /\ r = r'.
Proof.
  induction l as [|[t0 r0] l IH]; intros t r t' r' N H H' E; [easy|]. cbn in N. inversion N as [|? ? N1 N2]; subst.
  destruct H as [H|H]; destruct H' as [H'|H'].
  - injection H as <- <-. injection H' as <- <-. auto.
  - injection H as <- <-. destruct N1. rewrite E. apply in_map_iff. exists (t', r'). auto.
  - injection H' as <- <-. destruct N1. rewrite <- E. apply in_map_iff. exists (t, r). auto.
  - now apply IH.
Qed.

Lemma hc_for_cause : forall c v vs t o, let h := hcrun c (hcli0 v) vs in NoDup (hc_keys h) ->
  In (t, o) (pt_done (hc_tab h)) -> exists resp, o = Some resp /\
    ((exists r, In (t, r) (hc_reg h) /\ hc_cause vs h (id_key (rq_id r)) resp) \/
     (exists r vs1 vs2, resp = gave (rq_id r) (bs "Transport not connected") /\
        vs = vs1 ++ TBegin r :: vs2 /\ hc_connected (hcrun c (hcli0 v) vs1) = false /\ t = pt_next (hc_tab (hcrun c (hcli0 v) vs1)) /\
        ~ In t (map fst (hc_reg h)))).
Proof.
  intros c v vs t o h N H. destruct (all_justified c v vs t o H) as [(r & H1 & H2)|(r & vs1 & vs2 & -> & H2 & H3)].
  - destruct o as [resp|].
    + exists resp. split; [reflexivity|]. left. now exists r.
    + destruct H2 as (t' & r' & K1 & K2 & K3). destruct (nodup_key _ _ _ _ _ N K1 H1 K3) as [-> _]. lia.
  - eexists. split; [reflexivity|]. right. now exists r, vs1, vs2.
Qed.

(** Whatever was registered when Close finished is complete. *)
Lemma hc_close : forall c v vs, let h := hcrun c (hcli0 v) vs in hc_crashed h = false ->
  pt_pend (hc_tab (hcstep c h TClosed)) = [] /\
  forall t r, In (t, r) (hc_reg h) -> exists o, In (t, o) (pt_done (hc_tab (hcstep c h TClosed))).
Proof.
  intros c v vs h C. unfold hcstep. rewrite C. split; [reflexivity|]. intros t r H.
  pose proof (hcinv_reachable c v vs) as I. fold h in I. apply (hci_reg h I) in H.
  destruct (pt_pending_or_done _ _ _ (hci_tab h I) H) as [K|(o & K)].
  - eexists. cbn. apply in_or_app. right. apply in_map_iff. eexists. split; [|exact K]. reflexivity.
  - exists o. cbn. apply in_or_app. now left.
Qed.

(** ** Every POST of a request is for a nonempty id *)
Definition req_key_ok (p : purpose * bstr) : Prop := forall k, fst p = PuRequest k -> k <> [].
Record hckeys (h : hcli) : Prop := {
  hk_entering : Forall (fun r => id_key (rq_id r) <> []) (hc_entering h);
  hk_queue : Forall req_key_ok (hc_queue h);
  hk_flight : Forall req_key_ok (hc_flight h)
}.

Lemma print_Z_nonempty : forall z, print_Z z <> [].
Proof. intros z E. destruct (print_Z_head z) as (c & r & E2 & _). congruence. Qed.

Lemma replies_keys : forall hd m, Forall req_key_ok (replies_to hd m).
Proof.
  intros hd m. unfold replies_to. destruct (route (wrap_handlers hd) m) as [cs [[t|]|]]; repeat constructor. intros k E. discriminate E.
Qed.

Lemma take_nth_forall : forall (A : Type) (P : A -> Prop) n l x r, take_nth n l = Some (x, r) -> Forall P l -> P x /\ Forall P r.
Proof.
  intros A P n l x r T F. pose proof (take_nth_perm _ _ _ _ _ T) as Q. apply (Permutation_Forall Q) in F. now inversion F.
Qed.

Lemma hckeys_step : forall c h a, hckeys h -> hckeys (hcstep c h a).
Proof.
  intros c h a [E Q F]. unfold hcstep. destruct (hc_crashed h); [now constructor|].
  destruct a as [|r|n|nt|n|n ex hd|hs|text hd| | | | |].
  - destruct (hc_thread h); now constructor.
  - unfold hc_begin. destruct (hc_connected h); [|now constructor].
    assert (X : forall r, id_key (rq_id r) <> [] -> Forall (fun r => id_key (rq_id r) <> []) (hc_entering h ++ [r]))
      by (intros r0 H; apply Forall_app; split; [exact E|now constructor]).
    destruct (rq_id r) as [[|c0 s]|z|] eqn:R; constructor; cbn [hc_entering hc_queue hc_flight hc_set_calls]; auto; apply X; rewrite ?R; cbn;
      try discriminate; apply print_Z_nonempty.
  - destruct (take_nth n (hc_entering h)) as [[r rest]|] eqn:T; [|now constructor].
    destruct (take_nth_forall _ _ _ _ _ _ T E) as [T1 T2]. constructor; cbn; auto. apply Forall_app. split; [exact Q|].
    constructor; [|constructor]. intros k K. cbn in K. injection K as <-. exact T1.
  - destruct (hc_connected h); constructor; cbn; auto. apply Forall_app. split; [exact Q|]. constructor; [|constructor]. intros k K. discriminate K.
  - destruct (hc_thread h && negb (hc_stopped h))%bool; [|now constructor].
    destruct (take_nth n (hc_queue h)) as [[p rest]|] eqn:T; [|now constructor].
    destruct (take_nth_forall _ _ _ _ _ _ T Q) as [T1 T2]. constructor; cbn; auto. apply Forall_app. split; [exact F|]. now constructor.
  - destruct (hc_thread h && negb (hc_stopped h))%bool; [|now constructor].
    destruct (take_nth n (hc_flight h)) as [[p rest]|] eqn:T; [|now constructor].
    destruct (take_nth_forall _ _ _ _ _ _ T F) as [T1 T2]. unfold hc_end. destruct (fst p) as [k| |]; try now constructor.
    destruct (ex_body ex) as [|b0 b]; [now constructor|].
    match goal with |- context [incoming true hd k ?m ?x] => destruct (incoming_effect true hd k m x) as ([] & _ & _ & _ & H & _) end.
    constructor.
    + rewrite sh_entering0. exact E.
    + rewrite H. apply Forall_app. split; [exact Q|apply replies_keys].
    + rewrite sh_flight0. exact T2.
  - destruct (hc_connected h && hc_sse h)%bool; now constructor.
  - destruct (hc_connected h && hc_sse h)%bool; [|now constructor].
    destruct (incoming_effect false hd [] text h) as ([] & _ & _ & _ & H & _). constructor.
    + now rewrite sh_entering0.
    + rewrite H. apply Forall_app. split; [exact Q|apply replies_keys].
    + now rewrite sh_flight0.
  - destruct (hc_session h); [now constructor|]. destruct (_ && _)%bool; now constructor.
  - now constructor.
  - now constructor.
  - now constructor.
  - now constructor.
Qed.

Lemma hckeys_reachable : forall c v vs, hckeys (hcrun c (hcli0 v) vs).
Proof.
  intros c v vs. induction vs as [|a vs IH] using rev_ind; [constructor; constructor|]. rewrite hcrun_snoc. now apply hckeys_step.
Qed.

(** ** The end of a POST *)
Lemma nth_take : forall (A : Type) n (l : list A) x, nth_error l n = Some x -> exists r, take_nth n l = Some (x, r).
Proof.
  intros A n. induction n as [|n IH]; intros [|y l] x H; try discriminate H; cbn in *.
  - injection H as ->. eexists. reflexivity.
  - destruct (IH l x H) as (r & ->). eexists. reflexivity.
Qed.

Lemma ended_tab : forall c h n ex hd k b, running h -> nth_error (hc_flight h) n = Some (PuRequest k, b) ->
  exists g, hc_tab g = hc_tab h /\ hcstep c h (TDone n ex hd) =
    match ex_body ex with [] => deliver_error k (bs "Invalid/empty HTTP response") g | b => incoming true hd k b g end.
Proof.
  intros c h n ex hd k b (R1 & R2 & R3) H. unfold hcstep. rewrite R1, R2, R3. cbn [andb negb].
  destruct (nth_take _ _ _ _ H) as (r & ->). cbn [fst]. unfold hc_end. eexists. split; [|reflexivity]. reflexivity.
Qed.

(** A text that is neither a request nor an answer to another pending request ends the wait. *)
Lemma incoming_ends : forall hd k m h, k <> [] -> calm hd -> (forall r, ~ is_request m r) ->
  (forall r, is_response m r -> id_key (rs_id r) = k \/ aget (id_key (rs_id r)) (pt_pend (hc_tab h)) = None) ->
  aget k (pt_pend (hc_tab (incoming true hd k m h))) = None.
Proof.
  intros hd k m h K C NR HR. unfold incoming.
  assert (X : forall r p, aget k (pt_pend (pt_complete k r p)) = None).
  { intros r p. unfold pt_complete. destruct (aget k (pt_pend p)) eqn:G; [apply aget_adel_same|exact G]. }
  destruct (route_kinds m) as [(r & A & A1 & A2)|[(r & A & A1 & A2)|(A & A1 & A2)]].
  - rewrite A2. cbn [fst resolve_calls fold_left snd]. unfold deliver_response. cbn [hc_set_heard hc_tab].
    destruct (HR r A) as [E|E].
    + rewrite E. destruct k as [|c0 k0]; [easy|]. destruct (aget (c0 :: k0) (pt_pend (hc_tab h))); cbn; apply X.
    + destruct (id_key (rs_id r)) as [|c1 k1]; [|rewrite E]; (destruct k as [|c0 k0]; [easy|]); cbn; apply X.
  - destruct (NR r A).
  - rewrite A. unfold route_notification. cbn [wrap_handlers h_notification h_error].
    destruct (deser_notification notification0 m) as [[|] n].
    + destruct (h_notification hd) as [f|] eqn:F; cbn [fst resolve_calls fold_left snd]; [rewrite (C f F n)|];
        (destruct k as [|c0 k0]; [easy|]); cbn; apply X.
    + destruct (h_error hd); cbn [fst resolve_calls fold_left snd]; (destruct k as [|c0 k0]; [easy|]); cbn; apply X.
Qed.

Lemma settled : forall c h a t r, hcinv h -> In (t, r) (hc_reg h) ->
  aget (id_key (rq_id r)) (pt_pend (hc_tab (hcstep c h a))) = None -> exists o, In (t, o) (pt_done (hc_tab (hcstep c h a))).
Proof.
  intros c h a t r I H G. pose proof (hcinv_step c h a I) as I2. destruct (step_grows c h a) as ((x & R) & _).
  assert (H2 : In (t, r) (hc_reg (hcstep c h a))) by (rewrite R; apply in_or_app; now left).
  apply (hci_reg _ I2) in H2. destruct (pt_pending_or_done _ _ _ (hci_tab _ I2) H2) as [K|K]; [|exact K].
  apply (in_pend_aget _ _ _ (hci_tab _ I2)) in K. congruence.
Qed.

Lemma hc_answered : forall c v vs n ex hd k b, let h := hcrun c (hcli0 v) vs in
  running h -> nth_error (hc_flight h) n = Some (PuRequest k, b) -> calm hd -> (forall r, ~ is_request (ex_body ex) r) ->
  (forall r, is_response (ex_body ex) r -> id_key (rs_id r) = k \/ forall t, ~ In (id_key (rs_id r), t) (pt_pend (hc_tab h))) ->
  forall t r, In (t, r) (hc_reg h) -> id_key (rq_id r) = k -> exists o, In (t, o) (pt_done (hc_tab (hcstep c h (TDone n ex hd)))).
Proof.
  intros c v vs n ex hd k b h R F C NR HR t r Hr Ek. apply settled with r; [apply hcinv_reachable|exact Hr|]. rewrite Ek.
  assert (K : k <> []).
  { pose proof (hk_flight _ (hckeys_reachable c v vs)) as Fl. fold h in Fl. apply nth_error_In in F. rewrite Forall_forall in Fl. now apply (Fl _ F). }
  destruct (ended_tab c h n ex hd k b R F) as (g & G & ->). destruct (ex_body ex) as [|b0 b1] eqn:B.
  - cbn. rewrite G. unfold pt_complete. destruct (aget k (pt_pend (hc_tab h))) eqn:A; [apply aget_adel_same|exact A].
  - apply incoming_ends; auto. intros r0 Hr0. destruct (HR r0 Hr0) as [E|E]; [now left|right]. rewrite G.
    destruct (aget (id_key (rs_id r0)) (pt_pend (hc_tab h))) as [t0|] eqn:A; [|reflexivity]. apply aget_in in A. now apply E in A.
Qed.

Lemma incoming_own : forall io hd fb m h r t, is_response m r -> id_key (rs_id r) <> [] ->
  aget (id_key (rs_id r)) (pt_pend (hc_tab h)) = Some t -> In (t, Some r) (pt_done (hc_tab (incoming io hd fb m h))).
Proof.
  intros io hd fb m h r t A K G. unfold incoming.
  destruct (route_kinds m) as [(r0 & A0 & A1 & A2)|[(r0 & A0 & A1 & A2)|(A0 & A1 & A2)]];
    [|now destruct (A1 r)|now destruct (A1 r)].
  rewrite (response_unique m r0 r A0 A) in *. rewrite A2. cbn [fst resolve_calls fold_left snd]. unfold deliver_response. cbn [hc_set_heard hc_tab].
  destruct (id_key (rs_id r)) as [|c k] eqn:E; [easy|]. rewrite G. cbn. apply in_complete_done. now right.
Qed.

Lemma hc_own_answer : forall c v vs a m r t, let h := hcrun c (hcli0 v) vs in
  hc_crashed h = false -> is_response m r -> In (id_key (rs_id r), t) (pt_pend (hc_tab h)) ->
  (exists n ex hd k b, a = TDone n ex hd /\ running h /\ nth_error (hc_flight h) n = Some (PuRequest k, b) /\ ex_body ex = m) \/
  (exists hd, a = TEvent m hd /\ hc_connected h = true /\ hc_sse h = true) ->
  In (t, Some r) (pt_done (hc_tab (hcstep c h a))).
Proof.
  intros c v vs a m r t h C A P H. pose proof (hcinv_reachable c v vs) as I. fold h in I.
  assert (K : id_key (rs_id r) <> []).
  { destruct (hci_pend h I _ _ P) as (q & Q & <-). clear - Q. subst h. revert Q. induction vs as [|x vs IH] using rev_ind; [easy|].
    rewrite hcrun_snoc. intro Q. pose proof (hckeys_reachable c v vs) as Kk. set (h := hcrun c (hcli0 v) vs) in *.
    destruct (step_does c h x) as [T R _ _|q0 _ _ T R _ _|q0 Hq T R _ _|k b ex _ _ T R _ _|k b ex _ T R _ _|m0 T R _ _|_ T R _ _];
      rewrite R in Q; try (now apply IH). apply in_app_iff in Q as [Q|[Q|[]]]; [now apply IH|]. injection Q as <- <-.
    pose proof (hk_entering _ Kk) as F. rewrite Forall_forall in F. now apply F. }
  pose proof (in_pend_aget _ _ _ (hci_tab h I) P) as G.
  destruct H as [(n & ex & hd & k & b & -> & R & F & B)|(hd & -> & C1 & C2)].
  - destruct (ended_tab c h n ex hd k b R F) as (g & Gt & ->). rewrite B. destruct m as [|m0 m].
    + now destruct (empty_no_response r).
    + apply incoming_own; auto. now rewrite Gt.
  - unfold hcstep. rewrite C, C1, C2. cbn [andb]. now apply incoming_own.
Qed.

(** ** Nothing happens to a request that is registered on a stopped transport *)
Lemma hc_stuck : forall c ws h, hc_stopped h = true -> hc_sse h = false -> hc_entering h = [] ->
  (forall a, In a ws -> a <> TClosed /\ forall r, a <> TBegin r) -> hc_tab (hcrun c h ws) = hc_tab h.
Proof.
  intros c ws. induction ws as [|a ws IH]; intros h S E N H; [reflexivity|]. cbn [hcrun fold_left]. fold (hcrun c (hcstep c h a) ws).
  assert (X : hc_stopped (hcstep c h a) = true /\ hc_sse (hcstep c h a) = false /\ hc_entering (hcstep c h a) = [] /\ hc_tab (hcstep c h a) = hc_tab h).
  { destruct (H a (or_introl eq_refl)) as [H1 H2]. unfold hcstep. destruct (hc_crashed h); [now repeat split|].
    destruct a as [|r|n|nt|n|n ex hd|hs|text hd| | | | |]; rewrite ?S, ?E, ?N, ?Bool.andb_false_r; cbn [negb]; rewrite ?Bool.andb_false_r; try (now repeat split).
    - destruct (hc_thread h); now repeat split.
    - now destruct (H2 r).
    - destruct n; now repeat split.
    - destruct (hc_connected h); now repeat split.
    - destruct (hc_session h); [now repeat split|]. destruct (_ && _)%bool; now repeat split. }
  destruct X as (X1 & X2 & X3 & X4). rewrite IH; auto. intros b Hb. apply H. now right.
Qed.

(** ** Sessions *)
Lemma last_cons : forall (l : list bstr) x d d', last (x :: l) d = last (x :: l) d'.
Proof. induction l as [|y l IH]; intros x d d'; [reflexivity|]. cbn [last] in *. apply IH. Qed.

Lemma session_fold : forall hs d, fold_left (fun acc (h : bstr * bstr) => if beq (fst h) SESSION_HEADER then snd h else acc) hs d = last (session_values hs) d.
Proof.
  unfold session_values, SESSION_HEADER. induction hs as [|h hs IH]; intro d; [reflexivity|]. cbn [fold_left filter]. rewrite IH.
  destruct (beq (fst h) (bs "Mcp-Session-Id")); [|reflexivity]. cbn [map].
  destruct (map snd (filter (fun h0 => beq (fst h0) (bs "Mcp-Session-Id")) hs)) as [|x l]; [reflexivity|].
  cbn [last]. apply (last_cons l x).
Qed.

Lemma last_split : forall (l : list bstr) d, l <> [] -> exists a, l = a ++ [last l d].
Proof. intros l d H. exists (removelast l). now apply app_removelast_last. Qed.

Lemma force_step : forall c h a, in_force (hc_log h) (hc_session h) -> in_force (hc_log (hcstep c h a)) (hc_session (hcstep c h a)).
Proof.
  assert (Cap : forall hs h, in_force (hc_log h) (hc_session h) -> in_force (hc_log (capture hs h)) (hc_session (capture hs h))).
  { intros hs h F. unfold capture. cbn. unfold ex_session. rewrite session_fold.
    destruct (last (session_values hs) []) as [|c0 s] eqn:L; [now apply if_keep|].
    destruct (last_split (session_values hs) []) as (a & E); [intro E; rewrite E in L; discriminate L|].
    apply if_issue with a; [now rewrite <- L|discriminate]. }
  intros c h a F. unfold hcstep. destruct (hc_crashed h); [exact F|].
  destruct a as [|r|n|nt|n|n ex hd|hs|text hd| | | | |]; try exact F.
  - now destruct (hc_thread h).
  - unfold hc_begin. destruct (hc_connected h); [|exact F]. now destruct (rq_id r) as [[|]| |].
  - destruct (take_nth n (hc_entering h)) as [[r rest]|]; exact F.
  - now destruct (hc_connected h).
  - destruct (hc_thread h && negb (hc_stopped h))%bool; [|exact F].
    destruct (take_nth n (hc_queue h)) as [[p rest]|]; [|exact F]. cbn. now apply if_post.
  - destruct (hc_thread h && negb (hc_stopped h))%bool; [|exact F].
    destruct (take_nth n (hc_flight h)) as [[p rest]|]; [|exact F]. unfold hc_end.
    pose proof (Cap (ex_headers ex) (hc_set_posts (hc_queue h) rest h) F) as F1.
    destruct (fst p) as [k| |]; try exact F1. destruct (ex_body ex) as [|b0 b]; [exact F1|].
    match goal with |- context [incoming true hd k ?m ?x] => destruct (incoming_effect true hd k m x) as ([] & _) end.
    rewrite sh_log0, sh_session0. exact F1.
  - destruct (hc_connected h && hc_sse h)%bool; [|exact F]. cbn. unfold stream_session. rewrite session_fold.
    destruct (session_values hs) as [|x l] eqn:E; [now apply if_stay|]. rewrite <- E.
    destruct (last_split (session_values hs) (hc_session h)) as (a & E2); [rewrite E; discriminate|]. now apply if_stream with a.
  - destruct (hc_connected h && hc_sse h)%bool; [|exact F].
    destruct (incoming_effect false hd [] text h) as ([] & _). now rewrite sh_log0, sh_session0.
  - destruct (hc_session h) as [|c0 s] eqn:E; [now rewrite E|]. destruct (_ && _)%bool; [cbn; now apply if_delete|now rewrite E].
  - cbn. apply if_clear.
Qed.

Lemma force_run : forall c v vs, in_force (hc_log (hcrun c (hcli0 v) vs)) (hc_session (hcrun c (hcli0 v) vs)).
Proof.
  intros c v vs. induction vs as [|a vs IH] using rev_ind; [constructor|]. rewrite hcrun_snoc. now apply force_step.
Qed.

Lemma version_fixed : forall c h a, hc_version (hcstep c h a) = hc_version h.
Proof.
  intros c h a. unfold hcstep. destruct (hc_crashed h); [reflexivity|].
  destruct a as [|r|n|nt|n|n ex hd|hs|text hd| | | | |]; try reflexivity.
  - now destruct (hc_thread h).
  - unfold hc_begin. destruct (hc_connected h); [|reflexivity]. now destruct (rq_id r) as [[|]| |].
  - destruct (take_nth n (hc_entering h)) as [[r rest]|]; reflexivity.
  - now destruct (hc_connected h).
  - destruct (hc_thread h && negb (hc_stopped h))%bool; [|reflexivity]. now destruct (take_nth n (hc_queue h)) as [[p rest]|].
  - destruct (hc_thread h && negb (hc_stopped h))%bool; [|reflexivity]. destruct (take_nth n (hc_flight h)) as [[p rest]|]; [|reflexivity].
    unfold hc_end. destruct (fst p) as [k| |]; try reflexivity. destruct (ex_body ex) as [|b0 b]; [reflexivity|].
    match goal with |- context [incoming true hd k ?m ?x] => destruct (incoming_effect true hd k m x) as ([] & _) end. now rewrite sh_version0.
  - now destruct (hc_connected h && hc_sse h)%bool.
  - destruct (hc_connected h && hc_sse h)%bool; [|reflexivity]. destruct (incoming_effect false hd [] text h) as ([] & _). exact sh_version0.
  - destruct (hc_session h) as [|c0 s]; [reflexivity|]. now destruct (_ && _)%bool.
Qed.

Lemma version_run : forall c v vs, hc_version (hcrun c (hcli0 v) vs) = v.
Proof. intros c v vs. induction vs as [|a vs IH] using rev_ind; [reflexivity|]. now rewrite hcrun_snoc, version_fixed. Qed.

(** How a step extends the network log. *)
Lemma log_step : forall c h a, hc_log (hcstep c h a) = hc_log h \/
  (exists p rest, Permutation (hc_queue h) (p :: rest) /\ hc_queue (hcstep c h a) = rest /\ hc_spawned (hcstep c h a) = hc_spawned h /\
     hc_log (hcstep c h a) = hc_log h ++ [SPost (post_path c (fst p)) (some_text (streamable c) (hc_session h)) (some_text (streamable c) (hc_version h)) (snd p)]) \/
  (exists x, (forall p s v b, x <> SPost p s v b) /\ hc_log (hcstep c h a) = hc_log h ++ [x]).
Proof.
  intros c h a. unfold hcstep. destruct (hc_crashed h); [now left|].
  destruct a as [|r|n|nt|n|n ex hd|hs|text hd| | | | |]; try (now left).
  - left. now destruct (hc_thread h).
  - left. unfold hc_begin. destruct (hc_connected h); [|reflexivity]. now destruct (rq_id r) as [[|]| |].
  - left. destruct (take_nth n (hc_entering h)) as [[r rest]|]; reflexivity.
  - left. now destruct (hc_connected h).
  - destruct (hc_thread h && negb (hc_stopped h))%bool; [|now left].
    destruct (take_nth n (hc_queue h)) as [[p rest]|] eqn:T; [|now left]. right; left. exists p, rest. split; [now apply take_nth_perm with n|]. now repeat split.
  - destruct (hc_thread h && negb (hc_stopped h))%bool; [|now left]. destruct (take_nth n (hc_flight h)) as [[p rest]|]; [|now left].
    right; right. exists (SReply (ex_headers ex)). split; [discriminate|]. unfold hc_end. destruct (fst p) as [k| |]; try reflexivity.
    destruct (ex_body ex) as [|b0 b]; [reflexivity|].
    match goal with |- context [incoming true hd k ?m ?x] => destruct (incoming_effect true hd k m x) as ([] & _) end. now rewrite sh_log0.
  - destruct (hc_connected h && hc_sse h)%bool; [|now left]. right; right. exists (SStream hs). split; [discriminate|reflexivity].
  - left. destruct (hc_connected h && hc_sse h)%bool; [|reflexivity]. destruct (incoming_effect false hd [] text h) as ([] & _). exact sh_log0.
  - destruct (hc_session h) as [|c0 s]; [now left|]. destruct (_ && _)%bool; [|now left].
    right; right. exists (SDelete (c0 :: s)). split; [discriminate|reflexivity].
  - right; right. exists SCleared. split; [discriminate|reflexivity].
Qed.

Lemma snoc_split : forall (A : Type) (l l1 l2 : list A) x y, l ++ [x] = l1 ++ y :: l2 ->
  (l2 = [] /\ l = l1 /\ x = y) \/ exists l3, l2 = l3 ++ [x] /\ l = l1 ++ y :: l3.
Proof.
  intros A l l1 l2 x y E. destruct l2 as [|z l2] using rev_ind.
  - left. apply app_inj_tail in E as [-> ->]. auto.
  - right. clear IHl2. change (l1 ++ y :: l2 ++ [z]) with (l1 ++ (y :: l2) ++ [z]) in E. rewrite app_assoc in E.
    apply app_inj_tail in E as [-> ->]. now exists l2.
Qed.

Lemma some_text_iff : forall c s o, some_text (streamable c) s = o ->
  match o with Some x => cf_endpoint c <> [] /\ x = s /\ s <> [] | None => cf_endpoint c = [] \/ s = [] end.
Proof.
  intros c s o <-. unfold some_text, streamable. destruct s as [|c0 s]; [now right|]. destruct (cf_endpoint c); [now left|]. repeat split; discriminate.
Qed.

Lemma hc_headers : forall c v vs l1 p s ver b l2, hc_log (hcrun c (hcli0 v) vs) = l1 ++ SPost p s ver b :: l2 ->
  (exists s0, in_force l1 s0 /\ some_text (streamable c) s0 = s) /\ some_text (streamable c) v = ver.
Proof.
  intros c v vs. induction vs as [|a vs IH] using rev_ind; intros l1 p s ver b l2 E; [now destruct l1|].
  rewrite hcrun_snoc in E. pose proof (force_run c v vs) as F. pose proof (version_run c v vs) as V. set (h := hcrun c (hcli0 v) vs) in *.
  destruct (log_step c h a) as [L|[(q & rest & _ & _ & _ & L)|(x & X & L)]]; rewrite L in E.
  - now apply IH in E.
  - apply snoc_split in E as [(-> & <- & E)|(l3 & -> & E)]; [|now apply IH in E].
    injection E as <- <- <- <-. rewrite V. split; [|reflexivity]. now exists (hc_session h).
  - apply snoc_split in E as [(-> & <- & E)|(l3 & -> & E)]; [now destruct (X p s ver b)|now apply IH in E].
Qed.

Lemma in_force_det : forall l s, in_force l s -> forall s', in_force l s' -> s = s'.
Proof.
  intros l s H. induction H as [|l s p x v b H IH|l s x H IH|l hs a s1 E N|l hs s H IH L|l hs a s1 E|l hs s H IH E|l]; intros s' H'.
  - inversion H' as [|? ? ? ? ? ? ? E1|? ? ? ? E1|? ? ? ? ? ? E1|? ? ? ? ? E1|? ? ? ? ? E1|? ? ? ? ? E1|? E1]; auto;
      destruct l; discriminate E1.
  - inversion H' as [E1|l' ? ? ? ? ? H0 E1|? ? ? ? E1|? ? ? ? ? ? E1|? ? ? ? ? E1|? ? ? ? ? E1|? ? ? ? ? E1|? E1];
      try (apply app_inj_tail in E1 as [-> E1]; first [discriminate E1 | auto]). destruct l; discriminate E1.
  - inversion H' as [E1|l' ? ? ? ? ? H0 E1|? ? ? H0 E1|? ? ? ? ? ? E1|? ? ? ? ? E1|? ? ? ? ? E1|? ? ? ? ? E1|? E1];
      try (apply app_inj_tail in E1 as [-> E1]; first [discriminate E1 | auto]). destruct l; discriminate E1.
  - inversion H' as [E1|l' ? ? ? ? ? H0 E1|? ? ? H0 E1|? ? ? ? E2 N2 E1|? ? ? H0 L2 E1|? ? ? ? E2 E1|? ? ? ? ? E1|? E1];
      try (apply app_inj_tail in E1 as [-> E1]; try discriminate E1).
    + destruct l; discriminate E1.
    + injection E1 as ->. rewrite E in E2. now apply app_inj_tail in E2 as [_ E2].
    + injection E1 as ->. rewrite E, last_last in L2. now destruct N.
  - inversion H' as [E1|l' ? ? ? ? ? H0 E1|? ? ? H0 E1|? ? ? ? E2 N2 E1|? ? ? H0 L2 E1|? ? ? ? E2 E1|? ? ? ? ? E1|? E1];
      try (apply app_inj_tail in E1 as [-> E1]; try discriminate E1).
    + destruct l; discriminate E1.
    + injection E1 as ->. rewrite E2, last_last in L. now destruct N2.
    + auto.
  - inversion H' as [E1|l' ? ? ? ? ? H0 E1|? ? ? H0 E1|? ? ? ? E2 N2 E1|? ? ? H0 L2 E1|? ? ? ? E2 E1|? ? ? ? E2 E1|? E1];
      try (apply app_inj_tail in E1 as [-> E1]; try discriminate E1).
    + destruct l; discriminate E1.
    + injection E1 as ->. rewrite E in E2. now apply app_inj_tail in E2 as [_ E2].
    + injection E1 as ->. rewrite E in E2. now destruct a.
  - inversion H' as [E1|l' ? ? ? ? ? H0 E1|? ? ? H0 E1|? ? ? ? E2 N2 E1|? ? ? H0 L2 E1|? ? ? ? E2 E1|? ? ? H0 E2 E1|? E1];
      try (apply app_inj_tail in E1 as [-> E1]; try discriminate E1).
    + destruct l; discriminate E1.
    + injection E1 as ->. rewrite E in E2. now destruct a.
    + auto.
  - inversion H' as [E1|l' ? ? ? ? ? H0 E1|? ? ? H0 E1|? ? ? ? E2 N2 E1|? ? ? H0 L2 E1|? ? ? ? E2 E1|? ? ? H0 E2 E1|? E1];
      try (apply app_inj_tail in E1 as [-> E1]; try discriminate E1); auto.
Qed.

(** ** What is posted is what was to be posted *)
Definition place (c : hccfg) (p : purpose * bstr) : bstr * bstr := (post_path c (fst p), snd p).

(** How a step extends the list of spawned POSTs, the calls and the registrations. *)
Inductive spawn_effect (h : hcli) (a : hcact) (g : hcli) : Prop :=
| sp_none : hc_spawned g = hc_spawned h -> hc_calls g = hc_calls h -> hc_reg g = hc_reg h -> (forall n, a = TNotify n -> hc_connected h = false) -> spawn_effect h a g
| sp_request r t : hc_spawned g = hc_spawned h ++ [(PuRequest (id_key (rq_id r)), ser_request r)] -> hc_calls g = hc_calls h ->
    hc_reg g = hc_reg h ++ [(t, r)] -> (forall n, a <> TNotify n) -> spawn_effect h a g
| sp_note n : a = TNotify n -> hc_connected h = true -> hc_spawned g = hc_spawned h ++ [(PuNotify, ser_notification n)] ->
    hc_calls g = hc_calls h -> hc_reg g = hc_reg h -> spawn_effect h a g
| sp_heard m hd : (match a with TDone _ _ x => x = hd | TEvent _ x => x = hd | _ => False end) ->
    hc_spawned g = hc_spawned h ++ replies_to hd m -> hc_calls g = hc_calls h ++ fst (route (wrap_handlers hd) m) ->
    hc_reg g = hc_reg h -> spawn_effect h a g.

Lemma spawn_step : forall c h a, hc_crashed h = false -> spawn_effect h a (hcstep c h a).
Proof.
  intros c h a C. unfold hcstep. rewrite C.
  destruct a as [|r|n|nt|n|n ex hd|hs|text hd| | | | |]; try (now apply sp_none).
  - destruct (hc_thread h); now apply sp_none.
  - unfold hc_begin. destruct (hc_connected h); [destruct (rq_id r) as [[|]| |]|]; now apply sp_none.
  - destruct (take_nth n (hc_entering h)) as [[r rest]|]; [|now apply sp_none]. now apply (sp_request _ _ _ r (pt_next (hc_tab h))).
  - destruct (hc_connected h) eqn:E; [now apply (sp_note _ _ _ nt)|]. now apply sp_none.
  - destruct (hc_thread h && negb (hc_stopped h))%bool; [|now apply sp_none]. destruct (take_nth n (hc_queue h)) as [[p rest]|]; now apply sp_none.
  - destruct (hc_thread h && negb (hc_stopped h))%bool; [|now apply sp_none]. destruct (take_nth n (hc_flight h)) as [[p rest]|]; [|now apply sp_none].
    unfold hc_end. destruct (fst p) as [k| |]; try now apply sp_none. destruct (ex_body ex) as [|b0 b]; [now apply sp_none|].
    match goal with |- context [incoming true hd k ?m ?x] => destruct (incoming_effect true hd k m x) as ([] & _ & _ & A & _ & B & _) end.
    now apply (sp_heard _ _ _ (b0 :: b) hd).
  - destruct (hc_connected h && hc_sse h)%bool; now apply sp_none.
  - destruct (hc_connected h && hc_sse h)%bool; [|now apply sp_none].
    destruct (incoming_effect false hd [] text h) as ([] & _ & _ & A & _ & B & _). now apply (sp_heard _ _ _ text hd).
  - destruct (hc_session h) as [|c0 s]; [now apply sp_none|]. destruct (_ && _)%bool; now apply sp_none.
Qed.

Lemma crash_stays : forall c h a, hc_crashed h = true -> hcstep c h a = h.
Proof. intros c h a C. unfold hcstep. now rewrite C. Qed.

(** The queue holds what was spawned and has not been posted. *)
Lemma queue_step : forall c h a, hc_log (hcstep c h a) = hc_log h \/ (exists x, (forall p s v b, x <> SPost p s v b) /\ hc_log (hcstep c h a) = hc_log h ++ [x]) ->
  exists l, hc_queue (hcstep c h a) = hc_queue h ++ l /\ hc_spawned (hcstep c h a) = hc_spawned h ++ l.
Proof.
  intros c h a. unfold hcstep. destruct (hc_crashed h); [exists []; now rewrite !app_nil_r|].
  assert (Z : forall g, hc_queue g = hc_queue h -> hc_spawned g = hc_spawned h ->
    exists l, hc_queue g = hc_queue h ++ l /\ hc_spawned g = hc_spawned h ++ l) by (intros g E1 E2; exists []; now rewrite !app_nil_r).
  destruct a as [|r|n|nt|n|n ex hd|hs|text hd| | | | |]; intro L; try (now apply Z).
  - destruct (hc_thread h); now apply Z.
  - unfold hc_begin. destruct (hc_connected h); [destruct (rq_id r) as [[|]| |]|]; now apply Z.
  - destruct (take_nth n (hc_entering h)) as [[r rest]|]; [|now apply Z]. eexists. split; reflexivity.
  - destruct (hc_connected h); [|now apply Z]. eexists. split; reflexivity.
  - destruct (hc_thread h && negb (hc_stopped h))%bool; [|now apply Z]. destruct (take_nth n (hc_queue h)) as [[p rest]|]; [|now apply Z].
    exfalso. cbn in L. destruct L as [L|(x & X & L)].
    + apply (f_equal (@length hclog)) in L. rewrite app_length in L. cbn in L. lia.
    + apply app_inj_tail in L as [_ <-]. now eapply X.
  - destruct (hc_thread h && negb (hc_stopped h))%bool; [|now apply Z]. destruct (take_nth n (hc_flight h)) as [[p rest]|]; [|now apply Z].
    unfold hc_end. destruct (fst p) as [k| |]; try now apply Z. destruct (ex_body ex) as [|b0 b]; [now apply Z|].
    match goal with |- context [incoming true hd k ?m ?x] => destruct (incoming_effect true hd k m x) as (_ & _ & _ & _ & A & B & _) end.
    eexists. split; [exact A|exact B].
  - destruct (hc_connected h && hc_sse h)%bool; now apply Z.
  - destruct (hc_connected h && hc_sse h)%bool; [|now apply Z].
    destruct (incoming_effect false hd [] text h) as (_ & _ & _ & _ & A & B & _). eexists. split; [exact A|exact B].
  - destruct (hc_session h) as [|c0 s]; [now apply Z|]. destruct (_ && _)%bool; now apply Z.
Qed.

Lemma posted_app : forall a b, posted (a ++ b) = posted a ++ posted b.
Proof. intros. unfold posted. apply flat_map_app. Qed.

Lemma posts_perm : forall c v vs, let h := hcrun c (hcli0 v) vs in
  Permutation (posted (hc_log h) ++ map (place c) (hc_queue h)) (map (place c) (hc_spawned h)).
Proof.
  intros c v vs. cbn zeta. induction vs as [|a vs IH] using rev_ind; [constructor|]. rewrite hcrun_snoc. set (h := hcrun c (hcli0 v) vs) in *.
  destruct (log_step c h a) as [L|[(q & rest & Q & Q1 & Q2 & L)|(x & X & L)]].
  - destruct (queue_step c h a (or_introl L)) as (l & A & B). rewrite L, A, B, !map_app, app_assoc. now apply Permutation_app_tail.
  - rewrite L, Q1, Q2, posted_app. cbn [posted flat_map app]. rewrite <- app_assoc. cbn [app].
    change (post_path c (fst q), snd q) with (place c q). rewrite <- IH. apply Permutation_app_head. symmetry. now apply (Permutation_map (place c)) in Q.
  - destruct (queue_step c h a (or_intror (ex_intro _ x (conj X L)))) as (l & A & B). rewrite L, A, B, posted_app, !map_app.
    assert (E : posted [x] = []) by (destruct x; try reflexivity; now destruct (X path session version body)). rewrite E, app_nil_r, app_assoc.
    now apply Permutation_app_tail.
Qed.

Lemma posts_at : forall c v vs, let h := hcrun c (hcli0 v) vs in
  Permutation (posted (hc_log h) ++ map (fun p => (url_for c (fst p), snd p)) (hc_queue h))
    (map (fun p => (url_for c (fst p), snd p)) (hc_spawned h)).
Proof.
  intros c v vs. cbn zeta.
  assert (E : forall l, map (fun p => (url_for c (fst p), snd p)) l = map (place c) l).
  { intros l. apply map_ext. intros [p t]. unfold place, post_path, url_for, request_path, notify_path, streamable. cbn [fst snd].
    destruct p; now destruct (cf_endpoint c). }
  rewrite !E. apply posts_perm.
Qed.

Lemma texts_app : forall f a b, texts_for f (a ++ b) = texts_for f a ++ texts_for f b.
Proof. intros. unfold texts_for. now rewrite filter_app, map_app. Qed.

Lemma replies_only : forall hd m, texts_for for_request (replies_to hd m) = [] /\ texts_for for_notify (replies_to hd m) = [].
Proof. intros hd m. unfold replies_to. destruct (route (wrap_handlers hd) m) as [cs [[t|]|]]; now split. Qed.

Lemma requests_spawned : forall c v vs, let h := hcrun c (hcli0 v) vs in
  texts_for for_request (hc_spawned h) = map (fun tr => ser_request (snd tr)) (hc_reg h).
Proof.
  intros c v vs. cbn zeta. induction vs as [|a vs IH] using rev_ind; [reflexivity|]. rewrite hcrun_snoc. set (h := hcrun c (hcli0 v) vs) in *.
  destruct (hc_crashed h) eqn:C; [now rewrite crash_stays|].
  destruct (spawn_step c h a C) as [S _ R _|r t S _ R _|n _ _ S _ R|m hd _ S _ R]; rewrite S, R, ?texts_app, IH.
  - reflexivity.
  - now rewrite map_app.
  - now rewrite app_nil_r.
  - destruct (replies_only hd m) as [-> _]. now rewrite app_nil_r.
Qed.

Lemma reply_answers : forall hd r f, h_request (wrap_handlers hd) = Some f -> answers hd r (reply (rq_id r) (f r)).
Proof.
  intros hd r f E. cbn in E. injection E as <-. unfold answers. destruct (h_request hd) as [f|]; cbn; [|reflexivity].
  destruct (f r) as [x| |w]; cbn; auto.
Qed.

Lemma replies_spawned : forall c v vs, let h := hcrun c (hcli0 v) vs in
  Forall2 (fun r t => exists hd resp, installed vs hd /\ answers hd r resp /\ t = ser_response resp)
    (asked (hc_calls h)) (texts_for for_reply (hc_spawned h)).
Proof.
  intros c v vs. cbn zeta. induction vs as [|a vs IH] using rev_ind; [constructor|]. rewrite hcrun_snoc. set (h := hcrun c (hcli0 v) vs) in *.
  assert (IH' : Forall2 (fun r t => exists hd resp, installed (vs ++ [a]) hd /\ answers hd r resp /\ t = ser_response resp)
    (asked (hc_calls h)) (texts_for for_reply (hc_spawned h))).
  { clear - IH. induction IH as [|r t l l' (hd & resp & (b & B1 & B2) & H) _ IH]; constructor; [|exact IH].
    exists hd, resp. split; [|exact H]. exists b. split; [apply in_or_app; now left|exact B2]. }
  destruct (hc_crashed h) eqn:C; [now rewrite crash_stays|].
  destruct (spawn_step c h a C) as [S K _ _|r t S K _ _|n _ _ S K _|m hd Ha S K _]; rewrite S, K, ?texts_app; cbn [texts_for filter for_reply fst map];
    rewrite ?app_nil_r; try exact IH'.
  unfold asked. rewrite flat_map_app. fold (asked (hc_calls h)). fold (asked (fst (route (wrap_handlers hd) m))).
  apply Forall2_app; [exact IH'|]. unfold replies_to.
  destruct (route_kinds m) as [(r & A & A1 & A2)|[(r & A & A1 & A2)|(A & A1 & A2)]].
  - rewrite A2. constructor.
  - rewrite (A2 (wrap_handlers hd) _ eq_refl). cbn. constructor; [|constructor]. exists hd. eexists. split; [|split; [|reflexivity]].
    + exists a. split; [apply in_or_app; right; now left|exact Ha].
    + now apply reply_answers.
  - rewrite A. destruct (notification_calls (wrap_handlers hd) m) as [(n & E)|[(e & E)|E]]; rewrite E; cbn [asked flat_map app];
      unfold route_notification in *; destruct (deser_notification notification0 m) as [[|] n0]; cbn [wrap_handlers h_notification h_error] in *;
      try (destruct (h_notification hd) as [f|]; [destruct (f n0)|]; constructor); destruct (h_error hd); constructor.
Qed.

Lemma notes_app : forall vs up a, exists up', sent_notes up (vs ++ [a]) = sent_notes up vs ++ sent_notes up' [a] /\
  up' = fold_left (fun u x => match x with TStart => true | TDisconnect => false | _ => u end) vs up.
Proof.
  induction vs as [|x vs IH]; intros up a; [exists up; now split|].
  cbn [app fold_left]. destruct x; cbn [sent_notes]; try (destruct (IH up a) as (u & H1 & H2); exists u; split; [exact H1|exact H2]).
  - destruct (IH true a) as (u & H1 & H2). exists u. now split.
  - destruct (IH up a) as (u & H1 & H2). exists u. destruct up; (split; [cbn [app]; now rewrite H1|exact H2]).
  - destruct (IH false a) as (u & H1 & H2). exists u. now split.
Qed.

Lemma connected_is : forall c v vs, let h := hcrun c (hcli0 v) vs in hc_crashed h = false ->
  hc_connected h = fold_left (fun u x => match x with TStart => true | TDisconnect => false | _ => u end) vs false.
Proof.
  intros c v vs. cbn zeta. induction vs as [|a vs IH] using rev_ind; [reflexivity|]. rewrite hcrun_snoc, fold_left_app. cbn [fold_left].
  set (h := hcrun c (hcli0 v) vs) in *. intro Cr. destruct (hc_crashed h) eqn:C; [rewrite crash_stays in Cr by exact C; congruence|]. specialize (IH eq_refl).
  rewrite <- IH. revert Cr. unfold hcstep. rewrite C. destruct a as [|r|n|nt|n|n ex hd|hs|text hd| | | | |]; intro Cr; try reflexivity.
  - destruct (hc_thread h); [discriminate Cr|reflexivity].
  - unfold hc_begin. destruct (hc_connected h) eqn:E; [|exact E]. destruct (rq_id r) as [[|]| |]; exact E.
  - now destruct (take_nth n (hc_entering h)) as [[r rest]|].
  - destruct (hc_connected h) eqn:E; exact E.
  - destruct (hc_thread h && negb (hc_stopped h))%bool; [|reflexivity]. now destruct (take_nth n (hc_queue h)) as [[p rest]|].
  - destruct (hc_thread h && negb (hc_stopped h))%bool; [|reflexivity]. destruct (take_nth n (hc_flight h)) as [[p rest]|]; [|reflexivity].
    unfold hc_end. destruct (fst p) as [k| |]; try reflexivity. destruct (ex_body ex) as [|b0 b]; [reflexivity|].
    match goal with |- context [incoming true hd k ?m ?x] => destruct (incoming_effect true hd k m x) as ([] & _) end. now rewrite sh_connected0.
  - now destruct (hc_connected h && hc_sse h)%bool.
  - destruct (hc_connected h && hc_sse h)%bool; [|reflexivity]. destruct (incoming_effect false hd [] text h) as ([] & _). exact sh_connected0.
  - destruct (hc_session h) as [|c0 s]; [reflexivity|]. now destruct (_ && _)%bool.
Qed.

Lemma notes_spawned : forall c v vs, let h := hcrun c (hcli0 v) vs in hc_crashed h = false ->
  texts_for for_notify (hc_spawned h) = map ser_notification (sent_notes false vs).
Proof.
  intros c v vs. cbn zeta. induction vs as [|a vs IH] using rev_ind; [reflexivity|]. rewrite hcrun_snoc. pose proof (connected_is c v vs) as CI. set (h := hcrun c (hcli0 v) vs) in *.
  intro Cr. destruct (hc_crashed h) eqn:C; [rewrite crash_stays in Cr by exact C; congruence|]. specialize (IH eq_refl). cbn zeta in CI. specialize (CI C).
  destruct (notes_app vs false a) as (u & N & U). rewrite <- CI in U. rewrite N, map_app.
  destruct (spawn_step c h a C) as [S _ _ H|r t S _ _ H|n A H S _ _|m hd A S _ _]; rewrite S, ?texts_app, IH.
  - destruct a; cbn; try (now rewrite app_nil_r). rewrite U, (H _ eq_refl). cbn. now rewrite app_nil_r.
  - destruct a; cbn; try (now rewrite app_nil_r). now destruct (H nt).
  - subst a. cbn. rewrite U, H. reflexivity.
  - destruct (replies_only hd m) as [_ ->]. destruct a; try easy; cbn; now rewrite app_nil_r.
Qed.

(** ** No crash *)
Lemma no_crash : forall c vs h, hc_crashed h = false -> Forall calm_act vs -> started_once (hc_thread h) vs -> hc_crashed (hcrun c h vs) = false.
Proof.
  intros c vs. induction vs as [|a vs IH]; intros h C F S; [exact C|]. inversion F as [|? ? F1 F2]; subst.
  cbn [hcrun fold_left]. fold (hcrun c (hcstep c h a) vs).
  assert (X : hc_crashed (hcstep c h a) = false /\ started_once (hc_thread (hcstep c h a)) vs).
  { unfold hcstep. rewrite C. destruct a as [|r|n|nt|n|n ex hd|hs|text hd| | | | |]; cbn [started_once] in S; try (now split).
    - destruct S as [S1 S2]. rewrite S1. now split.
    - unfold hc_begin. destruct (hc_connected h); [destruct (rq_id r) as [[|]| |]|]; now split.
    - destruct (take_nth n (hc_entering h)) as [[r rest]|]; now split.
    - destruct (hc_connected h); now split.
    - destruct (hc_thread h && negb (hc_stopped h))%bool; [|now split]. destruct (take_nth n (hc_queue h)) as [[p rest]|]; now split.
    - destruct (hc_thread h && negb (hc_stopped h))%bool; [|now split]. destruct (take_nth n (hc_flight h)) as [[p rest]|]; [|now split].
      unfold hc_end. destruct (fst p) as [k| |]; try now split. destruct (ex_body ex) as [|b0 b]; [now split|].
      match goal with |- context [incoming true hd k ?m ?x] => destruct (incoming_effect true hd k m x) as ([] & _ & _ & _ & _ & _ & K); set (g := incoming true hd k m x) in * end.
      split; [|rewrite sh_thread0; exact S]. destruct (hc_crashed g); [|reflexivity]. destruct (K eq_refl) as [K1|[_ K1]]; [cbn in K1; congruence|]. now destruct K1.
    - destruct (hc_connected h && hc_sse h)%bool; now split.
    - destruct (hc_connected h && hc_sse h)%bool; [|now split].
      destruct (incoming_effect false hd [] text h) as ([] & _ & _ & _ & _ & _ & K). set (g := incoming false hd [] text h) in *.
      split; [|rewrite sh_thread0; exact S]. destruct (hc_crashed g); [|reflexivity]. destruct (K eq_refl) as [K1|[K1 _]]; congruence.
    - destruct (hc_session h) as [|c0 s]; [now split|]. destruct (_ && _)%bool; now split. }
  destruct X as [X1 X2]. now apply IH.
Qed.

(** ** Generated ids *)
Definition hc_id (n : N) : bstr := bs "http-req-" ++ print_N n.
Definition all_keys (h : hcli) : list bstr := hc_keys h ++ map (fun r => id_key (rq_id r)) (hc_entering h).

Lemma ids_quiet : forall c h a, (forall r, a <> TBegin r) -> (forall n, a <> TRegister n) ->
  hc_counter (hcstep c h a) = hc_counter h /\ hc_reg (hcstep c h a) = hc_reg h /\ hc_entering (hcstep c h a) = hc_entering h.
Proof.
  intros c h a H1 H2. unfold hcstep. destruct (hc_crashed h); [now repeat split|].
  destruct a as [|r|n|nt|n|n ex hd|hs|text hd| | | | |]; try (now repeat split).
  - destruct (hc_thread h); now repeat split.
  - now destruct (H1 r).
  - now destruct (H2 n).
  - destruct (hc_connected h); now repeat split.
  - destruct (hc_thread h && negb (hc_stopped h))%bool; [|now repeat split]. destruct (take_nth n (hc_queue h)) as [[p rest]|]; now repeat split.
  - destruct (hc_thread h && negb (hc_stopped h))%bool; [|now repeat split]. destruct (take_nth n (hc_flight h)) as [[p rest]|]; [|now repeat split].
    unfold hc_end. destruct (fst p) as [k| |]; try now repeat split. destruct (ex_body ex) as [|b0 b]; [now repeat split|].
    match goal with |- context [incoming true hd k ?m ?x] => destruct (incoming_effect true hd k m x) as ([] & _) end. now rewrite sh_counter0, sh_reg0, sh_entering0.
  - destruct (hc_connected h && hc_sse h)%bool; now repeat split.
  - destruct (hc_connected h && hc_sse h)%bool; [|now repeat split]. destruct (incoming_effect false hd [] text h) as ([] & _). auto.
  - destruct (hc_session h) as [|c0 s]; [now repeat split|]. destruct (_ && _)%bool; now repeat split.
Qed.

Lemma begins_snoc : forall vs a, hc_begins (vs ++ [a]) = (hc_begins vs + match a with TBegin _ => 1 | _ => 0 end)%N.
Proof. intros vs a. unfold hc_begins. rewrite filter_app, app_length. destruct a; cbn; lia. Qed.

Lemma hc_ids : forall c v vs, Forall auto_hcact vs -> (hc_begins vs < 2 ^ 32)%N -> let h := hcrun c (hcli0 v) vs in
  NoDup (all_keys h) /\ (hc_counter h <= hc_begins vs)%N /\ (forall k, In k (all_keys h) -> exists n, (n <= hc_counter h)%N /\ k = hc_id n).
Proof.
  intros c v vs. induction vs as [|a vs IH] using rev_ind; intros F B; cbn zeta; [cbn; repeat split; [constructor|lia|easy]|].
  apply Forall_app in F as [F1 F2]. inversion F2 as [|? ? Fa _]; subst. rewrite begins_snoc in *.
  destruct (IH F1 ltac:(destruct a; lia)) as (I1 & I2 & I3). clear IH. rewrite hcrun_snoc. set (h := hcrun c (hcli0 v) vs) in *.
  assert (Q : (forall r, a <> TBegin r) -> (forall n, a <> TRegister n) ->
    NoDup (all_keys (hcstep c h a)) /\ (hc_counter (hcstep c h a) <= hc_begins vs + match a with TBegin _ => 1 | _ => 0 end)%N /\
    (forall k, In k (all_keys (hcstep c h a)) -> exists n, (n <= hc_counter (hcstep c h a))%N /\ k = hc_id n)).
  { intros H1 H2. destruct (ids_quiet c h a H1 H2) as (A1 & A2 & A3). unfold all_keys, hc_keys in *. rewrite A1, A2, A3. split; [exact I1|]. split; [lia|exact I3]. }
  destruct a as [|r|n|nt|n|n ex hd|hs|text hd| | | | |]; try (apply Q; discriminate); clear Q.
  - unfold hcstep. destruct (hc_crashed h); [split; [exact I1|]; split; [lia|exact I3]|]. unfold hc_begin. destruct (hc_connected h).
    + assert (E : hc_next (hc_counter h) = (hc_counter h + 1)%N) by (unfold hc_next; apply N.mod_small; lia).
      destruct Fa as [-> | ->]; rewrite E; unfold all_keys, hc_keys in *; cbn [hc_set_calls hc_reg hc_entering hc_counter];
        rewrite map_app; cbn [map rq_id id_key]; rewrite app_assoc; fold (hc_id (hc_counter h + 1)).
      all: split; [|split; [lia|]].
      all: try (intros k K; apply in_app_iff in K as [K|[K|[]]]; [destruct (I3 k K) as (n & N1 & N2); exists n; split; [lia|exact N2]|exists (hc_counter h + 1)%N; split; [lia|now symmetry]]).
      all: apply NoDup_Add with (a := hc_id (hc_counter h + 1)) (l := map (fun tr => id_key (rq_id (snd tr))) (hc_reg h) ++ map (fun r0 => id_key (rq_id r0)) (hc_entering h)).
      all: try (rewrite <- (app_nil_r (_ ++ map _ (hc_entering h))) at 1; apply Add_app).
      all: split; [exact I1|]; intro K; destruct (I3 _ K) as (n & N1 & N2); unfold hc_id in N2; apply app_inv_head, print_N_inj in N2; lia.
    + unfold all_keys, hc_keys in *. cbn. split; [exact I1|]. split; [lia|exact I3].
  - unfold hcstep. destruct (hc_crashed h); [split; [exact I1|]; split; [lia|exact I3]|].
    destruct (take_nth n (hc_entering h)) as [[r rest]|] eqn:T; [|split; [exact I1|]; split; [lia|exact I3]].
    apply take_nth_perm in T.
    assert (P : Permutation (all_keys h) (all_keys (hc_register r rest h))).
    { unfold all_keys, hc_keys. cbn. rewrite map_app, <- app_assoc. apply Permutation_app_head. cbn. now apply (Permutation_map (fun r => id_key (rq_id r))) in T. }
    split; [now apply (Permutation_NoDup P)|]. split; [cbn; lia|]. intros k K. apply (Permutation_in _ (Permutation_sym P)) in K. now apply I3.
Qed.

(** ** A reply that is an event stream *)
Lemma silent_invalid : forall hd k m h, silent_text m -> calm hd -> k <> [] ->
  hc_tab (incoming true hd k m h) = pt_complete k (gave (IdStr k) (bs "Invalid/empty HTTP response")) (hc_tab h).
Proof.
  intros hd k m h (A & A1 & A2) C K. unfold incoming. rewrite A. unfold route_notification. cbn [wrap_handlers h_notification h_error].
  destruct (deser_notification notification0 m) as [[|] n].
  - destruct (h_notification hd) as [f|] eqn:F; cbn [fst resolve_calls fold_left snd]; [rewrite (C f F n)|];
      (destruct k as [|c0 k0]; [easy|]); reflexivity.
  - destruct (h_error hd); cbn [fst resolve_calls fold_left snd]; (destruct k as [|c0 k0]; [easy|]); reflexivity.
Qed.

Lemma no_brace_silent : forall m, (forall k, has_top_key k m = false) -> silent_text m.
Proof.
  intros m H. destruct (route_kinds m) as [(r & A & A1 & A2)|[(r & A & A1 & A2)|A]]; [| |exact A]; exfalso.
  - specialize (A demo_hd). unfold route in A. rewrite !H in A. destruct (deser_response response0 m) as [ok resp]. cbn [orb andb] in A.
    destruct (deser_request request0 m) as [okr r0]. cbn [demo_hd h_request] in A. rewrite Bool.andb_false_r in A. cbn [andb] in A.
    destruct (notification_calls demo_hd m) as [(n & E)|[(e & E)|E]]; rewrite E in A; discriminate A.
  - specialize (A demo_hd ltac:(discriminate)). unfold route in A. rewrite !H in A. destruct (deser_response response0 m) as [ok resp]. cbn [orb andb] in A.
    destruct (deser_request request0 m) as [okr r0]. cbn [demo_hd h_request] in A. rewrite Bool.andb_false_r in A. cbn [andb] in A.
    destruct (notification_calls demo_hd m) as [(n & E)|[(e & E)|E]]; rewrite E in A; discriminate A.
Qed.

Lemma hc_event_body : forall c v vs n ex hd k b t, let h := hcrun c (hcli0 v) vs in
  running h -> nth_error (hc_flight h) n = Some (PuRequest k, b) -> In (k, t) (pt_pend (hc_tab h)) -> calm hd ->
  (forall k, has_top_key k (ex_body ex) = false) ->
  In (t, Some (gave (IdStr k) (bs "Invalid/empty HTTP response"))) (pt_done (hc_tab (hcstep c h (TDone n ex hd)))).
Proof.
  intros c v vs n ex hd k b t h R F P C H. pose proof (hcinv_reachable c v vs) as I. fold h in I.
  apply (in_pend_aget _ _ _ (hci_tab h I)) in P.
  assert (K : k <> []).
  { pose proof (hk_flight _ (hckeys_reachable c v vs)) as Fl. fold h in Fl. apply nth_error_In in F. rewrite Forall_forall in Fl. now apply (Fl _ F). }
  destruct (ended_tab c h n ex hd k b R F) as (g & G & ->). destruct (ex_body ex) as [|b0 b1] eqn:B.
  - cbn. apply in_complete_done. right. now rewrite G.
  - rewrite silent_invalid; auto; [|now apply no_brace_silent]. apply in_complete_done. right. now rewrite G.
Qed.
