(** C137: a handler may call the other side. C138: a request that is being handled does not hold up others.
    C139: what a handler tells comes before its answer. *)
From Coq Require Import Ascii String List Arith Bool Lia.
From Verif Require Import StrModel TalkModel TalkSpec TalkProofs.
Import ListNotations.
Local Open Scope nat_scope.

(** C137, answers: what an application's call returns is what it would return if every request, at any depth, were a call of
    the other side's handler; only where a request timed out, its answer is missing. *)
Theorem C137_answers : forall w inline timed h1 c p h2 a, timed = true \/ timely (h1 ++ TApp c p :: h2) ->
  option_map th_at (nth_error (tk_threads (talk_run w inline talk0 (h1 ++ TApp c p :: h2))) (List.length (tk_threads (talk_run w inline talk0 h1)))) = Some (Over a) ->
  calls w timed c p a.
Proof.
  intros w inline timed h1 c p h2 a T H. pose proof (good_run w inline timed _ T) as G. set (s := talk_run w inline talk0 (h1 ++ TApp c p :: h2)) in *.
  set (s1 := talk_step w inline (talk_run w inline talk0 h1) (TApp c p)). assert (s = talk_run w inline s1 h2) as E by (unfold s; now rewrite talk_app).
  destruct (keeps_run w inline h2 s1 (List.length (tk_threads (talk_run w inline talk0 h1))) (started c None false p)) as (t & N & Q); [unfold s1; cbn; apply nth_app_new|].
  rewrite <- E in N. rewrite N in H. cbn in H. injection H as H. assert (calls w timed (th_side t) (th_main t) a) as K by (apply (g_main _ _ _ _ G t a (nth_in _ _ _ _ N)); now rewrite H).
  rewrite Q in K. exact K.
Qed.
Print Assumptions C137_answers.

(** C137, once: the handler of a request runs once, and one answer is sent for it. *)
Theorem C137_once : forall w inline h, let s := talk_run w inline talk0 h in
  (forall m n t u i, nth_error (tk_threads s) m = Some t -> nth_error (tk_threads s) n = Some u -> th_for t = Some i -> th_for u = Some i -> m = n) /\
  (forall c x y i a b, nth_error (tk_sent s c) x = Some (MRes i a) -> nth_error (tk_sent s c) y = Some (MRes i b) -> x = y).
Proof.
  intros w inline h s. split; [apply (g_one _ _ _ _ (good_run w inline true h (or_introl eq_refl)))|]. intros c x y i a b. apply res_one.
Qed.
Print Assumptions C137_once.

(** A handler that asks the other side, which tells something and asks back, twice deep. *)
Definition deep : world := {|
  w_req := fun c q o => if beq q (bs "outer") then Tell (bs "progress") (Ask (bs "inner") (fun a => match a with Some a => Ret (bs "got " ++ a)%list | None => Ret (bs "late") end))
                        else if beq q (bs "inner") then Ask (bs "leaf") (fun a => match a with Some a => Ret a | None => Ret (bs "late") end) else Ret (bs "42");
  w_note := fun _ _ _ => Ret [] |}.
Definition asker : prog := Ask (bs "outer") (fun a => match a with Some a => Ret a | None => Ret (bs "late") end).
Definition deep_run : list tev :=
  [TApp true asker; TStep 0; TRecv false 0; TStep 1; TStep 1; TRecv true 0; TStep 2; TRecv true 0; TStep 3; TRecv false 0; TStep 4; TRecv true 0; TStep 3; TRecv false 0; TStep 1; TRecv true 0; TStep 0].
Example C137_answers_ex : let s := talk_run deep (fun _ => false) talk0 deep_run in
  timely deep_run /\ option_map th_at (nth_error (tk_threads s) 0) = Some (Over (bs "got 42")) /\ (forall t, In t (tk_threads s) -> exists a, th_at t = Over a).
Proof.
  split; [intros n H; cbn in H; intuition discriminate|]. split; [vm_compute; reflexivity|]. intros t H. vm_compute in H. intuition (subst; eexists; reflexivity).
Qed.

(** C137, no deadlock, where nothing that runs on a thread that reads messages waits: if nothing goes on, everything is done. *)
Theorem C137_no_deadlock_partial : forall w inline h, calm w inline true -> calm w inline false -> let s := talk_run w inline talk0 h in
  (forall n, ~ enabled s (TStep n)) -> (forall c o, ~ enabled s (TRecv c o)) -> settled s.
Proof. exact stuck_settled. Qed.
Print Assumptions C137_no_deadlock_partial.

Example C137_no_deadlock_ex : calm deep (fun _ => false) true /\ calm deep (fun _ => false) false /\
  let s := talk_run deep (fun _ => false) talk0 deep_run in
  (forall n, ~ enabled s (TStep n)) /\ (forall c o, ~ enabled s (TRecv c o)) /\ List.length (tk_threads s) = 5.
Proof.
  assert (C : forall c, calm deep (fun _ => false) c) by (intros c; split; [intros; constructor|intros; discriminate]). split; [apply C|]. split; [apply C|]. cbn zeta. split; [|split; [|vm_compute; reflexivity]].
  - intros n (t & p & N & A). vm_compute in N. do 5 (destruct n as [|n]; [injection N as <-; discriminate|]). now destruct n.
  - intros [|] o [_ N]; apply N; vm_compute; reflexivity.
Qed.

(** C137, no endless talk: where each program costs at most so many steps with all that it causes, nothing goes on for longer,
    whatever the order. *)
Theorem C137_ends : forall w inline l ns h, Forall2 (fun x n => costs w (fst x) (snd x) n) l ns ->
  lively w inline (talk_run w inline talk0 (map (fun x => TApp (fst x) (snd x)) l)) h -> List.length h <= list_sum ns.
Proof.
  intros w inline l ns h F L. apply (budget_run w inline h (talk_run w inline talk0 (map app_ev l))); [apply good_run; now left|exact L|]. now apply apps_budget.
Qed.
Print Assumptions C137_ends.

Lemma deep_costs : forall b, costs deep b asker 25.
Proof.
  assert (K : forall b q, beq q (bs "outer") = false -> beq q (bs "inner") = false -> forall o, costs deep b (w_req deep b q o) 2) by (intros b q E1 E2 o; unfold w_req, deep at 2; rewrite E1, E2; constructor; lia).
  assert (R : forall b (a : option bstr) (f : bstr -> bstr), costs deep b (match a with Some a => Ret (f a) | None => Ret (bs "late") end) 2) by (intros b [a|] f; constructor; lia).
  assert (I : forall b o, costs deep b (w_req deep b (bs "inner") o) 7) by (intros b o; apply (costs_ask deep b _ _ 7 2 2); [apply K; reflexivity|intros a; apply (R b a (fun a => a))|lia]).
  assert (O : forall b o, costs deep b (w_req deep b (bs "outer") o) 16).
  { intros b o. apply (costs_tell deep b _ _ 16 2 12); [intros; constructor; lia| |lia]. apply (costs_ask deep b _ _ 12 7 2); [intros; apply I|intros a; apply (R b a (fun a => bs "got " ++ a)%list)|lia]. }
  intros b. apply (costs_ask deep b _ _ 25 16 2); [apply O|intros a; apply (R b a (fun a => a))|lia].
Qed.
Example C137_ends_ex : Forall2 (fun x n => costs deep (fst x) (snd x) n) [(true, asker); (false, asker)] [25; 25] /\ list_sum [25; 25] = 50 /\
  lively deep (fun _ => false) (talk_run deep (fun _ => false) talk0 (map (fun x => TApp (fst x) (snd x)) [(true, asker); (false, asker)])) [TStep 0; TStep 1; TRecv true 0; TRecv false 0].
Proof.
  split; [repeat constructor; apply deep_costs|]. split; [reflexivity|]. cbn. repeat split; try reflexivity; try discriminate; eexists; eexists; split; reflexivity.
Qed.

(** C137, all in one: under both conditions every conversation comes to its end, and every call of the application returns what it should. *)
Theorem C137_completes_partial : forall w inline l ns h, calm w inline true -> calm w inline false -> Forall2 (fun x n => costs w (fst x) (snd x) n) l ns ->
  let s0 := talk_run w inline talk0 (map (fun x => TApp (fst x) (snd x)) l) in let s := talk_run w inline s0 h in
  timely h -> lively w inline s0 h ->
  (exists v, (forall n, v <> TTimeout n) /\ enabled s v /\ List.length h < list_sum ns) \/
  (forall n x, nth_error l n = Some x -> exists a, option_map th_at (nth_error (tk_threads s) n) = Some (Over a) /\ calls w false (fst x) (snd x) a).
Proof.
  intros w inline l ns h C1 C0 F s0 s T L.
  assert (TM : timely (map app_ev l ++ h)). { intros n I. apply in_app_or in I as [I|I]; [|now apply (T n)]. apply in_map_iff in I as (x & X & _). discriminate. }
  assert (ES : s = talk_run w inline talk0 (map app_ev l ++ h)) by (unfold s, s0; now rewrite talk_app).
  assert (G : good w inline false s) by (rewrite ES; apply good_run; now right).
  assert (D : (exists v, (forall n, v <> TTimeout n) /\ enabled s v) \/ ((forall n, ~ enabled s (TStep n)) /\ (forall c o, ~ enabled s (TRecv c o)))).
  { assert (DR : forall c, (exists o, enabled s (TRecv c o)) \/ forall o, ~ enabled s (TRecv c o)).
    { intros c. cbn. destruct (busy c s); [right; intros o [K _]; discriminate|]. destruct (nth_error (tk_sent s c) (tk_got s c)); [left; exists 0; split; [easy|discriminate]|right; intros o [_ K]; now apply K]. }
    destruct (DR true) as [[o K]|R1]; [left; exists (TRecv true o); split; [intros; discriminate|exact K]|].
    destruct (DR false) as [[o K]|R0]; [left; exists (TRecv false o); split; [intros; discriminate|exact K]|].
    assert (DT : (exists n, enabled s (TStep n)) \/ forall n, ~ enabled s (TStep n)).
    { cbn. generalize (tk_threads s). clear. intros l. induction l as [|t l [(n & u & p & N & A)|IH]]; [right; intros [|n] (t & p & N & _); discriminate|left; exists (S n), u, p; auto|].
      destruct (th_at t) as [p| |] eqn:A; [left; exists 0, t, p; auto| |]; right; intros [|n] (u & p & N & B); cbn in N; [injection N as <-; congruence|apply (IH n); eauto|injection N as <-; congruence|apply (IH n); eauto]. }
    destruct DT as [[n K]|DT]; [left; exists (TStep n); split; [intros; discriminate|exact K]|]. right. split; [exact DT|]. intros [|]; assumption. }
  destruct D as [(v & V & E)|[NS NR]].
  - left. exists v. repeat split; auto. assert (List.length (h ++ [v]) <= list_sum ns) as K; [|rewrite app_length in K; cbn in K; lia].
    apply (C137_ends w inline l ns (h ++ [v]) F). fold s0. subst s. revert L E. generalize s0. clear. rename h into h'. induction h' as [|x h IH]; intros s L E; [cbn; auto|]. destruct L as [L1 L2]. split; [exact L1|]. now apply IH.
  - right. intros n x N. destruct (apps_threads w inline l talk0) as (AT & _ & _). cbn in AT.
    assert (nth_error (tk_threads s0) n = Some (started (fst x) None false (snd x))) as N0 by (unfold s0; change (fun x => TApp (fst x) (snd x)) with app_ev; rewrite AT; rewrite nth_error_map, N; reflexivity).
    destruct (keeps_run w inline h s0 n _ N0) as (t & N1 & E1). fold s in N1.
    rewrite ES in NS, NR. destruct (stuck_settled w inline _ C1 C0 NS NR) as [SO _]. rewrite <- ES in SO. destruct (SO t (nth_in _ _ _ _ N1)) as [a A]. exists a. rewrite N1. cbn. split; [now rewrite A|].
    assert (calls w false (th_side t) (th_main t) a) as K by (apply (g_main _ _ _ _ G t a (nth_in _ _ _ _ N1)); now rewrite A). rewrite E1 in K. exact K.
Qed.
Print Assumptions C137_completes_partial.

Example C137_completes_ex : let s0 := talk_run deep (fun _ => false) talk0 (map (fun x => TApp (fst x) (snd x)) [(true, asker)]) in
  lively deep (fun _ => false) s0 (tl deep_run) /\ timely (tl deep_run) /\ List.length (tl deep_run) = 16.
Proof.
  split; [|split; [intros n H; cbn in H; intuition discriminate|reflexivity]].
  vm_compute. repeat split; try reflexivity; try discriminate; eexists; eexists; split; reflexivity.
Qed.

(** C137 fails for what runs on the thread that reads: while it waits for an answer nobody reads it. Only a timeout of the
    transport ends that, and then the answer is missing although the other side gave it. *)
Theorem C137_reader_waits : forall w inline h s n t i q k, nth_error (tk_threads s) n = Some t -> th_reader t = true -> th_at t = Wait i q k -> ~ In (TTimeout n) h ->
  nth_error (tk_threads (talk_run w inline s h)) n = Some t /\ tk_got (talk_run w inline s h) (th_side t) = tk_got s (th_side t).
Proof. exact stuck_run. Qed.
Print Assumptions C137_reader_waits.

(** Over stdio that is every request handler: the server's handler asks the client for its roots, the client answers, and neither call ever returns. *)
Definition roots : world := {|
  w_req := fun c q o => if c then Ret (bs "file:///home") else Ask (bs "roots/list") (fun a => match a with Some a => Ret a | None => Ret (bs "timeout") end);
  w_note := fun _ _ _ => Ret [] |}.
Definition caller : prog := Ask (bs "tools/call") (fun a => match a with Some a => Ret a | None => Ret (bs "timeout") end).
Theorem C137_stdio_refuted : exists w p h0, calls w false true p (bs "file:///home") /\ costs w true p 12 /\
  (exists x, nth_error (tk_sent (talk_run w (fun _ => true) talk0 (TApp true p :: h0)) false) x = Some (MRes 1 (bs "file:///home"))) /\
  forall h a, timely h -> option_map th_at (nth_error (tk_threads (talk_run w (fun _ => true) talk0 (TApp true p :: h0 ++ h))) 0) <> Some (Over a).
Proof.
  exists roots, caller, [TStep 0; TRecv false 0; TStep 1; TRecv true 0; TStep 2]. split; [|split; [|split]].
  - apply (calls_ask roots false true _ _ 0 (bs "file:///home")); [|constructor]. apply (calls_ask roots false false _ _ 0 (bs "file:///home")); constructor.
  - apply (costs_ask roots true _ _ 12 7 2); [|intros [a|]; constructor; lia|lia]. intros o. apply (costs_ask roots false _ _ 7 2 2); [intros; constructor; lia|intros [a|]; constructor; lia|lia].
  - exists 1. vm_compute. reflexivity.
  - intros h a T. set (h0 := [TStep 0; TRecv false 0; TStep 1; TRecv true 0; TStep 2]). change (TApp true caller :: h0 ++ h) with ((TApp true caller :: h0) ++ h). rewrite talk_app.
    set (s := talk_run roots (fun _ => true) talk0 (TApp true caller :: h0)).
    destruct (nth_error (tk_threads s) 1) as [t|] eqn:N1; [|vm_compute in N1; discriminate]. assert (th_reader t = true /\ th_side t = false /\ th_for t = Some 0 /\ exists i q k, th_at t = Wait i q k) as (R & SD & TF & i & q & k & A) by (vm_compute in N1; injection N1 as <-; cbn; eauto 9).
    destruct (nth_error (tk_threads s) 0) as [u|] eqn:N0; [|vm_compute in N0; discriminate]. assert (th_side u = true /\ exists q k, th_at u = Wait 0 q k) as (SU & q0 & k0 & A0) by (vm_compute in N0; injection N0 as <-; cbn; eauto 9).
    destruct (stuck_run roots (fun _ => true) h s 1 t i q k N1 R A (T 1)) as [K _].
    assert (G : good roots (fun _ => true) true (talk_run roots (fun _ => true) s h)) by (unfold s; rewrite <- talk_app; apply good_run; now left).
    rewrite (waiting_run roots (fun _ => true) h s 0 u 0 q0 k0 N0 A0 (T 0)); [cbn; rewrite A0; discriminate|]. intros x b. pose proof (g_replied _ _ _ _ G t 0 (nth_in _ _ _ _ K) TF) as GR. rewrite SD in GR. cbn in GR. rewrite SU. apply GR.
    unfold not_over. now rewrite A.
Qed.
Print Assumptions C137_stdio_refuted.

(** On every transport it is every handler of notifications: here the server's handler of roots/list_changed asks for the roots. *)
Definition changed : world := {|
  w_req := fun c q o => Ret (bs "file:///home");
  w_note := fun c m o => if c then Ret [] else Ask (bs "roots/list") (fun a => match a with Some a => Ret a | None => Ret (bs "timeout") end) |}.
Theorem C137_note_refuted : exists w p h0, costs w true p 11 /\ forall inline h, timely h ->
  let s := talk_run w inline talk0 (TApp true p :: h0 ++ h) in
  (exists x, nth_error (tk_sent s false) x = Some (MRes 0 (bs "file:///home"))) /\ tk_got s false = 1 /\
  exists t i q k, nth_error (tk_threads s) 1 = Some t /\ th_at t = Wait i q k.
Proof.
  exists changed, (Tell (bs "notifications/roots/list_changed") (Ret [])), [TStep 0; TRecv false 0; TStep 1; TRecv true 0; TStep 2]. split.
  - apply (costs_tell changed true _ _ 11 7 2); [intros o|constructor; lia|lia]. apply (costs_ask changed false _ _ 7 2 2); [intros; constructor; lia|intros [a|]; constructor; lia|lia].
  - intros inline h T. cbn zeta. set (p := Tell (bs "notifications/roots/list_changed") (Ret [])). set (h0 := [TStep 0; TRecv false 0; TStep 1; TRecv true 0; TStep 2]).
    change (TApp true p :: h0 ++ h) with ((TApp true p :: h0) ++ h). rewrite talk_app. set (s := talk_run changed inline talk0 (TApp true p :: h0)).
    destruct (nth_error (tk_threads s) 1) as [t|] eqn:N1; [|vm_compute in N1; discriminate].
    assert (th_reader t = true /\ th_side t = false /\ exists i q k, th_at t = Wait i q k) as (R & SD & i & q & k & A) by (vm_compute in N1; injection N1 as <-; cbn; eauto 9).
    destruct (stuck_run changed inline h s 1 t i q k N1 R A (T 1)) as [K K2]. rewrite SD in K2. split; [|split; [rewrite K2; vm_compute; reflexivity|exists t, i, q, k; auto]].
    exists 1. apply grows_run. vm_compute. reflexivity.
Qed.
Print Assumptions C137_note_refuted.

(** C138 where requests get threads of their own, and the handlers of notifications wait for nothing: whatever requests are
    being handled, every message that was sent is taken, by steps of the reader alone. *)
Theorem C138_threaded_partial : forall w inline h0 c, inline c = false -> (forall m o, quiet (w_note w c m o)) -> let s := talk_run w inline talk0 h0 in
  forall x, x < List.length (tk_sent s c) -> exists h, reader_only w inline c s h /\ x < tk_got (talk_run w inline s h) c /\ tk_sent (talk_run w inline s h) c = tk_sent s c.
Proof.
  intros w inline h0 c IN Q s x X. assert (C : calm w inline c) by (split; [exact Q|congruence]).
  destruct (reader_takes w inline c h0 C IN (List.length (tk_sent s c) - tk_got s c)) as (h & R & K & E).
  - pose proof (g_got _ _ _ _ (good_run w inline true h0 (or_introl eq_refl)) c) as L. fold s in L |- *. lia.
  - exists h. fold s in K. repeat split; auto. lia.
Qed.
Print Assumptions C138_threaded_partial.

(** A call that never returns, and the notice that cancels it. *)
Definition hangs : world := {| w_req := fun c q o => if c then Ret [] else Ask (bs "never") (fun _ => Ret []); w_note := fun _ _ _ => Ret [] |}.
Definition cancels : list tev := [TApp true (Ask (bs "tools/call") (fun _ => Ret [])); TApp true (Tell (bs "notifications/cancelled") (Ret [])); TStep 0; TStep 1; TRecv false 0].
Example C138_threaded_ex : (forall m o, quiet (w_note hangs false m o)) /\
  let s := talk_run hangs (fun _ => false) talk0 cancels in List.length (tk_sent s false) = 2 /\ tk_got s false = 1 /\
  exists t, nth_error (tk_threads s) 2 = Some t /\ th_for t = Some 0 /\ exists p, th_at t = Run p.
Proof. split; [constructor|]. vm_compute. repeat split. eexists. split; [reflexivity|]. split; [reflexivity|eexists; reflexivity]. Qed.

(** C138 fails over stdio: nothing behind a request is taken before that request was answered. *)
Theorem C138_stdio_order : forall w inline h c x i q, inline c = true -> let s := talk_run w inline talk0 h in
  nth_error (tk_sent s c) x = Some (MReq i q) -> S x < tk_got s c -> exists y a, nth_error (tk_sent s (negb c)) y = Some (MRes i a).
Proof. exact inline_order. Qed.
Print Assumptions C138_stdio_order.

(** So the notice that cancels a call is read when the call was answered, and a call that hangs is never cancelled. *)
Theorem C138_stdio_refuted : exists w h, (forall c m o, quiet (w_note w c m o)) /\
  let s := talk_run w (fun _ => true) talk0 h in
  nth_error (tk_sent s false) 0 = Some (MReq 0 (bs "tools/call")) /\ nth_error (tk_sent s false) 1 = Some (MNote None (bs "notifications/cancelled")) /\
  (forall h', 1 < tk_got (talk_run w (fun _ => true) talk0 (h ++ h')) false -> exists y a, nth_error (tk_sent (talk_run w (fun _ => true) talk0 (h ++ h')) true) y = Some (MRes 0 a)) /\
  (exists n, forall h', ~ In (TTimeout n) h' -> tk_got (talk_run w (fun _ => true) talk0 (h ++ h')) false = 1).
Proof.
  exists hangs, (cancels ++ [TStep 2]). split; [constructor|]. cbn zeta. split; [vm_compute; reflexivity|]. split; [vm_compute; reflexivity|]. split.
  - intros h' H. apply (inline_order hangs (fun _ => true) ((cancels ++ [TStep 2]) ++ h') false 0 0 (bs "tools/call") eq_refl); [|exact H]. rewrite talk_app. apply grows_run. vm_compute. reflexivity.
  - exists 2. intros h' T. rewrite talk_app. set (s := talk_run hangs (fun _ => true) talk0 (cancels ++ [TStep 2])).
    destruct (nth_error (tk_threads s) 2) as [t|] eqn:N1; [|vm_compute in N1; discriminate].
    assert (th_reader t = true /\ th_side t = false /\ exists i q k, th_at t = Wait i q k) as (R & SD & i & q & k & A) by (vm_compute in N1; injection N1 as <-; cbn; eauto 9).
    destruct (stuck_run hangs (fun _ => true) h' s 2 t i q k N1 R A T) as [_ K]. rewrite SD in K. rewrite K. vm_compute. reflexivity.
Qed.
Print Assumptions C138_stdio_refuted.

(** C139, but for HTTP: when the answer to a request is taken, all that its handler told has been taken before it, in the order it was told,
    nothing missing and nothing twice; and nothing that it told comes after. *)
Theorem C139_order_partial : forall w inline h c x i a, let s := talk_run w inline talk0 h in nth_error (taken c s) x = Some (MRes i a) ->
  exists q o, nth_error (tk_asked s) i = Some (c, q) /\ tells (w_req w (negb c) q o) (notes_of i (firstn x (taken c s))) (Ret a) /\ notes_of i (skipn x (tk_sent s c)) = [].
Proof.
  intros w inline h c x i a s H. apply nth_firstn in H as [L H]. destruct (all_told w inline h c x i a H) as (q & o & A & T & Z). exists q, o. split; [exact A|]. split; [|exact Z].
  unfold taken. rewrite firstn_firstn, Nat.min_l by lia. exact T.
Qed.
Print Assumptions C139_order_partial.

Example C139_order_ex : let s := talk_run deep (fun _ => false) talk0 deep_run in
  nth_error (taken true s) 2 = Some (MRes 2 (bs "42")) /\ nth_error (taken true s) 3 = Some (MRes 0 (bs "got 42")) /\ notes_of 0 (firstn 3 (taken true s)) = [bs "progress"].
Proof. vm_compute. auto. Qed.

(** Notifications of one handler also run one after another where they arrive: a handler of notifications is over before the next message is taken. *)
Theorem C139_one_at_a_time : forall w inline h c o, let s := talk_run w inline talk0 h in
  tk_got (talk_run w inline s [TRecv c o]) c <> tk_got s c -> forall t, In t (tk_threads s) -> th_side t = c -> th_reader t = true -> exists a, th_at t = Over a.
Proof.
  intros w inline h c o s N t I S R. destruct (got_cases w inline s (TRecv c o) c) as [K|(_ & B & _)]; [now destruct N|]. now apply (busy_false c s t B).
Qed.
Print Assumptions C139_one_at_a_time.
