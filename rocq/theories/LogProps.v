(** Log messages: C38 and C39. *)
From Coq Require Import Ascii String List Permutation Arith NArith ZArith Bool Lia.
From Verif Require Import StrModel StrProofs DoubleModel JsonModel RpcModel MapModel TaskModel LogModel LogSpec LogProofs.
Import ListNotations.
Local Open Scope nat_scope.

(** C38: a message below the client's last choice is never sent. hist is everything that happened
    before the call, later everything after; name may be written in any case. Here for the choices
    debug, info, warning and error. *)
Theorem C38_below_never_sent_partial : forall (now : Z) (hist later : list log_act) (name message : bstr) (data : option json)
  (m c : bstr) (rm rc : nat) (x : outcome),
  last_choice hist c -> at_rank c rc -> plain c -> lower name = m -> at_rank m rm -> rm < rc ->
  let s := log_run (logger0 now) hist in
  In (lg_next s, x) (lg_out (log_run s (GCall name message data :: later))) -> x = Suppressed.
Proof.
  intros now hist later name message data m c rm rc x H Rc Pc Em Rm Lt. cbv zeta. apply suppressed_final.
  - apply linv_run, linv0.
  - rewrite (min_is now hist c rc H Rc). exact (never_below name m c rm rc Em Rm Rc Pc Lt).
Qed.
Print Assumptions C38_below_never_sent_partial.

(** C38: a message at or above it is sent, as it is, unless the rate limit holds it back. Here for
    messages of the levels debug, info, warning and error. *)
Theorem C38_above_sent_partial : forall (now : Z) (hist later : list log_act) (name message : bstr) (data : option json)
  (m c : bstr) (rm rc : nat) (x : outcome),
  last_choice hist c -> at_rank c rc -> lower name = m -> at_rank m rm -> plain m -> rc <= rm ->
  let s := log_run (logger0 now) hist in
  In (lg_next s, x) (lg_out (log_run s (GCall name message data :: later))) ->
  x = Throttled \/
  exists t o, x = Sent t (JObj o) /\ obj_get (bs "level") o = Some (JStr m) /\
    obj_get (bs "data") o = Some (match data with Some d => d | None => JStr message end).
Proof.
  intros now hist later name message data m c rm rc x H Rc Em Rm Pm Le. cbv zeta. intro I.
  destruct (not_lost name m c rm rc Em Rm Rc Pm Le) as [N L].
  apply passed_final in I; [|apply linv_run, linv0|rewrite (min_is now hist c rc H Rc); exact N].
  destruct I as [I|(t & ->)]; [now left|]. right. exists t. eexists. split; [reflexivity|]. rewrite L. split; reflexivity.
Qed.
Print Assumptions C38_above_sent_partial.

(** C38: with no rate limit, it is sent once the call has run. *)
Theorem C38_above_sent_now_partial : forall (now : Z) (hist : list log_act) (name message : bstr) (data : option json)
  (m c : bstr) (rm rc : nat),
  last_choice hist c -> at_rank c rc -> lower name = m -> at_rank m rm -> plain m -> rc <= rm ->
  let s := log_run (logger0 now) hist in
  lg_limit s = 0%N ->
  exists p, lg_out (log_call name message data s) = lg_out s ++ [(lg_next s, Sent (lg_now s) p)].
Proof.
  intros now hist name message data m c rm rc H Rc Em Rm Pm Le. cbv zeta. intro Z.
  destruct (not_lost name m c rm rc Em Rm Rc Pm Le) as [N L]. pose proof (linv_run hist _ (linv0 now)) as [Nd F].
  set (s := log_run (logger0 now) hist) in *. exists (log_payload (level_of name) message data).
  unfold log_call. cbn [log_run fold_left]. set (s1 := log_step s (GCall name message data)).
  assert (lg_calls s1 = lg_calls s ++ [(lg_next s, Passed (log_payload (level_of name) message data))] /\ lg_out s1 = lg_out s /\ lg_limit s1 = 0%N /\ lg_now s1 = lg_now s) as (C & O & Z1 & T).
  { unfold s1. cbn [log_step]. rewrite (min_is now hist c rc H Rc : lg_min s = _), N. now repeat split. }
  assert (find_call (lg_next s) (lg_calls s1) = Some (Passed (log_payload (level_of name) message data))) as E.
  { rewrite C. assert (~ In (lg_next s) (map fst (lg_calls s))) as Ni.
    { intro I. rewrite Forall_forall in F. assert (lg_next s < lg_next s) by (apply F, in_or_app; now right). lia. }
    clear - Ni. induction (lg_calls s) as [|[j y] l IH]; cbn; [now rewrite Nat.eqb_refl|]. cbn in Ni.
    destruct (Nat.eqb (lg_next s) j) eqn:E; [exfalso; apply Ni; left; symmetry; now apply Nat.eqb_eq|]. apply IH. tauto. }
  assert (log_step s1 (GLoad (lg_next s)) = with_calls (drop_call (lg_next s) (lg_calls s1)) (lg_out s1 ++ [(lg_next s, Sent (lg_now s1) (log_payload (level_of name) message data))]) s1) as E2.
  { cbn [log_step]. now rewrite E, Z1. }
  rewrite E2. cbn [log_step with_calls lg_calls].
  assert (forall l, find_call (lg_next s) (drop_call (lg_next s) l) = None) as D.
  { intro l. unfold drop_call. induction l as [|[j y] l IH]; [reflexivity|]. cbn [filter fst]. destruct (Nat.eqb (lg_next s) j) eqn:X; cbn [negb]; [exact IH|].
    cbn [find_call]. now rewrite X. }
  rewrite D. cbn [with_calls lg_out]. now rewrite O, T.
Qed.
Print Assumptions C38_above_sent_now_partial.

(** C38: logging/setLevel is accepted exactly for the eight levels of the protocol, written in any
    case; every other request is refused as invalid parameters, and changes nothing. *)
Theorem C38_set_level_answer : forall params : option json,
  match set_level params with
  | inr _ => exists s r, asks_level params s /\ at_rank (lower s) r
  | inl (code, _) => code = (-32602)%Z /\ (forall s r, asks_level params s -> ~ at_rank (lower s) r) /\
      forall g, lg_min (log_step g (GSetLevel params)) = lg_min g
  end.
Proof.
  intro params. pose proof (set_level_answer params) as H. destruct (set_level params) as [[c m]|l] eqn:E; [|exact H].
  destruct H as [H1 H2]. refine (conj H1 (conj H2 _)). intro g. cbn [log_step lg_min]. now rewrite E.
Qed.
Print Assumptions C38_set_level_answer.

(** C38: the level a message is sent with is the one of its name: warn is warning, fatal is critical,
    an unknown name is debug. *)
Theorem C38_level_sent : forall (now : Z) (hist later : list log_act) (name message : bstr) (data : option json)
  (t : Z) (p : json),
  let s := log_run (logger0 now) hist in
  In (lg_next s, Sent t p) (lg_out (log_run s (GCall name message data :: later))) ->
  exists o level, p = JObj o /\ sent_as name level /\ obj_get (bs "level") o = Some (JStr level) /\
    obj_get (bs "data") o = Some (match data with Some d => d | None => JStr message end).
Proof.
  intros now hist later name message data t p. cbv zeta. intro I.
  destruct (suppressed (level_of name) (lg_min (log_run (logger0 now) hist))) eqn:S.
  - apply suppressed_final in I; [discriminate|apply linv_run, linv0|exact S].
  - apply passed_final in I; [|apply linv_run, linv0|exact S]. destruct I as [I|(u & I)]; [discriminate|].
    injection I as _ ->. eexists _, _. split; [reflexivity|]. split; [apply spec_level_name|]. split; reflexivity.
Qed.
Print Assumptions C38_level_sent.

Example C38_level_sent_ex :
  lg_out (log_call (bs "Warn") (bs "low") None (logger0 5)) =
    [(0, Sent 5 (JObj [(bs "level", JStr (bs "warning")); (bs "data", JStr (bs "low"))]))] /\
  sent_as (bs "Warn") (bs "warning") /\ sent_as (bs "odd") (bs "debug") /\
  set_level (Some (JObj [(bs "level", JStr (bs "Notice"))])) = inr LInfo /\
  set_level (Some (JObj [(bs "level", JStr (bs "fatal"))])) = inl ((-32602)%Z, bs "Unknown logging level").
Proof.
  split; [vm_compute; reflexivity|]. split; [left; cbn; tauto|]. split; [|split; reflexivity].
  right. split; [|reflexivity]. cbn. intuition discriminate.
Qed.

Definition level_param (l : string) : option json := Some (JObj [(bs "level", JStr (bs l))]).

(** C38: but a critical message is dropped when the client asked for errors and worse. *)
Theorem C38_critical_dropped_refuted : exists (hist : list log_act) (i : nat),
  last_choice hist (bs "error") /\ at_rank (bs "error") 4 /\ at_rank (bs "critical") 5 /\
  lg_out (log_call (bs "critical") (bs "disk full") None (log_run (logger0 0) hist)) = [(i, Suppressed)].
Proof.
  exists [GSetLevel (level_param "error")], 0. split; [|repeat split]. right.
  exists [], (level_param "error"), (bs "error"), []. split; [reflexivity|]. split; [|split; [reflexivity|constructor]]. eexists. split; reflexivity.
Qed.
Print Assumptions C38_critical_dropped_refuted.

(** C38: and an error is sent to a client that asked for emergencies only. *)
Theorem C38_error_at_emergency_refuted : exists (hist : list log_act) (i : nat) (p : json),
  last_choice hist (bs "emergency") /\ at_rank (bs "emergency") 7 /\ at_rank (bs "error") 4 /\
  lg_out (log_call (bs "error") (bs "oops") None (log_run (logger0 0) hist)) = [(i, Sent 0 p)].
Proof.
  exists [GSetLevel (level_param "emergency")], 0. eexists. split; [|repeat split]. right.
  exists [], (level_param "emergency"), (bs "emergency"), []. split; [reflexivity|]. split; [|split; [reflexivity|constructor]]. eexists. split; reflexivity.
Qed.
Print Assumptions C38_error_at_emergency_refuted.

Example C38_ex : last_choice [GSetLevel (level_param "Warning"); GSetLevel (level_param "loud")] (bs "warning") /\
  map snd (lg_out (log_call (bs "INFO") (bs "x") None (log_run (logger0 0) [GSetLevel (level_param "Warning"); GSetLevel (level_param "loud")]))) = [Suppressed].
Proof.
  split; [|reflexivity]. right. exists [], (level_param "Warning"), (bs "Warning"), [GSetLevel (level_param "loud")]. split; [reflexivity|].
  split; [eexists; split; reflexivity|]. split; [reflexivity|]. constructor; [|constructor].
  intros name r R (s & (o & E & G) & L). injection E as <-. vm_compute in G. injection G as <-. refine (rank_cases (fun n _ => lower (bs "loud") <> n) _ _ _ _ _ _ _ _ name r R L); discriminate.
Qed.

(** C39: after a limit of n per second is set, the messages sent fall into windows that begin at
    least a second apart, with at most n messages in each. acts: what all threads do, in any
    interleaving, while the limit stays. *)
Theorem C39_windows : forall (n : N) (s : logger) (acts : list log_act),
  (0 < n < 2 ^ 32)%N -> lg_calls s = [] -> Forall keeps_limit acts ->
  exists ws, sent_times (lg_out (log_run (set_limit n s) acts)) = sent_times (lg_out s) ++ concat (map snd (rev ws)) /\ paced n ws.
Proof.
  intros n s acts Hn C F. destruct (rinv_run n _ acts _ Hn F (rinv_set n s C)) as (_ & _ & _ & w & ws & E & P & _).
  eexists. split; [exact E|exact P].
Qed.
Print Assumptions C39_windows.

(** C39: so no second sees more than 2n of them. *)
Theorem C39_any_second : forall (n : N) (s : logger) (acts : list log_act) (a : Z) (more : list Z),
  (0 < n < 2 ^ 32)%N -> lg_calls s = [] -> Forall keeps_limit acts ->
  sent_times (lg_out (log_run (set_limit n s) acts)) = sent_times (lg_out s) ++ more ->
  (N.of_nat (in_second a more) <= 2 * n)%N.
Proof.
  intros n s acts a more Hn C F E. destruct (C39_windows n s acts Hn C F) as (ws & E' & P). rewrite E' in E. apply app_inv_head in E. subst more.
  exact (two_windows n a ws P).
Qed.
Print Assumptions C39_any_second.

(** C39: a message is held back only if n were sent within the last second. *)
Theorem C39_held_back : forall (n : N) (now : Z) (before acts : list log_act) (i : nat) (p : json),
  let s := log_run (logger0 now) before in
  (0 < n < 2 ^ 32)%N -> lg_calls s = [] -> Forall keeps_limit acts ->
  let s1 := log_run (set_limit n s) acts in
  find_call i (lg_calls s1) = Some (Limited p n) -> In (i, Throttled) (lg_out (log_step s1 (GEnter i))) ->
  exists recent older, sent_times (lg_out s1) = older ++ recent /\ (n <= N.of_nat (length recent))%N /\
    Forall (fun t => (lg_now s1 - SECOND < t <= lg_now s1)%Z) recent.
Proof.
  intros n now before acts i p s Hn C F. cbv zeta. intros E H. pose proof (linv_run before _ (linv0 now) : linv s) as Li. apply (throttled_full n _ _ i p Hn (rinv_run n _ acts _ Hn F (rinv_set n s C)) E H).
  assert (linv (set_limit n s)) as L0 by exact Li. apply (linv_run acts) in L0. destruct L0 as [Nd _]. intro I.
  apply find_call_in in E. apply (in_map fst) in E. cbn [fst] in E. clear - Nd I E.
  induction (map fst (lg_out (log_run (set_limit n s) acts))) as [|y l IH]; [destruct I|]. cbn in Nd. inversion Nd; subst.
  destruct I as [-> |I]; [apply H1; apply in_or_app; now right|now apply IH].
Qed.
Print Assumptions C39_held_back.

(** C39: with no limit none is held back. *)
Theorem C39_unlimited : forall (now : Z) (acts : list log_act) (i : nat), Forall (fun a => forall n, a = GLimit n -> n = 0%N) acts ->
  ~ In (i, Throttled) (lg_out (log_run (logger0 now) acts)).
Proof.
  intros now acts i F I. destruct (free_run acts (logger0 now) F) as (_ & _ & O).
  - now repeat constructor.
  - rewrite Forall_forall in O. now apply O in I.
Qed.
Print Assumptions C39_unlimited.

(** C39: the windows are fixed, so two messages can be sent a tenth of a second apart under a
    limit of one per second. *)
Theorem C39_sliding_refuted : exists (s : logger) (acts : list log_act) (a : Z) (more : list Z),
  lg_calls s = [] /\ Forall keeps_limit acts /\
  sent_times (lg_out (log_run (set_limit 1 s) acts)) = sent_times (lg_out s) ++ more /\ in_second a more = 2.
Proof.
  exists (logger0 0), [GTime 900000000; GCall (bs "info") [] None; GLoad 0; GEnter 0; GTime 100000000; GCall (bs "info") [] None; GLoad 1; GEnter 1], 900000000%Z.
  eexists. split; [reflexivity|]. split; [repeat constructor|]. split; reflexivity.
Qed.
Print Assumptions C39_sliding_refuted.

Example C39_ex :
  map snd (lg_out (log_run (set_limit 1 (logger0 5)) [GCall (bs "info") [] None; GCall (bs "error") [] None; GLoad 1; GLoad 0; GEnter 0; GEnter 1])) =
    [Sent 5 (log_payload LInfo [] None); Throttled].
Proof. reflexivity. Qed.
