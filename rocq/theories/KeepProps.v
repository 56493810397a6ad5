(** Keepalive: C63, C73. *)
From Coq Require Import Ascii String List Permutation Arith NArith ZArith Bool Lia ZifyBool ZifyNat ZifyN.
From Verif Require Import StrModel KeepModel KeepSpec KeepProofs.
Import ListNotations.
Local Open Scope nat_scope.

(** C63: the transport is closed at most once, and it is closed exactly when some ping failed that
    completed a run of consecutive failures as long as the threshold in force. *)
Theorem C63_closes : forall (ms : Z) (rounds : list round),
  (0 < ms)%Z -> (forall t, In (RThreshold t) rounds -> (t < 2 ^ 32)%N) ->
  let s := keep_run keep0 (KInterval (Some ms) :: flat_map events rounds) in
  kp_closes s <= 1 /\
  (kp_closes s = 1 <->
   exists before r after n t, rounds = before ++ r :: after /\ ping_failed r /\ failing before n /\ threshold before t /\ (t <= N.of_nat (S n))%N).
Proof.
  intros ms rounds M H s. destruct (start_run ms M) as (K & C).
  assert (Forall small rounds) as Fs by (apply Forall_forall; intros [b w d|t] I; [exact Logic.I|exact (H t I)]).
  destruct (closes_spec rounds [] _ K Fs) as [A B]. cbv zeta in A, B. unfold s. cbn [keep_run fold_left].
  fold (keep_run (keep_step keep0 (KInterval (Some ms))) (flat_map events rounds)). rewrite C in A, B. split; [lia|]. exact B.
Qed.
Print Assumptions C63_closes.

(** C63: and after that no more pings are sent. *)
Theorem C63_no_more_pings : forall (ms : Z) (rounds more : list round),
  (0 < ms)%Z -> (forall t, In (RThreshold t) rounds -> (t < 2 ^ 32)%N) ->
  let s := keep_run keep0 (KInterval (Some ms) :: flat_map events rounds) in
  kp_closes s = 1 -> kp_pings (keep_run s (flat_map events more)) = kp_pings s.
Proof.
  intros ms rounds more M H s C. destruct (start_run ms M) as (K & C0).
  assert (Forall small rounds) as Fs by (apply Forall_forall; intros [b w d|t] I; [exact Logic.I|exact (H t I)]).
  destruct (closed_ended rounds [] _ K Fs) as [E|(E1 & E2)].
  - exfalso. unfold s in C. cbn [keep_run fold_left] in C. fold (keep_run (keep_step keep0 (KInterval (Some ms))) (flat_map events rounds)) in C. lia.
  - exact (proj2 (proj2 (proj2 (ended_run more s E1 E2)))).
Qed.
Print Assumptions C63_no_more_pings.

(** C63: an error the transport reports only after the ping was sent is forgotten when the next
    ping starts. So a transport that reports every failure that way is never closed. *)
Theorem C63_late_errors_refuted : forall (ms : Z) (n : nat), (0 < ms)%Z ->
  let s := keep_run keep0 (KInterval (Some ms) :: flat_map events (repeat (RPing 1 false 0) n)) in
  kp_closes s = 0 /\ kp_thread s = Running /\ kp_pings s = n.
Proof.
  intros ms n M s. destruct (start_run ms M) as (K & C). unfold s. cbn [keep_run fold_left].
  fold (keep_run (keep_step keep0 (KInterval (Some ms))) (flat_map events (repeat (RPing 1 false 0) n))).
  destruct (late_run n [] _ K) as (A & B & D). rewrite A, B, D, C. split; [reflexivity|]. split; [reflexivity|].
  cbn [keep_step]. replace (Z.leb ms 0) with false by lia. reflexivity.
Qed.
Print Assumptions C63_late_errors_refuted.

Example C63_ex :
  let bad := RPing 0 true 0 in let good := RPing 2 false 0 in
  kp_closes (keep_run keep0 (KInterval (Some 100%Z) :: flat_map events [bad; bad; good; bad; bad])) = 0 /\
  kp_closes (keep_run keep0 (KInterval (Some 100%Z) :: flat_map events [bad; bad; good; bad; RPing 0 false 1; bad; bad])) = 1 /\
  kp_closes (keep_run keep0 (KInterval (Some 100%Z) :: flat_map events [bad; RThreshold 0; bad])) = 1 /\
  failing [bad; good; bad; bad] 2 /\ threshold [bad; RThreshold 0; bad] 1.
Proof.
  cbv zeta. repeat (split; [reflexivity|]). split.
  - apply (failing_more [RPing 0 true 0; RPing 2 false 0; RPing 0 true 0]); [now left|]. apply (failing_more [RPing 0 true 0; RPing 2 false 0]); [now left|].
    apply (failing_reset [RPing 0 true 0]). now split.
  - apply (threshold_ping [RPing 0 true 0; RThreshold 0]). apply (threshold_set [RPing 0 true 0] 0).
Qed.

(** C73: what is advertised is exactly what is configured. *)
Theorem C73_advertised : forall (l : list kev),
  let s := keep_run keep0 l in
  kp_adv s = if Z.ltb 0 (kp_interval s) then Some (kp_interval s, kp_thr s) else None.
Proof. intro l. exact (proj1 (adv_run l)). Qed.
Print Assumptions C73_advertised.

(** C73: the interval is the last one set; not positive means off. *)
Theorem C73_interval : forall (l : list kev) (ms : option Z) (m : list kev),
  (forall x, ~ In (KInterval x) m) ->
  kp_interval (keep_run keep0 (l ++ KInterval ms :: m)) = match ms with Some z => if Z.ltb 0 z then z else (-1)%Z | None => (-1)%Z end.
Proof.
  intros l ms m H. rewrite krun_app. cbn [keep_run fold_left]. fold (keep_run (keep_step (keep_run keep0 l) (KInterval ms)) m).
  rewrite (interval_run m _ H). cbn [keep_step]. destruct ms as [z|]; [|reflexivity]. destruct (Z.leb z 0) eqn:E; cbn [kp_interval]; destruct (Z.ltb 0 z) eqn:E2; lia.
Qed.
Print Assumptions C73_interval.

(** C73: enabling keepalive starts it, if it was never on or was switched off first. *)
Theorem C73_enabled_pings_partial : forall (l : list kev) (ms : Z) (b : nat) (w : bool) (d : nat), (0 < ms)%Z ->
  let s := keep_run keep0 (l ++ [KInterval None; KInterval (Some ms)]) in
  kp_pings (keep_run s (events (RPing b w d))) = S (kp_pings s).
Proof.
  intros l ms b w d M s.
  assert (kp_thread s = Running /\ kp_sending s = false) as [T S].
  { unfold s. rewrite krun_app. cbn [keep_run fold_left keep_step Z.leb Z.compare]. replace (Z.leb ms 0) with false by lia. split; reflexivity. }
  rewrite (ping_run b w d s T S). reflexivity.
Qed.
Print Assumptions C73_enabled_pings_partial.

(** C73: but after the server was stopped, or after keepalive closed a connection, keepalive stays
    advertised and nothing is ever pinged; after a close, setting the interval again does not help. *)
Theorem C73_dead_but_advertised_refuted :
  (forall (ms : Z) (rounds : list round), (0 < ms)%Z ->
    let s := keep_run keep0 [KInterval (Some ms); KStop] in
    kp_adv s = Some (ms, 3%N) /\ kp_pings (keep_run s (flat_map events rounds)) = 0) /\
  (forall (ms ms' : Z) (rounds : list round), (0 < ms)%Z -> (0 < ms')%Z ->
    let s := keep_run keep0 (KInterval (Some ms) :: flat_map events (repeat (RPing 0 true 0) 3) ++ [KInterval (Some ms')]) in
    kp_adv s = Some (ms', 3%N) /\ kp_pings (keep_run s (flat_map events rounds)) = kp_pings s).
Proof.
  split.
  - intros ms rounds M s. unfold s. cbn [keep_run fold_left keep_step]. replace (Z.leb ms 0) with false by lia. split; [reflexivity|].
    match goal with |- context [keep_run ?x _] => exact (stopped_run rounds x eq_refl eq_refl) end.
  - intros ms ms' rounds M M' s. destruct (third_strike ms ms' M M') as (A & B & C). split; [exact C|].
    exact (proj2 (proj2 (proj2 (ended_run rounds s A B)))).
Qed.
Print Assumptions C73_dead_but_advertised_refuted.

Example C73_ex :
  let s := keep_run keep0 [KInterval (Some 50%Z); KThreshold (Some 5%N); KSend; KCheck; KInterval None; KInterval (Some 70%Z)] in
  kp_adv s = Some (70%Z, 5%N) /\ kp_pings (keep_run s (events (RPing 0 false 0))) = 2.
Proof. repeat split. Qed.
