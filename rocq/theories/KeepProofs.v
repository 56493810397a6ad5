From Coq Require Import Ascii String List Permutation Arith NArith ZArith Bool Lia ZifyBool ZifyNat ZifyN.
From Verif Require Import StrModel KeepModel KeepSpec.
Import ListNotations.
Local Open Scope nat_scope.

Lemma krun_app : forall s a b, keep_run s (a ++ b) = keep_run (keep_run s a) b.
Proof. intros. unfold keep_run. apply fold_left_app. Qed.

Definition set_flag (b : bool) (s : keep) : keep :=
  {| kp_interval := kp_interval s; kp_thread := kp_thread s; kp_fails := kp_fails s; kp_thr := kp_thr s; kp_flag := b;
     kp_sending := kp_sending s; kp_adv := kp_adv s; kp_pings := kp_pings s; kp_closes := kp_closes s |}.

Lemma errors_run : forall n s, keep_run s (repeat KError n) = if Nat.eqb n 0 then s else set_flag true s.
Proof.
  induction n as [|n IH]; intro s; [reflexivity|]. cbn [repeat keep_run fold_left]. fold (keep_run (keep_step s KError) (repeat KError n)). rewrite IH.
  destruct n; reflexivity.
Qed.

Definition after_ping (failed : bool) (s : keep) : keep :=
  let next := if N.eqb (kp_fails s) MAX32 then kp_fails s else (kp_fails s + 1)%N in
  let close := (failed && N.leb (kp_thr s) next)%bool in
  {| kp_interval := kp_interval s; kp_thread := if close then Ended else Running; kp_fails := if failed then next else 0;
     kp_thr := kp_thr s; kp_flag := failed; kp_sending := false; kp_adv := kp_adv s; kp_pings := S (kp_pings s);
     kp_closes := if close then S (kp_closes s) else kp_closes s |}.

Lemma ping_run : forall b threw d s, kp_thread s = Running -> kp_sending s = false ->
  keep_run s (events (RPing b threw d)) = after_ping (threw || negb (Nat.eqb d 0))%bool s.
Proof.
  intros b threw d s T S. cbn [events]. rewrite !krun_app, !errors_run.
  assert (forall x, kp_thread x = Running -> kp_sending x = false -> kp_fails x = kp_fails s -> kp_thr x = kp_thr s -> kp_interval x = kp_interval s -> kp_adv x = kp_adv s ->
    kp_pings x = kp_pings s -> kp_closes x = kp_closes s ->
    keep_run (keep_run (if Nat.eqb d 0 then keep_run x [KSend] else set_flag true (keep_run x [KSend])) (if threw then [KThrow] else [])) [KCheck] =
    after_ping (threw || negb (Nat.eqb d 0))%bool s) as K.
  { intros x T' S' E1 E2 E3 E4 E5 E6. unfold after_ping. cbn [keep_run fold_left keep_step]. rewrite T', S'. rewrite <- E1, <- E2, <- E3, <- E4, <- E5, <- E6.
    destruct (Nat.eqb d 0), threw; cbn [negb orb andb set_flag keep_run fold_left keep_step kp_sending kp_flag kp_fails kp_thr kp_interval kp_thread kp_adv kp_pings kp_closes];
      try (destruct (N.leb (kp_thr x) _)); rewrite ?T'; reflexivity. }
  destruct (Nat.eqb b 0); apply K; first [exact T|exact S|reflexivity].
Qed.

Lemma ended_run : forall l s, kp_thread s = Ended -> kp_sending s = false ->
  let s' := keep_run s (flat_map events l) in kp_thread s' = Ended /\ kp_sending s' = false /\ kp_closes s' = kp_closes s /\ kp_pings s' = kp_pings s.
Proof.
  induction l as [|r l IH]; intros s T S; [now repeat split|]. cbn [flat_map]. rewrite krun_app.
  assert (kp_thread (keep_run s (events r)) = Ended /\ kp_sending (keep_run s (events r)) = false /\ kp_closes (keep_run s (events r)) = kp_closes s /\ kp_pings (keep_run s (events r)) = kp_pings s) as (A & B & C & D).
  { destruct r as [b w d|t]; [|now repeat split]. cbn [events]. rewrite !krun_app, !errors_run. cbn [keep_run fold_left keep_step].
    destruct (Nat.eqb b 0), (Nat.eqb d 0), w; cbn [set_flag keep_run fold_left keep_step kp_thread kp_sending kp_closes kp_pings]; rewrite ?T; cbn [set_flag keep_step kp_thread kp_sending kp_closes kp_pings]; rewrite ?S;
      cbn [set_flag keep_step kp_thread kp_sending kp_closes kp_pings]; rewrite ?S; now repeat split. }
  destruct (IH _ A B) as (E & F & G & H). cbv zeta. rewrite E, F, G, H. now repeat split.
Qed.

Lemma snoc_inj : forall A (a b : list A) x y, a ++ [x] = b ++ [y] -> a = b /\ x = y.
Proof. intros A a b x y H. now apply app_inj_tail in H. Qed.

Lemma failing_fun : forall l n, failing l n -> forall m, failing l m -> n = m.
Proof.
  intros l n H. induction H as [|l r W|l r n F H IH|l t n H IH]; intros m K.
  - inversion K as [|? ? ? E|? ? ? ? ? E|? ? ? ? E]; try reflexivity; symmetry in E; now apply app_cons_not_nil in E || (destruct l; discriminate).
  - inversion K as [E|l' r' W' E|l' r' n' F' H' E|l' t' n' H' E].
    + now apply app_cons_not_nil in E.
    + reflexivity.
    + apply snoc_inj in E. destruct E as [_ ->]. exfalso. destruct r as [b w d|]; [|exact W]. cbn in W, F'. destruct W as [-> ->], F' as [F'|F']; [discriminate|lia].
    + apply snoc_inj in E. destruct E as [_ <-]. destruct W.
  - inversion K as [E|l' r' W' E|l' r' n' F' H' E|l' t' n' H' E].
    + now apply app_cons_not_nil in E.
    + apply snoc_inj in E. destruct E as [_ ->]. exfalso. destruct r as [b w d|]; [|exact F]. cbn in W', F. destruct W' as [-> ->], F as [F|F]; [discriminate|lia].
    + apply snoc_inj in E. destruct E as [-> _]. f_equal. now apply IH.
    + apply snoc_inj in E. destruct E as [_ <-]. destruct F.
  - inversion K as [E|l' r' W' E|l' r' n' F' H' E|l' t' n' H' E].
    + now apply app_cons_not_nil in E.
    + apply snoc_inj in E. destruct E as [_ ->]. destruct W'.
    + apply snoc_inj in E. destruct E as [_ ->]. destruct F'.
    + apply snoc_inj in E. destruct E as [-> _]. now apply IH.
Qed.

(** While it runs, the counters say what the specification says. *)
Definition kinv (l : list round) (s : keep) : Prop :=
  kp_thread s = Running /\ kp_sending s = false /\ (exists n, failing l n /\ kp_fails s = N.min (N.of_nat n) MAX32) /\ threshold l (kp_thr s) /\ (kp_thr s <= MAX32)%N.

Definition small (r : round) : Prop := match r with RThreshold t => (t < 2 ^ 32)%N | _ => True end.

Lemma kinv_round : forall l s r, small r -> kinv l s ->
  let s' := keep_run s (events r) in
  (kp_closes s' = kp_closes s /\ kinv (l ++ [r]) s' /\ ~ (ping_failed r /\ exists n, failing l n /\ (kp_thr s <= N.of_nat (S n))%N)) \/
  (kp_closes s' = S (kp_closes s) /\ kp_thread s' = Ended /\ kp_sending s' = false /\ ping_failed r /\ exists n, failing l n /\ (kp_thr s <= N.of_nat (S n))%N).
Proof.
  intros l s r Sm (T & S & (n & F & En) & Th & Hm). destruct r as [b w d|t].
  - rewrite (ping_run b w d s T S). cbv zeta. unfold after_ping.
    assert (ping_failed (RPing b w d) \/ ping_went (RPing b w d)) as D by (cbn; destruct w, d; [left; now left|left; now left|now right|left; right; lia]).
    assert ((w || negb (Nat.eqb d 0))%bool = true <-> ping_failed (RPing b w d)) as Df by (cbn; destruct w, d; cbn; intuition (try discriminate; try lia)).
    unfold MAX32 in *. destruct (w || negb (Nat.eqb d 0))%bool eqn:Ef; cbn [andb].
    + pose proof (proj1 Df eq_refl) as Fl. set (next := if N.eqb (kp_fails s) _ then _ else _).
      assert (next = N.min (N.of_nat (Datatypes.S n)) (2 ^ 32 - 1)) as Nx by (subst next; rewrite En; destruct (N.min (N.of_nat n) (2 ^ 32 - 1) =? 2 ^ 32 - 1)%N eqn:X; lia).
      destruct (N.leb (kp_thr s) next) eqn:El.
      * right. cbn [kp_closes kp_thread kp_sending]. split; [reflexivity|]. split; [reflexivity|]. split; [reflexivity|]. split; [exact Fl|]. exists n. split; [exact F|]. lia.
      * left. cbn [kp_closes]. split; [reflexivity|]. split.
        -- split; [reflexivity|]. split; [reflexivity|]. cbn [kp_fails kp_thr]. split; [exists (Datatypes.S n); split; [now apply failing_more|exact Nx]|]. split; [now apply threshold_ping|exact Hm].
        -- intros (_ & m & Fm & Hm2). rewrite (failing_fun _ _ F _ Fm) in *. lia.
    + left. cbn [kp_closes]. split; [reflexivity|].
      assert (ping_went (RPing b w d)) as W by (destruct D as [D|D]; [apply Df in D; discriminate|exact D]).
      split.
      * split; [reflexivity|]. split; [reflexivity|]. cbn [kp_fails kp_thr]. split; [exists 0; split; [now apply failing_reset|reflexivity]|]. split; [now apply threshold_ping|exact Hm].
      * intros (X & _). apply Df in X. discriminate.
  - left. cbn [events keep_run fold_left keep_step]. split; [reflexivity|]. split.
    + split; [exact T|]. split; [exact S|]. cbn [kp_fails kp_thr]. split; [exists n; split; [now apply failing_thr|exact En]|].
      cbn in Sm. unfold MAX32. replace (if N.ltb t 1 then 1%N else t) with (N.max 1 t) by (destruct (N.ltb t 1) eqn:X; lia). split; [apply threshold_set|lia].
    + intros ([] & _).
Qed.

Lemma threshold_fun : forall l a, threshold l a -> forall b, threshold l b -> a = b.
Proof.
  intros l a H. induction H as [|l t|l x w d t H IH]; intros b K; inversion K as [E|l' t' E|l' x' w' d' t' H' E]; try reflexivity;
    try (symmetry in E; now apply app_cons_not_nil in E); try (now apply app_cons_not_nil in E); apply snoc_inj in E; destruct E as [E1 E2]; try discriminate.
  - now injection E2 as ->.
  - subst l'. now apply IH.
Qed.

Lemma threshold_in : forall l s, kinv l s -> forall t, threshold l t -> t = kp_thr s.
Proof. intros l s (_ & _ & _ & Th & _) t H. exact (threshold_fun l t H _ Th). Qed.

Lemma closes_spec : forall rest l s, kinv l s -> Forall small rest ->
  let s' := keep_run s (flat_map events rest) in
  ((kp_closes s' = kp_closes s \/ kp_closes s' = S (kp_closes s)) /\
   (kp_closes s' = S (kp_closes s) <->
    exists a r b n t, rest = a ++ r :: b /\ ping_failed r /\ failing (l ++ a) n /\ threshold (l ++ a) t /\ (t <= N.of_nat (S n))%N)).
Proof.
  induction rest as [|r rest IH]; intros l s K Fs; cbv zeta.
  - cbn. split; [now left|]. split; [lia|]. intros (a & r & b & n & t & E & _). destruct a; discriminate.
  - inversion Fs as [|? ? F1 F2]; subst. cbn [flat_map]. rewrite krun_app. pose proof (kinv_round l s r F1 K) as [(C & K' & N)|(C & E1 & E2 & P & n & Fn & Hn)].
    + destruct (IH _ _ K' F2) as [D I]. cbv zeta in D, I. rewrite C in D, I. split; [exact D|]. rewrite I. split.
      * intros (a & r' & b & n & t & -> & H). exists (r :: a), r', b, n, t. split; [reflexivity|]. now rewrite <- app_assoc in H.
      * intros (a & r' & b & n & t & E & H1 & H2 & H3 & H4). destruct a as [|x a].
        -- exfalso. cbn in E. injection E as <- <-. rewrite app_nil_r in H2, H3. apply N. split; [exact H1|]. exists n. split; [exact H2|].
           rewrite <- (threshold_in l s K t H3). exact H4.
        -- cbn in E. injection E as <- ->. exists a, r', b, n, t. rewrite <- app_assoc. now repeat split.
    + destruct (ended_run rest _ E1 E2) as (_ & _ & Q & _). rewrite Q, C. split; [now right|]. split; [|reflexivity]. intros _.
      exists [], r, rest, n, (kp_thr s). rewrite app_nil_r. split; [reflexivity|]. split; [exact P|]. split; [exact Fn|]. split; [|exact Hn]. now destruct K as (_ & _ & _ & Th & _).
Qed.

Lemma start_run : forall ms, (0 < ms)%Z ->
  kinv [] (keep_step keep0 (KInterval (Some ms))) /\ kp_closes (keep_step keep0 (KInterval (Some ms))) = 0.
Proof.
  intros ms M. cbn [keep_step]. replace (Z.leb ms 0) with false by lia. split; [|reflexivity].
  split; [reflexivity|]. split; [reflexivity|]. cbn [kp_fails kp_thr keep0]. split; [exists 0; split; [constructor|reflexivity]|]. split; [constructor|]. unfold MAX32. lia.
Qed.

Lemma closed_ended : forall rest l s, kinv l s -> Forall small rest ->
  kp_closes (keep_run s (flat_map events rest)) = kp_closes s \/
  (kp_thread (keep_run s (flat_map events rest)) = Ended /\ kp_sending (keep_run s (flat_map events rest)) = false).
Proof.
  induction rest as [|r rest IH]; intros l s K Fs; [now left|]. inversion Fs as [|? ? F1 F2]; subst. cbn [flat_map]. rewrite krun_app.
  pose proof (kinv_round l s r F1 K) as [(C & K' & N)|(C & E1 & E2 & _)].
  - destruct (IH _ _ K' F2) as [D|D]; [left; now rewrite D|now right].
  - right. destruct (ended_run rest _ E1 E2) as (A & B & _). now split.
Qed.

Lemma late_run : forall n l s, kinv l s ->
  let s' := keep_run s (flat_map events (repeat (RPing 1 false 0) n)) in
  kp_closes s' = kp_closes s /\ kp_thread s' = Running /\ kp_pings s' = kp_pings s + n.
Proof.
  induction n as [|n IH]; intros l s K; [destruct K as (T & _); cbv zeta; cbn; repeat split; [exact T|lia]|].
  cbn [repeat flat_map]. rewrite krun_app.
  pose proof (kinv_round l s (RPing 1 false 0) I K) as [(C & K' & N)|(C & E1 & E2 & [X|X] & _)]; [|discriminate X|inversion X].
  destruct (IH _ _ K') as (A & B & D). cbv zeta. split; [now rewrite A|]. split; [exact B|]. rewrite D.
  destruct K as (T & S & _). rewrite (ping_run 1 false 0 s T S). cbn [after_ping kp_pings]. lia.
Qed.

Lemma adv_run : forall l, let s := keep_run keep0 l in
  kp_adv s = (if Z.ltb 0 (kp_interval s) then Some (kp_interval s, kp_thr s) else None) /\ (0 < kp_interval s \/ kp_interval s = -1)%Z.
Proof.
  intro l. cbv zeta. induction l as [|e l IH] using rev_ind; [split; [reflexivity|now right]|]. rewrite krun_app. destruct IH as [A B]. set (s := keep_run keep0 l) in *. cbn [keep_run fold_left].
  destruct e; cbn [keep_step].
  - destruct ms as [z|]; [destruct (Z.leb z 0) eqn:E|]; cbn [kp_adv kp_interval kp_thr Z.leb Z.compare]; [split; [reflexivity|now right]| |split; [reflexivity|now right]].
    replace (Z.ltb 0 z) with true by lia. split; [reflexivity|]. left. lia.
  - cbn [kp_adv kp_interval kp_thr]. split; [|exact B]. rewrite A. now destruct (Z.ltb 0 (kp_interval s)).
  - now split.
  - now split.
  - destruct (kp_thread s), (kp_sending s); now split.
  - destruct (kp_sending s); now split.
  - destruct (kp_sending s), (kp_flag s); try destruct (N.leb _ _); now split.
Qed.

Lemma interval_run : forall m s, (forall x, ~ In (KInterval x) m) -> kp_interval (keep_run s m) = kp_interval s.
Proof.
  induction m as [|e m IH]; intros s H; [reflexivity|]. cbn [keep_run fold_left]. fold (keep_run (keep_step s e) m). rewrite IH by (intros x I; exact (H x (or_intror I))).
  destruct e; cbn [keep_step]; try reflexivity.
  - exfalso. exact (H ms (or_introl eq_refl)).
  - destruct (kp_thread s), (kp_sending s); reflexivity.
  - destruct (kp_sending s); reflexivity.
  - destruct (kp_sending s), (kp_flag s); try destruct (N.leb _ _); reflexivity.
Qed.

Lemma stopped_run : forall l s, kp_thread s = NoThread -> kp_sending s = false -> kp_pings (keep_run s (flat_map events l)) = kp_pings s.
Proof.
  induction l as [|r l IH]; intros s T S; [reflexivity|]. cbn [flat_map]. rewrite krun_app.
  assert (kp_thread (keep_run s (events r)) = NoThread /\ kp_sending (keep_run s (events r)) = false /\ kp_pings (keep_run s (events r)) = kp_pings s) as (A & B & D).
  { destruct r as [b w d|t]; [|now repeat split]. cbn [events]. rewrite !krun_app, !errors_run. cbn [keep_run fold_left keep_step].
    destruct (Nat.eqb b 0), (Nat.eqb d 0), w; cbn [set_flag keep_run fold_left keep_step kp_thread kp_sending kp_closes kp_pings]; rewrite ?T; cbn [set_flag keep_step kp_thread kp_sending kp_closes kp_pings]; rewrite ?S;
      cbn [set_flag keep_step kp_thread kp_sending kp_closes kp_pings]; rewrite ?S; now repeat split. }
  rewrite IH by assumption. exact D.
Qed.

Lemma third_strike : forall ms ms', (0 < ms)%Z -> (0 < ms')%Z ->
  let s := keep_run keep0 (KInterval (Some ms) :: flat_map events (repeat (RPing 0 true 0) 3) ++ [KInterval (Some ms')]) in
  kp_thread s = Ended /\ kp_sending s = false /\ kp_adv s = Some (ms', 3%N).
Proof.
  intros ms ms' M M'. change (KInterval (Some ms) :: flat_map events (repeat (RPing 0 true 0) 3) ++ [KInterval (Some ms')]) with
    ([KInterval (Some ms)] ++ (events (RPing 0 true 0) ++ events (RPing 0 true 0) ++ events (RPing 0 true 0) ++ []) ++ [KInterval (Some ms')]).
  rewrite app_nil_r, !krun_app. set (r := RPing 0 true 0). cbn [keep_run fold_left]. set (s0 := keep_step keep0 (KInterval (Some ms))).
  assert (s0 = {| kp_interval := ms; kp_thread := Running; kp_fails := 0; kp_thr := 3; kp_flag := false; kp_sending := false; kp_adv := Some (ms, 3%N); kp_pings := 0; kp_closes := 0 |}) as ->
    by (unfold s0; cbn [keep_step]; replace (Z.leb ms 0) with false by lia; reflexivity).
  change (fold_left keep_step) with (fun a b => keep_run b a). cbv beta. unfold r. rewrite !ping_run by reflexivity.
  cbn [keep_step]. replace (Z.leb ms' 0) with false by lia. repeat split.
Qed.
