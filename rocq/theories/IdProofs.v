From Coq Require Import Ascii String List Permutation Arith NArith ZArith Bool Lia ZifyBool ZifyNat ZifyN.
From Verif Require Import StrModel StrProofs DoubleModel JsonModel JsonSpec JsonProofs RpcModel RpcSpec RpcProofs RouterModel RouterProofs MapModel MapProofs MemModel MemSpec MemProofs PendModel PendProofs WqModel StdioModel StdioSpec ShmModel ShmSpec ShmProofs IdSpec.
Import ListNotations.
Local Open Scope nat_scope.

Lemma nth_id_inj : forall p i j, nth_id p i = nth_id p j <-> N.modulo i (2 ^ 32) = N.modulo j (2 ^ 32).
Proof.
  intros p i j. unfold nth_id. split.
  - intro H. apply app_inv_head, print_N_inj in H.
    pose proof (N.div_mod (i + 1) (2 ^ 32) ltac:(easy)) as A. pose proof (N.div_mod (j + 1) (2 ^ 32) ltac:(easy)) as B.
    pose proof (N.mod_lt (i + 1) (2 ^ 32) ltac:(easy)). rewrite H in A.
    assert (i + 2 ^ 32 * ((j + 1) / 2 ^ 32) = j + 2 ^ 32 * ((i + 1) / 2 ^ 32))%N as E by lia.
    apply (f_equal (fun x => N.modulo x (2 ^ 32))) in E. rewrite !(N.mul_comm (2 ^ 32)), !N.mod_add in E by easy. exact E.
  - intro H. do 2 f_equal. rewrite (N.add_mod i), (N.add_mod j) by easy. now rewrite H.
Qed.

Lemma nth_id_distinct : forall p i j, (i < j)%N -> (j < i + 2 ^ 32)%N -> nth_id p i <> nth_id p j.
Proof.
  intros p i j H1 H2 E. apply nth_id_inj in E.
  pose proof (N.div_mod i (2 ^ 32) ltac:(easy)) as A. pose proof (N.div_mod j (2 ^ 32) ltac:(easy)) as B. rewrite E in A.
  assert (2 ^ 32 * (j / 2 ^ 32 - i / 2 ^ 32) = j - i)%N as C by lia.
  destruct (N.eq_dec (j / 2 ^ 32 - i / 2 ^ 32) 0) as [D|D]; [rewrite D in C; lia|]. nia.
Qed.

Lemma nodup_nth_ids : forall p n, (N.of_nat n <= 2 ^ 32)%N -> NoDup (map (fun k => nth_id p (N.of_nat k)) (seq 0 n)).
Proof.
  intros p n H. assert (forall l, NoDup l -> Forall (fun k => k < n) l -> NoDup (map (fun k => nth_id p (N.of_nat k)) l)) as A.
  { intros l N F. induction N as [|a l Ha N IH]; [constructor|]. inversion F; subst. cbn [map]. constructor; [|now apply IH].
    intro K. apply in_map_iff in K as (b & E & K). assert (b < n) by (rewrite Forall_forall in *; now apply H3).
    destruct (N.lt_trichotomy (N.of_nat a) (N.of_nat b)) as [L|[L|L]].
    - symmetry in E. revert E. apply nth_id_distinct; lia.
    - apply Nat2N.inj in L. now subst.
    - revert E. apply nth_id_distinct; lia. }
  apply A; [apply seq_NoDup|]. apply Forall_forall. intros k K. apply in_seq in K. lia.
Qed.

(** ** In memory *)
Lemma final_id_auto : forall n r, no_id r -> (n < 2 ^ 32 - 1)%N ->
  final_id n (rq_id r) = (IdStr (nth_id (bs "mem-req-") n), (n + 1)%N).
Proof.
  intros n r [E|E] H; rewrite E; unfold final_id, nth_id; rewrite N.mod_small by lia; reflexivity.
Qed.

Lemma step_quiet : forall s v x, (forall r, v <> EBegin x r) ->
  ep_counter (step s v x) = ep_counter (s x) /\ ep_issued (step s v x) = ep_issued (s x).
Proof.
  intros s v x H.
  assert (forall s y e, ep_counter e = ep_counter (s y) -> ep_issued e = ep_issued (s y) ->
    ep_counter (upd s y e x) = ep_counter (s x) /\ ep_issued (upd s y e x) = ep_issued (s x)) as U.
  { intros s0 y e A B. unfold upd. destruct (side_eqb y x) eqn:E; [|now split]. apply side_eqb_eq in E. subst. now split. }
  assert (forall s y m, ep_counter (snd (send_to_peer s y m) x) = ep_counter (s x) /\
                        ep_issued (snd (send_to_peer s y m) x) = ep_issued (s x)) as SP.
  { intros s0 y m. unfold send_to_peer. destruct (ep_connected (s0 (other y))); [|now split]. cbn [snd].
    destruct (U (upd s0 (other y) (set_queue (ep_queue (s0 (other y)) ++ [m]) (s0 (other y)))) y
      (log_sent m (upd s0 (other y) (set_queue (ep_queue (s0 (other y)) ++ [m]) (s0 (other y))) y)) eq_refl eq_refl) as [A B].
    rewrite A, B. now apply U. }
  destruct v as [y|y|y|y r|y k|y k|y n|y|y|y k h]; cbn [step].
  - now apply U.
  - now apply U.
  - now apply U.
  - unfold upd. destruct (side_eqb y x) eqn:E; [|now split]. apply side_eqb_eq in E. subst. now destruct (H r).
  - destruct (take_nth k (ep_out (s y))) as [[[t r] rest]|]; [|now split].
    specialize (SP s y (ser_request r)). destruct (send_to_peer s y (ser_request r)) as [sent s1]. cbn [snd] in SP.
    destruct (U s1 y (set_out rest (if sent then ep_failing (s1 y) else ep_failing (s1 y) ++ [(t, r)]) (s1 y)) eq_refl eq_refl) as [A B].
    now rewrite A, B.
  - destruct (take_nth k (ep_failing (s y))) as [[[t r] rest]|]; [|now split]. apply U; now destruct (aget _ _).
  - apply SP.
  - destruct (ep_connected (s y)); [|now split]. destruct (ep_current (s y)); [now split|].
    destruct (ep_queue (s y)); [now split|]. now apply U.
  - destruct (ep_current (s y)) as [m|]; [|now split].
    assert (forall e m, ep_counter (process e m) = ep_counter e /\ ep_issued (process e m) = ep_issued e) as Pr.
    { intros e m0. unfold process, process_notification, resolve.
      repeat match goal with
        | |- context[match ?b with _ => _ end] => destruct b
        end; now split. }
    destruct (Pr (set_current None (s y)) m) as [P1 P2]. apply U; [exact P1|exact P2].
  - destruct (take_nth k (ep_running (s y))) as [[r rest]|]; [|now split].
    destruct (SP (upd s y (set_running rest (ep_served (s y) ++ [(r, h)]) (s y))) y (ser_response (reply (rq_id r) h))) as [A B].
    rewrite A, B. now apply U.
Qed.

Lemma mem_ids : forall ha hb vs x, Forall auto_ev vs -> (begins x vs < 2 ^ 32)%N ->
  ep_counter (run (sys0 ha hb) vs x) = begins x vs /\
  issued_keys (run (sys0 ha hb) vs x) = map (fun k => nth_id (bs "mem-req-") (N.of_nat k)) (seq 0 (N.to_nat (begins x vs))).
Proof.
  intros ha hb vs x. induction vs as [|v vs IH] using rev_ind; intros F B; [split; [now destruct x|now destruct x]|].
  apply Forall_app in F as [F1 F2]. inversion F2 as [|a b F3 _]; subst.
  unfold run. rewrite fold_left_app. cbn [fold_left]. fold (run (sys0 ha hb) vs).
  assert (begins x (vs ++ [v]) = (begins x vs + match v with EBegin y _ => if side_eqb x y then 1 else 0 | _ => 0 end)%N) as Bs.
  { unfold begins. rewrite filter_app, app_length. cbn [filter]. destruct v; cbn [length]; try lia.
    destruct (side_eqb x x0); cbn [length]; lia. }
  destruct (match v with EBegin y _ => side_eqb x y | _ => false end) eqn:E.
  - destruct v as [| | |y r| | | | | |]; try discriminate. apply side_eqb_eq in E. subst y.
    assert (side_eqb x x = true) as E by now apply side_eqb_eq. rewrite E in Bs.
    destruct IH as [I1 I2]; [exact F1|lia|]. cbn [step]. rewrite upd_same. unfold begin_request, issued_keys.
    rewrite (final_id_auto _ _ F3) by lia. cbn [ep_counter ep_issued]. split; [lia|].
    rewrite map_app. fold (issued_keys (run (sys0 ha hb) vs x)). rewrite I2, I1, Bs, N2Nat.inj_add, seq_app, map_app.
    cbn [map snd id_key rq_id seq Nat.add]. change (N.to_nat 1) with 1. cbn [seq map]. now rewrite N2Nat.id.
  - assert (forall r, v <> EBegin x r) as Q.
    { intros r ->. assert (side_eqb x x = true) as K by now apply side_eqb_eq. congruence. }
    destruct (step_quiet (run (sys0 ha hb) vs) v x Q) as [Q1 Q2].
    assert (begins x (vs ++ [v]) = begins x vs) as Bq.
    { rewrite Bs. destruct v; try lia. rewrite E. lia. }
    unfold issued_keys. rewrite Q1, Q2, Bq. apply IH; [exact F1|lia].
Qed.

Lemma mem_fresh : forall ha hb vs x, Forall auto_ev vs -> (begins x vs < 2 ^ 32)%N ->
  NoDup (issued_keys (run (sys0 ha hb) vs x)).
Proof. intros ha hb vs x F B. destruct (mem_ids ha hb vs x F B) as [_ ->]. apply nodup_nth_ids. lia. Qed.

(** ** Stdio *)
Lemma keys_complete : forall k r p, pt_keys (pt_complete k r p) = pt_keys p.
Proof. intros k r p. unfold pt_complete. now destruct (aget k (pt_pend p)). Qed.
Lemma keys_complete_list : forall f ks p, pt_keys (pt_complete_list f ks p) = pt_keys p.
Proof.
  intros f ks. induction ks as [|k ks IH]; intro p; [reflexivity|]. unfold pt_complete_list in *. cbn [fold_left].
  rewrite IH. apply keys_complete.
Qed.

Lemma stdio_quiet : forall s v, (forall r, v <> SBegin r) -> (forall n, v <> SRegister n) ->
  st_counter (stdio_step s v) = st_counter s /\ st_entering (stdio_step s v) = st_entering s /\
  keys_used (stdio_step s v) = keys_used s.
Proof.
  intros s v H1 H2. destruct v as [d|r|n|n|p|h m| | | | | |ms|w]; cbn [stdio_step]; try (now repeat split).
  - now destruct (H1 r).
  - now destruct (H2 n).
  - destruct (take_nth n (st_out s)) as [[r rest]|]; now repeat split.
  - unfold stdio_message. destruct (route h m) as [calls result].
    assert (forall calls s, st_counter (fold_left (fun st c => match c with CResolve r => stdio_resolve r st | _ => st end) calls s) = st_counter s /\
      st_entering (fold_left (fun st c => match c with CResolve r => stdio_resolve r st | _ => st end) calls s) = st_entering s /\
      keys_used (fold_left (fun st c => match c with CResolve r => stdio_resolve r st | _ => st end) calls s) = keys_used s) as A.
    { clear. induction calls as [|c calls IH]; intro s; [now repeat split|]. cbn [fold_left].
      destruct (IH (match c with CResolve r => stdio_resolve r s | _ => s end)) as (A & B & C). rewrite A, B, C.
      destruct c; try (now repeat split). split; [reflexivity|]. split; [reflexivity|]. unfold keys_used. cbn. now rewrite keys_complete. }
    destruct (A calls (with_msg m s)) as (A1 & A2 & A3).
    destruct result as [[text|]|]; cbn [enqueue_in with_wq st_counter st_entering]; unfold keys_used in *; cbn [with_wq st_tab enqueue_in];
      rewrite A1, A2, A3; now repeat split.
  - destruct (st_sleep s); try (now repeat split). destruct (st_connected s); now repeat split.
  - assert (st_counter (with_sleep Planning (sweep s)) = st_counter s /\ st_entering (with_sleep Planning (sweep s)) = st_entering s /\
      keys_used (with_sleep Planning (sweep s)) = keys_used s) as A.
    { split; [reflexivity|]. split; [reflexivity|]. unfold keys_used. cbn. now rewrite keys_complete_list. }
    destruct (st_sleep s); try (now repeat split).
    + destruct (st_dead s); [now repeat split|exact A].
    + destruct (Z.leb z (st_now s)); [exact A|now repeat split].
  - destruct (st_connected s); now repeat split.
Qed.

Lemma stdio_id_auto : forall n r, no_id r -> (n < 2 ^ 32 - 1)%N ->
  stdio_id n (rq_id r) = (IdStr (nth_id (bs "req-") n), (n + 1)%N).
Proof.
  intros n r [E|E] H; rewrite E; unfold stdio_id, nth_id; rewrite N.mod_small by lia; reflexivity.
Qed.

Definition used_all (s : stdio) : list bstr := keys_used s ++ map (fun r => id_key (rq_id r)) (st_entering s).

Lemma stdio_ids : forall now ms max vs, Forall auto_sev vs -> (stdio_begins vs < 2 ^ 32)%N ->
  let s := stdio_run (stdio_start now ms max) vs in
  st_counter s = stdio_begins vs /\
  exists l, Permutation (used_all s ++ l) (map (fun k => nth_id (bs "req-") (N.of_nat k)) (seq 0 (N.to_nat (stdio_begins vs)))).
Proof.
  intros now ms max vs. induction vs as [|v vs IH] using rev_ind; intros F B; [split; [reflexivity|exists []; constructor]|].
  apply Forall_app in F as [F1 F2]. inversion F2 as [|a b F3 _]; subst. cbn zeta.
  unfold stdio_run. rewrite fold_left_app. cbn [fold_left]. fold (stdio_run (stdio_start now ms max) vs).
  assert (stdio_begins (vs ++ [v]) = (stdio_begins vs + match v with SBegin _ => 1 | _ => 0 end)%N) as Bs.
  { unfold stdio_begins. rewrite filter_app, app_length. cbn [filter]. destruct v; cbn [length]; lia. }
  destruct IH as (I1 & l & I2); [exact F1|lia|]. set (s := stdio_run (stdio_start now ms max) vs) in *.
  assert ((forall r, v <> SBegin r) -> (forall n, v <> SRegister n) -> st_counter (stdio_step s v) = stdio_begins (vs ++ [v]) /\
    exists l, Permutation (used_all (stdio_step s v) ++ l)
      (map (fun k => nth_id (bs "req-") (N.of_nat k)) (seq 0 (N.to_nat (stdio_begins (vs ++ [v])))))) as Quiet.
  { intros Q1 Q2. destruct (stdio_quiet s v Q1 Q2) as (A1 & A2 & A3). unfold used_all. rewrite A1, A2, A3.
    assert (stdio_begins (vs ++ [v]) = stdio_begins vs) as -> by (rewrite Bs; destruct v; try lia; now destruct (Q1 r)).
    split; [exact I1|]. now exists l. }
  destruct v as [d|r|n|n|p|h m| | | | | |ms0|w]; try (apply Quiet; discriminate).
  - clear Quiet. cbn [stdio_step]. rewrite Bs, N2Nat.inj_add, seq_app, map_app. change (N.to_nat 1) with 1.
    cbn [seq map Nat.add]. rewrite N2Nat.id. unfold stdio_begin. destruct (st_connected s).
    + rewrite (stdio_id_auto _ _ F3) by lia. split; [cbn [st_counter]; lia|]. exists l. unfold used_all in *.
      cbn [st_entering]. unfold keys_used in *. cbn [st_tab]. rewrite map_app. cbn [map rq_id id_key]. rewrite I1.
      rewrite <- I2. rewrite <- !app_assoc. do 2 apply Permutation_app_head. apply Permutation_app_comm.
    + split; [cbn [st_counter]; rewrite N.mod_small by lia; lia|]. exists l. unfold used_all in *.
      cbn [st_entering]. unfold keys_used in *. cbn [st_tab pt_immediate pt_keys]. rewrite map_app. cbn [map snd].
      change (bs "req-" ++ print_N (N.modulo (st_counter s + 1) (2 ^ 32))) with (nth_id (bs "req-") (st_counter s)). rewrite I1.
      rewrite <- I2. rewrite <- !app_assoc. apply Permutation_app_head. rewrite (Permutation_app_comm [_]). now rewrite <- app_assoc.
  - clear Quiet. rewrite Bs, N.add_0_r. cbn [stdio_step]. destruct (take_nth n (st_entering s)) as [[r rest]|] eqn:T; [|split; [exact I1|now exists l]].
    apply take_nth_perm in T. unfold stdio_register. destruct (deadline_of (st_now s) (st_timeout s)) as [d|].
    + split; [exact I1|]. exists l. rewrite <- I2. apply Permutation_app_tail. unfold used_all, keys_used. cbn [st_entering st_tab pt_register pt_keys].
      rewrite (Permutation_map (fun r => id_key (rq_id r)) T). rewrite map_app. cbn [map snd]. now rewrite <- app_assoc.
    + split; [exact I1|]. exists (id_key (rq_id r) :: l). rewrite <- I2. unfold used_all, keys_used. cbn [st_entering st_tab].
      rewrite (Permutation_map (fun r => id_key (rq_id r)) T). cbn [map]. rewrite <- !app_assoc. apply Permutation_app_head.
      symmetry. cbn [app]. apply Permutation_middle.
Qed.

Lemma nodup_left : forall (A : Type) (a b : list A), NoDup (a ++ b) -> NoDup a.
Proof.
  intros A a b. induction a as [|x a IH]; intro H; [constructor|]. inversion H; subst. constructor; [|now apply IH].
  intro K. apply H2. apply in_or_app. now left.
Qed.

Lemma stdio_fresh : forall now ms max vs, Forall auto_sev vs -> (stdio_begins vs < 2 ^ 32)%N ->
  NoDup (keys_used (stdio_run (stdio_start now ms max) vs)).
Proof.
  intros now ms max vs F B. destruct (stdio_ids now ms max vs F B) as (_ & l & P).
  apply nodup_left with (map (fun r => id_key (rq_id r)) (st_entering (stdio_run (stdio_start now ms max) vs))).
  apply nodup_left with l. eapply Permutation_NoDup; [symmetry; exact P|]. apply nodup_nth_ids. lia.
Qed.

(** ** Shared memory *)
Definition shm_text (old : N) : bstr := bs "shm-req-" ++ print_N (shm_next old).

Lemma shm_next_inj : forall a b, (a < two64 - 1)%N -> (b < two64 - 1)%N -> shm_text a = shm_text b -> a = b.
Proof.
  intros a b A B E. unfold shm_text in E. apply app_inv_head, print_N_inj in E. unfold shm_next in E.
  destruct (N.eqb_spec a (two64 - 1)), (N.eqb_spec b (two64 - 1)); lia.
Qed.

Lemma shm_id_auto : forall old r, no_id r -> shm_id old (rq_id r) = IdStr (shm_text old).
Proof. intros old r [E|E]; now rewrite E. Qed.

Definition shm_all (e : shm) : list bstr := shm_keys e ++ map (fun r => id_key (rq_id r)) (hm_entering e).

Lemma shm_quiet : forall c e a, (forall r old, a <> ABegin r old) -> (forall n, a <> ARegister n) ->
  hm_reg (fst (hstep c e a)) = hm_reg e /\ hm_entering (fst (hstep c e a)) = hm_entering e.
Proof.
  intros c e a H1 H2.
  assert (forall p ok e, hm_reg (fst (put p ok e)) = hm_reg e /\ hm_entering (fst (put p ok e)) = hm_entering e) as Pt.
  { intros p ok e0. destruct (put_core p ok e0) as [_ A _ _ B _ _]. now split. }
  destruct a as [|r old|n|n ok|n|nt ok|m| | |n h ok|ok|]; cbn [hstep].
  - destruct (hm_started e); now split.
  - now destruct (H1 r old).
  - now destruct (H2 n).
  - destruct (take_nth n (hm_out e)) as [[r rest]|]; [|now split]. unfold shm_transmit. destruct (N.ltb _ _); [now split|].
    destruct (send_same (ser_request r) ok (hset_calls (hm_entering e) rest (hm_failing e) e)) as (b & l & -> & Hl).
    destruct Hl as [-> | (m & ->)], b; now split.
  - destruct (take_nth n (hm_failing e)) as [[[r msg] rest]|]; now split.
  - apply Pt.
  - destruct (hm_live e); [|now split]. destruct (process_effect m (hlog_got m e)) as [_ [A _ _ B _ _]]. now split.
  - destruct (hm_live e); now split.
  - destruct (hm_live e && negb (hm_connected e))%bool; now split.
  - destruct (take_nth n (hm_running e)) as [[r rest]|]; [|now split].
    destruct (Pt (ser_response (reply (rq_id r) h)) ok (hset_work rest (hm_got e) (hm_served e ++ [(r, h)]) (hm_notified e) e)) as [A B].
    now rewrite A, B.
  - destruct (c && hm_started e)%bool; [|now split]. destruct (Pt (ser_notification bye) ok e) as [A B].
    destruct (put (ser_notification bye) ok e) as [e1 o]. cbn [fst] in *. now split.
  - destruct (hm_live e); now split.
Qed.

Lemma shm_ids : forall c h max vs, Forall auto_hact vs ->
  exists l, Permutation (shm_all (hrun c (shm0 h max) vs) ++ l) (map shm_text (draws vs)).
Proof.
  intros c h max vs. induction vs as [|a vs IH] using rev_ind; intro F; [exists []; constructor|].
  apply Forall_app in F as [F1 F2]. inversion F2 as [|x y F3 _]; subst. rewrite hrun_snoc. destruct (IH F1) as (l & I).
  set (e := hrun c (shm0 h max) vs) in *. unfold draws. rewrite flat_map_app, map_app. fold (draws vs).
  assert ((forall r old, a <> ABegin r old) -> (forall n, a <> ARegister n) ->
    exists l, Permutation (shm_all (fst (hstep c e a)) ++ l) (map shm_text (draws vs) ++ map shm_text (flat_map (fun a => match a with ABegin _ old => [old] | _ => [] end) [a]))) as Quiet.
  { intros Q1 Q2. destruct (shm_quiet c e a Q1 Q2) as [A1 A2]. exists l. unfold shm_all, shm_keys in *. rewrite A1, A2, I.
    destruct a; try (cbn; now rewrite app_nil_r). now destruct (Q1 r old). }
  destruct a as [|r old|n|n ok|n|nt ok|m| | |n h1 ok|ok|]; try (apply Quiet; discriminate).
  - clear Quiet. cbn [hstep fst flat_map map app]. unfold shm_begin. destruct (hm_connected e).
    + exists l. unfold shm_all, shm_keys in *. cbn [hset_calls hm_reg hm_entering]. rewrite map_app. cbn [map rq_id].
      rewrite (shm_id_auto old r F3). cbn [id_key]. rewrite <- I, <- !app_assoc. do 2 apply Permutation_app_head. apply Permutation_app_comm.
    + exists (l ++ [shm_text old]). unfold shm_all, shm_keys in *. cbn [hset_tab hm_reg hm_entering]. rewrite app_assoc. now apply Permutation_app_tail.
  - clear Quiet. cbn [flat_map map app]. rewrite app_nil_r. cbn [hstep].
    destruct (take_nth n (hm_entering e)) as [[r rest]|] eqn:T; [|now exists l]. apply take_nth_perm in T. exists l. rewrite <- I.
    apply Permutation_app_tail. unfold shm_all, shm_keys, shm_register. cbn [fst hset_reg hset_calls hm_reg hm_entering].
    rewrite (Permutation_map (fun r => id_key (rq_id r)) T). rewrite map_app. cbn [map snd]. now rewrite <- app_assoc.
Qed.

Lemma shm_fresh : forall c h max vs, Forall auto_hact vs -> NoDup (draws vs) ->
  Forall (fun old => (old < two64 - 1)%N) (draws vs) -> NoDup (shm_keys (hrun c (shm0 h max) vs)).
Proof.
  intros c h max vs F N L. destruct (shm_ids c h max vs F) as (l & P).
  apply nodup_left with (map (fun r => id_key (rq_id r)) (hm_entering (hrun c (shm0 h max) vs))).
  apply nodup_left with l. eapply Permutation_NoDup; [symmetry; exact P|]. clear P.
  induction N as [|a d Ha N IH]; [constructor|]. inversion L; subst. cbn [map]. constructor; [|now apply IH].
  intro K. apply in_map_iff in K as (b & E & K). apply shm_next_inj in E; [now subst| |assumption].
  rewrite Forall_forall in *. now apply H2.
Qed.

Lemma shm_counter_value : forall n, (N.of_nat n < two64)%N -> shm_counter n = N.of_nat n.
Proof.
  induction n as [|n IH]; intro H; [reflexivity|]. cbn [shm_counter]. rewrite IH by lia. unfold shm_next.
  destruct (N.eqb_spec (N.of_nat n) (two64 - 1)); lia.
Qed.
