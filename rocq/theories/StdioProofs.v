(** Pending requests and timeouts of the stdio transport. *)
From Coq Require Import Ascii String List Permutation Arith NArith ZArith Bool Lia ZifyBool ZifyNat ZifyN.
From Verif Require Import StrModel StrProofs FramerModel DoubleModel JsonModel RpcModel RouterModel RouterProofs MapModel MapProofs
  MemModel PendModel PendProofs WqModel StdioModel StdioSpec WqProofs.
Import ListNotations.
Local Open Scope nat_scope.

(** The only table updates. *)
Definition resolve_calls (cs : list call) (s : stdio) : stdio :=
  fold_left (fun st c => match c with CResolve r => stdio_resolve r st | _ => st end) cs s.

Lemma tab_lift : forall (P : ptab * list (bstr * Z) * list (nat * (request * Z)) -> Prop),
  (forall t d g k r, P (t, d, g) -> P (pt_complete k r t, adel k d, g)) ->
  (forall t d g k r, P (t, d, g) -> P (pt_immediate k r t, d, g)) ->
  (forall t d g r z, P (t, d, g) -> P (pt_register (id_key (rq_id r)) t, aset (id_key (rq_id r)) z d, g ++ [(pt_next t, (r, z))])) ->
  (forall t d g now f, P (t, d, g) ->
     P (pt_complete_list f (expired now d) t, fold_left (fun d k => adel k d) (expired now d) d, g)) ->
  (forall t d g f, P (t, d, g) -> P (pt_fail_all f t, [], g)) ->
  forall s v, P (st_tab s, st_dead s, st_reg s) -> P (st_tab (stdio_step s v), st_dead (stdio_step s v), st_reg (stdio_step s v)).
Proof.
  intros P H1 H2 H3 H4 H5 s v H. destruct v; cbn [stdio_step]; try exact H.
  - unfold stdio_begin. destruct (st_connected s).
    + destruct (stdio_id (st_counter s) (rq_id r)). exact H.
    + cbn. now apply H2.
  - destruct (take_nth n (st_entering s)) as [[r rest]|]; [|exact H]. unfold stdio_register.
    destruct (deadline_of (st_now s) (st_timeout s)); [|exact H]. cbn. now apply H3.
  - destruct (take_nth n (st_out s)) as [[r rest]|]; exact H.
  - unfold stdio_message. destruct (route h m) as [calls result]. fold (resolve_calls calls (with_msg m s)).
    assert (forall cs st, P (st_tab st, st_dead st, st_reg st) ->
      P (st_tab (resolve_calls cs st), st_dead (resolve_calls cs st), st_reg (resolve_calls cs st))) as F.
    { induction cs as [|c cs IH]; intros st Hs; [exact Hs|]. cbn. apply IH. destruct c; try exact Hs.
      unfold stdio_resolve. cbn. now apply H1. }
    specialize (F calls (with_msg m s) H). destruct result as [[text|]|]; exact F.
  - destruct (st_sleep s); try exact H. destruct (st_connected s); exact H.
  - destruct (st_sleep s); try exact H.
    + destruct (match st_dead s with [] => true | _ => false end) eqn:E.
      * destruct (st_dead s) eqn:E2; [|discriminate]. now rewrite E2.
      * assert (match st_dead s with [] => s | _ :: _ => with_sleep Planning (sweep s) end = with_sleep Planning (sweep s)) as ->
          by now destruct (st_dead s).
        cbn. now apply H4.
    + match goal with |- context [Z.leb ?a ?b] => destruct (Z.leb a b) end; [|exact H]. cbn. now apply H4.
  - destruct (st_connected s); exact H.
  - cbn. now apply H5 with (st_dead s).
Qed.

Lemma in_expired : forall now d k, In k (expired now d) <-> exists z, In (k, z) d /\ (z <= now)%Z.
Proof.
  intros now d k. unfold expired. rewrite in_map_iff. split.
  - intros ([k' z] & E & H). cbn in E. subst k'. apply filter_In in H as [H1 H2]. cbn in H2. exists z. split; [exact H1|lia].
  - intros (z & H1 & H2). exists (k, z). split; [reflexivity|]. apply filter_In. split; [exact H1|]. cbn. lia.
Qed.

Lemma in_erase_list : forall ks (d : list (bstr * Z)) kz, In kz (fold_left (fun d k => adel k d) ks d) <-> In kz d /\ ~ In (fst kz) ks.
Proof.
  induction ks as [|k ks IH]; intros d kz; cbn; [tauto|]. rewrite IH, in_adel. intuition.
Qed.

Lemma nodup_erase_list : forall ks (d : list (bstr * Z)), NoDup (map fst d) -> NoDup (map fst (fold_left (fun d k => adel k d) ks d)).
Proof. induction ks as [|k ks IH]; intros d H; [exact H|]. cbn. apply IH. now apply nodup_adel. Qed.

Definition tinv (x : ptab * list (bstr * Z) * list (nat * (request * Z))) : Prop :=
  let '(t, d, g) := x in
  pt_inv t /\ NoDup (map fst d) /\
  (forall k n, In (k, n) (pt_pend t) -> exists r z, In (n, (r, z)) g /\ id_key (rq_id r) = k /\ In (k, z) d) /\
  (forall k z, In (k, z) d -> exists n r, In (k, n) (pt_pend t) /\ In (n, (r, z)) g) /\
  (forall n r z, In (n, (r, z)) g -> In (n, id_key (rq_id r)) (pt_keys t)) /\
  NoDup (map fst g).

Lemma NoDup_app_snoc : forall (A : Type) (l : list A) x, NoDup l -> ~ In x l -> NoDup (l ++ [x]).
Proof.
  intros A l x H1 H2. apply (Permutation_NoDup (l := x :: l)); [apply Permutation_cons_append|]. now constructor.
Qed.

Lemma ticket_below : forall t n k, pt_inv t -> In (n, k) (pt_keys t) -> n < pt_next t.
Proof.
  intros t n k I H. assert (In n (map fst (pt_keys t))) as K by exact (in_map fst _ _ H).
  rewrite (pi_issued t I) in K. apply in_seq in K. lia.
Qed.

Lemma nodup_fun : forall (A B : Type) (l : list (A * B)) x y z, NoDup (map fst l) -> In (x, y) l -> In (x, z) l -> y = z.
Proof.
  intros A B l x y z. induction l as [|[a b] l IH]; intros Hn H1 H2; [easy|]. cbn in Hn. inversion Hn as [|? ? N1 N2]; subst.
  destruct H1 as [H1|H1]; destruct H2 as [H2|H2].
  - congruence.
  - injection H1 as -> ->. exfalso. apply N1. exact (in_map fst _ _ H2).
  - injection H2 as -> ->. exfalso. apply N1. exact (in_map fst _ _ H1).
  - now apply IH.
Qed.

Lemma tinv_step : forall s v, tinv (st_tab s, st_dead s, st_reg s) ->
  tinv (st_tab (stdio_step s v), st_dead (stdio_step s v), st_reg (stdio_step s v)).
Proof.
  intros s v. apply tab_lift; clear s v.
  - intros t d g k r (A & B & C & D & E & F). split; [now apply pt_inv_complete|]. split; [now apply nodup_adel|].
    split; [|split; [|split; [|exact F]]].
    + intros k0 n H. apply in_complete_pend in H as [H Hk]. destruct (C k0 n H) as (r0 & z & H1 & H2 & H3).
      exists r0, z. split; [exact H1|]. split; [exact H2|]. apply in_adel. now split.
    + intros k0 z H. apply in_adel in H as [H Hk]. destruct (D k0 z H) as (n & r0 & H1 & H2).
      exists n, r0. split; [|exact H2]. apply in_complete_pend. now split.
    + intros n r0 z H. destruct (pt_grows_complete k r t) as [[a Ea] _]. rewrite Ea. apply in_or_app. left. now apply (E n r0 z).
  - intros t d g k r (A & B & C & D & E & F). split; [now apply pt_inv_immediate|]. split; [exact B|].
    split; [exact C|]. split; [exact D|]. split; [|exact F].
    intros n r0 z H. cbn. apply in_or_app. left. now apply (E n r0 z).
  - intros t d g r z (A & B & C & D & E & F). split; [now apply pt_inv_register|]. split; [now apply nodup_aset|].
    split; [|split; [|split]].
    + intros k n H. cbn in H. apply in_aset in H; [|apply A]. destruct H as [H|[H Hk]].
      * injection H as -> ->. exists r, z. split; [apply in_or_app; right; now left|]. split; [reflexivity|].
        apply in_aset; [exact B|now left].
      * cbn in Hk. destruct (C k n H) as (r0 & z0 & H1 & H2 & H3). exists r0, z0. split; [apply in_or_app; now left|].
        split; [exact H2|]. apply in_aset; [exact B|]. right. now split.
    + intros k z0 H. apply in_aset in H; [|exact B]. destruct H as [H|[H Hk]].
      * injection H as -> ->. exists (pt_next t), r. split; [|apply in_or_app; right; now left].
        cbn. apply in_aset; [apply A|now left].
      * destruct (D k z0 H) as (n & r0 & H1 & H2). exists n, r0. split; [|apply in_or_app; now left].
        cbn. apply in_aset; [apply A|]. right. now split.
    + intros n r0 z0 H. cbn. apply in_or_app. apply in_app_iff in H as [H|[H|[]]]; [left; now apply (E n r0 z0)|].
      right. injection H as <- <- <-. now left.
    + rewrite map_app. cbn. apply NoDup_app_snoc; [exact F|]. intro H. apply in_map_iff in H as ([n [r0 z0]] & H1 & H2).
      cbn in H1. subst n. apply E in H2. apply ticket_below in H2; [lia|exact A].
  - intros t d g now f (A & B & C & D & E & F). split; [now apply pt_inv_complete_list|]. split; [now apply nodup_erase_list|].
    split; [|split; [|split; [|exact F]]].
    + intros k n H. apply in_complete_list_pend in H as [H Hk]. destruct (C k n H) as (r0 & z & H1 & H2 & H3).
      exists r0, z. split; [exact H1|]. split; [exact H2|]. apply in_erase_list. now split.
    + intros k z H. apply in_erase_list in H as [H Hk]. destruct (D k z H) as (n & r0 & H1 & H2).
      exists n, r0. split; [|exact H2]. apply in_complete_list_pend. now split.
    + intros n r0 z H. destruct (pt_grows_complete_list f (expired now d) t) as [[a Ea] _]. rewrite Ea. apply in_or_app. left.
      now apply (E n r0 z).
  - intros t d g f (A & B & C & D & E & F). split; [now apply pt_inv_fail_all|]. split; [constructor|].
    split; [intros k n []|]. split; [intros k z []|]. split; [exact E|exact F].
Qed.

Lemma tinv_reachable : forall now ms max vs, let s := stdio_run (stdio_start now ms max) vs in
  tinv (st_tab s, st_dead s, st_reg s).
Proof.
  intros now ms max vs. cbv zeta. induction vs as [|v vs IH] using rev_ind.
  - cbn. split; [apply pt_inv0|]. split; [constructor|]. split; [easy|]. split; [easy|]. split; [easy|constructor].
  - unfold stdio_run in *. rewrite fold_left_app. cbn. now apply tinv_step.
Qed.

(** One step and the done log. *)
Lemma stdio_run_snoc : forall s vs v, stdio_run s (vs ++ [v]) = stdio_step (stdio_run s vs) v.
Proof. intros. unfold stdio_run. now rewrite fold_left_app. Qed.
Lemma stdio_run_app : forall s a b, stdio_run s (a ++ b) = stdio_run (stdio_run s a) b.
Proof. intros. apply fold_left_app. Qed.

Lemma tab_grows_step : forall s v, pt_grows (st_tab s) (st_tab (stdio_step s v)).
Proof.
  intros s v.
  pose proof (tab_lift (fun x => let '(t, d, g) := x in pt_grows (st_tab s) t)) as T.
  apply (T) with (s := s) (v := v); clear T; try (intros; eapply pt_grows_trans; [eassumption|]).
  - apply pt_grows_complete.
  - apply pt_grows_immediate.
  - apply pt_grows_register.
  - apply pt_grows_complete_list.
  - apply pt_grows_fail_all.
  - apply pt_grows_refl.
Qed.

Lemma tab_grows_run : forall vs s, pt_grows (st_tab s) (st_tab (stdio_run s vs)).
Proof.
  induction vs as [|v vs IH]; intro s; [apply pt_grows_refl|]. cbn. eapply pt_grows_trans; [apply tab_grows_step|apply IH].
Qed.

Lemma reg_grows_step : forall s v, exists a, st_reg (stdio_step s v) = st_reg s ++ a.
Proof.
  intros s v.
  apply (tab_lift (fun x => let '(t, d, g) := x in exists a, g = st_reg s ++ a)); auto.
  - intros t d g r z [a ->]. exists (a ++ [(pt_next t, (r, z))]). now rewrite app_assoc.
  - exists []. now rewrite app_nil_r.
Qed.

Lemma expired_exact : forall s, tinv (st_tab s, st_dead s, st_reg s) -> forall k, 
  In k (expired (st_now s) (st_dead s)) <->
  exists n r z, In (k, n) (pt_pend (st_tab s)) /\ In (n, (r, z)) (st_reg s) /\ (z <= st_now s)%Z.
Proof.
  intros s (A & B & C & D & E & F) k. rewrite in_expired. split.
  - intros (z & H1 & H2). destruct (D k z H1) as (n & r & H3 & H4). now exists n, r, z.
  - intros (n & r & z & H1 & H2 & H3). destruct (C k n H1) as (r0 & z0 & H4 & H5 & H6).
    assert ((r, z) = (r0, z0)) as K by now apply (nodup_fun _ _ (st_reg s) n). injection K as <- <-. now exists z.
Qed.

Lemma sweep_done : forall s, tinv (st_tab s, st_dead s, st_reg s) -> forall t o,
  In (t, o) (pt_done (st_tab (sweep s))) <->
  In (t, o) (pt_done (st_tab s)) \/
  exists k r d, In (k, t) (pt_pend (st_tab s)) /\ In (t, (r, d)) (st_reg s) /\ (d <= st_now s)%Z /\
    o = Some (failure k (bs "Request timeout")).
Proof.
  intros s I t o. pose proof (expired_exact s I) as X. destruct I as (A & B & C & D & E & F). cbn.
  rewrite in_complete_list_done by exact A. split.
  - intros [H|(k & H1 & H2 & ->)]; [now left|]. right. apply X in H1 as (n & r & z & H3 & H4 & H5).
    assert (n = t) as -> by (apply (nodup_fun _ _ (pt_pend (st_tab s)) k); [apply A|exact H3|exact H2]).
    now exists k, r, z.
  - intros [H|(k & r & d & H1 & H2 & H3 & ->)]; [now left|]. right. exists k. split; [|now split].
    apply X. now exists t, r, d.
Qed.

Lemma sweep_pend : forall s, tinv (st_tab s, st_dead s, st_reg s) -> forall k t,
  In (k, t) (pt_pend (st_tab (sweep s))) <->
  In (k, t) (pt_pend (st_tab s)) /\ exists r d, In (t, (r, d)) (st_reg s) /\ (st_now s < d)%Z.
Proof.
  intros s I k t. pose proof (expired_exact s I) as X. destruct I as (A & B & C & D & E & F). cbn.
  rewrite in_complete_list_pend. cbn [fst]. split.
  - intros [H1 H2]. split; [exact H1|]. destruct (C k t H1) as (r & z & H3 & H4 & H5). exists r, z. split; [exact H3|].
    destruct (Z_lt_le_dec (st_now s) z) as [K|K]; [exact K|]. exfalso. apply H2. apply X. now exists t, r, z.
  - intros [H1 (r & d & H2 & H3)]. split; [exact H1|]. intro H. apply X in H as (n & r' & z & H4 & H5 & H6).
    assert (n = t) as -> by (apply (nodup_fun _ _ (pt_pend (st_tab s)) k); [apply A|exact H4|exact H1]).
    assert ((r, d) = (r', z)) as K by now apply (nodup_fun _ _ (st_reg s) t). injection K as <- <-. lia.
Qed.

(** Causes. *)
Lemma route_resolve : forall h m r, In (CResolve r) (fst (route h m)) ->
  classify m = KResponse /\ deser_response response0 m = (true, r).
Proof.
  intros h m r. unfold route, classify. destruct (deser_response response0 m) as [ok resp] eqn:D.
  assert (ok = true) as -> by (unfold deser_response in D; now injection D as <- <-).
  rewrite andb_true_r. destruct (has_top_key (bs "result") m || has_top_key (bs "error") m)%bool.
  - intros [H|[]]. injection H as <-. auto.
  - assert (forall n, ~ In (CResolve r) (fst (route_notification n m))) as K.
    { intros n H. unfold route_notification in H. destruct (deser_notification notification0 m) as [[|] x].
      - destruct (h_notification n); cbn in H; [destruct H as [H|[]]; discriminate|easy].
      - destruct (h_error n); cbn in H; [destruct H as [H|[]]; discriminate|easy]. }
    destruct (deser_request request0 m) as [okr rq]. destruct (h_request h); [|intro H; now apply K in H].
    destruct (contains (bs """method""") m && has_top_key (bs "id") m && okr)%bool; [|intro H; now apply K in H].
    intros [H|[]]. discriminate.
Qed.

Lemma resolve_calls_done : forall cs s t o, pt_inv (st_tab s) ->
  In (t, o) (pt_done (st_tab (resolve_calls cs s))) ->
  In (t, o) (pt_done (st_tab s)) \/
  exists r k, In (CResolve r) cs /\ o = Some r /\ k = id_key (rs_id r) /\ In (t, k) (pt_keys (st_tab s)).
Proof.
  induction cs as [|c cs IH]; intros s t o I H; [now left|]. cbn in H. fold (resolve_calls cs) in H.
  assert (pt_inv (st_tab (match c with CResolve r => stdio_resolve r s | _ => s end))) as I2.
  { destruct c; try exact I. cbn. now apply pt_inv_complete. }
  apply IH in H; [|exact I2]. destruct H as [H|(r & k & H1 & H2 & H3 & H4)].
  - destruct c as [r| | |]; try (left; exact H). cbn in H. apply in_complete_done in H as [H|[H1 ->]]; [now left|].
    right. exists r, (id_key (rs_id r)). split; [now left|]. split; [reflexivity|]. split; [reflexivity|].
    apply aget_in in H1. now apply (pi_pend _ I).
  - right. exists r, k. split; [now right|]. split; [exact H2|]. split; [exact H3|].
    destruct c as [r0| | |]; try exact H4. cbn in H4. destruct (aget (id_key (rs_id r0)) (pt_pend (st_tab s))) eqn:E;
      unfold pt_complete in H4; rewrite E in H4; exact H4.
Qed.

Lemma stdio_cause_snoc : forall s0 vs v t k r, stdio_cause s0 vs t k r -> stdio_cause s0 (vs ++ [v]) t k r.
Proof.
  intros s0 vs v t k r [(A & h & m & B & C)|[(A & a & b & rq & d & -> & B)|[(A & B)|(A & a & rq & b & -> & B)]]].
  - left. split; [exact A|]. exists h, m. split; [apply in_or_app; now left|exact C].
  - right. left. split; [exact A|]. exists a, (b ++ [v]), rq, d. split; [now rewrite <- app_assoc|exact B].
  - right. right. left. split; [exact A|]. apply in_or_app. now left.
  - right. right. right. split; [exact A|]. exists a, rq, (b ++ [v]). split; [now rewrite <- app_assoc|exact B].
Qed.

Definition justified (s0 : stdio) (vs : list sev) (p : ptab) (t : nat) (o : option response) : Prop :=
  exists k, In (t, k) (pt_keys p) /\
    match o with
    | Some r => stdio_cause s0 vs t k r
    | None => exists t', t < t' /\ In (t', k) (pt_keys p)
    end.

Lemma justified_mono : forall s0 vs v p q t o, pt_grows p q -> justified s0 vs p t o -> justified s0 (vs ++ [v]) q t o.
Proof.
  intros s0 vs v p q t o [[a Ea] _] (k & H1 & H2). exists k. rewrite Ea. split; [apply in_or_app; now left|].
  destruct o as [r|].
  - now apply stdio_cause_snoc.
  - destruct H2 as (t' & H2 & H3). exists t'. split; [exact H2|]. apply in_or_app. now left.
Qed.

Lemma all_justified : forall now ms max vs t o,
  In (t, o) (pt_done (st_tab (stdio_run (stdio_start now ms max) vs))) ->
  justified (stdio_start now ms max) vs (st_tab (stdio_run (stdio_start now ms max) vs)) t o.
Proof.
  intros now ms max vs. set (s0 := stdio_start now ms max).
  induction vs as [|v vs IH] using rev_ind; intros t o H; [destruct H|].
  pose proof (tinv_reachable now ms max vs) as TI. cbv zeta in TI. fold s0 in TI.
  rewrite stdio_run_snoc in *. set (s := stdio_run s0 vs) in *.
  pose proof (tab_grows_step s v) as G.
  assert (In (t, o) (pt_done (st_tab s)) -> justified s0 (vs ++ [v]) (st_tab (stdio_step s v)) t o) as Old.
  { intro K. eapply justified_mono; [exact G|]. now apply IH. }
  assert (pt_inv (st_tab s)) as PI by apply TI.
  destruct v; cbn [stdio_step] in *; try (apply Old; exact H).
  - unfold stdio_begin in *. destruct (st_connected s) eqn:Ec.
    + destruct (stdio_id (st_counter s) (rq_id r)). apply Old. exact H.
    + cbn in H. apply in_app_iff in H as [H|[H|[]]]; [now apply Old|]. injection H as <- <-.
      eexists. split; [cbn; apply in_or_app; right; now left|]. right. right. right. split; [reflexivity|].
      exists vs, r, []. split; [reflexivity|exact Ec].
  - destruct (take_nth n (st_entering s)) as [[r rest]|]; [|apply Old; exact H]. unfold stdio_register in *.
    destruct (deadline_of (st_now s) (st_timeout s)); [|apply Old; exact H]. cbn in H.
    apply in_app_iff in H as [H|H]; [now apply Old|].
    destruct (aget (id_key (rq_id r)) (pt_pend (st_tab s))) as [t'|] eqn:E; [|destruct H].
    destruct H as [H|[]]. injection H as <- <-. apply aget_in in E. apply (pi_pend _ PI) in E.
    exists (id_key (rq_id r)). cbn. split; [apply in_or_app; now left|]. exists (pt_next (st_tab s)). split.
    + now apply ticket_below with (2 := E).
    + apply in_or_app. right. now left.
  - destruct (take_nth n (st_out s)) as [[r rest]|]; apply Old; exact H.
  - unfold stdio_message in *. pose proof (route_resolve h m) as RR. destruct (route h m) as [calls result]. cbn [fst] in RR.
    fold (resolve_calls calls (with_msg m s)) in *.
    assert (In (t, o) (pt_done (st_tab (resolve_calls calls (with_msg m s))))) as K.
    { destruct result as [[text|]|]; exact H. }
    apply resolve_calls_done in K; [|exact PI]. destruct K as [K|(r & k & K1 & -> & K3 & K4)]; [now apply Old|].
    exists k. destruct G as [[a Ea] _]. rewrite Ea. split; [apply in_or_app; left; exact K4|].
    left. split; [now symmetry|]. destruct (RR r K1) as [R1 R2]. exists h, m. split; [apply in_or_app; right; now left|now split].
  - destruct (st_sleep s); try (apply Old; exact H). destruct (st_connected s); apply Old; exact H.
  - assert (In (t, o) (pt_done (st_tab (sweep s))) -> justified s0 (vs ++ [SSweep]) (st_tab (sweep s)) t o) as Sw.
    { intro K. apply sweep_done in K; [|exact TI]. destruct K as [K|(k & r & d & K1 & K2 & K3 & ->)].
      - eapply justified_mono; [|apply IH; exact K]. cbn. apply pt_grows_complete_list.
      - exists k. split.
        + assert (pt_grows (st_tab s) (st_tab (sweep s))) as [[a Ea] _] by apply pt_grows_complete_list.
          rewrite Ea. apply in_or_app. left. now apply (pi_pend _ PI).
        + right. left. split; [reflexivity|]. exists vs, [], r, d. split; [reflexivity|]. fold s. now split. }
    destruct (st_sleep s); try (apply Old; exact H).
    + destruct (match st_dead s with [] => true | _ => false end) eqn:E.
      * destruct (st_dead s); [|discriminate]. apply Old; exact H.
      * assert (match st_dead s with [] => s | _ :: _ => with_sleep Planning (sweep s) end = with_sleep Planning (sweep s)) as E2
          by now destruct (st_dead s).
        rewrite E2 in *. apply Sw. exact H.
    + destruct (Z.leb z (st_now s)); [apply Sw; exact H|apply Old; exact H].
  - destruct (st_connected s); apply Old; exact H.
  - cbn in H. apply in_app_iff in H as [H|H]; [now apply Old|]. apply in_map_iff in H as ([k t'] & E & K).
    injection E as <- <-. exists k. cbn. split; [now apply (pi_pend _ PI)|]. right. right. left. split; [reflexivity|].
    apply in_or_app. right. now left.
Qed.

Lemma stdio_for_cause : forall now ms max vs t o,
  let s := stdio_run (stdio_start now ms max) vs in
  NoDup (keys_used s) -> In (t, o) (pt_done (st_tab s)) ->
  exists k r, In (t, k) (pt_keys (st_tab s)) /\ o = Some r /\ stdio_cause (stdio_start now ms max) vs t k r.
Proof.
  intros now ms max vs t o s Hn H. destruct (all_justified now ms max vs t o H) as (k & H1 & H2). fold s in H1, H2.
  destruct o as [r|]; [now exists k, r|]. exfalso. destruct H2 as (t' & H2 & H3).
  unfold keys_used in Hn. assert (t = t'); [|lia].
  clear - Hn H1 H3. induction (pt_keys (st_tab s)) as [|[a b] l IH]; [easy|]. cbn in Hn. inversion Hn as [|? ? N1 N2]; subst.
  destruct H1 as [H1|H1]; destruct H3 as [H3|H3].
  - congruence.
  - injection H1 as -> ->. exfalso. apply N1. exact (in_map snd _ _ H3).
  - injection H3 as -> ->. exfalso. apply N1. exact (in_map snd _ _ H1).
  - now apply IH.
Qed.

Lemma stdio_at_most_once : forall now ms max vs,
  NoDup (map fst (pt_done (st_tab (stdio_run (stdio_start now ms max) vs)))).
Proof. intros. apply pt_once. apply (tinv_reachable now ms max vs). Qed.

Lemma stdio_final : forall now ms max vs ws t o o',
  In (t, o) (pt_done (st_tab (stdio_run (stdio_start now ms max) vs))) ->
  In (t, o') (pt_done (st_tab (stdio_run (stdio_start now ms max) (vs ++ ws)))) -> o' = o.
Proof.
  intros now ms max vs ws t o o' H1 H2. pose proof (stdio_at_most_once now ms max (vs ++ ws)) as Hn.
  rewrite stdio_run_app in *. destruct (tab_grows_run ws (stdio_run (stdio_start now ms max) vs)) as [_ [b Eb]].
  assert (In (t, o) (pt_done (st_tab (stdio_run (stdio_run (stdio_start now ms max) vs) ws)))) as H3.
  { rewrite Eb. apply in_or_app. now left. }
  now apply (nodup_fun _ _ _ t) with (1 := Hn).
Qed.

Lemma stdio_close : forall now ms max vs1 vs2 vs3 t k,
  In (t, k) (pt_keys (st_tab (stdio_run (stdio_start now ms max) vs1))) ->
  exists o, In (t, o) (pt_done (st_tab (stdio_run (stdio_start now ms max) (vs1 ++ SDisconnect :: vs2 ++ SFailAll :: vs3)))) /\
    (In (t, o) (pt_done (st_tab (stdio_run (stdio_start now ms max) (vs1 ++ SDisconnect :: vs2)))) \/
     o = Some (failure k (bs "Transport closed"))).
Proof.
  intros now ms max vs1 vs2 vs3 t k H.
  replace (vs1 ++ SDisconnect :: vs2 ++ SFailAll :: vs3) with ((vs1 ++ SDisconnect :: vs2) ++ SFailAll :: vs3)
    by (rewrite <- app_assoc; reflexivity).
  set (w := vs1 ++ SDisconnect :: vs2). pose proof (tinv_reachable now ms max w) as TI. cbv zeta in TI.
  rewrite (stdio_run_app _ w). set (s := stdio_run (stdio_start now ms max) w) in *.
  assert (In (t, k) (pt_keys (st_tab s))) as H2.
  { unfold s, w. rewrite stdio_run_app. destruct (tab_grows_run (SDisconnect :: vs2) (stdio_run (stdio_start now ms max) vs1)) as [[a Ea] _].
    rewrite Ea. apply in_or_app. now left. }
  change (stdio_run s (SFailAll :: vs3)) with (stdio_run (stdio_step s SFailAll) vs3).
  destruct (tab_grows_run vs3 (stdio_step s SFailAll)) as [_ [b Eb]]. rewrite Eb.
  destruct (pt_pending_or_done _ t k (proj1 TI) H2) as [K|(o & K)].
  - exists (Some (failure k (bs "Transport closed"))). split; [|now right].
    apply in_or_app. left. cbn. apply in_or_app. right. apply in_map_iff. exists (k, t). now split.
  - exists o. split; [|now left]. apply in_or_app. left. cbn. apply in_or_app. now left.
Qed.

(** Where deadlines come from. *)
Lemma deadline_origin : forall now ms max vs t r d,
  In (t, (r, d)) (st_reg (stdio_run (stdio_start now ms max) vs)) ->
  exists vs1 n vs2, vs = vs1 ++ SRegister n :: vs2 /\
    let s1 := stdio_run (stdio_start now ms max) vs1 in
    pt_next (st_tab s1) = t /\ (d = st_now s1 + st_timeout s1 * 1000000)%Z.
Proof.
  intros now ms max vs. induction vs as [|v vs IH] using rev_ind; intros t r d H; [destruct H|].
  rewrite stdio_run_snoc in H. set (s := stdio_run (stdio_start now ms max) vs) in *.
  assert (In (t, (r, d)) (st_reg s) -> exists vs1 n vs2, vs ++ [v] = vs1 ++ SRegister n :: vs2 /\
    let s1 := stdio_run (stdio_start now ms max) vs1 in
    pt_next (st_tab s1) = t /\ (d = st_now s1 + st_timeout s1 * 1000000)%Z) as Old.
  { intro K. destruct (IH t r d K) as (a & n & b & -> & E). exists a, n, (b ++ [v]). split; [now rewrite <- app_assoc|exact E]. }
  destruct v; cbn [stdio_step] in H; try (apply Old; exact H).
  - unfold stdio_begin in H. destruct (st_connected s); [|apply Old; exact H].
    destruct (stdio_id (st_counter s) (rq_id r0)). apply Old. exact H.
  - destruct (take_nth n (st_entering s)) as [[r0 rest]|]; [|apply Old; exact H]. unfold stdio_register in H.
    destruct (deadline_of (st_now s) (st_timeout s)) as [d0|] eqn:E; [|apply Old; exact H]. cbn in H.
    apply in_app_iff in H as [H|[H|[]]]; [now apply Old|]. injection H as <- <- <-.
    exists vs, n, []. split; [reflexivity|]. fold s. split; [reflexivity|].
    unfold deadline_of in E. destruct (Z.leb _ _ && _ && _ && _)%bool in E; [|discriminate]. now injection E as <-.
  - destruct (take_nth n (st_out s)) as [[r0 rest]|]; apply Old; exact H.
  - unfold stdio_message in H. destruct (route h m) as [calls result]. fold (resolve_calls calls (with_msg m s)) in H.
    assert (forall cs st, st_reg (resolve_calls cs st) = st_reg st) as F.
    { induction cs as [|c cs IHc]; intro st; [reflexivity|]. cbn. rewrite IHc. now destruct c. }
    apply Old. destruct result as [[text|]|]; cbn in H; rewrite F in H; exact H.
  - destruct (st_sleep s); try (apply Old; exact H). destruct (st_connected s); apply Old; exact H.
  - destruct (st_sleep s); try (apply Old; exact H); [destruct (st_dead s); apply Old; exact H|].
    destruct (Z.leb z (st_now s)); apply Old; exact H.
  - destruct (st_connected s); apply Old; exact H.
Qed.

(** Timeliness. *)
Lemma in_aset_weak : forall (A : Type) k (v : A) x m, In x (aset k v m) -> x = (k, v) \/ In x m.
Proof.
  intros A k v x m. induction m as [|[k2 v2] m IH]; cbn; [intuition|]. destruct (beq k k2); cbn; intuition.
Qed.

Definition ahead (s : stdio) : Z := (st_now s + st_timeout s * 1000000)%Z.

Definition sinv (s : stdio) : Prop :=
  (forall k d, In (k, d) (st_dead s) -> (d <= ahead s)%Z) /\
  (st_sleep s = Gone -> st_connected s = false) /\
  (forall z, st_sleep s = Until z -> (z <= ahead s)%Z /\ forall k d, In (k, d) (st_dead s) -> (z <= d)%Z).

Lemma next_deadline_acc : forall d m,
  let x := fold_left (fun m (kd : bstr * Z) => if Z.ltb (snd kd) m then snd kd else m) d m in
  (x <= m)%Z /\ forall k z, In (k, z) d -> (x <= z)%Z.
Proof.
  induction d as [|[k0 z0] d IH]; intro m; cbn; [split; [lia|easy]|].
  destruct (IH (if Z.ltb z0 m then z0 else m)) as [H1 H2]. split.
  - destruct (Z.ltb_spec z0 m); lia.
  - intros k z [H|H]; [|now apply H2 with k]. injection H as <- <-. destruct (Z.ltb_spec z0 m); lia.
Qed.

Lemma next_deadline_le : forall d k z, In (k, z) d -> (next_deadline d <= z)%Z.
Proof. intros d k z H. now apply (proj2 (next_deadline_acc d int64_max)) with k. Qed.

Lemma conn_drop : forall s v, st_connected s = false -> st_connected (stdio_step s v) = false.
Proof.
  intros s v. unfold st_connected. apply (wq_lift (fun w => w_connected w = false)).
  - intros p w H. unfold enqueue. destruct (N.ltb (w_max w) (w_bytes w + size (encode p))); [reflexivity|exact H].
  - reflexivity.
  - intros u w H. unfold wq_step. destruct u, (w_writer w); auto.
    + destruct (w_queue w); [|exact H]. rewrite H. exact H.
    + destruct (Nat.ltb 0 n && Nat.leb (total + n) (length frame))%bool; exact H.
    + destruct (Nat.ltb total (length frame)); auto.
    + destruct (negb (w_connected w) || Nat.leb (length frame) total)%bool; exact H.
Qed.

Lemma resolve_calls_rest : forall cs s,
  st_now (resolve_calls cs s) = st_now s /\ st_timeout (resolve_calls cs s) = st_timeout s /\
  st_sleep (resolve_calls cs s) = st_sleep s /\ st_wq (resolve_calls cs s) = st_wq s /\
  forall k d, In (k, d) (st_dead (resolve_calls cs s)) -> In (k, d) (st_dead s).
Proof.
  induction cs as [|c cs IH]; intro s; [cbn; tauto|].
  change (resolve_calls (c :: cs) s) with (resolve_calls cs (match c with CResolve r => stdio_resolve r s | _ => s end)).
  destruct (IH (match c with CResolve r => stdio_resolve r s | _ => s end)) as (A & B & C & D & E).
  destruct c; try tauto. rewrite A, B, C, D. repeat split; auto.
  intros k d H. apply E in H. apply in_adel in H. tauto.
Qed.

Lemma sinv_step : forall s v, fixed_timeout v -> sinv s -> sinv (stdio_step s v).
Proof.
  intros s v Hf (I1 & I2 & I3).
  assert (st_sleep (stdio_step s v) = Gone -> st_connected (stdio_step s v) = false) as P2.
  { destruct (st_connected s) eqn:Ec; [|intros _; now apply conn_drop].
    intro H. assert (st_sleep s <> Gone) as K by (intro K; apply I2 in K; congruence). exfalso.
    destruct v; cbn [stdio_step] in H; try (apply K; exact H).
    - unfold stdio_begin in H. rewrite Ec in H. destruct (stdio_id (st_counter s) (rq_id r)). apply K; exact H.
    - destruct (take_nth n (st_entering s)) as [[r rest]|]; [|apply K; exact H]. unfold stdio_register in H.
      destruct (deadline_of (st_now s) (st_timeout s)); apply K; exact H.
    - destruct (take_nth n (st_out s)) as [[r rest]|]; apply K; exact H.
    - unfold stdio_message in H. destruct (route h m) as [calls result]. fold (resolve_calls calls (with_msg m s)) in H.
      destruct (resolve_calls_rest calls (with_msg m s)) as (_ & _ & C & _).
      destruct result as [[text|]|]; cbn in H; rewrite C in H; apply K; exact H.
    - destruct (st_sleep s) eqn:Es; try (apply K; exact H || congruence). rewrite Ec in H. cbn in H.
      destruct (st_dead s); [discriminate|]. destruct (Z.eqb _ _); discriminate.
    - destruct (st_sleep s) eqn:Es; try congruence.
      + destruct (st_dead s); [congruence|]. discriminate.
      + destruct (Z.leb z (st_now s)); [discriminate|congruence].
    - rewrite Ec in H. apply K; exact H. }
  assert (forall s', st_now s' = st_now s -> st_timeout s' = st_timeout s ->
     (forall k d, In (k, d) (st_dead s') -> In (k, d) (st_dead s)) ->
     (st_sleep s' = st_sleep s \/ st_sleep s' = Planning \/ st_sleep s' = Waiting \/ st_sleep s' = Gone) ->
     (forall k d, In (k, d) (st_dead s') -> (d <= ahead s')%Z) /\
     (forall z, st_sleep s' = Until z -> (z <= ahead s')%Z /\ forall k d, In (k, d) (st_dead s') -> (z <= d)%Z)) as Same.
  { intros s' E1 E2 E3 E4. assert (ahead s' = ahead s) as Ea by (unfold ahead; now rewrite E1, E2). rewrite Ea. split.
    - intros k d H. apply E3 in H. now apply I1 with k.
    - intros z H. destruct E4 as [E4|[E4|[E4|E4]]]; [|congruence|congruence|congruence]. rewrite E4 in H.
      destruct (I3 z H) as [J1 J2]. split; [exact J1|]. intros k d K. apply E3 in K. now apply J2 with k. }
  assert (forall s', (st_sleep s' = Gone -> st_connected s' = false) ->
     (forall k d, In (k, d) (st_dead s') -> (d <= ahead s')%Z) /\
     (forall z, st_sleep s' = Until z -> (z <= ahead s')%Z /\ forall k d, In (k, d) (st_dead s') -> (z <= d)%Z) -> sinv s') as Mk.
  { intros s' A [B C]. split; [exact B|]. split; [exact A|exact C]. }
  apply Mk; [exact P2|]. clear P2 Mk.
  destruct v; cbn [stdio_step]; try (apply Same; auto; fail).
  - cbn. assert (ahead s <= ahead (with_time (st_now s + Z.of_N d) (st_timeout s) s))%Z as L by (unfold ahead; cbn; lia). split.
    + intros k z H. apply I1 in H. lia.
    + intros z H. destruct (I3 z H) as [J1 J2]. split; [lia|exact J2].
  - unfold stdio_begin. destruct (st_connected s).
    + destruct (stdio_id (st_counter s) (rq_id r)). apply Same; auto.
    + apply Same; auto.
  - destruct (take_nth n (st_entering s)) as [[r rest]|]; [|apply Same; auto]. unfold stdio_register.
    destruct (deadline_of (st_now s) (st_timeout s)) as [d0|] eqn:E; [|apply Same; auto].
    assert (d0 = ahead s) as ->.
    { unfold deadline_of in E. destruct (Z.leb _ _ && _ && _ && _)%bool in E; [|discriminate]. now injection E as <-. }
    unfold ahead in *. cbn. split.
    + intros k d H. apply in_aset_weak in H. destruct H as [H|H]; [assert (d = st_now s + st_timeout s * 1000000)%Z by congruence; lia|now apply I1 with k].
    + intros z H. destruct (I3 z H) as [J1 J2]. split; [exact J1|]. intros k d K. apply in_aset_weak in K.
      destruct K as [K|K]; [assert (d = st_now s + st_timeout s * 1000000)%Z by congruence; lia|now apply J2 with k].
  - destruct (take_nth n (st_out s)) as [[r rest]|]; apply Same; auto.
  - unfold stdio_message. destruct (route h m) as [calls result]. fold (resolve_calls calls (with_msg m s)).
    destruct (resolve_calls_rest calls (with_msg m s)) as (A & B & C & D & E).
    destruct result as [[text|]|]; apply Same; auto.
  - destruct (st_sleep s) eqn:Es; try (apply Same; auto; rewrite Es; auto; fail). destruct (st_connected s); [|apply Same; auto].
    destruct (st_dead s) as [|[k0 d0] l] eqn:Ed.
    + apply Same; auto. cbn. now rewrite Ed.
    + cbn zeta. destruct (Z.eqb (next_deadline ((k0, d0) :: l)) int64_max) eqn:Em.
      { apply Same; auto. cbn. now rewrite Ed. }
      unfold ahead in *. cbn [st_now st_timeout st_dead st_sleep with_sleep]. rewrite Ed. split; [exact I1|]. intros z H. injection H as <-. split.
      * assert (In (k0, d0) ((k0, d0) :: l)) as K by now left. pose proof (next_deadline_le _ _ _ K). pose proof (I1 k0 d0 K). lia.
      * intros k d K. now apply next_deadline_le with k.
  - assert ((forall k d, In (k, d) (st_dead (with_sleep Planning (sweep s))) -> (d <= ahead (with_sleep Planning (sweep s)))%Z) /\
     (forall z, st_sleep (with_sleep Planning (sweep s)) = Until z -> (z <= ahead (with_sleep Planning (sweep s)))%Z /\
        forall k d, In (k, d) (st_dead (with_sleep Planning (sweep s))) -> (z <= d)%Z)) as Sw.
    { apply Same; auto. intros k d H. cbn in H. apply in_erase_list in H. tauto. }
    destruct (st_sleep s) eqn:Es; try (apply Same; auto; rewrite Es; auto; fail).
    + destruct (st_dead s) eqn:Ed; [apply Same; auto; now rewrite Ed|exact Sw].
    + destruct (Z.leb z (st_now s)); [exact Sw|apply Same; auto].
  - destruct (st_connected s); apply Same; auto.
  - apply Same; auto. intros k d [].
  - destruct Hf.
Qed.

Lemma sinv_reachable : forall now ms max vs, Forall fixed_timeout vs -> sinv (stdio_run (stdio_start now ms max) vs).
Proof.
  intros now ms max vs. induction vs as [|v vs IH] using rev_ind; intro H.
  - split; [easy|]. split; [discriminate|discriminate].
  - apply Forall_app in H as [H1 H2]. inversion H2; subst. rewrite stdio_run_snoc. apply sinv_step; auto.
Qed.

Lemma reg_done_or_dead : forall s, tinv (st_tab s, st_dead s, st_reg s) -> forall t rq d, In (t, (rq, d)) (st_reg s) ->
  (exists o, In (t, o) (pt_done (st_tab s))) \/
  In (id_key (rq_id rq), t) (pt_pend (st_tab s)) /\ In (id_key (rq_id rq), d) (st_dead s).
Proof.
  intros s (A & B & C & D & E & F) t rq d H.
  destruct (pt_pending_or_done _ _ _ A (E _ _ _ H)) as [K|K]; [|now left]. right. split; [exact K|].
  destruct (C _ _ K) as (r & z & H1 & H2 & H3). pose proof (nodup_fun _ _ _ _ _ _ F H H1) as Q. now injection Q as -> ->.
Qed.

Lemma stdio_timely : forall now ms max vs t rq d, Forall fixed_timeout vs ->
  let s := stdio_run (stdio_start now ms max) vs in
  st_connected s = true -> In (t, (rq, d)) (st_reg s) -> (d <= st_now s)%Z ->
  exists o, In (t, o) (pt_done (st_tab (stdio_run s [SPlan; SSweep]))).
Proof.
  intros now ms max vs t rq d Hf s Hc Hr Hd.
  pose proof (tinv_reachable now ms max vs) as TI. cbv zeta in TI. fold s in TI.
  destruct (sinv_reachable now ms max vs Hf) as (I1 & I2 & I3). fold s in I1, I2, I3.
  destruct (reg_done_or_dead s TI t rq d Hr) as [[o K]|[K1 K2]].
  - exists o. destruct (tab_grows_run [SPlan; SSweep] s) as [_ [b Eb]]. rewrite Eb. apply in_or_app. now left.
  - exists (Some (failure (id_key (rq_id rq)) (bs "Request timeout"))).
    assert (In (t, Some (failure (id_key (rq_id rq)) (bs "Request timeout"))) (pt_done (st_tab (sweep s)))) as W.
    { apply sweep_done; [exact TI|]. right. exists (id_key (rq_id rq)), rq, d. auto. }
    assert (forall z, sweep (with_sleep z s) = with_sleep z (sweep s)) as Sw by reflexivity.
    change (stdio_run s [SPlan; SSweep]) with (stdio_step (stdio_step s SPlan) SSweep).
    cbn [stdio_step]. destruct (st_sleep s) eqn:Es.
    + rewrite Hc. destruct (st_dead s) as [|kd l] eqn:Ed; [destruct K2|]. rewrite <- Ed in K2.
      destruct (Z.eqb (next_deadline (kd :: l)) int64_max) eqn:Em; cbn [st_sleep with_sleep st_dead st_now].
      * rewrite Ed. exact W.
      * pose proof (next_deadline_le _ _ _ K2) as L. rewrite Ed in L.
        destruct (Z.leb_spec (next_deadline (kd :: l)) (st_now s)) as [_|G]; [exact W|lia].
    + rewrite Es. destruct (st_dead s) as [|kd l] eqn:Ed; [destruct K2|]. exact W.
    + rewrite Es. destruct (I3 z eq_refl) as [_ L]. specialize (L _ _ K2).
      destruct (Z.leb_spec z (st_now s)) as [_|G]; [exact W|lia].
    + specialize (I2 eq_refl). congruence.
Qed.

Lemma queue_bounded : forall now ms max vs,
  let w := st_wq (stdio_run (stdio_start now ms max) vs) in
  w_bytes w = total (held w) /\ (w_bytes w <= N.max max 1)%N.
Proof.
  intros now ms max vs w. destruct (wq_reachable now ms max vs) as [I1 I2 _ _ _]. fold w in I1, I2. split; [exact I1|].
  unfold w in I2. rewrite wq_max in I2. fold w in I2. destruct (N.eqb_spec max 0); lia.
Qed.

Lemma queue_balance : forall now ms max vs,
  let w := st_wq (stdio_run (stdio_start now ms max) vs) in
  w_connected w = true -> (w_bytes w + size (w_wrote w) = total (w_accepted w) + partial w)%N.
Proof. intros now ms max vs w. apply held_balance. apply wq_reachable. Qed.

Lemma accept_or_refuse : forall now ms max vs p,
  let w := st_wq (stdio_run (stdio_start now ms max) vs) in
  let (ok, w') := enqueue p w in
  ok = N.leb (total (held w) + size (encode p)) (N.max max 1) /\
  w_wrote w' = w_wrote w /\
  (ok = true -> held w' = held w ++ [encode p] /\ w_accepted w' = w_accepted w ++ [encode p] /\
     w_connected w' = w_connected w /\ w_errors w' = w_errors w) /\
  (ok = false -> held w' = held w /\ w_accepted w' = w_accepted w /\ w_connected w' = false /\
     length (w_errors w') = S (length (w_errors w))).
Proof.
  intros now ms max vs p w. pose proof (queue_bounded now ms max vs) as [B _]. fold w in B.
  pose proof (wq_max now ms max vs) as M. fold w in M. unfold enqueue. rewrite B, M.
  assert ((if N.eqb max 0 then 1 else max) = N.max max 1)%N as -> by (destruct (N.eqb_spec max 0); lia).
  destruct (N.ltb_spec (N.max max 1) (total (held w) + size (encode p))) as [L|L].
  - split; [symmetry; apply N.leb_gt; exact L|]. split; [reflexivity|]. split; [discriminate|]. intros _.
    unfold held. cbn [w_writer w_queue w_accepted w_connected w_errors]. rewrite app_length, Nat.add_1_r. auto.
  - split; [symmetry; apply N.leb_le; exact L|]. split; [reflexivity|]. split; [|discriminate]. intros _.
    unfold held. cbn [w_writer w_queue w_accepted w_connected w_errors]. rewrite app_assoc. auto.
Qed.

Lemma stdio_written_prefix : forall now ms max vs, exists rest,
  concat (w_accepted (st_wq (stdio_run (stdio_start now ms max) vs))) =
  w_wrote (st_wq (stdio_run (stdio_start now ms max) vs)) ++ rest.
Proof. intros. apply written_prefix. apply wq_reachable. Qed.

Lemma stdio_writer_run : forall us s, st_wq (stdio_run s (map SWriter us)) = wq_run (st_wq s) us.
Proof. induction us as [|u us IH]; intro s; [reflexivity|]. cbn. unfold stdio_run in IH. rewrite IH. reflexivity. Qed.

Lemma stdio_writer_drains : forall now ms max vs,
  let s := stdio_run (stdio_start now ms max) vs in
  st_connected s = true ->
  exists us, w_wrote (st_wq (stdio_run s (map SWriter us))) = concat (w_accepted (st_wq s)).
Proof.
  intros now ms max vs s Hc. destruct (writer_drains (st_wq s)) as (us & E).
  - apply wq_reachable.
  - exact Hc.
  - apply writer_stays. exact Hc.
  - exists us. now rewrite stdio_writer_run.
Qed.

Lemma stdio_sweep_exact : forall now ms max vs,
  let s := stdio_run (stdio_start now ms max) vs in
  (forall t o, In (t, o) (pt_done (st_tab (sweep s))) <->
     In (t, o) (pt_done (st_tab s)) \/
     exists k r d, In (k, t) (pt_pend (st_tab s)) /\ In (t, (r, d)) (st_reg s) /\ (d <= st_now s)%Z /\
       o = Some (failure k (bs "Request timeout"))) /\
  (forall k t, In (k, t) (pt_pend (st_tab (sweep s))) <->
     In (k, t) (pt_pend (st_tab s)) /\ exists r d, In (t, (r, d)) (st_reg s) /\ (st_now s < d)%Z).
Proof.
  intros now ms max vs s. pose proof (tinv_reachable now ms max vs) as TI. cbv zeta in TI. fold s in TI.
  split; [now apply sweep_done|now apply sweep_pend].
Qed.

Definition rq_a : request := {| rq_id := IdStr (bs "a"); rq_method := bs "ping"; rq_params := None |}.
Definition rq_b : request := {| rq_id := IdStr (bs "b"); rq_method := bs "ping"; rq_params := None |}.

Definition late : list sev :=
  [SBegin rq_a; SRegister 0; SPlan; SSetTimeout 1; SBegin rq_b; SRegister 0; STime 5000000000].

Lemma asleep_stays : forall z ws s, Forall (fun v => v = SPlan \/ v = SSweep) ws ->
  st_sleep s = Until z -> (z <=? st_now s)%Z = false -> stdio_run s ws = s.
Proof.
  intros z ws s H E L. induction H as [|v ws Hv H IH]; [reflexivity|].
  change (stdio_run (stdio_step s v) ws = s).
  assert (stdio_step s v = s) as ->; [|exact IH]. destruct Hv as [-> | ->]; cbn [stdio_step]; rewrite E; [reflexivity|now rewrite L].
Qed.

Lemma stdio_timely_refuted : exists vs t rq d,
  let s := stdio_run (stdio_start 0 30000 1048576) vs in
  st_connected s = true /\ In (t, (rq, d)) (st_reg s) /\ (d < st_now s)%Z /\
  forall ws, Forall (fun v => v = SPlan \/ v = SSweep) ws ->
    forall o, ~ In (t, o) (pt_done (st_tab (stdio_run s ws))).
Proof.
  exists late, 1, rq_b, 1000000%Z. cbv zeta. split; [reflexivity|]. split; [right; left; reflexivity|].
  split; [reflexivity|]. intros ws H o.
  assert (pt_done (st_tab (stdio_run (stdio_start 0 30000 1048576) late)) = []) as E by (vm_compute; reflexivity).
  assert (st_sleep (stdio_run (stdio_start 0 30000 1048576) late) = Until 30000000000) as E1 by (vm_compute; reflexivity).
  assert ((30000000000 <=? st_now (stdio_run (stdio_start 0 30000 1048576) late))%Z = false) as E2 by (vm_compute; reflexivity).
  revert E E1 E2. generalize (stdio_run (stdio_start 0 30000 1048576) late). intros s E E1 E2.
  rewrite (asleep_stays 30000000000 ws s H E1 E2), E. intros [].
Qed.

Definition stranded (t : nat) (s : stdio) : Prop :=
  pt_inv (st_tab s) /\ (exists k, In (k, t) (pt_pend (st_tab s))) /\ st_sleep s = Gone /\ st_connected s = false /\ st_entering s = [].

Definition no_help (v : sev) : Prop := match v with SMessage _ _ | SFailAll => False | _ => True end.

Lemma stranded_step : forall t s v, no_help v -> stranded t s -> stranded t (stdio_step s v).
Proof.
  intros t s v Hv (A & [k B] & C & D & E).
  assert (st_connected (stdio_step s v) = false) as P by now apply conn_drop.
  assert (stranded t s) as I0 by (split; [exact A|]; split; [now exists k|]; auto).
  destruct v; cbn [stdio_step] in *; try exact I0; try (now destruct Hv).
  - unfold stdio_begin in *. rewrite D in *. split; [now apply pt_inv_immediate|]. split; [now exists k|]. auto.
  - rewrite E. destruct n; exact I0.
  - destruct (take_nth n (st_out s)) as [[r rest]|]; [|exact I0]. split; [exact A|]. split; [now exists k|]. repeat split; auto.
  - split; [exact A|]. split; [now exists k|]. repeat split; auto.
  - rewrite C in *. exact I0.
  - rewrite C in *. exact I0.
  - rewrite D in *. split; [exact A|]. split; [now exists k|]. repeat split; auto.
  - split; [exact A|]. split; [now exists k|]. repeat split; auto.
  - split; [exact A|]. split; [now exists k|]. repeat split; auto.
Qed.

Lemma stranded_forever : forall t s, stranded t s -> forall ws, Forall no_help ws ->
  forall o, ~ In (t, o) (pt_done (st_tab (stdio_run s ws))).
Proof.
  intros t s I ws H. revert s I. induction H as [|v ws Hv H IH]; intros s I.
  - destruct I as (A & [k B] & _). intros o K. now apply (pt_done_not_pending _ _ _ _ A K B).
  - change (stdio_run s (v :: ws)) with (stdio_run (stdio_step s v) ws). apply IH. now apply stranded_step.
Qed.

Lemma stdio_lost_refuted : exists vs t,
  let s := stdio_run (stdio_start 0 30000 1048576) vs in
  In t (map fst (st_reg s)) /\ st_connected s = false /\
  forall ws, Forall (fun v => match v with SMessage _ _ | SFailAll => False | _ => True end) ws ->
    forall o, ~ In (t, o) (pt_done (st_tab (stdio_run s ws))).
Proof.
  exists [SBegin rq_a; SRegister 0; SEnqueue 0; SPlan; SDisconnect; SQuit], 0. cbv zeta.
  split; [now left|]. split; [reflexivity|]. apply (stranded_forever 0).
  split; [|split; [exists (bs "a"); now left|repeat split; reflexivity]].
  exact (proj1 (tinv_reachable 0 30000 1048576 [SBegin rq_a; SRegister 0; SEnqueue 0; SPlan; SDisconnect; SQuit])).
Qed.

Lemma stdio_close_race_refuted : exists vs t,
  let s := stdio_run (stdio_start 0 30000 1048576) vs in
  In SFailAll vs /\ In t (map fst (st_reg s)) /\
  forall ws, Forall (fun v => match v with SMessage _ _ | SFailAll => False | _ => True end) ws ->
    forall o, ~ In (t, o) (pt_done (st_tab (stdio_run s ws))).
Proof.
  exists [SPlan; SBegin rq_a; SDisconnect; SQuit; SFailAll; SRegister 0], 0. cbv zeta.
  split; [right; right; right; right; now left|]. split; [now left|]. apply (stranded_forever 0).
  split; [|split; [exists (bs "a"); now left|repeat split; reflexivity]].
  exact (proj1 (tinv_reachable 0 30000 1048576 [SPlan; SBegin rq_a; SDisconnect; SQuit; SFailAll; SRegister 0])).
Qed.
