From Coq Require Import Ascii String List Permutation Arith NArith ZArith Bool Lia.
From Verif Require Import StrModel StrProofs DoubleModel JsonModel JsonSpec JsonProofs ObjSpec ObjProofs MapModel MapProofs RpcModel TaskModel TaskSpec TaskProofs DescModel DescSpec DescProofs RegModel RegSpec RegProofs ValModel ValSpec ValProofs ReadModel SubModel LogModel ErrModel ErrSpec ErrProofs CancelModel ServModel ServSpec ServProofs CallProofs CallTaskProofs PeerModel PeerSpec.
Import ListNotations.
Local Open Scope nat_scope.

(** One case per method. *)
Inductive peer_case (a : app) (mid : bool) (q : request) (c : client) (d : done) (c' : client) : Prop :=
| pc_plain x : d = respond (rq_id q) x -> c' = c -> peer_case a mid q c d c'
| pc_result : rq_method q = bs "tasks/result" -> d = peer_task_result (rq_id q) (rq_params q) c -> c' = c -> peer_case a mid q c d c'
| pc_cancel : rq_method q = bs "tasks/cancel" -> d = respond (rq_id q) (fst (peer_cancel_task a (rq_params q) c)) -> c' = snd (peer_cancel_task a (rq_params q) c) -> peer_case a mid q c d c'
| pc_elicit : rq_method q = bs "elicitation/create" -> d = respond (rq_id q) (fst (handle_elicit a (rq_params q) c)) -> c' = snd (handle_elicit a (rq_params q) c) -> peer_case a mid q c d c'
| pc_create : rq_method q = bs "sampling/createMessage" -> d = respond (rq_id q) (fst (handle_create a mid (rq_params q) c)) -> c' = snd (handle_create a mid (rq_params q) c) -> peer_case a mid q c d c'.

Lemma peer_cases : forall a mid q c d c', peer_dispatch a mid q c = (d, c') -> peer_case a mid q c d c'.
Proof.
  intros a mid q c d c'. unfold peer_dispatch.
  repeat match goal with |- (if beq (rq_method q) ?m then _ else _) = _ -> _ =>
    let E := fresh "E" in destruct (beq (rq_method q) m) eqn:E; [apply beq_eq in E|] end;
  intros K; apply pair_equal_spec in K as [<- <-];
  solve [now eapply pc_plain | now apply pc_result | now apply pc_cancel | now apply pc_elicit | now apply pc_create].
Qed.

Lemma peer_finish_answers : forall q strict k t p r, peer_finish (rq_id q) strict k t p = Reply r -> answers q r.
Proof.
  intros q strict k t p r H. unfold peer_finish in H. destruct p as [[[] v]|].
  - injection H as <-. split; [reflexivity|]. right. cbn. easy.
  - revert H. set (b := (strict && negb _)%bool). destruct b; apply respond_answers.
  - now apply respond_answers in H.
Qed.
Lemma peer_finish_waits : forall i strict k t p x, peer_finish i strict k t p <> Waits x.
Proof.
  intros i strict k t p x. unfold peer_finish. destruct p as [[[] v]|]; [discriminate| |apply respond_waits].
  set (b := (strict && negb _)%bool). destruct b; apply respond_waits.
Qed.

Lemma peer_answers : forall a mid q c r c', peer_dispatch a mid q c = (Reply r, c') -> answers q r.
Proof.
  intros a mid q c r c' H. apply peer_cases in H as [x E _|_ E _|_ E _|_ E _|_ E _]; try (symmetry in E; now apply respond_answers in E).
  unfold peer_task_result in E. destruct (negb (can_task c)); [symmetry in E; now apply respond_answers in E|].
  destruct (parse_task_id (rq_params q)) as [[] i]; [|symmetry in E; now apply respond_answers in E].
  destruct (aget i _) as [t|]; [destruct (tr_payload t); [|discriminate]|]; symmetry in E; now apply peer_finish_answers in E.
Qed.

Lemma peer_waits : forall a mid q c t c', peer_dispatch a mid q c = (Waits t, c') ->
  c' = c /\ rq_method q = bs "tasks/result" /\ unfinished t (cl_tasks c).
Proof.
  intros a mid q c t c' H. apply peer_cases in H as [x E _|M E C|_ E _|_ E _|_ E _]; try (symmetry in E; now apply respond_waits in E).
  split; [exact C|]. split; [exact M|]. unfold peer_task_result in E. destruct (negb (can_task c)); [symmetry in E; now apply respond_waits in E|].
  destruct (parse_task_id (rq_params q)) as [[] i]; [|symmetry in E; now apply respond_waits in E].
  destruct (aget i (ts_recs (cl_tasks c))) as [y|] eqn:G; [|symmetry in E; now apply peer_finish_waits in E].
  destruct (tr_payload y) eqn:P; [symmetry in E; now apply peer_finish_waits in E|]. injection E as ->.
  unfold unfinished, ts_get, TaskSpec.outcome. rewrite G, P. now split.
Qed.

Lemma peer_unknown : forall a mid q c, ~ In (rq_method q) peer_methods ->
  exists r, peer_dispatch a mid q c = (Reply r, c) /\ fails r METHOD_NOT_FOUND (bs "Method not found").
Proof.
  intros a mid q c H. destruct (respond_fails (rq_id q) METHOD_NOT_FOUND (bs "Method not found")) as (r & R & F). exists r. split; [|exact F].
  unfold peer_dispatch. rewrite <- R. unfold peer_methods in H. cbn [In] in H.
  repeat match goal with |- context [if beq (rq_method q) ?m then _ else _] =>
    let E := fresh "E" in destruct (beq (rq_method q) m) eqn:E; [apply beq_eq in E; exfalso; apply H; rewrite E; tauto|] end. reflexivity.
Qed.

(** The methods one by one. *)
Ltac one_method H := unfold peer_dispatch; rewrite H; methods; reflexivity.
Lemma peer_ping : forall a mid q c, rq_method q = bs "ping" -> peer_dispatch a mid q c = (respond (rq_id q) (AResult (JObj [])), c).
Proof. intros a mid q c H. one_method H. Qed.
Lemma peer_roots : forall a mid q c, rq_method q = bs "roots/list" -> peer_dispatch a mid q c = (respond (rq_id q) (handle_roots a c), c).
Proof. intros a mid q c H. one_method H. Qed.
Lemma peer_get : forall a mid q c, rq_method q = bs "tasks/get" -> peer_dispatch a mid q c = (respond (rq_id q) (peer_get_task (rq_params q) c), c).
Proof. intros a mid q c H. one_method H. Qed.
Lemma peer_list : forall a mid q c, rq_method q = bs "tasks/list" -> peer_dispatch a mid q c = (respond (rq_id q) (peer_list_tasks (rq_params q) c), c).
Proof. intros a mid q c H. one_method H. Qed.
Lemma peer_result : forall a mid q c, rq_method q = bs "tasks/result" -> peer_dispatch a mid q c = (peer_task_result (rq_id q) (rq_params q) c, c).
Proof. intros a mid q c H. one_method H. Qed.
Lemma peer_cancel : forall a mid q c, rq_method q = bs "tasks/cancel" ->
  peer_dispatch a mid q c = (respond (rq_id q) (fst (peer_cancel_task a (rq_params q) c)), snd (peer_cancel_task a (rq_params q) c)).
Proof. intros a mid q c H. one_method H. Qed.
Lemma peer_elicit : forall a mid q c, rq_method q = bs "elicitation/create" ->
  peer_dispatch a mid q c = (respond (rq_id q) (fst (handle_elicit a (rq_params q) c)), snd (handle_elicit a (rq_params q) c)).
Proof. intros a mid q c H. one_method H. Qed.
Lemma peer_create : forall a mid q c, rq_method q = bs "sampling/createMessage" ->
  peer_dispatch a mid q c = (respond (rq_id q) (fst (handle_create a mid (rq_params q) c)), snd (handle_create a mid (rq_params q) c)).
Proof. intros a mid q c H. one_method H. Qed.

Lemma answered : forall i x c, exists r, (respond i x, c) = (Reply r, c : client) /\ respond i x = Reply r.
Proof. intros i [e m|v] c; eexists; split; reflexivity. Qed.

(** Roots. *)
Lemma root_valid : forall l, valid_roots (roots_json l) = true.
Proof.
  intros l. unfold valid_roots, roots_json, arr_field. objs. apply forallb_forall. intros v I. apply in_map_iff in I as (r & <- & _).
  unfold of_obj, root_json, root_shape, str_field, opt_str, opt_field. objs. destruct r as [u [n|] [m|]]; reflexivity.
Qed.

Lemma root_back : forall r v, same (root_json r) v ->
  root_shape (match v with JObj o => o | _ => [] end) = true /\ is_obj v = true /\
  Forall2 same_root (filter has_uri [r]) (read_root v).
Proof.
  intros r v H. unfold root_json in H. set (o := opt_set _ _ _ _) in H.
  assert (NoDup (map fst o)) as N by (unfold o; nodups).
  assert (exists o', v = JObj o') as [o' ->] by (apply same_obj_inv in H as (? & ? & -> & _); eauto).
  assert (obj_get (bs "uri") o' = Some (JStr (ro_uri r))) as G1.
  { apply (same_get_str _ _ _ _ N H). unfold o. objs. destruct r as [u [n|] [m|]]; reflexivity. }
  assert (get_str (bs "name") o' = ro_name r) as G2.
  { rewrite (get_str_same _ _ _ N H). unfold get_str, o. objs. destruct r as [u [n|] [m|]]; reflexivity. }
  assert (obj_get (bs "name") o' = option_map JStr (ro_name r)) as G3.
  { clear - N H. subst o. destruct r as [u [n|] [m|]]; cbn [ro_name ro_uri ro_meta option_map] in *;
      [apply (same_get_str _ _ _ _ N H)|apply (same_get_str _ _ _ _ N H)|apply (same_get_none _ _ _ N H)|apply (same_get_none _ _ _ N H)]; reflexivity. }
  assert (same_opt (ro_meta r) (obj_get (bs "_meta") o')) as G4.
  { pose proof (same_opt_get (bs "_meta") _ _ N H) as K.
    assert (obj_get (bs "_meta") o = ro_meta r) as E by (unfold o; objs; destruct r as [u [n|] [m|]]; reflexivity). now rewrite E in K. }
  split; [|split; [reflexivity|]].
  - unfold root_shape, str_field, opt_str, opt_field. rewrite G1, G3. destruct (ro_name r); reflexivity.
  - unfold read_root, has_uri. cbn [filter]. unfold get_str at 1. rewrite G1. cbn [or_empty].
    destruct (ro_uri r) as [|x u] eqn:U; [constructor|]. constructor; [|constructor]. split; [now rewrite U|]. split; [exact G2|exact G4].
Qed.

Lemma roots_back : forall strict l r', (exists v, rs_result r' = Some v /\ same (roots_json l) v) -> rs_error r' = None ->
  exists l', roots_reply strict r' = Ret l' /\ Forall2 same_root (filter has_uri l) l'.
Proof.
  intros strict l r' (v & R & S) E. unfold roots_reply. rewrite E, R. unfold roots_json in S. set (o := obj_set _ _ _) in S.
  assert (NoDup (map fst o)) as N by (unfold o; nodups).
  assert (exists o', v = JObj o') as [o' ->] by (apply same_obj_inv in S as (? & ? & -> & _); eauto).
  destruct (same_get_some (bs "roots") _ _ (JArr (map root_json l)) N S) as (y & G & Sy); [unfold o; objs; reflexivity|].
  inversion Sy as [| | | | |x l' F X Y|]; subst.
  assert (forallb (of_obj root_shape) l' = true /\ Forall2 same_root (filter has_uri l) (flat_map read_root l')) as [V K].
  { clear -F. revert l' F. induction l as [|r l IH]; intros l' F; inversion F as [|x y z l1 S1 F1 X Y]; subst; [split; [reflexivity|constructor]|].
    destruct (IH _ F1) as [V K]. apply root_back in S1 as (A & B & C). cbn [forallb flat_map]. split.
    - rewrite V, andb_true_r. unfold of_obj. destruct y; try discriminate. exact A.
    - cbn [filter] in C |- *. destruct (has_uri r); [|inversion C; subst; exact K]. inversion C as [|? ? ? ? C1 C2]; subst. inversion C2; subst. now constructor. }
  exists (flat_map read_root l'). unfold valid_roots, arr_field. rewrite G, V. cbn [negb]. rewrite andb_false_r. now split.
Qed.

Lemma delivered_result : forall r r' v, succeeds r v -> delivered r r' -> (exists v', rs_result r' = Some v' /\ same v v') /\ rs_error r' = None.
Proof.
  intros r r' v [R E] (_ & D1 & D2). rewrite R in D1. rewrite E in D2. apply same_opt_none in D2. split; [|exact D2].
  inversion D1 as [|x y H X Y]; subst x. now exists y.
Qed.
Lemma delivered_error : forall r r' c m, fails r c m -> delivered r r' -> rs_result r' = None /\ exists e, rs_error r' = Some e /\ error_message e = m.
Proof.
  intros r r' c m (R & o & E & N & _ & M) (_ & D1 & D2). rewrite R in D1. rewrite E in D2. apply same_opt_none in D1. split; [exact D1|].
  inversion D2 as [|x y H X Y]; subst x. exists y. split; [reflexivity|].
  destruct (same_obj_inv _ _ H) as (o1 & o' & -> & _). unfold error_message, get_str. now rewrite (same_get_str _ _ _ _ N H M).
Qed.

Lemma roots_round : forall a mid q c l strict peer, ap_roots a = Some (Ret l) -> carried (request_roots strict peer) q ->
  exists r, peer_dispatch a mid q c = (Reply r, c) /\
    forall r', delivered r r' -> exists l', returns (request_roots strict peer) r' (Ret l') /\ Forall2 same_root (filter has_uri l) l'.
Proof.
  intros a mid q c l strict peer A (m & p & read & K & M & P). unfold request_roots in *. destruct (cc_roots peer); [|discriminate]. injection K as <- <- <-.
  rewrite (peer_roots _ _ _ _ M). unfold handle_roots. rewrite A, root_valid. cbn [negb]. rewrite andb_false_r.
  destruct (respond_result (rq_id q) (roots_json l)) as (r & R & S). exists r. rewrite R. split; [reflexivity|]. intros r' D.
  destruct (delivered_result _ _ _ S D) as [V E]. destruct (roots_back strict l r' V E) as (l' & L & F). exists l'. split; [|exact F].
  exists (bs "roots/list"), None, (roots_reply strict). now split.
Qed.

Lemma roots_threw : forall a mid q c x strict peer, (ap_roots a = Some (Threw x) \/ ap_roots a = None) -> carried (request_roots strict peer) q ->
  exists r m n, peer_dispatch a mid q c = (Reply r, c) /\ fails r n m /\
    (ap_roots a = Some (Threw x) -> n = INTERNAL /\ m = x) /\ (ap_roots a = None -> n = METHOD_NOT_ALLOWED) /\
    forall r', delivered r r' -> returns (request_roots strict peer) r' (Ret []).
Proof.
  intros a mid q c x strict peer A (m & p & read & K & M & P). unfold request_roots in *. destruct (cc_roots peer); [|discriminate]. injection K as <- <- <-.
  rewrite (peer_roots _ _ _ _ M). unfold handle_roots.
  assert (forall n m, exists r, respond (rq_id q) (AError n m) = Reply r /\ fails r n m /\
    (forall r', delivered r r' -> returns (Sends (bs "roots/list") None (roots_reply strict)) r' (Ret []))) as G.
  { intros n m. destruct (respond_fails (rq_id q) n m) as (r & R & F). exists r. split; [exact R|]. split; [exact F|]. intros r' D.
    destruct (delivered_error _ _ _ _ F D) as (E1 & e & E2 & _). exists (bs "roots/list"), None, (roots_reply strict). split; [reflexivity|].
    unfold roots_reply. now rewrite E2. }
  destruct A as [A|A]; rewrite A.
  - destruct (G INTERNAL x) as (r & R & F & D). exists r, x, INTERNAL. rewrite R. repeat (split; [easy|]). exact D.
  - destruct (G METHOD_NOT_ALLOWED (bs "No roots/list handler registered")) as (r & R & F & D).
    exists r, (bs "No roots/list handler registered"), METHOD_NOT_ALLOWED. rewrite R. split; [reflexivity|]. split; [exact F|].
    split; [intros H; discriminate H|]. split; [easy|]. exact D.
Qed.

(** Elicitation. *)
Lemma same_field : forall k o o' x, NoDup (map fst o) -> same (JObj o) (JObj o') -> obj_get k o = match x with Some s => Some (JStr s) | None => None end ->
  obj_get k o' = match x with Some s => Some (JStr s) | None => None end.
Proof. intros k o o' x N H E. pose proof (same_opt_get k _ _ N H) as K. rewrite E in K. now apply same_opt_str in K. Qed.

Lemma field_str : forall k o x, obj_get k o = match x with Some s => Some (JStr s) | None => None end -> get_str k o = x /\ opt_str o k = true.
Proof. intros k o [x|] E; unfold get_str, opt_str, opt_field; rewrite E; now split. Qed.

Lemma idopt : forall (v : option json), match v with Some x => Some x | None => None end = v.
Proof. now intros []. Qed.

Lemma elicit_received : forall e ttl p, same (elicit_params e ttl) p ->
  valid_elicitation_request p = true /\ same_elicit e (read_elicit p) /\
  parse_metadata (Some p) None = match ttl with Some t => (true, t) | None => (false, None) end.
Proof.
  intros e ttl p H. unfold elicit_params, elicit_obj in H. set (o := opt_set (bs "task") _ _ _) in H.
  assert (NoDup (map fst o)) as N by (unfold o; nodups).
  assert (exists o', p = JObj o') as [o' ->] by (apply same_obj_inv in H as (? & ? & -> & _); eauto).
  assert (obj_get (bs "message") o' = Some (JStr (el_message e))) as G1 by (apply (same_get_str _ _ _ _ N H); unfold o; objs; reflexivity).
  destruct (same_get_some (bs "requestedSchema") _ _ (el_schema e) N H) as (s' & G2 & S2); [unfold o; objs; reflexivity|].
  assert (forall k x, obj_get k o = match x with Some s => Some (JStr s) | None => None end -> get_str k o' = x /\ opt_str o' k = true) as K
    by (intros k x E; apply field_str; now apply (same_field k o)).
  destruct (K (bs "title") (el_title e)) as [T1 T2]; [unfold o; objs; reflexivity|].
  destruct (K (bs "mode") (el_mode e)) as [M1 M2]; [unfold o; objs; reflexivity|].
  destruct (K (bs "url") (el_url e)) as [U1 U2]; [unfold o; objs; reflexivity|].
  destruct (K (bs "elicitationId") (el_id e)) as [I1 I2]; [unfold o; objs; reflexivity|].
  assert (same_opt (el_meta e) (obj_get (bs "metadata") o')) as G3.
  { pose proof (same_opt_get (bs "metadata") _ _ N H) as X.
    assert (obj_get (bs "metadata") o = el_meta e) as E by (unfold o; objs; apply idopt). now rewrite E in X. }
  split; [|split].
  - unfold valid_elicitation_request, str_field. now rewrite G1, G2, T2, M2, U2, I2.
  - unfold read_elicit, same_elicit. cbn [el_message el_schema el_title el_mode el_url el_id el_meta].
    rewrite T1, M1, U1, I1, G2. unfold get_str. rewrite G1. now repeat (split; [easy|]).
  - destruct ttl as [t|].
    + rewrite (parse_metadata_json t o (JObj o') None N); [now destruct t|unfold o; objs; reflexivity|exact H].
    + assert (obj_get (bs "task") o' = None) as G by (apply (same_get_none _ _ _ N H); unfold o; objs; reflexivity).
      unfold parse_metadata. now rewrite G.
Qed.

Lemma elicit_params_valid : forall e ttl, valid_elicitation_request (elicit_params e ttl) = true.
Proof. intros e ttl. exact (proj1 (elicit_received e ttl _ (same_refl _))). Qed.

Lemma proper_iff : forall a, (beq a (bs "accept") || beq a (bs "decline") || beq a (bs "cancel"))%bool = true <-> In a [bs "accept"; bs "decline"; bs "cancel"].
Proof.
  intros a. cbn [In]. split.
  - intros H. apply orb_true_iff in H as [H|H]; [apply orb_true_iff in H as [H|H]|]; apply beq_eq in H; subst; auto.
  - intros [H|[H|[H|[]]]]; subst; reflexivity.
Qed.

Lemma elicited_valid : forall r, valid_elicitation_result (elicited_json r) = true <-> proper r.
Proof.
  intros r. unfold valid_elicitation_result, elicited_json, opt_str, opt_field. objs. unfold proper. rewrite <- proper_iff.
  destruct (ed_id r); cbn [is_str]; now rewrite andb_true_r.
Qed.

Lemma elicited_back : forall r v, same (elicited_json r) v -> same_elicited r (read_elicited v) /\ (proper r <-> valid_elicitation_result v = true).
Proof.
  intros r v H. unfold elicited_json in H. set (o := opt_set _ _ _ _) in H.
  assert (NoDup (map fst o)) as N by (unfold o; nodups).
  assert (exists o', v = JObj o') as [o' ->] by (apply same_obj_inv in H as (? & ? & -> & _); eauto).
  assert (obj_get (bs "action") o' = Some (JStr (ed_action r))) as G1 by (apply (same_get_str _ _ _ _ N H); unfold o; objs; reflexivity).
  destruct (field_str (bs "elicitationId") o' (ed_id r)) as [I1 I2]; [apply (same_field _ o _ _ N H); unfold o; objs; reflexivity|].
  assert (same_opt (ed_content r) (obj_get (bs "content") o')) as G3.
  { pose proof (same_opt_get (bs "content") _ _ N H) as X.
    assert (obj_get (bs "content") o = ed_content r) as E by (unfold o; objs; apply idopt). now rewrite E in X. }
  split.
  - unfold same_elicited, read_elicited. cbn [ed_action ed_content ed_id]. rewrite I1. unfold get_str. rewrite G1. now repeat (split; [easy|]).
  - unfold valid_elicitation_result. rewrite G1, I2, andb_true_r. symmetry. apply proper_iff.
Qed.

Lemma elicit_carried : forall strict peer e q, carried (request_elicit strict peer e) q ->
  request_elicit strict peer e = Sends (bs "elicitation/create") (Some (elicit_params e None)) (elicit_reply strict) /\
  rq_method q = bs "elicitation/create" /\ exists p, rq_params q = Some p /\ same (elicit_params e None) p.
Proof.
  intros strict peer e q (m & p & read & K & M & P). unfold request_elicit in *. destruct (cc_elicit peer); [|discriminate].
  rewrite elicit_params_valid in *. cbn [negb] in *. rewrite andb_false_r in *. injection K as <- <- <-. split; [reflexivity|]. split; [exact M|].
  now apply same_opt_some in P.
Qed.

Lemma elicit_round : forall a mid q c f e strict peer, ap_elicit a = Some f -> carried (request_elicit strict peer e) q ->
  exists e', same_elicit e e' /\
    (forall r, f e' = Ret r -> (cl_strict c = true \/ strict = true -> proper r) ->
       exists x, peer_dispatch a mid q c = (Reply x, c) /\
         forall x', delivered x x' -> exists r', returns (request_elicit strict peer e) x' (Ret r') /\ same_elicited r r') /\
    (forall what, f e' = Threw what ->
       exists x, peer_dispatch a mid q c = (Reply x, c) /\ fails x INTERNAL what /\
         forall x', delivered x x' -> returns (request_elicit strict peer e) x' (Ret elicited0)) /\
    (forall r, f e' = Ret r -> cl_strict c = true -> ~ proper r ->
       exists x, peer_dispatch a mid q c = (Reply x, c) /\ fails x INTERNAL (bs "Invalid elicitation result shape") /\
         forall x', delivered x x' -> returns (request_elicit strict peer e) x' (Ret elicited0)).
Proof.
  intros a mid q c f e strict peer A K. apply elicit_carried in K as (K & M & p & P & S).
  destruct (elicit_received _ _ _ S) as (V & E & D). exists (read_elicit p). split; [exact E|].
  assert (peer_dispatch a mid q c = (respond (rq_id q) (match f (read_elicit p) with
           | Threw what => AError INTERNAL what
           | Ret r => strict_shape (cl_strict c) valid_elicitation_result (bs "Invalid elicitation result shape") (elicited_json r)
           end), c)) as Q.
  { rewrite (peer_elicit _ _ _ _ M). unfold handle_elicit. rewrite A, P, V. cbn [negb]. rewrite andb_false_r, D. reflexivity. }
  assert (forall m, exists x, respond (rq_id q) (AError INTERNAL m) = Reply x /\ fails x INTERNAL m /\
         forall x', delivered x x' -> returns (request_elicit strict peer e) x' (Ret elicited0)) as B.
  { intros m. destruct (respond_fails (rq_id q) INTERNAL m) as (x & R & F). exists x. split; [exact R|]. split; [exact F|]. intros x' X.
    destruct (delivered_error _ _ _ _ F X) as (_ & y & Y & _). exists (bs "elicitation/create"), (Some (elicit_params e None)), (elicit_reply strict).
    split; [exact K|]. unfold elicit_reply. now rewrite Y. }
  rewrite Q. split; [|split].
  - intros r R G. rewrite R. unfold strict_shape.
    assert (cl_strict c && negb (valid_elicitation_result (elicited_json r)) = false)%bool as ->.
    { destruct (cl_strict c); [|reflexivity]. cbn [andb]. rewrite (proj2 (elicited_valid r)); [reflexivity|]. apply G. now left. }
    destruct (respond_result (rq_id q) (elicited_json r)) as (x & X & Y). exists x. rewrite X. split; [reflexivity|]. intros x' Z.
    destruct (delivered_result _ _ _ Y Z) as [(v & W1 & W2) W3]. destruct (elicited_back r v W2) as [T1 T2].
    exists (read_elicited v). split; [|exact T1]. exists (bs "elicitation/create"), (Some (elicit_params e None)), (elicit_reply strict). split; [exact K|].
    unfold elicit_reply. rewrite W3, W1. destruct strict; [|reflexivity]. cbn [andb]. rewrite (proj1 T2); [reflexivity|]. apply G. now right.
  - intros what R. rewrite R. destruct (B what) as (x & X & F & G). exists x. rewrite X. now split.
  - intros r R T G. rewrite R, T. unfold strict_shape.
    destruct (valid_elicitation_result (elicited_json r)) eqn:Y; [exfalso; now apply G, elicited_valid|]. cbn [andb negb].
    destruct (B (bs "Invalid elicitation result shape")) as (x & X & F & Z). exists x. rewrite X. now split.
Qed.

(** Sampling. *)
Lemma param_same : forall k o o', NoDup (map fst o) -> same (JObj o) (JObj o') -> same (or_null (obj_get k o)) (param_or_null k (Some (JObj o'))).
Proof.
  intros k o o' N H. pose proof (same_opt_get k _ _ N H) as K. unfold param_or_null, or_null.
  inversion K as [X Y|v v' S X Y]; [constructor|exact S].
Qed.

Lemma same_or_null_str : forall x v, same (or_null (option_map JStr x)) v -> v = or_null (option_map JStr x).
Proof. intros [x|] v H; now inversion H. Qed.

Lemma message_received : forall s ttl p, same (message_params s ttl) p ->
  given s (param_or_null (bs "messages") (Some p)) (param_or_null (bs "modelPreferences") (Some p))
    (param_or_null (bs "systemPrompt") (Some p)) (param_or_null (bs "includeContext") (Some p)) /\
  parse_metadata (Some p) None = match ttl with Some t => (true, t) | None => (false, None) end.
Proof.
  intros s ttl p H. unfold message_params, message_obj in H. set (o := opt_set (bs "task") _ _ _) in H.
  assert (NoDup (map fst o)) as N by (unfold o; nodups).
  assert (exists o', p = JObj o') as [o' ->] by (apply same_obj_inv in H as (? & ? & -> & _); eauto).
  assert (forall k x, obj_get k o = x -> same (or_null x) (param_or_null k (Some (JObj o')))) as K by (intros k x <-; now apply param_same).
  split.
  - unfold given. split; [|split; [|split]].
    + apply (K _ (Some (JArr (sm_messages s)))). unfold o. objs. reflexivity.
    + apply K. unfold o. objs. apply idopt.
    + apply same_or_null_str. apply K. unfold o. objs. now destruct (sm_system s).
    + apply same_or_null_str. apply K. unfold o. objs. now destruct (sm_context s).
  - destruct ttl as [t|].
    + rewrite (parse_metadata_json t o (JObj o') None N); [now destruct t|unfold o; objs; reflexivity|exact H].
    + assert (obj_get (bs "task") o' = None) as G by (apply (same_get_none _ _ _ N H); unfold o; objs; reflexivity).
      unfold parse_metadata. now rewrite G.
Qed.

Lemma sample_dispatch : forall a mid q c f s, the_sampler a = Some f -> carried (request_message s) q -> params_ok c q ->
  exists m p y x, given s m p y x /\ peer_dispatch a mid q c = (respond (rq_id q) (match f m p y x with
           | Threw what => AError INTERNAL what
           | Ret v =>
               if mid then AError INTERNAL (bs "Cancelled")
               else strict_shape (cl_strict c) valid_create_result (bs "Invalid sampling result shape") v
           end), c).
Proof.
  intros a mid q c f s A (m & p & read & K & M & P) V. injection K as <- <- <-. apply same_opt_some in P as (v & P & S).
  destruct (message_received _ _ _ S) as [G D]. eexists _, _, _, _. split; [exact G|].
  rewrite (peer_create _ _ _ _ M). unfold handle_create. rewrite P, D, A.
  assert (cl_strict c && negb (valid_create_params v) = false)%bool as ->.
  { destruct (cl_strict c) eqn:T; [|reflexivity]. specialize (V T). rewrite P in V. apply create_params_iff in V. cbn [or_null] in V. now rewrite V. }
  reflexivity.
Qed.

Lemma message_returns : forall s r x, x = value_or_error r -> returns (request_message s) r (Ret x).
Proof. intros s r x ->. eexists _, _, _. split; reflexivity. Qed.

Lemma sample_round : forall a q c f s, the_sampler a = Some f -> carried (request_message s) q -> params_ok c q ->
  exists m p y x, given s m p y x /\
    (forall v, f m p y x = Ret v -> (cl_strict c = true -> CreateMessageResult v) ->
       exists r, peer_dispatch a false q c = (Reply r, c) /\
         forall r', delivered r r' -> exists v', returns (request_message s) r' (Ret v') /\ same v v') /\
    (forall what, f m p y x = Threw what ->
       exists r, peer_dispatch a false q c = (Reply r, c) /\ fails r INTERNAL what /\
         forall r', delivered r r' -> exists v' e, returns (request_message s) r' (Ret v') /\ read_error v' = Some e /\ er_code e = INTERNAL /\ er_message e = what).
Proof.
  intros a q c f s A K V. destruct (sample_dispatch a false q c f s A K V) as (m & p & y & x & G & D). exists m, p, y, x. split; [exact G|]. split.
  - intros v F R. rewrite D, F. unfold strict_shape.
    assert (cl_strict c && negb (valid_create_result v) = false)%bool as ->.
    { destruct (cl_strict c); [|reflexivity]. specialize (R eq_refl). apply create_result_iff in R. now rewrite R. }
    destruct (respond_result (rq_id q) v) as (r & X & Y). exists r. rewrite X. split; [reflexivity|]. intros r' Z.
    exists (value_or_error r'). split; [now apply message_returns|]. exact (succeeds_read _ _ _ Y Z).
  - intros what F. rewrite D, F. destruct (respond_fails (rq_id q) INTERNAL what) as (r & X & Y). exists r. rewrite X. split; [reflexivity|]. split; [exact Y|].
    intros r' Z. destruct (fails_read _ _ _ _ Y Z) as (e & E1 & E2 & E3); [unfold int32, INTERNAL; lia|].
    exists (value_or_error r'), e. split; [now apply message_returns|]. now split.
Qed.

Lemma sample_cancelled : forall a q c f s, the_sampler a = Some f -> carried (request_message s) q -> params_ok c q ->
  exists r n, peer_dispatch a true q c = (Reply r, c) /\ (fails r INTERNAL n) /\
    ((forall m p y x what, f m p y x <> Threw what) -> n = bs "Cancelled").
Proof.
  intros a q c f s A K V. destruct (sample_dispatch a true q c f s A K V) as (m & p & y & x & G & D). rewrite D.
  destruct (f m p y x) as [v|what] eqn:F.
  - destruct (respond_fails (rq_id q) INTERNAL (bs "Cancelled")) as (r & X & Y). exists r, (bs "Cancelled"). rewrite X. now split.
  - destruct (respond_fails (rq_id q) INTERNAL what) as (r & X & Y). exists r, what. rewrite X. split; [reflexivity|]. split; [exact Y|].
    intros H. now destruct (H m p y x what).
Qed.

Lemma param_unset : forall A k k' (f : A -> json) v o, beq k k' = false -> param_or_null k (Some (JObj (opt_set k' f v o))) = param_or_null k (Some (JObj o)).
Proof. intros A k k' f v o H. unfold param_or_null. now rewrite get_opt_set, H. Qed.

Lemma sample_drops : forall a mid c i s s', sm_messages s' = sm_messages s -> sm_prefs s' = sm_prefs s -> sm_system s' = sm_system s -> sm_context s' = sm_context s ->
  peer_dispatch a mid {| rq_id := i; rq_method := bs "sampling/createMessage"; rq_params := Some (message_params s' None) |} c =
  peer_dispatch a mid {| rq_id := i; rq_method := bs "sampling/createMessage"; rq_params := Some (message_params s None) |} c.
Proof.
  intros a mid c i s s' E1 E2 E3 E4. rewrite !peer_create by reflexivity. cbn [rq_id rq_params].
  enough (handle_create a mid (Some (message_params s' None)) c = handle_create a mid (Some (message_params s None)) c) as -> by reflexivity.
  assert (forall k, beq k (bs "maxTokens") = false -> beq k (bs "temperature") = false -> beq k (bs "stopSequences") = false -> beq k (bs "metadata") = false ->
    obj_get k (message_obj s') = obj_get k (message_obj s)) as G.
  { intros k K1 K2 K3 K4. unfold message_obj. rewrite !get_opt_set, K1, K2, K3, K4, E1, E2, E3, E4. reflexivity. }
  unfold handle_create, param_or_null, parse_metadata, valid_create_params, arr_field, message_params. cbn [opt_set].
  rewrite (G (bs "messages")), (G (bs "modelPreferences")), (G (bs "systemPrompt")), (G (bs "includeContext")), (G (bs "task")) by reflexivity. reflexivity.
Qed.

(** Task-augmented requests. *)
Definition fresh_task (c : client) (now : bstr) (ttl : option Z) : task := new_task (ts_next (cl_tasks c)) now ttl.
Definition with_task (a : app) (k : task_kind) (ttl : option Z) (w : work) (c : client) : client :=
  {| cl_strict := cl_strict c; cl_caps := cl_caps c; cl_tasks := ts_create k ttl (ap_now a) (cl_tasks c);
     cl_workers := cl_workers c ++ [(tk_id (fresh_task c (ap_now a) ttl), w)]; cl_ran := cl_ran c |}.

Lemma task_arrives : forall t x, same (task_json t) x -> valid_task x = true.
Proof.
  intros t x X. unfold task_json in X. set (z := opt_set _ _ _ _) in X.
  assert (NoDup (map fst z)) as Nz by (unfold z; nodups).
  assert (exists z', x = JObj z') as [z' ->] by (apply same_obj_inv in X as (? & ? & -> & _); eauto).
  unfold valid_task, str_field, opt_str, opt_int, opt_field.
  rewrite (same_get_str (bs "taskId") _ _ (tk_id t) Nz X), (same_get_str (bs "status") _ _ (tk_status t) Nz X), (same_get_str (bs "createdAt") _ _ (tk_created t) Nz X), (same_get_str (bs "lastUpdatedAt") _ _ (tk_updated t) Nz X)
    by (unfold z; objs; reflexivity).
  rewrite (same_field (bs "statusMessage") _ _ (tk_message t) Nz X) by (unfold z; objs; reflexivity).
  assert (match obj_get (bs "pollInterval") z' with Some y => is_int y | None => true end = true) as ->.
  { pose proof (same_opt_get (bs "pollInterval") _ _ Nz X) as Y.
    assert (obj_get (bs "pollInterval") z = match tk_poll t with Some n => Some (JInt n) | None => None end) as W by (unfold z; objs; reflexivity).
    rewrite W in Y. destruct (tk_poll t) as [n|]; [apply same_opt_some in Y as (y & -> & Y)|apply same_opt_none in Y as ->; reflexivity]. now inversion Y. }
  assert (match obj_get (bs "ttl") z' with Some (JInt _) | Some JNull | None => true | _ => false end = true) as K.
  { pose proof (same_opt_get (bs "ttl") _ _ Nz X) as Y.
    assert (obj_get (bs "ttl") z = Some (match tk_ttl t with Some n => JInt n | None => JNull end)) as W by (unfold z; objs; reflexivity).
    rewrite W in Y. apply same_opt_some in Y as (y & -> & Y). destruct (tk_ttl t); now inversion Y. }
  destruct (tk_message t); cbn [is_str andb]; destruct (obj_get (bs "ttl") z') as [[]|]; try discriminate K; reflexivity.
Qed.

Lemma created_round : forall strict q t m1 m2 r r', respond (rq_id q) (AResult (created_json t None)) = Reply r -> delivered r r' ->
  expect strict valid_created parse_created m1 m2 r' = Ret (t, None).
Proof.
  intros strict q t m1 m2 r r' R D. injection R as <-.
  assert (succeeds {| rs_id := rq_id q; rs_result := Some (created_json t None); rs_error := None |} (created_json t None)) as S by now split.
  destruct (delivered_result _ _ _ S D) as [(v & V1 & V2) E]. unfold expect. rewrite E, V1.
  destruct (parse_created_json t None v V2) as [P1 P2].
  assert (valid_created v = true) as V.
  { unfold created_json in V2. cbn [opt_set] in V2. set (o := obj_set _ _ _) in V2.
    assert (NoDup (map fst o)) as N by (unfold o; nodups).
    assert (exists o', v = JObj o') as [o' ->] by (apply same_obj_inv in V2 as (? & ? & -> & _); eauto).
    destruct (same_get_some (bs "task") _ _ (task_json t) N V2) as (x & G & X); [unfold o; objs; reflexivity|].
    unfold valid_created. rewrite G. now apply (task_arrives t). }
  rewrite V. cbn [negb]. rewrite andb_false_r. f_equal. destruct (parse_created v) as [t' m']. cbn [fst snd] in *. subst t'. destruct m'; [easy|reflexivity].
Qed.

Lemma start_created : forall a k ttl w c, start_task a k ttl w c = (AResult (created_json (fresh_task c (ap_now a) ttl) None), with_task a k ttl w c).
Proof. intros a k ttl w c. unfold start_task, strict_shape. rewrite created_valid. cbn [negb]. now rewrite andb_false_r. Qed.

Lemma elicit_task_round : forall a mid q c e ttl strict peer f, ap_elicit a = Some f -> can_elicit_task c = true -> carried (request_elicit_task strict peer e ttl) q ->
  exists r e', same_elicit e e' /\ peer_dispatch a mid q c = (Reply r, with_task a KElicitation ttl (WElicit e') c) /\
    forall r', delivered r r' -> returns (request_elicit_task strict peer e ttl) r' (Ret (fresh_task c (ap_now a) ttl, None)).
Proof.
  intros a mid q c e ttl strict peer f A C (m & p & read & K & M & P). unfold request_elicit_task in *.
  destruct (match cc_tasks peer with Some (_, _, _, x) => x | None => false end); [|discriminate].
  rewrite elicit_params_valid in *. cbn [negb] in *. rewrite andb_false_r in *. injection K as <- <- <-. apply same_opt_some in P as (v & P & S).
  destruct (elicit_received _ _ _ S) as (V & E & D).
  destruct (answered (rq_id q) (AResult (created_json (fresh_task c (ap_now a) ttl) None)) c) as (r & _ & R).
  exists r, (read_elicit v). split; [exact E|]. split.
  - rewrite (peer_elicit _ _ _ _ M). unfold handle_elicit. rewrite A, P, V. cbn [negb]. rewrite andb_false_r, D, C. cbn [negb]. rewrite start_created. cbn [fst snd]. now rewrite R.
  - intros r' Z. eexists _, _, _. split; [reflexivity|]. exact (created_round _ _ _ _ _ _ _ R Z).
Qed.

Lemma sample_task_round : forall a mid q c s ttl strict peer f, the_sampler a = Some f -> can_sample_task c = true -> params_ok c q ->
  carried (request_message_task strict peer s ttl) q ->
  exists r m p y x, given s m p y x /\ peer_dispatch a mid q c = (Reply r, with_task a KCreateMessage ttl (WSample m p y x) c) /\
    forall r', delivered r r' -> returns (request_message_task strict peer s ttl) r' (Ret (fresh_task c (ap_now a) ttl, None)).
Proof.
  intros a mid q c s ttl strict peer f A C V (m & p & read & K & M & P). unfold request_message_task in *.
  destruct (match cc_tasks peer with Some (_, _, x, _) => x | None => false end); [|discriminate].
  injection K as <- <- <-. apply same_opt_some in P as (v & P & S). destruct (message_received _ _ _ S) as [G D].
  destruct (answered (rq_id q) (AResult (created_json (fresh_task c (ap_now a) ttl) None)) c) as (r & _ & R).
  eexists r, _, _, _, _. split; [exact G|]. split.
  - rewrite (peer_create _ _ _ _ M). unfold handle_create. rewrite P, D, A, C.
    assert (cl_strict c && negb (valid_create_params v) = false)%bool as ->.
    { destruct (cl_strict c) eqn:T; [|reflexivity]. specialize (V T). rewrite P in V. apply create_params_iff in V. cbn [or_null] in V. now rewrite V. }
    cbn [negb andb]. rewrite start_created. cbn [fst snd]. now rewrite R.
  - intros r' Z. eexists _, _, _. split; [reflexivity|]. exact (created_round _ _ _ _ _ _ _ R Z).
Qed.

(** Histories. *)
Lemma outcome_create : forall k ttl now s j, j <> task_name (ts_next s) -> TaskSpec.outcome j (ts_create k ttl now s) = TaskSpec.outcome j s.
Proof.
  intros k ttl now s j H. unfold TaskSpec.outcome, ts_create. cbn [ts_recs new_task tk_id]. now rewrite aget_aset_other.
Qed.
Lemma outcome_create_new : forall k ttl now s, TaskSpec.outcome (task_name (ts_next s)) (ts_create k ttl now s) = None.
Proof. intros k ttl now s. unfold TaskSpec.outcome, ts_create. cbn [ts_recs new_task tk_id]. now rewrite aget_aset_same. Qed.

Lemma outcome_set_stop : forall i j m, match aget j (set_stop i m) with Some r => match tr_payload r with Some p => Some (tr_error r, p) | None => None end | None => None end =
  match aget j m with Some r => match tr_payload r with Some p => Some (tr_error r, p) | None => None end | None => None end.
Proof.
  intros i j m. unfold set_stop. destruct (aget i m) as [r|] eqn:E; [|reflexivity]. destruct (bstr_eq_dec j i) as [-> |N].
  - rewrite aget_aset_same, E. reflexivity.
  - now rewrite aget_aset_other.
Qed.

Lemma outcome_other : forall v s j, (match v with TEmit _ | TWait _ | TWake _ => True | _ => False end) -> TaskSpec.outcome j (ts_step s v) = TaskSpec.outcome j s.
Proof.
  intros v s j H. destruct v as [k ttl now|b|n|i|n]; try easy; cbn [ts_step]; unfold TaskSpec.outcome.
  - destruct (take_nth n (ts_emit s)) as [[x rest]|]; [|reflexivity]. cbn [ts_emit_one ts_recs]. destruct (fst x); [apply outcome_set_stop|reflexivity].
  - destruct (aget i (ts_recs s)); reflexivity.
  - destruct (take_nth n (ts_waiting s)) as [[x rest]|]; [|reflexivity]. destruct (aget x (ts_recs s)) as [r|]; [|reflexivity]. destruct (tr_payload r); reflexivity.
Qed.

Lemma outcome_terminal : forall n s a, sinv n s ->
  (forall j, j <> at_id a -> TaskSpec.outcome j (snd (ts_terminal a s)) = TaskSpec.outcome j s) /\
  (In (at_id a) (ids s) -> match TaskSpec.outcome (at_id a) s with
     | Some x => TaskSpec.outcome (at_id a) (snd (ts_terminal a s)) = Some x /\ forall t, fst (ts_terminal a s) <> Won t
     | None => TaskSpec.outcome (at_id a) (snd (ts_terminal a s)) = Some (at_error a, at_payload a) /\ exists t, fst (ts_terminal a s) = Won t
     end) /\
  (~ In (at_id a) (ids s) -> TaskSpec.outcome (at_id a) (snd (ts_terminal a s)) = TaskSpec.outcome (at_id a) s /\ forall t, fst (ts_terminal a s) <> Won t).
Proof.
  intros n s a I. unfold ts_terminal, TaskSpec.outcome. destruct (aget (at_id a) (ts_recs s)) as [r|] eqn:E.
  - assert (In (at_id a) (ids s)) as J.
    { rewrite (si_ids _ _ I). apply (si_dom _ _ I). apply aget_in in E. exact (in_map fst _ _ E). }
    destruct (si_rec _ _ I _ _ (aget_in _ _ _ E)) as (t & _ & _ & W & P).
    destruct (tr_payload r) as [p|] eqn:Q; cbn [orb].
    + cbn [fst snd ts_recs]. split; [easy|]. split; [|easy]. intros _. rewrite E, Q. split; [reflexivity|discriminate].
    + destruct P as [P _]. rewrite P, W. change (is_terminal WORKING) with false. cbn [fst snd ts_recs]. split; [|split; [|easy]].
      * intros j H. now rewrite aget_aset_other.
      * intros _. rewrite aget_aset_same. split; [reflexivity|]. eexists. reflexivity.
  - cbn [fst snd ts_recs]. split; [easy|]. split.
    + intros J. exfalso. rewrite (si_ids _ _ I) in J. apply (si_dom _ _ I) in J. apply aget_none in E. easy.
    + intros _. rewrite E. split; [reflexivity|discriminate].
Qed.

Definition CANCELLED_PAYLOAD : bool * json := (true, error_object INTERNAL (bs "Cancelled") None).
Definition ran_id (x : bstr * work * attempt) : bstr := fst (fst x).

(** What a step does. *)
Inductive change (c : client) (e : pev) : client -> Prop :=
| ch_none : change c e c
| ch_start a mid q k ttl w : e = PAsk a mid q -> k = work_kind w -> change c e (with_task a k ttl w c)
| ch_cancel a mid q i : e = PAsk a mid q -> cancels_task i e ->
    change c e (cl_set_tasks (snd (ts_terminal (cancel_attempt i (snd CANCELLED_PAYLOAD) (ap_now a)) (cl_tasks c))) c)
| ch_work a n i w rest : e = PWork a n -> take_nth n (cl_workers c) = Some ((i, w), rest) ->
    change c e {| cl_strict := cl_strict c; cl_caps := cl_caps c; cl_tasks := snd (ts_terminal (peer_worker a (cl_strict c) i w) (cl_tasks c));
             cl_workers := rest; cl_ran := cl_ran c ++ [(i, w, peer_worker a (cl_strict c) i w)] |}
| ch_store v : (match v with TEmit _ | TWait _ | TWake _ => True | _ => False end) -> change c e (cl_set_tasks (ts_step (cl_tasks c) v) c).

Lemma parse_task_id_some : forall p i, parse_task_id p = (true, i) -> exists o, p = Some (JObj o) /\ obj_get (bs "taskId") o = Some (JStr i).
Proof.
  intros p i H. unfold parse_task_id in H. destruct p as [[]|]; try discriminate. unfold get_str in H.
  destruct (obj_get (bs "taskId") l) as [[]|] eqn:E; try discriminate. injection H as <-. eauto.
Qed.

Lemma step_change : forall c e, change c e (peer_step c e).
Proof.
  intros c e. destruct e as [a mid q|a n|n|i|n]; cbn [peer_step].
  - destruct (peer_dispatch a mid q c) as [d c'] eqn:E. cbn [snd]. apply peer_cases in E as [x _ ->|_ _ ->|M _ ->|M _ ->|M _ ->]; try constructor.
    + unfold peer_cancel_task. destruct (negb (can_cancel c)); [constructor|]. destruct (parse_task_id (rq_params q)) as [[] i] eqn:P; [|constructor].
      apply parse_task_id_some in P as (o & P1 & P2).
      pose proof (ch_cancel c (PAsk a mid q) a mid q i eq_refl) as K.
      assert (cancels_task i (PAsk a mid q)) as C by (exists a, mid, q, o; now repeat split). specialize (K C). cbn [CANCELLED_PAYLOAD snd] in K.
      destruct (ts_terminal _ (cl_tasks c)) as [[] ts]; exact K.
    + unfold handle_elicit. destruct (ap_elicit a); [|constructor]. set (v := match rq_params q with Some v => v | None => _ end).
      destruct (cl_strict c && _)%bool; [constructor|]. destruct (parse_metadata (rq_params q) None) as [[] ttl]; [|constructor].
      destruct (negb (can_elicit_task c)); [constructor|]. rewrite start_created. cbn [snd]. now apply (ch_start c _ a mid q).
    + unfold handle_create. set (b := (cl_strict c && _)%bool). destruct (parse_metadata (rq_params q) None) as [[] ttl]; cbn [andb].
      * destruct (negb (can_sample_task c)); [constructor|]. destruct (the_sampler a); [|constructor]. destruct b; [constructor|].
        rewrite start_created. cbn [snd]. now apply (ch_start c _ a mid q).
      * destruct (the_sampler a); [|constructor]. destruct b; constructor.
  - destruct (take_nth n (cl_workers c)) as [[[i w] rest]|] eqn:E; [|constructor]. now apply (ch_work c _ a n).
  - now apply ch_store.
  - now apply ch_store.
  - now apply ch_store.
Qed.

Record pinv (strict : bool) (caps : ccaps) (h : list pev) (vs : list tev) (c : client) : Prop := {
  pi_strict : cl_strict c = strict;
  pi_caps : cl_caps c = caps;
  pi_tasks : cl_tasks c = ts_run tstore0 vs;
  pi_count : creations vs <= requests_in h;
  pi_ids : Permutation (map fst (cl_workers c) ++ map ran_id (cl_ran c)) (ids (cl_tasks c));
  pi_kind : forall i w, In (i, w) (cl_workers c ++ map fst (cl_ran c)) -> exists t, In (t, work_kind w) (ts_created (cl_tasks c)) /\ tk_id t = i;
  pi_won : forall i x, TaskSpec.outcome i (cl_tasks c) = Some x ->
     (exists w t, In (i, w, t) (cl_ran c) /\ x = (at_error t, at_payload t)) \/ (x = CANCELLED_PAYLOAD /\ exists e, In e h /\ cancels_task i e);
  pi_ran : forall i w t, In (i, w, t) (cl_ran c) -> TaskSpec.outcome i (cl_tasks c) <> None;
  pi_work : forall i w t, In (i, w, t) (cl_ran c) -> exists a, t = peer_worker a strict i w
}.

Lemma creations_one : forall vs v, creations (vs ++ [v]) <= S (creations vs).
Proof. intros vs v. rewrite creations_snoc. destruct v; lia. Qed.
Lemma creations_none : forall vs v, (match v with TCreate _ _ _ => False | _ => True end) -> creations (vs ++ [v]) = creations vs.
Proof. intros vs v H. rewrite creations_snoc. destruct v; try easy; lia. Qed.
Lemma requests_snoc : forall h e, requests_in (h ++ [e]) = requests_in h + match e with PAsk _ _ _ => 1 | _ => 0 end.
Proof. intros h e. unfold requests_in. rewrite filter_app, app_length. destruct e; reflexivity. Qed.

Lemma worker_id : forall a strict i w, at_id (peer_worker a strict i w) = i.
Proof.
  intros a strict i [e|m p s x]; cbn [peer_worker].
  - destruct (match ap_elicit a with Some f => f e | None => _ end); [|reflexivity]. unfold worker_value. destruct (_ && _)%bool; reflexivity.
  - destruct (match the_sampler a with Some f => f m p s x | None => _ end); [|reflexivity]. unfold worker_value. destruct (_ && _)%bool; reflexivity.
Qed.

Lemma terminal_created : forall a s, ts_created (snd (ts_terminal a s)) = ts_created s.
Proof. intros a s. unfold ts_terminal. destruct (aget _ _) as [r|]; [destruct (_ || _)%bool|]; reflexivity. Qed.
Lemma other_created : forall v s, (match v with TEmit _ | TWait _ | TWake _ => True | _ => False end) -> ts_created (ts_step s v) = ts_created s.
Proof.
  intros v s H. destruct v as [k ttl now|b|n|i|n]; try easy; cbn [ts_step].
  - destruct (take_nth n (ts_emit s)) as [[x rest]|]; reflexivity.
  - destruct (aget i (ts_recs s)); reflexivity.
  - destruct (take_nth n (ts_waiting s)) as [[x rest]|]; [|reflexivity]. destruct (aget x (ts_recs s)) as [r|]; [|reflexivity]. destruct (tr_payload r); reflexivity.
Qed.

Lemma pinv_run : forall strict caps h, few_requests h -> exists vs, few vs /\ pinv strict caps h vs (peer_run (client0 strict caps) h).
Proof.
  intros strict caps h. induction h as [|e h IH] using rev_ind; intros F.
  - exists []. split; [now vm_compute|]. constructor; try reflexivity; try constructor; cbn; easy.
  - assert (few_requests h) as F0 by (unfold few_requests in *; rewrite requests_snoc in F; lia).
    destruct (IH F0) as (vs & Fv & I). unfold peer_run in *. rewrite fold_left_app. cbn [fold_left]. set (c := fold_left peer_step h (client0 strict caps)) in *.
    pose proof (sinv_run _ Fv) as SI. rewrite <- (pi_tasks _ _ _ _ _ I) in SI.
    assert (forall v, creations (vs ++ [v]) <= requests_in (h ++ [e]) -> few (vs ++ [v])) as FW by (intros v L; unfold few; unfold few_requests in F; lia).
    destruct (step_change c e) as [|a mid q k ttl w -> ->|a mid q i -> C|a n i w rest -> T|v V].
    + exists vs. split; [exact Fv|]. destruct I. constructor; auto.
      * rewrite requests_snoc. lia.
      * intros i x H. destruct (pi_won0 i x H) as [K|[K1 (e' & K2 & K3)]]; [now left|]. right. split; [exact K1|]. exists e'. split; [|exact K3]. apply in_app_iff. now left.
    + assert (creations (vs ++ [TCreate (work_kind w) ttl (ap_now a)]) <= requests_in (h ++ [PAsk a mid q])) as CN.
      { rewrite requests_snoc. pose proof (creations_one vs (TCreate (work_kind w) ttl (ap_now a))). pose proof (pi_count _ _ _ _ _ I). lia. }
      exists (vs ++ [TCreate (work_kind w) ttl (ap_now a)]). split; [now apply FW|].
      assert (tk_id (fresh_task c (ap_now a) ttl) = task_name (ts_next (cl_tasks c))) as NM by reflexivity.
      assert (~ In (task_name (ts_next (cl_tasks c))) (ids (cl_tasks c))) as NI.
      { pose proof (ids_unique _ (FW _ CN)) as [ND _]. rewrite ts_run_snoc, <- (pi_tasks _ _ _ _ _ I) in ND. cbn [ts_step] in ND.
        unfold ids, ts_create in ND. cbn [ts_created] in ND. rewrite map_app in ND. apply NoDup_remove_2 in ND. rewrite app_nil_r in ND. exact ND. }
      constructor; cbn [with_task cl_strict cl_caps cl_tasks cl_workers cl_ran].
      * exact (pi_strict _ _ _ _ _ I).
      * exact (pi_caps _ _ _ _ _ I).
      * now rewrite ts_run_snoc, <- (pi_tasks _ _ _ _ _ I).
      * exact CN.
      * unfold ids. cbn [ts_create ts_created]. rewrite !map_app. cbn [map fst new_task tk_id]. rewrite NM, <- app_assoc.
        rewrite (Permutation_app_comm [_] _), app_assoc. apply Permutation_app_tail. exact (pi_ids _ _ _ _ _ I).
      * intros j y J. rewrite <- app_assoc in J. apply in_app_iff in J as [J|J]; [|cbn [Datatypes.app] in J; destruct J as [J|J]].
        -- destruct (pi_kind _ _ _ _ _ I j y) as (t & T1 & T2); [apply in_app_iff; now left|]. exists t. split; [|exact T2]. cbn. apply in_app_iff. now left.
        -- injection J as <- <-. exists (fresh_task c (ap_now a) ttl). split; [|reflexivity]. cbn. apply in_app_iff. right. now left.
        -- destruct (pi_kind _ _ _ _ _ I j y) as (t & T1 & T2); [apply in_app_iff; now right|]. exists t. split; [|exact T2]. cbn. apply in_app_iff. now left.
      * intros j x J. destruct (bstr_eq_dec j (task_name (ts_next (cl_tasks c)))) as [-> |N]; [rewrite outcome_create_new in J; discriminate|].
        rewrite outcome_create in J by exact N. destruct (pi_won _ _ _ _ _ I j x J) as [K|[K1 (e' & K2 & K3)]]; [now left|]. right. split; [exact K1|].
        exists e'. split; [|exact K3]. apply in_app_iff. now left.
      * intros j y t J. rewrite outcome_create; [exact (pi_ran _ _ _ _ _ I j y t J)|]. intros ->. apply NI.
        apply (Permutation_in _ (pi_ids _ _ _ _ _ I)). apply in_app_iff. right. exact (in_map ran_id _ _ J).
      * exact (pi_work _ _ _ _ _ I).
    + set (t := cancel_attempt i (snd CANCELLED_PAYLOAD) (ap_now a)) in *.
      assert (creations (vs ++ [TTerminal t]) <= requests_in (h ++ [PAsk a mid q])) as CN
        by (rewrite creations_none by exact Logic.I; rewrite requests_snoc; pose proof (pi_count _ _ _ _ _ I); lia).
      exists (vs ++ [TTerminal t]). split; [now apply FW|].
      destruct (outcome_terminal _ _ t SI) as (O1 & O2 & O3). change (at_id t) with i in O1, O2, O3.
      constructor; cbn [cl_set_tasks cl_strict cl_caps cl_tasks cl_workers cl_ran].
      * exact (pi_strict _ _ _ _ _ I).
      * exact (pi_caps _ _ _ _ _ I).
      * now rewrite ts_run_snoc, <- (pi_tasks _ _ _ _ _ I).
      * exact CN.
      * unfold ids. rewrite terminal_created. exact (pi_ids _ _ _ _ _ I).
      * intros j y J. rewrite terminal_created. exact (pi_kind _ _ _ _ _ I j y J).
      * intros j x J.
        assert (TaskSpec.outcome j (cl_tasks c) = Some x \/ (j = i /\ x = CANCELLED_PAYLOAD)) as [K|[-> ->]].
        { destruct (bstr_eq_dec j i) as [-> |N]; [|left; now rewrite O1 in J].
          destruct (in_dec bstr_eq_dec i (ids (cl_tasks c))) as [D|D]; [|left; now rewrite (proj1 (O3 D)) in J].
          specialize (O2 D). destruct (TaskSpec.outcome i (cl_tasks c)) as [y|]; [left; now rewrite (proj1 O2) in J|].
          right. rewrite (proj1 O2) in J. now injection J as <-. }
        -- destruct (pi_won _ _ _ _ _ I j x K) as [L|[L1 (e' & L2 & L3)]]; [now left|]. right. split; [exact L1|]. exists e'. split; [|exact L3]. apply in_app_iff. now left.
        -- right. split; [reflexivity|]. exists (PAsk a mid q). split; [apply in_app_iff; right; now left|exact C].
      * intros j y z J K. apply (pi_ran _ _ _ _ _ I j y z J). destruct (bstr_eq_dec j i) as [-> |N]; [|now rewrite O1 in K].
        destruct (in_dec bstr_eq_dec i (ids (cl_tasks c))) as [D|D]; [|now rewrite (proj1 (O3 D)) in K].
        specialize (O2 D). destruct (TaskSpec.outcome i (cl_tasks c)) as [o|]; rewrite (proj1 O2) in K; discriminate.
      * exact (pi_work _ _ _ _ _ I).
    + set (t := peer_worker a (cl_strict c) i w) in *. assert (at_id t = i) as TI by apply worker_id.
      assert (creations (vs ++ [TTerminal t]) <= requests_in (h ++ [PWork a n])) as CN
        by (rewrite creations_none by exact Logic.I; rewrite requests_snoc; pose proof (pi_count _ _ _ _ _ I); lia).
      exists (vs ++ [TTerminal t]). split; [now apply FW|].
      destruct (outcome_terminal _ _ t SI) as (O1 & O2 & _). rewrite TI in O1, O2.
      pose proof (take_nth_perm _ _ _ _ _ T) as TP.
      assert (In i (ids (cl_tasks c))) as D.
      { apply (Permutation_in _ (pi_ids _ _ _ _ _ I)). apply in_app_iff. left. apply (Permutation_in _ (Permutation_sym (Permutation_map fst TP))). now left. }
      specialize (O2 D).
      constructor; cbn [cl_strict cl_caps cl_tasks cl_workers cl_ran].
      * exact (pi_strict _ _ _ _ _ I).
      * exact (pi_caps _ _ _ _ _ I).
      * now rewrite ts_run_snoc, <- (pi_tasks _ _ _ _ _ I).
      * exact CN.
      * unfold ids. rewrite terminal_created. fold (ids (cl_tasks c)). rewrite <- (pi_ids _ _ _ _ _ I). rewrite map_app. cbn [map ran_id fst].
        rewrite (Permutation_map fst TP). cbn [map fst Datatypes.app]. rewrite app_assoc. symmetry. apply Permutation_cons_append.
      * intros j y J. rewrite terminal_created. apply (pi_kind _ _ _ _ _ I j y). rewrite map_app in J. cbn [map fst] in J. rewrite app_assoc in J.
        apply in_app_iff in J as [J|[J|[]]]; [|injection J as <- <-]; apply in_app_iff.
        -- apply in_app_iff in J as [J|J]; [left|now right]. apply (Permutation_in _ (Permutation_sym TP)). now right.
        -- left. apply (Permutation_in _ (Permutation_sym TP)). now left.
      * intros j x J.
        assert (TaskSpec.outcome j (cl_tasks c) = Some x \/ (j = i /\ x = (at_error t, at_payload t))) as [K|[-> ->]].
        { destruct (bstr_eq_dec j i) as [-> |N]; [|left; now rewrite O1 in J].
          destruct (TaskSpec.outcome i (cl_tasks c)) as [y|]; [left; now rewrite (proj1 O2) in J|].
          right. rewrite (proj1 O2) in J. now injection J as <-. }
        -- destruct (pi_won _ _ _ _ _ I j x K) as [(y & z & L1 & L2)|[L1 (e' & L2 & L3)]].
           ++ left. exists y, z. split; [apply in_app_iff; now left|exact L2].
           ++ right. split; [exact L1|]. exists e'. split; [|exact L3]. apply in_app_iff. now left.
        -- left. exists w, t. split; [|reflexivity]. apply in_app_iff. right. now left.
      * intros j y z J K.
        assert (TaskSpec.outcome i (snd (ts_terminal t (cl_tasks c))) <> None) as NN
          by (destruct (TaskSpec.outcome i (cl_tasks c)); rewrite (proj1 O2); discriminate).
        apply in_app_iff in J as [J|[J|[]]].
        -- destruct (bstr_eq_dec j i) as [-> |N]; [easy|]. rewrite O1 in K by exact N. exact (pi_ran _ _ _ _ _ I j y z J K).
        -- injection J as <- <- <-. easy.
      * intros j y z J. apply in_app_iff in J as [J|[J|[]]]; [exact (pi_work _ _ _ _ _ I j y z J)|]. injection J as <- <- <-.
        exists a. unfold t. now rewrite (pi_strict _ _ _ _ _ I).
    + assert (creations (vs ++ [v]) = creations vs) as CV by (apply creations_none; now destruct v).
      assert (creations (vs ++ [v]) <= requests_in (h ++ [e])) as CN by (rewrite CV, requests_snoc; pose proof (pi_count _ _ _ _ _ I); lia).
      exists (vs ++ [v]). split; [now apply FW|].
      constructor; cbn [cl_set_tasks cl_strict cl_caps cl_tasks cl_workers cl_ran].
      * exact (pi_strict _ _ _ _ _ I).
      * exact (pi_caps _ _ _ _ _ I).
      * now rewrite ts_run_snoc, <- (pi_tasks _ _ _ _ _ I).
      * exact CN.
      * unfold ids. rewrite other_created by exact V. exact (pi_ids _ _ _ _ _ I).
      * intros j y J. rewrite other_created by exact V. exact (pi_kind _ _ _ _ _ I j y J).
      * intros j x J. rewrite outcome_other in J by exact V. destruct (pi_won _ _ _ _ _ I j x J) as [L|[L1 (e' & L2 & L3)]]; [now left|]. right. split; [exact L1|]. exists e'. split; [|exact L3]. apply in_app_iff. now left.
      * intros j y z J. rewrite outcome_other by exact V. exact (pi_ran _ _ _ _ _ I j y z J).
      * exact (pi_work _ _ _ _ _ I).
Qed.

(** An outcome is final. *)
Lemma step_ext : forall c e, exists ws, cl_tasks (peer_step c e) = ts_run (cl_tasks c) ws /\ creations ws <= requests_in [e].
Proof.
  intros c e. destruct (step_change c e) as [|a mid q k ttl w -> _|a mid q j -> _|a m j w rest -> _|v V].
  - exists []. split; [reflexivity|apply Nat.le_0_l].
  - exists [TCreate k ttl (ap_now a)]. split; [reflexivity|]. now vm_compute.
  - eexists [TTerminal _]. split; [reflexivity|]. apply Nat.le_0_l.
  - eexists [TTerminal _]. split; [reflexivity|]. apply Nat.le_0_l.
  - exists [v]. split; [reflexivity|]. destruct v; try easy; apply Nat.le_0_l.
Qed.
Lemma creations_app : forall a b, creations (a ++ b) = creations a + creations b.
Proof.
  intros a b. revert a. induction b as [|x b IH] using rev_ind; intros a; [now rewrite app_nil_r|].
  rewrite app_assoc, !creations_snoc, IH. lia.
Qed.
Lemma requests_app : forall a b, requests_in (a ++ b) = requests_in a + requests_in b.
Proof. intros a b. unfold requests_in. now rewrite filter_app, app_length. Qed.
Lemma run_ext : forall h c, exists ws, cl_tasks (peer_run c h) = ts_run (cl_tasks c) ws /\ creations ws <= requests_in h.
Proof.
  induction h as [|e h IH]; intros c; [exists []; split; [reflexivity|apply Nat.le_0_l]|].
  destruct (step_ext c e) as (w1 & E1 & L1). destruct (IH (peer_step c e)) as (w2 & E2 & L2). exists (w1 ++ w2). split.
  - change (peer_run c (e :: h)) with (peer_run (peer_step c e) h). rewrite E2, E1. unfold ts_run. now rewrite fold_left_app.
  - rewrite creations_app. change (e :: h) with ([e] ++ h). rewrite requests_app. lia.
Qed.

Lemma peer_frozen : forall strict caps h h' i x, few_requests (h ++ h') ->
  TaskSpec.outcome i (cl_tasks (peer_run (client0 strict caps) h)) = Some x ->
  TaskSpec.outcome i (cl_tasks (peer_run (client0 strict caps) (h ++ h'))) = Some x.
Proof.
  intros strict caps h h' i x F O. assert (few_requests h) as F0 by (unfold few_requests in *; rewrite requests_app in F; lia).
  destruct (pinv_run strict caps h F0) as (vs & _ & I). unfold peer_run at 1. rewrite fold_left_app. fold (peer_run (client0 strict caps) h).
  set (c := peer_run (client0 strict caps) h) in *. destruct (run_ext h' c) as (ws & E & L). unfold peer_run in E. rewrite E, (pi_tasks _ _ _ _ _ I).
  rewrite (pi_tasks _ _ _ _ _ I) in O. unfold ts_run. rewrite <- fold_left_app. refine (proj1 (outcome_frozen vs ws i x _ O)).
  unfold few, few_requests in *. rewrite creations_app. rewrite requests_app in F. pose proof (pi_count _ _ _ _ _ I). lia.
Qed.

Lemma peer_frozen_task : forall strict caps h h' i x, few_requests (h ++ h') ->
  TaskSpec.outcome i (cl_tasks (peer_run (client0 strict caps) h)) = Some x ->
  ts_get i (cl_tasks (peer_run (client0 strict caps) (h ++ h'))) = ts_get i (cl_tasks (peer_run (client0 strict caps) h)).
Proof.
  intros strict caps h h' i x F O. assert (few_requests h) as F0 by (unfold few_requests in *; rewrite requests_app in F; lia).
  destruct (pinv_run strict caps h F0) as (vs & _ & I). unfold peer_run at 1. rewrite fold_left_app. fold (peer_run (client0 strict caps) h).
  set (c := peer_run (client0 strict caps) h) in *. destruct (run_ext h' c) as (ws & E & L). unfold peer_run in E. rewrite E, (pi_tasks _ _ _ _ _ I).
  rewrite (pi_tasks _ _ _ _ _ I) in O. unfold ts_run. rewrite <- fold_left_app. refine (proj2 (outcome_frozen vs ws i x _ O)).
  unfold few, few_requests in *. rewrite creations_app. rewrite requests_app in F. pose proof (pi_count _ _ _ _ _ I). lia.
Qed.

(** An attempt that wins leaves its status and message. *)
Lemma terminal_get : forall n s a, sinv n s -> In (at_id a) (ids s) -> TaskSpec.outcome (at_id a) s = None ->
  exists t, ts_get (at_id a) (snd (ts_terminal a s)) = Some t /\ tk_status t = at_status a /\ tk_message t = at_message a.
Proof.
  intros n s a I D O. unfold ts_terminal, TaskSpec.outcome in *. destruct (aget (at_id a) (ts_recs s)) as [r|] eqn:E.
  - destruct (si_rec _ _ I _ _ (aget_in _ _ _ E)) as (z & _ & _ & W & P). destruct (tr_payload r) eqn:Q; [discriminate|].
    destruct P as [-> _]. rewrite W. change (is_terminal WORKING) with false.
    cbn [orb snd]. unfold ts_get. cbn [ts_recs]. rewrite aget_aset_same. eexists. split; [reflexivity|]. split; reflexivity.
  - exfalso. rewrite (si_ids _ _ I) in D. apply (si_dom _ _ I) in D. apply aget_none in E. easy.
Qed.

Lemma take_nth_nth : forall (A : Type) n (l : list A) x, nth_error l n = Some x -> exists r, take_nth n l = Some (x, r).
Proof.
  intros A. induction n as [|n IH]; intros [|y l] x H; try discriminate; cbn [take_nth nth_error] in *.
  - injection H as <-. eauto.
  - destruct (IH _ _ H) as (r & ->). eauto.
Qed.

Lemma ran_step : forall c e, incl (cl_ran c) (cl_ran (peer_step c e)).
Proof. intros c e. destruct (step_change c e); try apply incl_refl. cbn [cl_ran]. apply incl_appl, incl_refl. Qed.
Lemma ran_run : forall h c, incl (cl_ran c) (cl_ran (peer_run c h)).
Proof.
  induction h as [|e h IH]; intros c; [apply incl_refl|]. eapply incl_tran; [apply (ran_step c e)|]. apply (IH (peer_step c e)).
Qed.

Lemma worker_ends_task : forall strict caps h1 a n h2 i w, few_requests (h1 ++ PWork a n :: h2) ->
  nth_error (cl_workers (peer_run (client0 strict caps) h1)) n = Some (i, w) ->
  (forall e, In e h1 -> ~ cancels_task i e) ->
  let c := peer_run (client0 strict caps) (h1 ++ PWork a n :: h2) in
  let t := peer_worker a strict i w in
  In (i, w, t) (cl_ran c) /\ ts_kind i (cl_tasks c) = Some (work_kind w) /\ TaskSpec.outcome i (cl_tasks c) = Some (at_error t, at_payload t) /\
  exists t', ts_get i (cl_tasks c) = Some t' /\ tk_status t' = at_status t /\ tk_message t' = at_message t.
Proof.
  intros strict caps h1 a n h2 i w F N NC c t.
  assert (few_requests h1) as F1 by (unfold few_requests in *; rewrite requests_app in F; lia).
  assert (few_requests (h1 ++ [PWork a n])) as F2.
  { unfold few_requests in *. rewrite requests_app in *. change (requests_in (PWork a n :: h2)) with (requests_in h2) in F. change (requests_in [PWork a n]) with 0. lia. }
  destruct (pinv_run strict caps h1 F1) as (vs & Fv & I1). set (c1 := peer_run (client0 strict caps) h1) in *.
  pose proof (sinv_run _ Fv) as SI. rewrite <- (pi_tasks _ _ _ _ _ I1) in SI.
  destruct (take_nth_nth _ _ _ _ N) as (rest & T). pose proof (take_nth_perm _ _ _ _ _ T) as TP.
  assert (In i (ids (cl_tasks c1))) as D.
  { apply (Permutation_in _ (pi_ids _ _ _ _ _ I1)). apply in_app_iff. left. apply (Permutation_in _ (Permutation_sym (Permutation_map fst TP))). now left. }
  assert (NoDup (map fst (cl_workers c1) ++ map ran_id (cl_ran c1))) as ND.
  { apply (Permutation_NoDup (Permutation_sym (pi_ids _ _ _ _ _ I1))). rewrite (pi_tasks _ _ _ _ _ I1). apply ids_unique. exact Fv. }
  assert (TaskSpec.outcome i (cl_tasks c1) = None) as O1.
  { destruct (TaskSpec.outcome i (cl_tasks c1)) as [x|] eqn:O; [|reflexivity]. exfalso.
    destruct (pi_won _ _ _ _ _ I1 i x O) as [(w' & t' & R & _)|[_ (e & E1 & E2)]]; [|now apply (NC e)].
    assert (In i (map fst (cl_workers c1))) as Y by (apply (Permutation_in _ (Permutation_sym (Permutation_map fst TP))); now left).
    apply in_split in Y as (l1 & l2 & Y). rewrite Y in ND. rewrite <- app_assoc in ND. cbn [Datatypes.app] in ND. apply NoDup_remove_2 in ND. apply ND.
    apply in_app_iff. right. apply in_app_iff. right. exact (in_map ran_id _ _ R). }
  assert (peer_run (client0 strict caps) (h1 ++ [PWork a n]) = {| cl_strict := cl_strict c1; cl_caps := cl_caps c1; cl_tasks := snd (ts_terminal (peer_worker a (cl_strict c1) i w) (cl_tasks c1));
             cl_workers := rest; cl_ran := cl_ran c1 ++ [(i, w, peer_worker a (cl_strict c1) i w)] |}) as E.
  { unfold peer_run. rewrite fold_left_app. fold (peer_run (client0 strict caps) h1). fold c1. cbn [fold_left peer_step]. now rewrite T. }
  rewrite (pi_strict _ _ _ _ _ I1) in E. fold t in E.
  assert (h1 ++ PWork a n :: h2 = (h1 ++ [PWork a n]) ++ h2) as HH by now rewrite <- app_assoc.
  assert (In (i, w, t) (cl_ran c)) as R.
  { unfold c. rewrite HH. unfold peer_run. rewrite fold_left_app. fold (peer_run (client0 strict caps) (h1 ++ [PWork a n])). rewrite E. apply ran_run. cbn [cl_ran].
    apply in_app_iff. right. now left. }
  split; [exact R|]. split.
  - destruct (pinv_run strict caps _ F) as (us & Fu & I2). fold c in I2. destruct (pi_kind _ _ _ _ _ I2 i w) as (z & Z1 & Z2).
    { apply in_app_iff. right. exact (in_map fst _ _ R). }
    rewrite (pi_tasks _ _ _ _ _ I2) in Z1 |- *. rewrite <- Z2. exact (proj1 (created_found _ _ _ Fu Z1)).
  - assert (at_id t = i) as TI by apply worker_id.
    assert (TaskSpec.outcome i (cl_tasks (peer_run (client0 strict caps) (h1 ++ [PWork a n]))) = Some (at_error t, at_payload t)) as O.
    { rewrite E. cbn [cl_tasks]. destruct (outcome_terminal _ _ t SI) as (_ & O2 & _). rewrite TI in O2. specialize (O2 D). rewrite O1 in O2. exact (proj1 O2). }
    unfold c. rewrite HH. rewrite HH in F. split; [now apply peer_frozen|]. rewrite (peer_frozen_task _ _ _ _ _ _ F O), E. cbn [cl_tasks].
    destruct (terminal_get _ _ t SI) as (t' & G); rewrite ?TI in *; [exact D|exact O1|]. now exists t'.
Qed.
Lemma worker_ends : forall strict caps h1 a n h2 i w, few_requests (h1 ++ PWork a n :: h2) ->
  nth_error (cl_workers (peer_run (client0 strict caps) h1)) n = Some (i, w) ->
  (forall e, In e h1 -> ~ cancels_task i e) ->
  let c := peer_run (client0 strict caps) (h1 ++ PWork a n :: h2) in
  let t := peer_worker a strict i w in
  In (i, w, t) (cl_ran c) /\ ts_kind i (cl_tasks c) = Some (work_kind w) /\ TaskSpec.outcome i (cl_tasks c) = Some (at_error t, at_payload t).
Proof.
  intros strict caps h1 a n h2 i w F N NC c t. destruct (worker_ends_task strict caps h1 a n h2 i w F N NC) as (A & B & C & _). now split; [|split].
Qed.

Lemma peer_result_reply : forall a mid q c i e p k, requests q (bs "tasks/result") (JObj [(bs "taskId", JStr i)]) -> can_task c = true ->
  TaskSpec.outcome i (cl_tasks c) = Some (e, p) -> ts_kind i (cl_tasks c) = Some k ->
  peer_dispatch a mid q c = (peer_finish (rq_id q) (cl_strict c) (Some k) i (Some (e, p)), c).
Proof.
  intros a mid q c i e p k (M & v & P & S) C O K. rewrite peer_result by exact M. rewrite P.
  unfold peer_task_result. rewrite C. cbn [negb].
  rewrite (parse_task_id_json i [(bs "taskId", JStr i)] v); [|constructor; [now intros []|constructor]|reflexivity|exact S].
  unfold TaskSpec.outcome in O. unfold ts_kind in K. destruct (aget i (ts_recs (cl_tasks c))) as [r|]; [|discriminate].
  cbn [option_map] in K. injection K as K. rewrite K. destruct (tr_payload r) as [x|]; [|discriminate]. now injection O as <- <-.
Qed.

Lemma finish_error : forall i strict k t what, exists r o,
  peer_finish i strict k t (Some (true, error_object INTERNAL what None)) = Reply r /\ fails r INTERNAL what /\
    rs_error r = Some (JObj o) /\ exists d, obj_get (bs "data") o = Some (JObj d) /\ related_to t (obj_get (bs "_meta") d).
Proof.
  intros i strict k t what. unfold peer_finish, error_object. set (eo := [(bs "code", JInt INTERNAL); (bs "message", JStr what)] ++ []).
  destruct (attach_error_obj eo t) as (o' & E' & G & d & D1 & _ & m & M1 & (x & M2 & M3) & _). rewrite E'.
  assert (NoDup (map fst o')) as N.
  { assert (exists y, o' = obj_set DATA y eo) as [y ->] by (eexists; unfold attach_error in E'; symmetry; apply (f_equal (fun v => match v with JObj z => z | _ => [] end)) in E'; exact E').
    apply nodup_set. unfold eo. cbn [map fst Datatypes.app]. repeat constructor; cbn [In]; intuition discriminate. }
  eexists _, o'. split; [reflexivity|]. split.
  - split; [reflexivity|]. exists o'. split; [reflexivity|]. split; [exact N|]. split; (rewrite G by discriminate; reflexivity).
  - split; [reflexivity|]. exists d. split; [exact D1|]. exists m, x. now split.
Qed.

Lemma run_fixed : forall strict caps h, cl_strict (peer_run (client0 strict caps) h) = strict /\ cl_caps (peer_run (client0 strict caps) h) = caps.
Proof.
  intros strict caps h. induction h as [|e h IH] using rev_ind; [now split|]. unfold peer_run in *. rewrite fold_left_app. cbn [fold_left].
  destruct (step_change (fold_left peer_step h (client0 strict caps)) e); exact IH.
Qed.

Lemma elicit_ends : forall strict caps h1 a n h2 i e f r q a' mid, few_requests (h1 ++ PWork a n :: h2) ->
  nth_error (cl_workers (peer_run (client0 strict caps) h1)) n = Some (i, WElicit e) ->
  (forall ev, In ev h1 -> ~ cancels_task i ev) ->
  ap_elicit a = Some f -> f e = Ret r -> (strict = true -> proper r) ->
  let c := peer_run (client0 strict caps) (h1 ++ PWork a n :: h2) in
  can_task c = true -> requests q (bs "tasks/result") (JObj [(bs "taskId", JStr i)]) ->
  exists x o, peer_dispatch a' mid q c = (Reply x, c) /\ succeeds x (JObj o) /\ tells_elicited o r /\ related_to i (obj_get (bs "_meta") o).
Proof.
  intros strict caps h1 a n h2 i e f r q a' mid F N NC A R V c C Q.
  destruct (worker_ends strict caps h1 a n h2 i _ F N NC) as (_ & K & O). fold c in K, O.
  cbn [peer_worker work_kind] in K, O. rewrite A, R in O. unfold worker_value in O.
  assert (strict && negb (valid_elicitation_result (elicited_json r)) = false)%bool as W.
  { destruct strict; [|reflexivity]. specialize (V eq_refl). apply elicited_valid in V. now rewrite V. }
  rewrite W in O. cbn [complete_attempt at_error at_payload] in O. rewrite (peer_result_reply _ _ _ _ _ _ _ _ Q C O K).
  unfold peer_finish. pose proof (proj1 (run_fixed strict caps (h1 ++ PWork a n :: h2))) as ST. fold c in ST. rewrite ST.
  unfold elicited_json. set (o := opt_set _ _ _ _).
  assert (obj_get (bs "action") o = Some (JStr (ed_action r)) /\ obj_get (bs "content") o = ed_content r /\ obj_get (bs "elicitationId") o = option_map JStr (ed_id r)) as (G1 & G2 & G3).
  { unfold o. split; [objs; reflexivity|]. split; [objs; destruct (ed_content r); reflexivity|]. objs. destruct (ed_id r); reflexivity. }
  destruct (attach_result_obj o i) as (o' & E' & G & m & M1 & (x & M2 & M3) & _). rewrite E'.
  assert (strict && negb (valid_elicitation_result (JObj o')) = false)%bool as ->.
  { destruct strict; [|reflexivity]. specialize (V eq_refl). unfold valid_elicitation_result, opt_str, opt_field. rewrite !G by discriminate. rewrite G1, G3.
    unfold proper in V. apply proper_iff in V. rewrite V. destruct (ed_id r); reflexivity. }
  destruct (respond_result (rq_id q) (JObj o')) as (y & Y1 & Y2). exists y, o'. rewrite Y1. split; [reflexivity|]. split; [exact Y2|]. split.
  - unfold tells_elicited. rewrite !G by discriminate. now repeat split.
  - exists m, x. now split.
Qed.

Lemma sample_ends : forall strict caps h1 a n h2 i m p y z f o q a' mid, few_requests (h1 ++ PWork a n :: h2) ->
  nth_error (cl_workers (peer_run (client0 strict caps) h1)) n = Some (i, WSample m p y z) ->
  (forall ev, In ev h1 -> ~ cancels_task i ev) ->
  the_sampler a = Some f -> f m p y z = Ret (JObj o) -> (strict = true -> CreateMessageResult (JObj o)) ->
  let c := peer_run (client0 strict caps) (h1 ++ PWork a n :: h2) in
  can_task c = true -> requests q (bs "tasks/result") (JObj [(bs "taskId", JStr i)]) ->
  exists x o', peer_dispatch a' mid q c = (Reply x, c) /\ succeeds x (JObj o') /\
    (forall k, k <> bs "_meta" -> obj_get k o' = obj_get k o) /\ related_to i (obj_get (bs "_meta") o').
Proof.
  intros strict caps h1 a n h2 i m p y z f o q a' mid F N NC A R V c C Q.
  destruct (worker_ends strict caps h1 a n h2 i _ F N NC) as (_ & K & O). fold c in K, O.
  cbn [peer_worker work_kind] in K, O. rewrite A, R in O. unfold worker_value in O.
  assert (strict && negb (valid_create_result (JObj o)) = false)%bool as W.
  { destruct strict; [|reflexivity]. specialize (V eq_refl). apply create_result_iff in V. now rewrite V. }
  rewrite W in O. cbn [complete_attempt at_error at_payload] in O. rewrite (peer_result_reply _ _ _ _ _ _ _ _ Q C O K).
  unfold peer_finish. pose proof (proj1 (run_fixed strict caps (h1 ++ PWork a n :: h2))) as ST. fold c in ST. rewrite ST.
  destruct (attach_result_obj o i) as (o' & E' & G & m' & M1 & (x & M2 & M3) & _). rewrite E'.
  assert (valid_create_result (JObj o') = valid_create_result (JObj o)) as -> by (unfold valid_create_result, str_field; now rewrite !G by discriminate).
  rewrite W. destruct (respond_result (rq_id q) (JObj o')) as (r & Y1 & Y2). exists r, o'. rewrite Y1. split; [reflexivity|]. split; [exact Y2|]. split; [exact G|].
  exists m', x. now split.
Qed.

Lemma threw_ends : forall strict caps h1 a n h2 i w what q a' mid, few_requests (h1 ++ PWork a n :: h2) ->
  nth_error (cl_workers (peer_run (client0 strict caps) h1)) n = Some (i, w) ->
  (forall ev, In ev h1 -> ~ cancels_task i ev) -> work_threw a w what ->
  let c := peer_run (client0 strict caps) (h1 ++ PWork a n :: h2) in
  can_task c = true -> requests q (bs "tasks/result") (JObj [(bs "taskId", JStr i)]) ->
  exists x o, peer_dispatch a' mid q c = (Reply x, c) /\ fails x INTERNAL what /\
    rs_error x = Some (JObj o) /\ exists d, obj_get (bs "data") o = Some (JObj d) /\ related_to i (obj_get (bs "_meta") d).
Proof.
  intros strict caps h1 a n h2 i w what q a' mid F N NC TH c C Q.
  destruct (worker_ends strict caps h1 a n h2 i _ F N NC) as (_ & K & O). fold c in K, O.
  assert (peer_worker a strict i w = worker_failed i (ap_now a) what) as W.
  { destruct w as [e|m p y x]; destruct TH as (f & A & R); cbn [peer_worker]; now rewrite A, R. }
  rewrite W in O. cbn [worker_failed complete_attempt at_error at_payload] in O. rewrite (peer_result_reply _ _ _ _ _ _ _ _ Q C O K).
  destruct (finish_error (rq_id q) (cl_strict c) (Some (work_kind w)) i what) as (x & o & E & R). exists x, o. rewrite E. split; [reflexivity|exact R].
Qed.

Lemma status_ends : forall strict caps h1 a n h2 i w, few_requests (h1 ++ PWork a n :: h2) ->
  nth_error (cl_workers (peer_run (client0 strict caps) h1)) n = Some (i, w) ->
  (forall ev, In ev h1 -> ~ cancels_task i ev) ->
  let c := peer_run (client0 strict caps) (h1 ++ PWork a n :: h2) in
  exists t, ts_get i (cl_tasks c) = Some t /\
    (forall what, work_threw a w what -> tk_status t = bs "failed" /\ tk_message t = Some what) /\
    (work_gave strict a w -> tk_status t = bs "completed" /\ tk_message t = None).
Proof.
  intros strict caps h1 a n h2 i w F N NC c. destruct (worker_ends_task strict caps h1 a n h2 i w F N NC) as (_ & _ & _ & t & G & S & M). fold c in G.
  exists t. split; [exact G|]. split.
  - intros what TH. assert (peer_worker a strict i w = worker_failed i (ap_now a) what) as W.
    { destruct w as [e|m p y x]; destruct TH as (f & A & R); cbn [peer_worker]; now rewrite A, R. }
    rewrite W in S, M. now split.
  - intros WG. destruct w as [e|m p y x]; destruct WG as (f & r & A & R & V); cbn [peer_worker] in S, M; rewrite A, R in S, M; unfold worker_value in S, M.
    + assert (strict && negb (valid_elicitation_result (elicited_json r)) = false)%bool as W; [|rewrite W in S, M; now split].
      destruct strict; [|reflexivity]. specialize (V eq_refl). apply elicited_valid in V. now rewrite V.
    + assert (strict && negb (valid_create_result r) = false)%bool as W; [|rewrite W in S, M; now split].
      destruct strict; [|reflexivity]. specialize (V eq_refl). apply create_result_iff in V. now rewrite V.
Qed.

(** A cancelled task. *)
Lemma cancel_wins : forall strict caps h1 a mid q h2 i q' a' mid',
  let c1 := peer_run (client0 strict caps) h1 in
  let c := peer_run (client0 strict caps) (h1 ++ PAsk a mid q :: h2) in
  few_requests (h1 ++ PAsk a mid q :: h2) -> unfinished i (cl_tasks c1) -> can_cancel c1 = true ->
  requests q (bs "tasks/cancel") (JObj [(bs "taskId", JStr i)]) ->
  (exists r t, peer_dispatch a mid q c1 = (Reply r, snd (peer_dispatch a mid q c1)) /\ succeeds r (task_json t) /\ tk_id t = i /\ tk_status t = bs "cancelled") /\
  (can_task c = true -> requests q' (bs "tasks/result") (JObj [(bs "taskId", JStr i)]) ->
   exists x o, peer_dispatch a' mid' q' c = (Reply x, c) /\ fails x INTERNAL (bs "Cancelled") /\
     rs_error x = Some (JObj o) /\ exists d, obj_get (bs "data") o = Some (JObj d) /\ related_to i (obj_get (bs "_meta") d)).
Proof.
  intros strict caps h1 a mid q h2 i q' a' mid' c1 c F [UG UO] C (M & v & P & S).
  assert (few_requests h1) as F1 by (unfold few_requests in *; rewrite requests_app in F; lia).
  destruct (pinv_run strict caps h1 F1) as (vs & Fv & I1). fold c1 in I1.
  pose proof (sinv_run _ Fv) as SI. rewrite <- (pi_tasks _ _ _ _ _ I1) in SI.
  set (t := cancel_attempt i (error_object INTERNAL (bs "Cancelled") None) (ap_now a)).
  assert (In i (ids (cl_tasks c1))) as D.
  { unfold ts_get in UG. destruct (aget i (ts_recs (cl_tasks c1))) as [r|] eqn:E; [|easy]. rewrite (si_ids _ _ SI). apply (si_dom _ _ SI). apply aget_in in E. exact (in_map fst _ _ E). }
  destruct (outcome_terminal _ _ t SI) as (_ & O2 & _). change (at_id t) with i in O2. specialize (O2 D). rewrite UO in O2. destruct O2 as [O2 (t' & W)].
  assert (tk_id t' = i /\ tk_status t' = bs "cancelled") as [T1 T2].
  { revert W. unfold ts_terminal. change (at_id t) with i. destruct (aget i (ts_recs (cl_tasks c1))) as [r|] eqn:E; [|discriminate].
    destruct (si_rec _ _ SI _ _ (aget_in _ _ _ E)) as (z & _ & Z & _ & P'). destruct (_ || _)%bool eqn:B; [discriminate|]. cbn [fst]. intros H. injection H as <-. cbn [tk_id tk_status]. split; [|reflexivity].
    apply orb_false_iff in B as [B _]. destruct (tr_payload r); [discriminate|]. destruct P' as [-> _]. exact Z. }
  assert (peer_dispatch a mid q c1 = (respond (rq_id q) (AResult (task_json t')), cl_set_tasks (snd (ts_terminal t (cl_tasks c1))) c1)) as E1.
  { rewrite peer_cancel by exact M. rewrite P. unfold peer_cancel_task. rewrite C. cbn [negb].
    rewrite (parse_task_id_json i [(bs "taskId", JStr i)] v); [|constructor; [now intros []|constructor]|reflexivity|exact S]. fold t.
    destruct (ts_terminal t (cl_tasks c1)) as [b ts]. cbn [fst] in W. subst b. cbn [fst snd]. unfold strict_shape. rewrite task_valid. cbn [negb]. now rewrite andb_false_r. }
  split.
  - destruct (respond_result (rq_id q) (task_json t')) as (r & R1 & R2). exists r, t'. rewrite E1, R1. cbn [snd]. repeat split; try apply R2; assumption.
  - intros CT Q.
    assert (h1 ++ PAsk a mid q :: h2 = (h1 ++ [PAsk a mid q]) ++ h2) as HH by now rewrite <- app_assoc.
    assert (TaskSpec.outcome i (cl_tasks c) = Some (true, error_object INTERNAL (bs "Cancelled") None)) as O.
    { unfold c. rewrite HH. rewrite HH in F. apply peer_frozen; [exact F|]. unfold peer_run. rewrite fold_left_app. fold (peer_run (client0 strict caps) h1). fold c1.
      cbn [fold_left peer_step]. rewrite E1. cbn [snd cl_set_tasks cl_tasks]. exact O2. }
    destruct (pinv_run strict caps _ F) as (us & Fu & I2). fold c in I2.
    assert (exists k, ts_kind i (cl_tasks c) = Some k) as [k K].
    { unfold TaskSpec.outcome in O. unfold ts_kind. destruct (aget i (ts_recs (cl_tasks c))); [|discriminate]. eexists. reflexivity. }
    rewrite (peer_result_reply _ _ _ _ _ _ _ _ Q CT O K).
    destruct (finish_error (rq_id q') (cl_strict c) (Some k) i (bs "Cancelled")) as (x & o & E & R). exists x, o. rewrite E. split; [reflexivity|exact R].
Qed.

(** A task that is over, or that never was, cannot be cancelled: nothing changes for anyone. *)
Lemma cancel_loses : forall strict caps h a mid q i, let c := peer_run (client0 strict caps) h in
  few_requests h -> ~ unfinished i (cl_tasks c) -> can_cancel c = true -> requests q (bs "tasks/cancel") (JObj [(bs "taskId", JStr i)]) ->
  exists r, fst (peer_dispatch a mid q c) = Reply r /\ fails r INVALID_PARAMS (bs "Task is not cancellable") /\
    forall j, ts_get j (cl_tasks (snd (peer_dispatch a mid q c))) = ts_get j (cl_tasks c) /\
              TaskSpec.outcome j (cl_tasks (snd (peer_dispatch a mid q c))) = TaskSpec.outcome j (cl_tasks c).
Proof.
  intros strict caps h a mid q i c F U C (M & v & P & S).
  destruct (pinv_run strict caps h F) as (vs & Fv & I). fold c in I.
  pose proof (sinv_run _ Fv) as SI. rewrite <- (pi_tasks _ _ _ _ _ I) in SI.
  set (t := cancel_attempt i (error_object INTERNAL (bs "Cancelled") None) (ap_now a)).
  assert ((forall x, fst (ts_terminal t (cl_tasks c)) <> Won x) /\ ts_recs (snd (ts_terminal t (cl_tasks c))) = ts_recs (cl_tasks c)) as [W R].
  { unfold ts_terminal. change (at_id t) with i. destruct (aget i (ts_recs (cl_tasks c))) as [r|] eqn:E; [|split; [discriminate|reflexivity]].
    destruct (_ || _)%bool eqn:B; [split; [discriminate|reflexivity]|]. exfalso. apply U. unfold unfinished, ts_get, TaskSpec.outcome. rewrite E.
    apply orb_false_iff in B as [B _]. destruct (tr_payload r); [discriminate|]. split; [discriminate|reflexivity]. }
  rewrite peer_cancel by exact M. rewrite P. unfold peer_cancel_task. rewrite C. cbn [negb].
  rewrite (parse_task_id_json i [(bs "taskId", JStr i)] v); [|constructor; [now intros []|constructor]|reflexivity|exact S]. fold t.
  destruct (ts_terminal t (cl_tasks c)) as [b ts]. cbn [fst snd] in W, R.
  destruct (respond_fails (rq_id q) INVALID_PARAMS (bs "Task is not cancellable")) as (r & R1 & R2). exists r.
  destruct b; try (now contradiction (W t0)); cbn [fst snd cl_set_tasks cl_tasks]; rewrite R1; (split; [reflexivity|split; [exact R2|]]); intros j; unfold ts_get, TaskSpec.outcome; rewrite R; split; reflexivity.
Qed.

(** Notifications. *)
Lemma unit_iff : forall d, dbl_canonical d -> unit_range d = true <-> between_0_and_1 d.
Proof.
  intros [sz|[] m e|sg|] C; cbn [unit_range between_0_and_1]; try easy. cbn [dbl_canonical] in C. destruct C as [C _].
  destruct e as [|k|k].
  - rewrite Pos.eqb_eq. change (0 + 1074)%Z with 1074%Z. split; [intros ->; lia|]. intros H.
    assert (Zpos m <= 1)%Z by (apply (Zmult_le_reg_r _ _ (2 ^ 1074)%Z); [reflexivity|lia]). lia.
  - split; [easy|]. intros H. exfalso. rewrite Z.pow_add_r in H by lia.
    assert (2 <= 2 ^ Zpos k)%Z by (change 2%Z with (2 ^ 1)%Z at 1; apply Z.pow_le_mono_r; lia). assert (0 < 2 ^ 1074)%Z by reflexivity. nia.
  - rewrite Z.leb_le. assert (2 ^ 1074 = 2 ^ (Z.neg k + 1074) * 2 ^ Zpos k)%Z as -> by (rewrite <- Z.pow_add_r by lia; f_equal; lia).
    assert (0 < 2 ^ (Z.neg k + 1074))%Z as P by (apply Z.pow_pos_nonneg; lia). rewrite (Z.mul_comm (2 ^ (Z.neg k + 1074))%Z). split; intros H.
    + now apply Z.mul_le_mono_nonneg_r; [lia|].
    + now apply (Z.mul_le_mono_pos_r _ _ _ P).
Qed.

Lemma same_dbl : forall d v, same (JDbl d) v -> v = JDbl d.
Proof. intros d v H. now inversion H. Qed.

Lemma progress_arrives : forall t p m n strict ea, arrives (progress_note t p m) n -> ea_progress ea = true ->
  peer_notice strict ea n = {| ef_call := if (strict && negb (negb (match t with [] => true | _ => false end) && unit_range p))%bool then None else Some (HProgress t p m);
                               ef_cancel := None; ef_lists := None |}.
Proof.
  intros t p m n strict ea [M P] A. cbn [progress_note nt_method nt_params] in M, P. apply same_opt_some in P as (v & V & S).
  set (o := obj_set _ _ _) in S. assert (NoDup (map fst o)) as N by (unfold o; nodups).
  assert (exists o', v = JObj o') as [o' ->] by (apply same_obj_inv in S as (? & ? & -> & _); eauto).
  unfold peer_notice. rewrite M, V, A. change (beq (bs "notifications/progress") (bs "notifications/progress")) with true. cbn [andb].
  unfold hear_progress, read_progress, get_str.
  rewrite (same_get_str (bs "progressToken") _ _ t N S), (same_get_str (bs "message") _ _ m N S) by (unfold o; objs; reflexivity).
  destruct (same_get_some (bs "progress") _ _ (JDbl p) N S) as (x & G & X); [unfold o; objs; reflexivity|]. apply same_dbl in X as ->. rewrite G. reflexivity.
Qed.

Lemma status_arrives : forall t n strict ea, arrives (status_note t) n -> ea_status ea = true ->
  peer_notice strict ea n = {| ef_call := Some (HStatus t); ef_cancel := None; ef_lists := None |}.
Proof.
  intros t n strict ea [M P] A. cbn [status_note nt_method nt_params] in M, P. apply same_opt_some in P as (v & V & S).
  unfold peer_notice. rewrite M, V, A. cbn [andb].
  change (beq (bs "notifications/tasks/status") (bs "notifications/progress")) with false. change (beq (bs "notifications/tasks/status") (bs "notifications/cancelled")) with false.
  change (beq (bs "notifications/tasks/status") (bs "notifications/tasks/status")) with true. cbn [andb].
  rewrite (task_arrives _ _ S), (parse_task_json _ _ S). cbn [negb]. now rewrite andb_false_r.
Qed.

Lemma other_notice : forall strict ea n, nt_method n <> bs "notifications/cancelled" ->
  (nt_method n = bs "notifications/progress" -> ea_progress ea = false \/ nt_params n = None) ->
  (nt_method n = bs "notifications/tasks/status" -> ea_status ea = false \/ nt_params n = None) ->
  ef_cancel (peer_notice strict ea n) = None /\ ef_lists (peer_notice strict ea n) = Some (nt_method n) /\
  (In (nt_method n) (ea_other ea) -> ef_call (peer_notice strict ea n) = Some (HOther (nt_method n) (or_null (nt_params n)))) /\
  (~ In (nt_method n) (ea_other ea) -> ef_call (peer_notice strict ea n) = None).
Proof.
  intros strict ea n C P S. unfold peer_notice. set (other := {| ef_call := _; ef_cancel := None; ef_lists := Some (nt_method n) |}).
  assert (ef_cancel other = None /\ ef_lists other = Some (nt_method n) /\
    (In (nt_method n) (ea_other ea) -> ef_call other = Some (HOther (nt_method n) (or_null (nt_params n)))) /\ (~ In (nt_method n) (ea_other ea) -> ef_call other = None)) as G.
  { unfold other. cbn [ef_cancel ef_lists ef_call]. split; [reflexivity|]. split; [reflexivity|].
    destruct (existsb (beq (nt_method n)) (ea_other ea)) eqn:E.
    - split; [intros _; now destruct (nt_params n)|]. intros H. exfalso. apply H. apply existsb_exists in E as (x & I & B). apply beq_eq in B. now rewrite B.
    - split; [|easy]. intros H. exfalso. assert (existsb (beq (nt_method n)) (ea_other ea) = true); [|congruence]. apply existsb_exists. exists (nt_method n). split; [exact H|now apply beq_eq]. }
  assert ((beq (nt_method n) (bs "notifications/progress") && ea_progress ea && match nt_params n with Some _ => true | None => false end)%bool = false) as ->.
  { destruct (beq (nt_method n) (bs "notifications/progress")) eqn:E; [|reflexivity]. apply beq_eq in E. destruct (P E) as [-> | ->]; [reflexivity|]. now rewrite andb_false_r. }
  destruct (beq (nt_method n) (bs "notifications/cancelled")) eqn:E; [apply beq_eq in E; easy|].
  destruct (beq (nt_method n) (bs "notifications/tasks/status")) eqn:E2; cbn [andb]; [|exact G]. apply beq_eq in E2.
  destruct (S E2) as [Z|Z].
  - rewrite Z. exact G.
  - clearbody other. rewrite Z in *. destruct (ea_status ea); exact G.
Qed.

Lemma cancelled_notice : forall strict ea n, nt_method n = bs "notifications/cancelled" ->
  ef_call (peer_notice strict ea n) = None /\ ef_lists (peer_notice strict ea n) = None /\
  forall i, ef_cancel (peer_notice strict ea n) = Some i <->
    i <> [] /\ exists o, nt_params n = Some (JObj o) /\ (obj_get (bs "id") o = Some (JStr i) \/ exists z, obj_get (bs "id") o = Some (JInt z) /\ i = print_Z z).
Proof.
  intros strict ea n M. unfold peer_notice. rewrite M. change (beq (bs "notifications/cancelled") (bs "notifications/progress")) with false.
  change (beq (bs "notifications/cancelled") (bs "notifications/cancelled")) with true. cbn [andb ef_call ef_lists ef_cancel].
  split; [reflexivity|]. split; [reflexivity|]. intros i.
  assert (forall x : bstr, match x with [] => None | a :: l => Some (a :: l) end = Some i <-> i <> [] /\ x = i) as K.
  { intros [|a x]; split; [discriminate|intros [H E]; congruence|intros [= <-]; easy|intros [_ <-]; reflexivity]. }
  rewrite K. unfold cancel_text. destruct (nt_params n) as [[| | | | |l|o]|].
  all: try (split; [intros [H1 H2]; congruence|intros [_ (o' & H & _)]; discriminate]).
  split.
  - intros [H1 H2]. split; [exact H1|]. exists o. split; [reflexivity|]. destruct (obj_get (bs "id") o) as [[]|]; try congruence; subst i; [right; now eexists|now left].
  - intros [H1 (o' & [= <-] & [-> |(z & -> & ->)])]; now split.
Qed.

(** A new task, without reference to how its name is chosen. *)
Lemma started : forall strict caps h a mid q k ttl w, let c := peer_run (client0 strict caps) h in
  few_requests (h ++ [PAsk a mid q]) -> peer_step c (PAsk a mid q) = with_task a k ttl w c ->
  starts_task ttl w c (fresh_task c (ap_now a) ttl) (with_task a k ttl w c).
Proof.
  intros strict caps h a mid q k ttl w c F ST.
  assert (few_requests h) as F0 by (unfold few_requests in *; rewrite requests_snoc in F; lia).
  destruct (pinv_run strict caps h F0) as (vs & Fv & I). fold c in I.
  assert (few (vs ++ [TCreate k ttl (ap_now a)])) as FW.
  { unfold few. pose proof (creations_one vs (TCreate k ttl (ap_now a))). pose proof (pi_count _ _ _ _ _ I). unfold few_requests in F. rewrite requests_snoc in F. lia. }
  assert (~ In (task_name (ts_next (cl_tasks c))) (ids (cl_tasks c))) as NI.
  { pose proof (ids_unique _ FW) as [ND _]. rewrite ts_run_snoc, <- (pi_tasks _ _ _ _ _ I) in ND. cbn [ts_step] in ND.
    unfold ids, ts_create in ND. cbn [ts_created] in ND. rewrite map_app in ND. apply NoDup_remove_2 in ND. rewrite app_nil_r in ND. exact ND. }
  pose proof (sinv_run _ Fv) as SI. rewrite <- (pi_tasks _ _ _ _ _ I) in SI.
  assert (ts_get (tk_id (fresh_task c (ap_now a) ttl)) (cl_tasks c) = None) as G0.
  { unfold ts_get. change (tk_id (fresh_task c (ap_now a) ttl)) with (task_name (ts_next (cl_tasks c))).
    destruct (aget (task_name (ts_next (cl_tasks c))) (ts_recs (cl_tasks c))) as [r|] eqn:E; [|reflexivity]. exfalso. apply NI.
    rewrite (si_ids _ _ SI). apply (si_dom _ _ SI). apply aget_in in E. exact (in_map fst _ _ E). }
  split; [exact G0|]. split; [reflexivity|]. split; [reflexivity|]. split; [|split; [|split; [|reflexivity]]].
  - cbn [with_task cl_tasks]. unfold ts_get, ts_create. cbn [ts_recs]. fold (fresh_task c (ap_now a) ttl). now rewrite aget_aset_same.
  - intros j N. cbn [with_task cl_tasks]. unfold ts_get, ts_create. cbn [ts_recs]. fold (fresh_task c (ap_now a) ttl). now rewrite aget_aset_other.
  - reflexivity.
Qed.

Lemma elicit_started : forall strict caps h a mid q e ttl s peer f, let c := peer_run (client0 strict caps) h in
  few_requests (h ++ [PAsk a mid q]) -> ap_elicit a = Some f -> can_elicit_task c = true -> carried (request_elicit_task s peer e ttl) q ->
  exists r e' t, same_elicit e e' /\ peer_dispatch a mid q c = (Reply r, peer_step c (PAsk a mid q)) /\ starts_task ttl (WElicit e') c t (peer_step c (PAsk a mid q)) /\
    forall r', delivered r r' -> returns (request_elicit_task s peer e ttl) r' (Ret (t, None)).
Proof.
  intros strict caps h a mid q e ttl s peer f c F A C K. destruct (elicit_task_round a mid q c e ttl s peer f A C K) as (r & e' & E & D & R).
  assert (peer_step c (PAsk a mid q) = with_task a KElicitation ttl (WElicit e') c) as ST by (cbn [peer_step]; now rewrite D).
  exists r, e', (fresh_task c (ap_now a) ttl). rewrite ST. split; [exact E|]. split; [exact D|]. split; [|exact R]. now apply (started strict caps h a mid q).
Qed.
Lemma sample_started : forall strict caps h a mid q p ttl s peer f, let c := peer_run (client0 strict caps) h in
  few_requests (h ++ [PAsk a mid q]) -> the_sampler a = Some f -> can_sample_task c = true -> params_ok c q -> carried (request_message_task s peer p ttl) q ->
  exists r m p' y x t, given p m p' y x /\ peer_dispatch a mid q c = (Reply r, peer_step c (PAsk a mid q)) /\
    starts_task ttl (WSample m p' y x) c t (peer_step c (PAsk a mid q)) /\
    forall r', delivered r r' -> returns (request_message_task s peer p ttl) r' (Ret (t, None)).
Proof.
  intros strict caps h a mid q p ttl s peer f c F A C V K. destruct (sample_task_round a mid q c p ttl s peer f A C V K) as (r & m & p' & y & x & G & D & R).
  assert (peer_step c (PAsk a mid q) = with_task a KCreateMessage ttl (WSample m p' y x) c) as ST by (cbn [peer_step]; now rewrite D).
  exists r, m, p', y, x, (fresh_task c (ap_now a) ttl). rewrite ST. split; [exact G|]. split; [exact D|]. split; [|exact R]. now apply (started strict caps h a mid q).
Qed.

(** Refusals. *)
Lemma can_task_iff : forall c, can_task c = true <-> has_tasks (cl_caps c).
Proof. intro c. unfold can_task, has_tasks. destruct (cc_tasks (cl_caps c)); split; easy. Qed.
Lemma can_list_iff : forall c, can_list c = true <-> has_task_list (cl_caps c).
Proof.
  intro c. unfold can_list, has_task_list. destruct (cc_tasks (cl_caps c)) as [[[[l k] m] e]|]; [|split; [easy|now intros (? & ? & ? & ?)]].
  split; [intros ->; now exists k, m, e|]. intros (? & ? & ? & H). now injection H.
Qed.
Lemma can_cancel_iff : forall c, can_cancel c = true <-> has_task_cancel (cl_caps c).
Proof.
  intro c. unfold can_cancel, has_task_cancel. destruct (cc_tasks (cl_caps c)) as [[[[l k] m] e]|]; [|split; [easy|now intros (? & ? & ? & ?)]].
  split; [intros ->; now exists l, m, e|]. intros (? & ? & ? & H). now injection H.
Qed.
Lemma can_sample_iff : forall c, can_sample_task c = true <-> has_task_sampling (cl_caps c).
Proof.
  intro c. unfold can_sample_task, has_task_sampling. destruct (cc_tasks (cl_caps c)) as [[[[l k] m] e]|]; [|split; [easy|now intros (? & ? & ? & ?)]].
  split; [intros ->; now exists l, k, e|]. intros (? & ? & ? & H). now injection H.
Qed.
Lemma can_elicit_iff : forall c, can_elicit_task c = true <-> has_task_elicit (cl_caps c).
Proof.
  intro c. unfold can_elicit_task, has_task_elicit. destruct (cc_tasks (cl_caps c)) as [[[[l k] m] e]|]; [|split; [easy|now intros (? & ? & ? & ?)]].
  split; [intros ->; now exists l, k, m|]. intros (? & ? & ? & H). now injection H.
Qed.
Lemma refuses : forall a mid q c m, (rq_method q, m) = (bs "roots/list", bs "No roots/list handler registered") /\ ap_roots a = None \/
    (rq_method q, m) = (bs "elicitation/create", bs "No elicitation handler registered") /\ ap_elicit a = None \/
    (rq_method q, m) = (bs "sampling/createMessage", bs "No sampling handler registered") /\ ap_sample a = None /\ ap_sample_stop a = None /\ ~ task_request q \/
    (rq_method q, m) = (bs "tasks/get", bs "Tasks not supported") /\ ~ has_tasks (cl_caps c) \/
    (rq_method q, m) = (bs "tasks/list", bs "Task listing not supported") /\ ~ has_task_list (cl_caps c) \/
    (rq_method q, m) = (bs "tasks/result", bs "Tasks not supported") /\ ~ has_tasks (cl_caps c) \/
    (rq_method q, m) = (bs "tasks/cancel", bs "Task cancellation not supported") /\ ~ has_task_cancel (cl_caps c) \/
    (rq_method q, m) = (bs "elicitation/create", bs "Task-augmented elicitation not supported") /\ ap_elicit a <> None /\ task_request q /\
      (cl_strict c = true -> ElicitRequest (or_null (rq_params q))) /\ ~ has_task_elicit (cl_caps c) \/
    (rq_method q, m) = (bs "sampling/createMessage", bs "Task-augmented sampling not supported") /\ task_request q /\ ~ has_task_sampling (cl_caps c) ->
  exists r, peer_dispatch a mid q c = (Reply r, c) /\ fails r METHOD_NOT_ALLOWED m.
Proof.
  intros a mid q c m H. destruct (respond_fails (rq_id q) METHOD_NOT_ALLOWED m) as (r & R & F). exists r. split; [|exact F]. rewrite <- R.
  destruct H as [[E H]|[[E H]|[[E (H1 & H2 & H3)]|[[E H]|[[E H]|[[E H]|[[E H]|[[E (H1 & H2 & H3 & H4)]|[E (H1 & H2)]]]]]]]]]; assert (rq_method q = fst (rq_method q, m)) as M by reflexivity;
    rewrite E in M; cbn [fst] in M; apply (f_equal snd) in E; cbn [snd] in E; subst m.
  - rewrite peer_roots by exact M. unfold handle_roots. now rewrite H.
  - rewrite peer_elicit by exact M. unfold handle_elicit. now rewrite H.
  - rewrite peer_create by exact M. unfold handle_create.
    assert (fst (parse_metadata (rq_params q) None) = false) as T.
    { unfold parse_metadata. destruct (rq_params q) as [[]|] eqn:P; try reflexivity. destruct (obj_get (bs "task") l) as [[]|] eqn:G; try reflexivity.
      exfalso. apply H3. exists l, l0. now split. }
    destruct (parse_metadata (rq_params q) None) as [b ttl]. cbn [fst] in T. subst b. cbn [andb]. unfold the_sampler. now rewrite H1, H2.
  - rewrite peer_get by exact M. unfold peer_get_task, can_task. unfold has_tasks in H. destruct (cc_tasks (cl_caps c)); [now contradiction H|reflexivity].
  - rewrite peer_list by exact M. unfold peer_list_tasks. assert (can_list c = false) as ->; [|reflexivity].
    apply not_true_iff_false. now rewrite can_list_iff.
  - rewrite peer_result by exact M. unfold peer_task_result, can_task. unfold has_tasks in H. destruct (cc_tasks (cl_caps c)); [now contradiction H|reflexivity].
  - rewrite peer_cancel by exact M. unfold peer_cancel_task. assert (can_cancel c = false) as ->; [|reflexivity].
    apply not_true_iff_false. now rewrite can_cancel_iff.
  - rewrite peer_elicit by exact M. unfold handle_elicit. destruct (ap_elicit a); [|easy]. destruct H2 as (o & t & P & T).
    unfold or_null in H3. rewrite P in H3 |- *.
    assert (cl_strict c && negb (valid_elicitation_request (JObj o)) = false)%bool as ->.
    { destruct (cl_strict c); [|reflexivity]. specialize (H3 eq_refl). apply elicit_request_iff in H3. now rewrite H3. }
    unfold parse_metadata. rewrite T. assert (can_elicit_task c = false) as ->; [|reflexivity].
    apply not_true_iff_false. now rewrite can_elicit_iff.
  - rewrite peer_create by exact M. unfold handle_create. destruct H1 as (o & t & P & T). rewrite P. unfold parse_metadata. rewrite T.
    assert (can_sample_task c = false) as ->; [|reflexivity]. apply not_true_iff_false. now rewrite can_sample_iff.
Qed.
