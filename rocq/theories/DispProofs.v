From Coq Require Import Ascii String List Permutation Arith NArith ZArith Bool Lia.
From Verif Require Import StrModel StrProofs DoubleModel JsonModel JsonSpec RpcModel TaskModel RegModel RegSpec ValModel ValSpec ValProofs ReadModel SubModel LogModel ServModel ServSpec ServProofs CallProofs DispSpec.
Import ListNotations.
Local Open Scope nat_scope.

Lemma tool_keeps : forall w mid p s, let s' := snd (handle_tool w mid p s) in
  sv_subs s' = sv_subs s /\ sv_level s' = sv_level s /\ sv_sent s' = sv_sent s /\ sv_reg s' = sv_reg s.
Proof.
  intros w mid p s. cbn zeta. unfold handle_tool.
  repeat match goal with |- context[match ?b with _ => _ end] => destruct b end; now repeat split.
Qed.
Lemma cancel_keeps : forall w p s, let s' := snd (handle_cancel_task w p s) in
  sv_subs s' = sv_subs s /\ sv_level s' = sv_level s /\ sv_sent s' = sv_sent s /\ sv_reg s' = sv_reg s.
Proof.
  intros w p s. cbn zeta. unfold handle_cancel_task.
  repeat match goal with |- context[match ?b with _ => _ end] => destruct b end; now repeat split.
Qed.
Lemma init_keeps : forall p s, let s' := snd (handle_initialize p s) in
  sv_subs s' = sv_subs s /\ sv_level s' = sv_level s /\ sv_sent s' = sv_sent s /\ sv_reg s' = sv_reg s.
Proof.
  intros p s. cbn zeta. unfold handle_initialize.
  repeat match goal with |- context[match ?b with _ => _ end] => destruct b end; now repeat split.
Qed.

(** What a request changes outside the tasks and the client's capabilities. *)
Lemma dispatch_changes : forall w pre mid post q s, let s' := snd (dispatch w pre mid post q s) in
  let m := rq_method q in
  sv_subs s' = (if beq m (bs "resources/subscribe") then subscribe (rq_params q) (sv_subs s)
                else if beq m (bs "resources/unsubscribe") then unsubscribe (rq_params q) (sv_subs s) else sv_subs s) /\
  sv_level s' = (if beq m (bs "logging/setLevel") then match set_level (rq_params q) with inr l => l | inl _ => sv_level s end else sv_level s) /\
  sv_sent s' = (if (beq m (bs "initialize") && w_connected w)%bool then sv_sent s ++ INIT_NOTES else sv_sent s) /\
  sv_reg s' = sv_reg s.
Proof.
  intros w pre mid post q s. cbv zeta. unfold dispatch.
  repeat match goal with
  | |- context[if beq (rq_method q) ?x then _ else _] =>
      let E := fresh "E" in destruct (beq (rq_method q) x) eqn:E;
        [apply beq_eq in E; rewrite E; methods; cbn [andb]|]
  end; try (now repeat split).
  - pose proof (init_keeps (rq_params q) s) as (A & B & C & D). destruct (handle_initialize (rq_params q) s) as [v s1]. cbn [snd] in *.
    destruct (w_connected w); cbn [snd add_sent sv_subs sv_level sv_sent sv_reg]; rewrite A, B, C, D; now repeat split.
  - destruct (set_level (rq_params q)) as [[c msg]|l]; now repeat split.
  - pose proof (cancel_keeps w (rq_params q) s) as H. destruct (handle_cancel_task w (rq_params q) s) as [v s1]. exact H.
  - pose proof (tool_keeps w mid (rq_params q) s) as H. destruct (handle_tool w mid (rq_params q) s) as [v s1]. exact H.
  - destruct pre; now repeat split.
  - destruct (beq (rq_method q) (bs "resources/subscribe")); now repeat split.
Qed.

Lemma all_snoc : forall l a s, handled_all (l ++ [a]) s =
  snd (dispatch (ar_world a) (ar_pre a) (ar_mid a) (ar_post a) (ar_req a) (handled_all l s)).
Proof. intros l a s. unfold handled_all. now rewrite fold_left_app. Qed.

Lemma all_subs : forall l s, sv_subs (handled_all l s) = fold_left sub_step (sub_requests l) (sv_subs s).
Proof.
  intros l s. induction l as [|a l IH] using rev_ind; [reflexivity|]. rewrite all_snoc.
  rewrite (proj1 (dispatch_changes _ _ _ _ _ _)), IH. unfold sub_requests. rewrite flat_map_app, fold_left_app. cbn [flat_map].
  rewrite app_nil_r. destruct (beq _ (bs "resources/subscribe")); [reflexivity|]. now destruct (beq _ (bs "resources/unsubscribe")).
Qed.

Lemma all_level : forall l s g, sv_level s = lg_min g -> sv_level (handled_all l s) = lg_min (log_run g (level_requests l)).
Proof.
  intros l s g H. induction l as [|a l IH] using rev_ind; [exact H|]. rewrite all_snoc.
  rewrite (proj1 (proj2 (dispatch_changes _ _ _ _ _ _))), IH. unfold level_requests. rewrite flat_map_app. unfold log_run. rewrite fold_left_app. cbn [flat_map].
  rewrite app_nil_r. destruct (beq _ (bs "logging/setLevel")); [|reflexivity]. cbn [fold_left log_step].
  destruct (set_level (rq_params (ar_req a))) as [[? ?]|]; reflexivity.
Qed.

Lemma all_sent : forall l s, sv_sent (handled_all l s) = sv_sent s ++ concat (repeat INIT_NOTES (init_requests l)).
Proof.
  intros l s. induction l as [|a l IH] using rev_ind; [cbn; now rewrite app_nil_r|]. rewrite all_snoc.
  rewrite (proj1 (proj2 (proj2 (dispatch_changes _ _ _ _ _ _)))), IH. unfold init_requests. rewrite filter_app, app_length. cbn [filter].
  destruct (beq _ (bs "initialize") && w_connected (ar_world a))%bool; cbn [length].
  - rewrite repeat_app, concat_app, app_assoc. cbn [repeat concat]. now rewrite app_nil_r.
  - now rewrite Nat.add_0_r.
Qed.

Lemma all_reg : forall l s, sv_reg (handled_all l s) = sv_reg s.
Proof.
  intros l s. induction l as [|a l IH] using rev_ind; [reflexivity|]. rewrite all_snoc.
  now rewrite (proj2 (proj2 (proj2 (dispatch_changes _ _ _ _ _ _)))).
Qed.

(** Listings. *)
Lemma asked_tools : forall w s i p, sv_strict s = false -> asked w s i (bs "tools/list") p = tools_list (sv_reg s) p.
Proof. intros w s i p H. unfold asked, dispatch. cbn [rq_method rq_params]. methods. unfold tools_answer, checked. now rewrite H. Qed.
Lemma asked_resources : forall w s i p, sv_strict s = false -> asked w s i (bs "resources/list") p = resources_list (ui_client s) (sv_reg s) p.
Proof. intros w s i p H. unfold asked, dispatch. cbn [rq_method rq_params]. methods. unfold resources_answer, checked. now rewrite H. Qed.
Lemma asked_templates : forall w s i p, sv_strict s = false -> asked w s i (bs "resources/templates/list") p = templates_list (sv_reg s) p.
Proof. intros w s i p H. unfold asked, dispatch. cbn [rq_method rq_params]. methods. unfold templates_answer, checked. now rewrite H. Qed.
Lemma asked_prompts : forall w s i p, sv_strict s = false -> asked w s i (bs "prompts/list") p = prompts_list (sv_reg s) p.
Proof. intros w s i p H. unfold asked, dispatch. cbn [rq_method rq_params]. methods. unfold prompts_answer, checked. now rewrite H. Qed.

Lemma follow_ext : forall f g key n c pages, (forall p, f p = g p) -> follow f key n c pages -> follow g key n c pages.
Proof.
  intros f g key n c pages E F. induction F as [c params items A P|c params items c' rest A P _ IH].
  - eapply follow_last; [exact A|]. now rewrite <- E.
  - eapply follow_more; [exact A| |exact IH]. now rewrite <- E.
Qed.

(** Sampling. *)
Lemma dispatch_sampling : forall w pre mid post q s, rq_method q = bs "sampling/createMessage" ->
  dispatch w pre mid post q s = (respond (rq_id q) (handle_sampling w mid (rq_params q) s), s).
Proof. intros w pre mid post q s H. unfold dispatch. rewrite H. methods. reflexivity. Qed.
Lemma dispatch_read : forall w pre mid q s, rq_method q = bs "resources/read" ->
  dispatch w pre mid false q s = (respond (rq_id q) (handle_read (read_config s) (sv_reg s) (w_read w) mid (rq_params q)), s).
Proof. intros w pre mid q s H. unfold dispatch. rewrite H. methods. reflexivity. Qed.
