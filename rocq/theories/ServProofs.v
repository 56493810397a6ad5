From Coq Require Import Ascii String List Permutation Arith NArith ZArith Bool Lia.
From Verif Require Import StrModel StrProofs DoubleModel JsonModel JsonSpec JsonProofs ObjSpec ObjProofs MapModel MapProofs RpcModel TaskModel TaskSpec TaskProofs DescModel DescSpec DescProofs RegModel RegSpec RegProofs ValModel ValSpec ValProofs ReadModel SubModel LogModel ServModel ServSpec.
Import ListNotations.
Local Open Scope nat_scope.

Lemma respond_answers : forall q a r, respond (rq_id q) a = Reply r -> answers q r.
Proof.
  intros q [c m|v] r [= <-]; split; try reflexivity; [right|left]; cbn; split; easy.
Qed.

Lemma respond_waits : forall i a t, respond i a <> Waits t.
Proof. intros i [c m|v] t; discriminate. Qed.

Lemma finish_answers : forall q strict k t p r, finish_result (rq_id q) strict k t p = Reply r -> answers q r.
Proof.
  intros q strict k t p r H. unfold finish_result in H. destruct p as [[[] v]|].
  - injection H as <-. split; [reflexivity|]. right. cbn. easy.
  - revert H. set (b := (strict && negb _)%bool). destruct b; apply respond_answers.
  - now apply respond_answers in H.
Qed.

Lemma finish_waits : forall i strict k t p x, finish_result i strict k t p <> Waits x.
Proof.
  intros i strict k t p x. unfold finish_result. destruct p as [[[] v]|]; [discriminate| |apply respond_waits].
  set (b := (strict && negb _)%bool). destruct b; apply respond_waits.
Qed.

(** One case per method. *)
Inductive outcome_of (w : world) (pre mid post : bool) (q : request) (s : server) (d : done) (s' : server) : Prop :=
| of_plain a : d = respond (rq_id q) a -> s' = s -> outcome_of w pre mid post q s d s'
| of_init v : rq_method q = bs "initialize" -> d = respond (rq_id q) (AResult v) -> outcome_of w pre mid post q s d s'
| of_level : rq_method q = bs "logging/setLevel" -> d = respond (rq_id q) (AResult (JObj [])) -> outcome_of w pre mid post q s d s'
| of_result : rq_method q = bs "tasks/result" -> d = handle_task_result (rq_id q) (rq_params q) s -> s' = s -> outcome_of w pre mid post q s d s'
| of_cancel : rq_method q = bs "tasks/cancel" ->
    d = respond (rq_id q) (fst (handle_cancel_task w (rq_params q) s)) -> s' = snd (handle_cancel_task w (rq_params q) s) ->
    outcome_of w pre mid post q s d s'
| of_call : rq_method q = bs "tools/call" ->
    d = respond (rq_id q) (if post then CANCELLED_ANSWER else fst (handle_tool w mid (rq_params q) s)) -> s' = snd (handle_tool w mid (rq_params q) s) ->
    outcome_of w pre mid post q s d s'
| of_subs : d = respond (rq_id q) (AResult (JObj [])) -> outcome_of w pre mid post q s d s'.

Lemma dispatch_outcome : forall w pre mid post q s d s', dispatch w pre mid post q s = (d, s') -> outcome_of w pre mid post q s d s'.
Proof.
  intros w pre mid post q s d s'. unfold dispatch.
  repeat match goal with |- (if beq (rq_method q) ?m then _ else _) = _ -> _ =>
    let E := fresh "E" in destruct (beq (rq_method q) m) eqn:E; [apply beq_eq in E|] end.
  all: try (intros K; apply pair_equal_spec in K as [<- <-]; solve [eapply of_plain; reflexivity | apply of_subs; reflexivity]).
  - rewrite (surjective_pairing (handle_initialize (rq_params q) s)). intros K. apply pair_equal_spec in K as [<- <-]. now eapply of_init.
  - destruct (set_level (rq_params q)) as [[c m]|l]; intros K; apply pair_equal_spec in K as [<- <-]; [now eapply of_plain|now apply of_level].
  - intros K. apply pair_equal_spec in K as [<- <-]. now apply of_result.
  - rewrite (surjective_pairing (handle_cancel_task w (rq_params q) s)). intros K. apply pair_equal_spec in K as [<- <-]. now apply of_cancel.
  - rewrite (surjective_pairing (handle_tool w mid (rq_params q) s)). intros K. apply pair_equal_spec in K as [<- <-]. now apply of_call.
  - destruct pre; intros K; apply pair_equal_spec in K as [<- <-]; now eapply of_plain.
Qed.

Lemma dispatch_answers : forall w pre mid post q s r s', dispatch w pre mid post q s = (Reply r, s') -> answers q r.
Proof.
  intros w pre mid post q s r s' H. apply dispatch_outcome in H.
  destruct H as [a H _|v _ H|_ H|_ K _|_ H _|_ H _|H]; try (symmetry in H; now apply respond_answers in H).
  unfold handle_task_result in K. destruct (parse_task_id (rq_params q)) as [[] t]; [|symmetry in K; now apply respond_answers in K].
  destruct (aget t (ts_recs (sv_tasks s))) as [x|]; [destruct (tr_payload x)|]; try discriminate; symmetry in K; now apply finish_answers in K.
Qed.

Lemma dispatch_waits : forall w pre mid post q s t s', dispatch w pre mid post q s = (Waits t, s') ->
  s' = s /\ rq_method q = bs "tasks/result" /\ parse_task_id (rq_params q) = (true, t) /\ unfinished t (sv_tasks s).
Proof.
  intros w pre mid post q s t s' H. apply dispatch_outcome in H.
  destruct H as [a H _|v _ H|_ H|M K ->|_ H _|_ H _|H]; try (symmetry in H; now apply respond_waits in H).
  split; [reflexivity|]. split; [assumption|].
  unfold handle_task_result in K. destruct (parse_task_id (rq_params q)) as [[] i]; [|symmetry in K; now apply respond_waits in K].
  destruct (aget i (ts_recs (sv_tasks s))) as [x|] eqn:G; [destruct (tr_payload x) eqn:P|]; try (symmetry in K; now apply finish_waits in K).
  injection K as ->. split; [reflexivity|]. unfold unfinished, ts_get, TaskSpec.outcome. rewrite G, P. easy.
Qed.

Lemma dispatch_unknown : forall w pre mid post q s, ~ In (rq_method q) methods ->
  dispatch w pre mid post q s = (Reply (error_response (rq_id q) METHOD_NOT_FOUND (bs "Method not found") None), s).
Proof.
  intros w pre mid post q s N. unfold dispatch.
  repeat match goal with |- (if beq (rq_method q) ?m then _ else _) = _ =>
    let E := fresh "E" in destruct (beq (rq_method q) m) eqn:E; [apply beq_eq in E; exfalso; apply N; rewrite E; unfold methods; cbn [In]; tauto|] end.
  reflexivity.
Qed.

Lemma created_valid : forall t m, valid_created (created_json t m) = true.
Proof. intros t m. apply created_iff, created_json_valid. Qed.
Lemma task_valid : forall t, valid_task (task_json t) = true.
Proof. intros t. apply task_iff, task_json_valid. Qed.

Lemma quiet_refl : forall s, quiet s s.
Proof. intro s. repeat split. Qed.

Lemma handle_tool_quiet : forall w mid p s, fst (parse_metadata p None) = false -> snd (handle_tool w mid p s) = s.
Proof.
  intros w mid p s H. unfold handle_tool. destruct (parse_metadata p None) as [b ttl]. cbn [fst] in H. subst b.
  destruct (call_name p); [reflexivity|].
  destruct (tool_handler _ _); [|reflexivity].
  cbn [negb andb]. destruct (beq _ _); [reflexivity|].
  destruct (w_tool w _ _); [|reflexivity]. destruct mid; [reflexivity|]. destruct (_ && _)%bool; reflexivity.
Qed.

Lemma handle_tool_error : forall w mid p s c m, fst (handle_tool w mid p s) = AError c m -> snd (handle_tool w mid p s) = s.
Proof.
  intros w mid p s c m H. unfold handle_tool in *. destruct (parse_metadata p None) as [b ttl].
  destruct (call_name p); [reflexivity|].
  destruct (tool_handler _ _); [|reflexivity].
  destruct (negb b && _)%bool; [reflexivity|]. destruct (b && _)%bool; [reflexivity|]. destruct b.
  - rewrite created_valid, andb_false_r in H. discriminate.
  - destruct (w_tool w _ _); [|reflexivity]. destruct mid; [reflexivity|]. destruct (_ && _)%bool; reflexivity.
Qed.

Lemma handle_cancel_error : forall w p s c m, fst (handle_cancel_task w p s) = AError c m -> quiet s (snd (handle_cancel_task w p s)).
Proof.
  intros w p s c m H. unfold handle_cancel_task, strict_task in *.
  destruct (negb _); [apply quiet_refl|]. destruct (parse_task_id p) as [[] i]; [|apply quiet_refl].
  unfold ts_terminal in *. destruct (aget _ (ts_recs (sv_tasks s))) as [r|]; [|repeat split].
  destruct (_ || _)%bool; [repeat split|].
  cbn [fst] in H. rewrite task_valid, andb_false_r in H. discriminate.
Qed.

Lemma respond_error : forall i a r, respond i a = Reply r -> rs_error r <> None -> exists c m, a = AError c m.
Proof. intros i [c m|v] r [= <-] N; [eauto|]. now cbn in N. Qed.

Lemma error_quiet : forall w pre mid post q s r s', dispatch w pre mid post q s = (Reply r, s') -> rs_error r <> None ->
  ~ (post = true /\ rq_method q = bs "tools/call" /\ task_request q) -> quiet s s'.
Proof.
  intros w pre mid post q s r s' H E N. apply dispatch_outcome in H.
  destruct H as [a H ->|v _ H|_ H|M K ->|_ H ->|M H ->|H]; try apply quiet_refl; symmetry in H; destruct (respond_error _ _ _ H E) as (c & m & K);
    try discriminate.
  - now apply handle_cancel_error in K.
  - destruct post.
    + rewrite handle_tool_quiet; [apply quiet_refl|].
      destruct (fst (parse_metadata (rq_params q) None)) eqn:P; [|reflexivity]. exfalso. apply N. split; [reflexivity|]. split; [assumption|].
      unfold parse_metadata in P. destruct (rq_params q) as [[| | | | | |o]|] eqn:Q; try discriminate.
      destruct (obj_get (bs "task") o) as [[| | | | | |t]|] eqn:T; try discriminate. exists o, t. now rewrite Q.
    + apply handle_tool_error in K. rewrite K. apply quiet_refl.
Qed.
