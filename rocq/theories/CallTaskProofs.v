From Coq Require Import Ascii String List Permutation Arith NArith ZArith Bool Lia.
From Verif Require Import StrModel StrProofs DoubleModel JsonModel JsonSpec JsonProofs ObjSpec ObjProofs MapModel MapProofs RpcModel TaskModel TaskSpec TaskProofs DescModel DescSpec DescProofs RegModel RegSpec RegProofs ValModel ValSpec ValProofs ReadModel SubModel LogModel ServModel ServSpec ServProofs CallProofs.
Import ListNotations.
Local Open Scope nat_scope.

Lemma log_step : forall s v a x, In (a, x) (ts_log (ts_step s v)) -> In (a, x) (ts_log s) \/ v = TTerminal a.
Proof.
  intros s v a x H. destruct v as [k ttl now|b|n|i|n]; cbn [ts_step] in H.
  - now left.
  - unfold ts_terminal in H. destruct (aget _ _) as [r|]; [destruct (_ || _)%bool|]; cbn [snd ts_log] in H;
      apply in_app_iff in H as [H|[[= -> _]|[]]]; auto.
  - destruct (take_nth n (ts_emit s)) as [[y rest]|]; now left.
  - destruct (aget i (ts_recs s)); now left.
  - destruct (take_nth n (ts_waiting s)) as [[y rest]|]; [|now left].
    destruct (aget y (ts_recs s)) as [r|]; [|now left]. destruct (tr_payload r); now left.
Qed.

Lemma log_run : forall vs s a x, In (a, x) (ts_log (ts_run s vs)) -> In (a, x) (ts_log s) \/ In (TTerminal a) vs.
Proof.
  induction vs as [|v vs IH] using rev_ind; intros s a x H; [now left|].
  rewrite ts_run_app in H. cbn [ts_run fold_left] in H. apply log_step in H as [H| ->].
  - apply IH in H as [H|H]; [now left|right]. apply in_app_iff. now left.
  - right. apply in_app_iff. right. now left.
Qed.

Lemma untouched_wins : forall vs i, untouched i vs -> ~ In i (map (fun w => at_id (fst w)) (wins (ts_run tstore0 vs))).
Proof.
  intros vs i U H. apply in_map_iff in H as ([a t] & E & I). cbn [fst] in E.
  unfold wins in I. apply in_flat_map in I as ([b x] & J & K). cbn [snd fst] in K. destruct x; try contradiction.
  destruct K as [[= -> _]|[]]. apply log_run in J as [[]|J]. now apply (U a J).
Qed.

Lemma created_step : forall s v x, In x (ts_created s) -> In x (ts_created (ts_step s v)).
Proof.
  intros s v x H. destruct v as [k ttl now|b|n|i|n]; cbn [ts_step].
  - cbn. apply in_app_iff. now left.
  - unfold ts_terminal. destruct (aget _ _) as [r|]; [destruct (_ || _)%bool|]; exact H.
  - destruct (take_nth n (ts_emit s)) as [[y rest]|]; exact H.
  - destruct (aget i (ts_recs s)); exact H.
  - destruct (take_nth n (ts_waiting s)) as [[y rest]|]; [|exact H].
    destruct (aget y (ts_recs s)) as [r|]; [|exact H]. destruct (tr_payload r); exact H.
Qed.

Lemma created_run : forall vs s x, In x (ts_created s) -> In x (ts_created (ts_run s vs)).
Proof.
  induction vs as [|v vs IH]; intros s x H; [exact H|]. cbn [ts_run fold_left]. apply IH. now apply created_step.
Qed.

Lemma won_outcome : forall a s t, fst (ts_terminal a s) = Won t -> TaskSpec.outcome (at_id a) (snd (ts_terminal a s)) = Some (at_error a, at_payload a).
Proof.
  intros a s t H. unfold ts_terminal in *. destruct (aget (at_id a) (ts_recs s)) as [r|]; [|discriminate].
  destruct (_ || _)%bool; [discriminate|]. unfold TaskSpec.outcome. cbn [snd ts_recs]. now rewrite aget_aset_same.
Qed.

Lemma task_ends : forall vs k ttl now us a ws,
  let i := tk_id (new_task (ts_next (ts_run tstore0 vs)) now ttl) in
  few (vs ++ TCreate k ttl now :: us ++ TTerminal a :: ws) -> untouched i (vs ++ us) -> at_id a = i ->
  let s := ts_run tstore0 (vs ++ TCreate k ttl now :: us ++ TTerminal a :: ws) in
  ts_kind i s = Some k /\ TaskSpec.outcome i s = Some (at_error a, at_payload a).
Proof.
  intros vs k ttl now us a ws i F U A s.
  set (h := vs ++ TCreate k ttl now :: us).
  assert (vs ++ TCreate k ttl now :: us ++ TTerminal a :: ws = (h ++ [TTerminal a]) ++ ws) as E by (unfold h; rewrite <- !app_assoc; reflexivity).
  assert (few ((h ++ [TTerminal a]) ++ ws)) as F0 by now rewrite <- E.
  assert (few (h ++ [TTerminal a])) as F1 by now apply few_app in F0.
  assert (few h) as F2 by now apply few_app in F1.
  assert (In (new_task (ts_next (ts_run tstore0 vs)) now ttl, k) (ts_created (ts_run tstore0 h))) as C.
  { unfold h. rewrite ts_run_app. cbn [ts_run fold_left]. apply created_run. cbn. apply in_app_iff. right. now left. }
  assert (untouched i h) as U'.
  { intros b I. apply U. unfold h in I. apply in_app_iff in I as [I|[I|I]]; [|discriminate|]; apply in_app_iff; auto. }
  split.
  - destruct (created_found ((h ++ [TTerminal a]) ++ ws) (new_task (ts_next (ts_run tstore0 vs)) now ttl) k F0) as [K _].
    + rewrite !ts_run_app. apply created_run. cbn [ts_run fold_left]. now apply created_step.
    + unfold s. rewrite E. exact K.
  - destruct (created_found h _ k F2 C) as (_ & t' & G & _). fold i in G.
    assert (~ In (at_id a) (map (fun w => at_id (fst w)) (wins (ts_run tstore0 h)))) as W by (rewrite A; now apply untouched_wins).
    rewrite <- A in G. pose proof (first_wins h a t' F2 G W) as W1.
    apply won_outcome in W1. rewrite A in W1.
    assert (TaskSpec.outcome i (ts_run tstore0 (h ++ [TTerminal a])) = Some (at_error a, at_payload a)) as O.
    { rewrite ts_run_app. exact W1. }
    unfold s. rewrite E. exact (proj1 (outcome_frozen _ ws i _ F0 O)).
Qed.

(** tasks/result for a task with an outcome. *)
Lemma result_reply : forall w pre mid post q s i e p k, requests q (bs "tasks/result") (JObj [(bs "taskId", JStr i)]) ->
  TaskSpec.outcome i (sv_tasks s) = Some (e, p) -> ts_kind i (sv_tasks s) = Some k ->
  dispatch w pre mid post q s = (finish_result (rq_id q) (sv_strict s) (Some k) i (Some (e, p)), s).
Proof.
  intros w pre mid post q s i e p k (M & v & P & S) O K. rewrite dispatch_result by exact M. rewrite P.
  unfold handle_task_result.
  rewrite (parse_task_id_json i [(bs "taskId", JStr i)] v); [|constructor; [now intros []|constructor]|reflexivity|exact S].
  unfold TaskSpec.outcome in O. unfold ts_kind in K. destruct (aget i (ts_recs (sv_tasks s))) as [r|]; [|discriminate].
  cbn [option_map] in K. injection K as K. rewrite K. destruct (tr_payload r) as [x|]; [|discriminate]. now injection O as <- <-.
Qed.

Lemma worker_good : forall strict i now out, (strict = true -> Forall Content (to_content out)) ->
  at_id (tool_worker strict i now (Ret out)) = i /\ at_error (tool_worker strict i now (Ret out)) = false /\
  at_payload (tool_worker strict i now (Ret out)) = tool_json_out out /\
  at_status (tool_worker strict i now (Ret out)) = if to_error out then bs "failed" else bs "completed".
Proof.
  intros strict i now out V. unfold tool_worker.
  assert (strict && negb (valid_call_tool (tool_json_out out)) = false)%bool as ->.
  { destruct strict; [|reflexivity]. specialize (V eq_refl). apply tool_valid in V. now rewrite V. }
  repeat split.
Qed.

Lemma attach_valid : forall t i, (Forall Content (to_content t)) -> valid_call_tool (attach_result (tool_json_out t) i) = true.
Proof.
  intros t i V. apply tool_valid in V. unfold tool_json_out, tool_result_json in *.
  destruct (attach_result_obj (obj_set (bs "isError") (JBool (to_error t)) (opt_set META (fun x => x) (to_meta t) (opt_set (bs "structuredContent") (fun x => x) (to_struct t) (obj_set (bs "content") (JArr (to_content t)) [])))) i) as (o' & E & G & _).
  rewrite E. unfold valid_call_tool, arr_field, opt_bool, opt_field in *. rewrite !G by discriminate. exact V.
Qed.

Lemma task_result : forall w pre mid post q s vs ttl now us now' ws out,
  let i := tk_id (new_task (ts_next (ts_run tstore0 vs)) now ttl) in
  let a := tool_worker (sv_strict s) i now' (Ret out) in
  few (vs ++ TCreate KToolCall ttl now :: us ++ TTerminal a :: ws) -> untouched i (vs ++ us) ->
  sv_tasks s = ts_run tstore0 (vs ++ TCreate KToolCall ttl now :: us ++ TTerminal a :: ws) ->
  (sv_strict s = true -> Forall Content (to_content out)) ->
  requests q (bs "tasks/result") (JObj [(bs "taskId", JStr i)]) ->
  exists r o, dispatch w pre mid post q s = (Reply r, s) /\ succeeds r (JObj o) /\
    obj_get (bs "content") o = Some (JArr (to_content out)) /\ obj_get (bs "structuredContent") o = to_struct out /\
    obj_get (bs "isError") o = Some (JBool (to_error out)) /\ related_to i (obj_get (bs "_meta") o).
Proof.
  intros w pre mid post q s vs ttl now us now' ws out i a F U T V Q.
  destruct (worker_good (sv_strict s) i now' out V) as (A1 & A2 & A3 & _). fold a in A1, A2, A3.
  destruct (task_ends vs KToolCall ttl now us a ws F U A1) as [K O]. fold i in K, O. rewrite <- T in K, O. rewrite A2, A3 in O.
  rewrite (result_reply _ _ _ _ _ _ _ _ _ _ Q O K). unfold finish_result.
  assert (sv_strict s && negb (valid_call_tool (attach_result (tool_json_out out) i)) = false)%bool as ->.
  { destruct (sv_strict s); [|reflexivity]. specialize (V eq_refl). now rewrite (attach_valid _ _ V). }
  destruct (tool_tells out) as (o & E & T1 & T2 & T3 & T4).
  destruct (attach_result_obj o i) as (o' & E' & G & m & M1 & (x & M2 & M3) & _). rewrite E, E'.
  destruct (respond_result (rq_id q) (JObj o')) as (r & R1 & R2). exists r, o'. rewrite R1. split; [reflexivity|]. split; [exact R2|].
  rewrite !G by discriminate. split; [exact T1|]. split; [exact T2|]. split; [exact T4|]. exists m, x. now split.
Qed.

Lemma task_threw : forall w pre mid post q s vs ttl now us now' ws what,
  let i := tk_id (new_task (ts_next (ts_run tstore0 vs)) now ttl) in
  let a := tool_worker (sv_strict s) i now' (Threw what) in
  few (vs ++ TCreate KToolCall ttl now :: us ++ TTerminal a :: ws) -> untouched i (vs ++ us) ->
  sv_tasks s = ts_run tstore0 (vs ++ TCreate KToolCall ttl now :: us ++ TTerminal a :: ws) ->
  requests q (bs "tasks/result") (JObj [(bs "taskId", JStr i)]) ->
  exists r o, dispatch w pre mid post q s = (Reply r, s) /\ fails r INTERNAL what /\
    rs_error r = Some (JObj o) /\ exists d, obj_get (bs "data") o = Some (JObj d) /\ related_to i (obj_get (bs "_meta") d).
Proof.
  intros w pre mid post q s vs ttl now us now' ws what i a F U T Q.
  destruct (task_ends vs KToolCall ttl now us a ws F U eq_refl) as [K O]. fold i in K, O. rewrite <- T in K, O.
  change (at_error a) with true in O. change (at_payload a) with (error_object INTERNAL what None) in O.
  rewrite (result_reply _ _ _ _ _ _ _ _ _ _ Q O K). unfold finish_result, error_object.
  set (eo := [(bs "code", JInt INTERNAL); (bs "message", JStr what)] ++ []).
  destruct (attach_error_obj eo i) as (o' & E' & G & d & D1 & _ & m & M1 & (x & M2 & M3) & _). rewrite E'.
  assert (NoDup (map fst o')) as N.
  { assert (exists y, o' = obj_set DATA y eo) as [y ->] by (eexists; unfold attach_error in E'; symmetry; apply (f_equal (fun v => match v with JObj z => z | _ => [] end)) in E'; exact E').
    apply nodup_set. unfold eo. cbn [map fst app]. repeat constructor; cbn [In]; intuition discriminate. }
  eexists _, o'. split; [reflexivity|]. split.
  - split; [reflexivity|]. exists o'. split; [reflexivity|]. split; [exact N|]. split; (rewrite G by discriminate; reflexivity).
  - split; [reflexivity|]. exists d. split; [exact D1|]. exists m, x. now split.
Qed.
