From Coq Require Import Ascii String List Permutation Arith NArith ZArith Bool Lia.
From Verif Require Import StrModel StrProofs DoubleModel JsonModel JsonSpec JsonProofs ObjSpec ObjProofs MapModel MapProofs RpcModel TaskModel TaskSpec TaskProofs DescModel DescSpec DescProofs RegModel RegSpec RegProofs ValModel ValSpec ValProofs ReadModel SubModel LogModel ErrModel ErrSpec ErrProofs ServModel ServSpec ServProofs.
Import ListNotations.
Local Open Scope nat_scope.

Ltac methods := repeat match goal with |- context [beq (bs ?a) (bs ?b)] =>
  let r := eval vm_compute in (beq (bs a) (bs b)) in change (beq (bs a) (bs b)) with r end; cbv iota.

Lemma dispatch_call : forall w pre mid q s, rq_method q = bs "tools/call" ->
  dispatch w pre mid false q s = (respond (rq_id q) (fst (handle_tool w mid (rq_params q) s)), snd (handle_tool w mid (rq_params q) s)).
Proof. intros w pre mid q s H. unfold dispatch. rewrite H. methods. now destruct (handle_tool _ _ _ _). Qed.

Lemma dispatch_call_post : forall w pre mid q s, rq_method q = bs "tools/call" ->
  dispatch w pre mid true q s = (respond (rq_id q) CANCELLED_ANSWER, snd (handle_tool w mid (rq_params q) s)).
Proof. intros w pre mid q s H. unfold dispatch. rewrite H. methods. now destruct (handle_tool _ _ _ _). Qed.

Lemma dispatch_prompt : forall w mid q s, rq_method q = bs "prompts/get" ->
  dispatch w false mid false q s = (respond (rq_id q) (handle_prompt w (rq_params q) s), s).
Proof. intros w mid q s H. unfold dispatch. rewrite H. methods. reflexivity. Qed.

Lemma dispatch_complete : forall w pre mid post q s, rq_method q = bs "completion/complete" ->
  dispatch w pre mid post q s = (respond (rq_id q) (handle_complete w (rq_params q) s), s).
Proof. intros w pre mid post q s H. unfold dispatch. rewrite H. methods. reflexivity. Qed.

Lemma dispatch_result : forall w pre mid post q s, rq_method q = bs "tasks/result" ->
  dispatch w pre mid post q s = (handle_task_result (rq_id q) (rq_params q) s, s).
Proof. intros w pre mid post q s H. unfold dispatch. rewrite H. methods. reflexivity. Qed.

Lemma dispatch_initialize : forall w pre mid post q s, rq_method q = bs "initialize" ->
  dispatch w pre mid post q s =
    (respond (rq_id q) (AResult (fst (handle_initialize (rq_params q) s))),
     if w_connected w then add_sent INIT_NOTES (snd (handle_initialize (rq_params q) s)) else snd (handle_initialize (rq_params q) s)).
Proof. intros w pre mid post q s H. unfold dispatch. rewrite H. methods. now destruct (handle_initialize _ _). Qed.

Lemma respond_result : forall i v, exists r, respond i (AResult v) = Reply r /\ succeeds r v.
Proof. intros i v. eexists. split; [reflexivity|now split]. Qed.
Lemma respond_fails : forall i c m, exists r, respond i (AError c m) = Reply r /\ fails r c m.
Proof.
  intros i c m. eexists. split; [reflexivity|]. split; [reflexivity|]. eexists. split; [reflexivity|]. split; [|split; vm_compute; reflexivity].
  cbn. repeat constructor; cbn; intuition discriminate.
Qed.

(** The parameters of a call as received. *)
Lemma call_received : forall n a p, same (call_params n a) p ->
  call_name (Some p) = n /\ parse_metadata (Some p) None = (false, None) /\ same a (call_args (Some p)).
Proof.
  intros n a p H. unfold call_params in H. set (o := obj_set _ _ _) in H.
  assert (NoDup (map fst o)) as N by (unfold o; nodups).
  assert (exists o', p = JObj o') as [o' ->] by (apply same_obj_inv in H as (? & ? & -> & _); eauto).
  assert (obj_get (bs "name") o' = Some (JStr n)) as G1 by (apply (same_get_str _ _ _ _ N H); unfold o; objs; reflexivity).
  assert (obj_get (bs "task") o' = None) as G3 by (apply (same_get_none _ _ _ N H); unfold o; objs; reflexivity).
  destruct (same_get_some (bs "arguments") _ _ a N H) as (a' & G2 & S); [unfold o; objs; reflexivity|].
  unfold call_name, call_args, parse_metadata, get_str. rewrite G1, G2, G3. split; [reflexivity|]. now split.
Qed.

Lemma task_received : forall n a ttl p, same (task_params n a ttl) p ->
  call_name (Some p) = n /\ parse_metadata (Some p) None = (true, ttl) /\ same a (call_args (Some p)).
Proof.
  intros n a ttl p H. unfold task_params in H. set (o := obj_set (bs "task") _ _) in H.
  assert (NoDup (map fst o)) as N by (unfold o; nodups).
  assert (parse_metadata (Some p) None = (true, ttl)) as G3.
  { rewrite (parse_metadata_json ttl o p None N); [now destruct ttl|unfold o; objs; reflexivity|exact H]. }
  assert (exists o', p = JObj o') as [o' ->] by (apply same_obj_inv in H as (? & ? & -> & _); eauto).
  assert (obj_get (bs "name") o' = Some (JStr n)) as G1 by (apply (same_get_str _ _ _ _ N H); unfold o; objs; reflexivity).
  destruct (same_get_some (bs "arguments") _ _ a N H) as (a' & G2 & S); [unfold o; objs; reflexivity|].
  rewrite G3. unfold call_name, call_args, get_str. rewrite G1, G2. split; [reflexivity|]. now split.
Qed.

Lemma handler_now : forall ops n t h, tool_now n (rev ops) = Some (t, h) ->
  tool_handler n (reg_run ops) = h /\ tool_support n (reg_run ops) = task_support (tl_exec t).
Proof.
  intros ops n t h H. destruct (tinv_run ops) as (_ & A & B & _). unfold tool_handler, tool_support. now rewrite A, B, H.
Qed.

Lemma no_handler : forall ops n, (forall t h, tool_now n (rev ops) <> Some (t, Some h)) -> tool_handler n (reg_run ops) = None.
Proof.
  intros ops n H. destruct (tinv_run ops) as (_ & A & _). unfold tool_handler. rewrite A.
  destruct (tool_now n (rev ops)) as [[t [h|]]|]; [now destruct (H t h)|reflexivity|reflexivity].
Qed.

Lemma support_cases : forall t, match task_support (tl_exec t) with
  | x => (x = bs "required" /\ supports t Required) \/ (x = bs "optional" /\ supports t Optional) \/ (x = bs "forbidden" /\ supports t Forbidden)
  end.
Proof.
  intros t. unfold task_support, supports.
  destruct (tl_exec t) as [[| | | | | |o]|] eqn:E.
  all: try (right; right; split; [reflexivity|]; split; intros (o & H & _); discriminate).
  unfold get_str. destruct (obj_get (bs "taskSupport") o) as [[| | | |x| |]|] eqn:G.
  all: try (right; right; split; [reflexivity|]; split; intros (o' & [= <-] & H); congruence).
  destruct (beq x (bs "required")) eqn:E1.
  { apply beq_eq in E1. subst x. left. split; [reflexivity|]. eauto. }
  destruct (beq x (bs "optional")) eqn:E2.
  { apply beq_eq in E2. subst x. right. left. split; [reflexivity|]. eauto. }
  right. right. split; [reflexivity|]. split; intros (o' & [= <-] & H); rewrite G in H; injection H as ->; now rewrite beq_refl in *.
Qed.

Lemma supports_one : forall t x y, supports t x -> supports t y -> x = y.
Proof.
  intros t x y. unfold supports.
  destruct x, y; try reflexivity; intros A B; exfalso; try (destruct A; contradiction); try (destruct B; contradiction);
    destruct A as (o & A1 & A2); destruct B as (o' & B1 & B2); rewrite A1 in B1; injection B1 as <-; rewrite A2 in B2; discriminate.
Qed.

Lemma support_text : forall t s, supports t s -> task_support (tl_exec t) = match s with Required => bs "required" | Optional => bs "optional" | Forbidden => bs "forbidden" end.
Proof.
  intros t s H. pose proof (support_cases t) as [[E K]|[[E K]|[E K]]]; rewrite E; pose proof (supports_one _ _ _ H K) as ->; reflexivity.
Qed.

Lemma tool_tells : forall t, tells_tool (tool_json_out t) t.
Proof.
  intros t. eexists. split; [reflexivity|]. split; [|split; [|split]]; objs; try reflexivity; [destruct (to_struct t)|destruct (to_meta t)]; reflexivity.
Qed.

Lemma tool_valid : forall t, Forall Content (to_content t) <-> valid_call_tool (tool_json_out t) = true.
Proof. intros t. unfold tool_json_out. rewrite call_tool_iff. symmetry. apply tool_result_iff. Qed.

Section Call.
  Variables (ops : list reg_op) (w : world) (pre : bool) (q : request) (s : server) (n : bstr) (a : json).
  Hypothesis Hn : n <> [].
  Hypothesis Hreg : sv_reg s = reg_run ops.

  Lemma call_runs : forall t h, tool_now n (rev ops) = Some (t, Some h) -> ~ supports t Required ->
    requests q (bs "tools/call") (call_params n a) ->
    exists a', same a a' /\
      (forall out, w_tool w h a' = Ret out -> (sv_strict s = true -> Forall Content (to_content out)) ->
         exists r v, dispatch w pre false false q s = (Reply r, s) /\ succeeds r v /\ tells_tool v out) /\
      (forall out, w_tool w h a' = Ret out -> sv_strict s = true -> ~ Forall Content (to_content out) ->
         exists r, dispatch w pre false false q s = (Reply r, s) /\ fails r INTERNAL (bs "Invalid tool result shape")) /\
      (forall what, w_tool w h a' = Threw what ->
         exists r, dispatch w pre false false q s = (Reply r, s) /\ fails r INTERNAL what) /\
      (forall out, w_tool w h a' = Ret out ->
         exists r, dispatch w pre true false q s = (Reply r, s) /\ fails r INTERNAL (bs "Cancelled")).
  Proof.
    intros t h Ht Hs (M & p & P & S). destruct (call_received _ _ _ S) as (E1 & E2 & E3).
    exists (call_args (Some p)). split; [exact E3|].
    destruct (handler_now _ _ _ _ Ht) as [H1 H2].
    assert (beq (task_support (tl_exec t)) (bs "required") = false) as R.
    { destruct (beq _ _) eqn:E; [|reflexivity]. apply beq_eq in E. exfalso. apply Hs.
      destruct (support_cases t) as [[_ K]|[[K _]|[K _]]]; [exact K|rewrite K in E; discriminate E|rewrite K in E; discriminate E]. }
    assert (forall mid, handle_tool w mid (rq_params q) s =
      match w_tool w h (call_args (Some p)) with
      | Threw what => (AError INTERNAL what, s)
      | Ret out => if mid then (AError INTERNAL (bs "Cancelled"), s)
                   else if (sv_strict s && negb (valid_call_tool (tool_json_out out)))%bool then (AError INTERNAL (bs "Invalid tool result shape"), s)
                   else (AResult (tool_json_out out), s)
      end) as K.
    { intro mid. rewrite P. unfold handle_tool. rewrite E1, E2, Hreg, H1, H2, R. destruct n; [easy|]. reflexivity. }
    split; [|split; [|split]].
    - intros out W V. rewrite dispatch_call, K, W by exact M.
      assert (sv_strict s && negb (valid_call_tool (tool_json_out out)) = false)%bool as ->.
      { destruct (sv_strict s); [|reflexivity]. specialize (V eq_refl). apply tool_valid in V. now rewrite V. }
      destruct (respond_result (rq_id q) (tool_json_out out)) as (r & A & B). exists r, (tool_json_out out). cbn [fst snd]. rewrite A.
      split; [reflexivity|]. split; [exact B|apply tool_tells].
    - intros out W V1 V2. rewrite dispatch_call, K, W by exact M.
      assert (valid_call_tool (tool_json_out out) = false) as ->.
      { destruct (valid_call_tool _) eqn:E; [|reflexivity]. now apply tool_valid in E. }
      rewrite V1. cbn [andb negb fst snd]. destruct (respond_fails (rq_id q) INTERNAL (bs "Invalid tool result shape")) as (r & A & B).
      exists r. rewrite A. now split.
    - intros what W. rewrite dispatch_call, K, W by exact M. cbn [fst snd].
      destruct (respond_fails (rq_id q) INTERNAL what) as (r & A & B). exists r. rewrite A. now split.
    - intros out W. rewrite dispatch_call, K, W by exact M. cbn [fst snd].
      destruct (respond_fails (rq_id q) INTERNAL (bs "Cancelled")) as (r & A & B). exists r. rewrite A. now split.
  Qed.

  Lemma call_unknown : forall mid, (forall t h, tool_now n (rev ops) <> Some (t, Some h)) ->
    requests q (bs "tools/call") (call_params n a) ->
    exists r, dispatch w pre mid false q s = (Reply r, s) /\ fails r TOOL_NOT_FOUND (bs "Tool not found").
  Proof.
    intros mid Ht (M & p & P & S). destruct (call_received _ _ _ S) as (E1 & E2 & E3).
    rewrite dispatch_call by exact M. rewrite P. unfold handle_tool. rewrite E1, E2, Hreg, (no_handler _ _ Ht). destruct n; [easy|].
    cbn [fst snd]. destruct (respond_fails (rq_id q) TOOL_NOT_FOUND (bs "Tool not found")) as (r & A & B). exists r. rewrite A. now split.
  Qed.

  Lemma call_required : forall mid t h, tool_now n (rev ops) = Some (t, Some h) -> supports t Required ->
    requests q (bs "tools/call") (call_params n a) ->
    exists r, dispatch w pre mid false q s = (Reply r, s) /\ fails r METHOD_NOT_FOUND (bs "Tool requires task-augmented invocation").
  Proof.
    intros mid t h Ht Hs (M & p & P & S). destruct (call_received _ _ _ S) as (E1 & E2 & E3). destruct (handler_now _ _ _ _ Ht) as [H1 H2].
    rewrite dispatch_call by exact M. rewrite P. unfold handle_tool. rewrite E1, E2, Hreg, H1, H2, (support_text _ _ Hs). destruct n; [easy|].
    cbn [fst snd negb andb]. rewrite beq_refl. cbn [fst snd].
    destruct (respond_fails (rq_id q) METHOD_NOT_FOUND (bs "Tool requires task-augmented invocation")) as (r & A & B). exists r. rewrite A. now split.
  Qed.

  Lemma call_forbidden : forall mid t h ttl, tool_now n (rev ops) = Some (t, Some h) -> supports t Forbidden ->
    requests q (bs "tools/call") (task_params n a ttl) ->
    exists r, dispatch w pre mid false q s = (Reply r, s) /\ fails r METHOD_NOT_FOUND (bs "Tool does not support task-augmented invocation").
  Proof.
    intros mid t h ttl Ht Hs (M & p & P & S). destruct (task_received _ _ _ _ S) as (E1 & E2 & E3). destruct (handler_now _ _ _ _ Ht) as [H1 H2].
    rewrite dispatch_call by exact M. rewrite P. unfold handle_tool. rewrite E1, E2, Hreg, H1, H2, (support_text _ _ Hs). destruct n; [easy|].
    cbn [fst snd negb andb]. rewrite beq_refl. cbn [fst snd].
    destruct (respond_fails (rq_id q) METHOD_NOT_FOUND (bs "Tool does not support task-augmented invocation")) as (r & A & B). exists r. rewrite A. now split.
  Qed.

  Lemma call_task : forall mid t h ttl, tool_now n (rev ops) = Some (t, Some h) -> ~ supports t Forbidden ->
    requests q (bs "tools/call") (task_params n a ttl) ->
    exists r v, dispatch w pre mid false q s = (Reply r, set_tasks (ts_create KToolCall ttl (w_now w) (sv_tasks s)) s) /\ succeeds r v /\
      v = created_json (new_task (ts_next (sv_tasks s)) (w_now w) ttl) None.
  Proof.
    intros mid t h ttl Ht Hs (M & p & P & S). destruct (task_received _ _ _ _ S) as (E1 & E2 & E3). destruct (handler_now _ _ _ _ Ht) as [H1 H2].
    assert (beq (task_support (tl_exec t)) (bs "forbidden") = false) as R.
    { destruct (beq _ _) eqn:E; [|reflexivity]. apply beq_eq in E. exfalso. apply Hs.
      destruct (support_cases t) as [[K _]|[[K _]|[_ K]]]; [rewrite K in E; discriminate E|rewrite K in E; discriminate E|exact K]. }
    rewrite dispatch_call by exact M. rewrite P. unfold handle_tool. rewrite E1, E2, Hreg, H1, H2, R. destruct n; [easy|].
    cbn [negb andb]. rewrite created_valid. cbn [negb]. rewrite andb_false_r. cbn [fst snd].
    eexists _, _. split; [reflexivity|]. split; [now split|reflexivity].
  Qed.

  Lemma prompt_runs : forall d h, prompt_now n (rev ops) = Some (d, Some h) ->
    requests q (bs "prompts/get") (call_params n a) ->
    exists a', same a a' /\
      (forall x ms, w_prompt w h a' = Ret (x, ms) -> (sv_strict s = true -> Forall PromptMessage ms) ->
         exists r v, dispatch w false false false q s = (Reply r, s) /\ succeeds r v /\ tells_prompt v x ms) /\
      (forall what, w_prompt w h a' = Threw what ->
         exists r, dispatch w false false false q s = (Reply r, s) /\ fails r INTERNAL what).
  Proof.
    intros d h Ht (M & p & P & S). destruct (call_received _ _ _ S) as (E1 & E2 & E3).
    exists (call_args (Some p)). split; [exact E3|].
    destruct (pinv_run ops) as (_ & A & _). pose proof (A n) as G. rewrite Ht in G. cbn [option_map snd] in G.
    split.
    - intros x ms W V. rewrite dispatch_prompt, P by exact M. unfold handle_prompt. rewrite E1, Hreg, G, W.
      assert (sv_strict s && negb (forallb message_shape ms) = false)%bool as ->.
      { destruct (sv_strict s); [|reflexivity]. specialize (V eq_refl). cbn [andb].
        assert (forallb message_shape ms = true) as ->; [|reflexivity]. apply forallb_forall. intros y I. apply message_iff. eapply Forall_forall; eauto. }
      eexists _, _. split; [reflexivity|]. split; [now split|]. eexists. split; [reflexivity|]. split; objs; reflexivity.
    - intros what W. rewrite dispatch_prompt, P by exact M. unfold handle_prompt. rewrite E1, Hreg, G, W.
      destruct (respond_fails (rq_id q) INTERNAL what) as (r & B & C). exists r. rewrite B. now split.
  Qed.

  Lemma prompt_unknown : prompt_now n (rev ops) = None -> requests q (bs "prompts/get") (call_params n a) ->
    exists r, dispatch w false false false q s = (Reply r, s) /\ fails r PROMPT_NOT_FOUND (bs "Prompt not found").
  Proof.
    intros Ht (M & p & P & S). destruct (call_received _ _ _ S) as (E1 & E2 & E3).
    destruct (pinv_run ops) as (_ & A & _). pose proof (A n) as G. rewrite Ht in G. cbn [option_map] in G.
    rewrite dispatch_prompt, P by exact M. unfold handle_prompt. rewrite E1, Hreg, G.
    destruct (respond_fails (rq_id q) PROMPT_NOT_FOUND (bs "Prompt not found")) as (r & B & C). exists r. rewrite B. now split.
  Qed.
End Call.


Lemma fails_read : forall r r' c m, fails r c m -> delivered r r' -> int32 c ->
  exists e, read_error (value_or_error r') = Some e /\ er_code e = c /\ er_message e = m.
Proof.
  intros r r' c m (R & o & E & N & C & M) (_ & D1 & D2) I. rewrite R in D1. apply same_opt_none in D1. rewrite E in D2.
  inversion D2 as [|x v H X Y]; subst x. unfold value_or_error. rewrite D1, <- Y.
  assert (exists o', v = JObj o') as [o' ->] by (apply same_obj_inv in H as (? & ? & -> & _); eauto).
  unfold read_error. rewrite (same_get_int _ _ _ _ N H C), (same_get_str _ _ _ _ N H M), (to_int_id _ I).
  eexists. split; [reflexivity|]. now split.
Qed.

Lemma succeeds_read : forall r r' v, succeeds r v -> delivered r r' -> same v (value_or_error r').
Proof.
  intros r r' v [R E] (_ & D1 & _). rewrite R in D1. inversion D1 as [|x y H X Y]; subst x. unfold value_or_error. rewrite <- Y. exact H.
Qed.

(** Completions. *)
Lemma str_items_map : forall l, str_items (map JStr l) = l.
Proof. induction l as [|x l IH]; [reflexivity|]. cbn. now rewrite <- IH at 2. Qed.

Lemma same_strs : forall l v, same (JArr (map JStr l)) v -> v = JArr (map JStr l).
Proof.
  intros l v H. inversion H as [| | | | |x l' F X Y|]; subst. f_equal. clear H. revert l' F.
  induction l as [|a l IH]; intros l' F; inversion F as [|x y z l1 S F1 X Y]; subst; [reflexivity|].
  inversion S; subst. cbn. f_equal. now apply IH.
Qed.

Lemma completion_valid : forall c, valid_completion (completion_json c) = true.
Proof.
  intros c. apply completion_iff. unfold completion_json. eexists. split; [reflexivity|]. eexists. split; [reflexivity|].
  eexists. split; [reflexivity|]. unfold must, may. split; [|split].
  - exists (JArr (map JStr (cp_values c))). split; [objs; destruct (cp_total c); reflexivity|].
    exists (map JStr (cp_values c)). split; [reflexivity|]. apply Forall_forall. intros x I. apply in_map_iff in I as (y & <- & _). now exists y.
  - intros v. objs. destruct (cp_total c) as [z|]; cbn [option_map]; intros [= <-]; now exists z.
  - intros v. objs. intros [= <-]. eexists. reflexivity.
Qed.

Lemma completion_back : forall c v, same (completion_json c) v -> valid_completion v = true /\ read_completion v = c.
Proof.
  intros c v H. unfold completion_json in H.
  set (b := obj_set (bs "hasMore") _ _) in H.
  assert (NoDup (map fst b)) as Nb by (unfold b; nodups).
  assert (NoDup (map fst (obj_set (bs "completion") (JObj b) []))) as N by nodups.
  assert (exists o', v = JObj o') as [o' ->] by (apply same_obj_inv in H as (? & ? & -> & _); eauto).
  destruct (same_get_some (bs "completion") _ _ (JObj b) N H) as (b' & G & Sb); [objs; reflexivity|].
  assert (exists x, b' = JObj x) as [x ->] by (apply same_obj_inv in Sb as (? & ? & -> & _); eauto).
  assert (obj_get (bs "values") x = Some (JArr (map JStr (cp_values c)))) as G1.
  { destruct (same_get_some (bs "values") _ _ (JArr (map JStr (cp_values c))) Nb Sb) as (y & Gy & Sy).
    { unfold b; objs. destruct (cp_total c); reflexivity. }
    now rewrite (same_strs _ _ Sy) in Gy. }
  assert (obj_get (bs "hasMore") x = Some (JBool (cp_more c))) as G2 by (apply (same_get_bool _ _ _ _ Nb Sb); unfold b; objs; reflexivity).
  assert (obj_get (bs "total") x = option_map JInt (cp_total c)) as G3.
  { destruct (cp_total c) as [z|] eqn:T; [apply (same_get_int _ _ _ _ Nb Sb)|apply (same_get_none _ _ _ Nb Sb)]; unfold b; objs; reflexivity. }
  split.
  - unfold valid_completion, arr_field, opt_int, opt_bool, opt_field. rewrite G, G1, G2, G3.
    assert (forallb is_str (map JStr (cp_values c)) = true) as -> by (apply forallb_forall; intros y I; apply in_map_iff in I as (z & <- & _); reflexivity).
    destruct (cp_total c); reflexivity.
  - unfold read_completion, as_obj, get_int. rewrite G, G1, G2, G3, str_items_map. destruct c as [l [z|] m]; reflexivity.
Qed.

Lemma complete_received : forall ref name value ctx p, same (complete_params ref name value ctx) p ->
  exists o ref' arg, p = JObj o /\ obj_get (bs "ref") o = Some ref' /\ same ref ref' /\ obj_get (bs "argument") o = Some (JObj arg) /\
    obj_get (bs "name") arg = Some (JStr name) /\ obj_get (bs "value") arg = Some (JStr value) /\ same_opt ctx (obj_get (bs "context") o).
Proof.
  intros ref name value ctx p H. unfold complete_params in H.
  set (b := obj_set (bs "value") _ _) in H. set (o := opt_set _ _ _ _) in H.
  assert (NoDup (map fst b)) as Nb by (unfold b; nodups).
  assert (NoDup (map fst o)) as N by (unfold o; nodups).
  assert (exists o', p = JObj o') as [o' ->] by (apply same_obj_inv in H as (? & ? & -> & _); eauto).
  destruct (same_get_some (bs "ref") _ _ ref N H) as (ref' & G1 & S1); [unfold o; objs; destruct ctx; reflexivity|].
  destruct (same_get_some (bs "argument") _ _ (JObj b) N H) as (b' & G2 & S2); [unfold o; objs; destruct ctx; reflexivity|].
  assert (exists x, b' = JObj x) as [x ->] by (apply same_obj_inv in S2 as (? & ? & -> & _); eauto).
  exists o', ref', x. split; [reflexivity|]. split; [exact G1|]. split; [exact S1|]. split; [exact G2|].
  split; [apply (same_get_str _ _ _ _ Nb S2); unfold b; objs; reflexivity|].
  split; [apply (same_get_str _ _ _ _ Nb S2); unfold b; objs; reflexivity|].
  assert (obj_get (bs "context") o = ctx) as G by (unfold o; objs; destruct ctx; reflexivity).
  pose proof (same_opt_get (bs "context") _ _ N H) as K. now rewrite G in K.
Qed.

Lemma complete_runs : forall w pre mid post q s f ref name value ctx, w_complete w = Some f ->
  requests q (bs "completion/complete") (complete_params ref name value ctx) ->
  exists ref' ctx', same ref ref' /\ same_opt ctx ctx' /\
    (forall c, f ref' name value ctx' = Ret c -> exists r, dispatch w pre mid post q s = (Reply r, s) /\
       forall strict r', delivered r r' -> complete_reply strict r' = Ret c) /\
    (forall what, f ref' name value ctx' = Threw what -> exists r, dispatch w pre mid post q s = (Reply r, s) /\ fails r INTERNAL what).
Proof.
  intros w pre mid post q s f ref name value ctx F (M & p & P & S).
  destruct (complete_received _ _ _ _ _ S) as (o & ref' & arg & -> & G1 & S1 & G2 & G3 & G4 & S2).
  exists ref', (obj_get (bs "context") o). split; [exact S1|]. split; [exact S2|].
  assert (forall a, handle_complete w (rq_params q) s = a -> dispatch w pre mid post q s = (respond (rq_id q) a, s)) as K
    by (intros a <-; now apply dispatch_complete).
  rewrite P in K. unfold handle_complete in K. rewrite F, G1, G2, G3, G4 in K.
  split.
  - intros c E. rewrite E, completion_valid in K. cbn [negb] in K. rewrite andb_false_r in K.
    destruct (respond_result (rq_id q) (completion_json c)) as (r & R & V). exists r. rewrite (K _ eq_refl), R. split; [reflexivity|].
    intros strict r' (_ & D & _). destruct V as [V _]. rewrite V in D. inversion D as [|x v H X Y]; subst x.
    destruct (completion_back c v H) as [A B]. unfold complete_reply. rewrite <- Y, A. cbn [negb]. rewrite andb_false_r. now rewrite B.
  - intros what E. rewrite E in K. destruct (respond_fails (rq_id q) INTERNAL what) as (r & R & V). exists r. now rewrite (K _ eq_refl), R.
Qed.
