From Coq Require Import Ascii String List Permutation Arith NArith ZArith Bool Lia.
From Verif Require Import StrModel StrProofs DoubleModel JsonModel JsonSpec JsonProofs ObjSpec ObjProofs MapModel MapProofs RpcModel TaskModel TaskSpec TaskProofs DescModel DescSpec DescProofs RegModel RegSpec RegProofs ValModel ValSpec ValProofs TmplModel ReadModel ReadSpec ReadProofs SubModel LogModel ErrModel ErrSpec ErrProofs ServModel ServSpec ServProofs CallProofs DispSpec DispProofs TypedModel TypedSpec.
Import ListNotations.
Local Open Scope nat_scope.

(** Shapes survive the reordering of members. *)
Definition steady (P : json -> Prop) : Prop := forall v v', keyed v -> P v -> same v v' -> P v'.

Lemma keyed_get : forall o k v, keyed (JObj o) -> obj_get k o = Some v -> keyed v.
Proof.
  intros o k v K G. inversion K as [| | | | | |o' N F]; subst. clear K N. induction o as [|[k' x] o IH]; [discriminate|].
  cbn in G, F. inversion F as [|y l A B]; subst. destruct (beq k k'); [injection G as <-; exact A|auto].
Qed.

Lemma keyed_nodup : forall o, keyed (JObj o) -> NoDup (map fst o).
Proof. intros o K. now inversion K. Qed.

Lemma must_steady : forall k P o o', keyed (JObj o) -> same (JObj o) (JObj o') -> steady P -> must k P o -> must k P o'.
Proof.
  intros k P o o' K S T (v & G & H). destruct (same_get_some _ _ _ _ (keyed_nodup _ K) S G) as (v' & G' & S').
  exists v'. split; [exact G'|]. exact (T _ _ (keyed_get _ _ _ K G) H S').
Qed.

Lemma get_back : forall k o o' v', keyed (JObj o) -> same (JObj o) (JObj o') -> obj_get k o' = Some v' -> exists v, obj_get k o = Some v /\ same v v'.
Proof.
  intros k o o' v' K S G. destruct (obj_get k o) as [v|] eqn:E.
  - destruct (same_get_some _ _ _ _ (keyed_nodup _ K) S E) as (x & Gx & Sx). rewrite G in Gx. injection Gx as <-. now exists v.
  - rewrite (same_get_none _ _ _ (keyed_nodup _ K) S E) in G. discriminate.
Qed.

Lemma may_steady : forall k P o o', keyed (JObj o) -> same (JObj o) (JObj o') -> steady P -> may k P o -> may k P o'.
Proof.
  intros k P o o' K S T M v' G. destruct (get_back _ _ _ _ K S G) as (v & E & H). exact (T _ _ (keyed_get _ _ _ K E) (M v E) H).
Qed.

Lemma steady_str : steady a_string.
Proof. intros v v' _ (s & ->) H. inversion H; subst. now exists s. Qed.
Lemma steady_int : steady an_integer.
Proof. intros v v' _ (s & ->) H. inversion H; subst. now exists s. Qed.
Lemma steady_number : steady a_number.
Proof. intros v v' _ [(s & ->)|(s & ->)] H; inversion H; subst; [left|right]; now exists s. Qed.
Lemma steady_eq : forall s, steady (eq (JStr s)).
Proof. intros s v v' _ <- H. now inversion H; subst. Qed.
Lemma steady_one : forall l, steady (one_of l).
Proof. intros l v v' _ (s & -> & I) H. inversion H; subst. now exists s. Qed.
Lemma steady_list : forall P, steady P -> steady (list_of P).
Proof.
  intros P T v v' K (l & -> & F) H. inversion H as [| | | | |a b F2|]; subst. exists b. split; [reflexivity|].
  inversion K as [| | | | |c Kl|]; subst. clear H K. revert F Kl. induction F2 as [|x y l l' S F2 IH]; intros F Kl; [constructor|].
  inversion F; inversion Kl; subst. constructor; [eapply T; eassumption|auto].
Qed.
Lemma steady_object : forall (Q : obj -> Prop), (forall o o', keyed (JObj o) -> same (JObj o) (JObj o') -> Q o -> Q o') -> steady (an_object Q).
Proof.
  intros Q T v v' K (o & -> & H) S. destruct (same_obj_inv _ _ S) as (o1 & o' & -> & _). exists o'. split; [reflexivity|]. exact (T _ _ K S H).
Qed.

Ltac steadily K S := first
  [ eapply must_steady; [exact K|exact S| |eassumption] | eapply may_steady; [exact K|exact S| |eassumption] ].

Lemma steady_annotations : steady Annotations.
Proof.
  apply steady_object. intros o o' K S (A & B). split; steadily K S; [apply steady_list, steady_str|apply steady_number].
Qed.

Lemma str_back_must : forall k o o', keyed (JObj o) -> same (JObj o) (JObj o') -> must k a_string o' -> must k a_string o.
Proof.
  intros k o o' K S (v' & G & s & ->). destruct (get_back _ _ _ _ K S G) as (v & E & H). exists v. split; [exact E|]. inversion H; subst. now exists s.
Qed.

Lemma steady_contents : steady ResourceContents.
Proof.
  apply steady_object. intros o o' K S (A & B & C). split; [steadily K S; apply steady_str|]. split; [steadily K S; apply steady_str|].
  destruct C as [[C D]|[C D]]; [left|right]; (split; [steadily K S; apply steady_str|]; intro M; apply D; eapply str_back_must; eassumption).
Qed.

Lemma steady_content : steady Content.
Proof.
  intros v v' K H S. destruct H; destruct (same_obj_inv _ _ S) as (o1 & o' & -> & _).
  - apply content_text; steadily K S; auto using steady_eq, steady_str, steady_annotations.
  - apply content_media; steadily K S; auto using steady_one, steady_str, steady_annotations.
  - apply content_link; steadily K S; auto using steady_eq, steady_str, steady_int, steady_annotations.
  - apply content_embedded; steadily K S; auto using steady_eq, steady_contents, steady_annotations.
Qed.

Lemma steady_message : steady PromptMessage.
Proof.
  intros v v' K [H|H] S; [left; exact (steady_content _ _ K H S)|right]. revert v v' K H S. change (steady (an_object (fun o => must "role" a_string o /\ must "content" Content o))).
  apply steady_object. intros o o' K S (A & B). split; steadily K S; auto using steady_str, steady_content.
Qed.

Lemma steady_read : steady (fun v => TextContent v \/ ResourceContents v).
Proof.
  intros v v' K [[H T]|H] S; [left|right; exact (steady_contents _ _ K H S)]. split; [exact (steady_content _ _ K H S)|].
  revert T S K. clear H. intros T S K. revert v v' K T S. apply (steady_object (must "type" (eq (JStr (bs "text"))))).
  intros o o' K S A. steadily K S. apply steady_eq.
Qed.

Lemma steady_all : forall P l l', steady P -> Forall keyed l -> Forall P l -> Forall2 same l l' -> Forall P l'.
Proof.
  intros P l l' T K F F2. destruct (steady_list P T (JArr l) (JArr l')) as (x & [= <-] & H); [now constructor|now exists l|now constructor|exact H].
Qed.

(** Errors are thrown. *)
Lemma error_thrown : forall r r' c m, fails r c m -> delivered r r' ->
  exists o, value_or_error r' = JObj o /\ obj_get (bs "code") o = Some (JInt c) /\ obj_get (bs "message") o = Some (JStr m).
Proof.
  intros r r' c m (R & o & E & N & C & M) (_ & D1 & D2). rewrite R in D1. apply same_opt_none in D1. rewrite E in D2.
  inversion D2 as [|x v H X Y]; subst x. unfold value_or_error. rewrite D1, <- Y.
  destruct (same_obj_inv _ _ H) as (o1 & o' & -> & _). exists o'. split; [reflexivity|].
  split; [exact (same_get_int _ _ _ _ N H C)|exact (same_get_str _ _ _ _ N H M)].
Qed.

Lemma call_throws : forall strict r r' c m, fails r c m -> delivered r r' -> typed_call strict (Some r') = Threw m.
Proof.
  intros strict r r' c m F D. destruct (error_thrown _ _ _ _ F D) as (o & E & C & M). unfold typed_call. cbn [reply_value]. rewrite E.
  unfold is_error_object, error_text. now rewrite C, M.
Qed.
Lemma prompt_throws : forall strict r r' c m, fails r c m -> delivered r r' -> typed_prompt strict (Some r') = Threw m.
Proof.
  intros strict r r' c m F D. destruct (error_thrown _ _ _ _ F D) as (o & E & C & M). unfold typed_prompt. cbn [reply_value]. rewrite E.
  unfold is_error_object, error_text. now rewrite C, M.
Qed.
Lemma read_throws : forall strict r r' c m, fails r c m -> delivered r r' -> typed_read strict (Some r') = Threw m.
Proof.
  intros strict r r' c m F D. destruct (error_thrown _ _ _ _ F D) as (o & E & C & M). unfold typed_read. cbn [reply_value]. rewrite E.
  unfold read_value_typed, is_error_object, error_text. now rewrite C, M.
Qed.

(** Results are returned. *)
Lemma call_returns : forall strict r r' out, succeeds r (tool_json_out out) -> delivered r r' ->
  (strict = true -> Forall keyed (to_content out) /\ Forall Content (to_content out)) ->
  exists res, typed_call strict (Some r') = Ret res /\ same_out out res.
Proof.
  intros strict r r' out Hs Hd Hv. pose proof (succeeds_read _ _ _ Hs Hd) as S. unfold tool_json_out, tool_result_json in S.
  set (O := obj_set (bs "isError") _ _) in S. assert (NoDup (map fst O)) as N by (subst O; nodups; destruct (to_struct out), (to_meta out); nodups).
  destruct (same_obj_inv _ _ S) as (o1 & o' & E & _). rewrite E in S.
  assert (obj_get (bs "code") o' = None) as C by (apply (same_get_none _ _ _ N S); subst O; objs; reflexivity).
  assert (obj_get (bs "isError") o' = Some (JBool (to_error out))) as G1.
  { destruct (same_get_some (bs "isError") _ _ (JBool (to_error out)) N S) as (x & G & H); [subst O; objs; reflexivity|]. inversion H; subst. exact G. }
  destruct (same_get_some (bs "content") _ _ (JArr (to_content out)) N S) as (x & G2 & H2); [subst O; objs; reflexivity|].
  assert (same_opt (to_struct out) (obj_get (bs "structuredContent") o')) as G3.
  { replace (to_struct out) with (obj_get (bs "structuredContent") O); [exact (same_opt_get _ _ _ N S)|]. subst O. objs. now destruct (to_struct out). }
  assert (same_opt (to_meta out) (obj_get META o')) as G4.
  { replace (to_meta out) with (obj_get META O); [exact (same_opt_get _ _ _ N S)|]. subst O. objs. now destruct (to_meta out). }
  inversion H2 as [| | | | |a l' F|]; subst.
  unfold typed_call. cbn [reply_value]. rewrite E. cbn [is_error_object]. rewrite C.
  assert (strict && negb (valid_call_tool (JObj o')) = false)%bool as ->.
  { destruct strict; [|reflexivity]. destruct (Hv eq_refl) as [K V]. cbn [andb].
    assert (valid_call_tool (JObj o') = true) as ->; [|reflexivity]. apply call_tool_iff. exists o'. split; [reflexivity|]. split.
    - exists (JArr l'). split; [exact G2|]. exists l'. split; [reflexivity|]. exact (steady_all _ _ _ steady_content K V F).
    - intros y Gy. rewrite G1 in Gy. injection Gy as <-. now exists (to_error out). }
  eexists. split; [reflexivity|]. unfold parse_call, array_member. rewrite G1, G2. split; [exact F|]. now split.
Qed.

Lemma prompt_returns : forall strict r r' d ms, succeeds r (prompt_result_json d ms) -> delivered r r' ->
  (strict = true -> Forall keyed ms /\ Forall PromptMessage ms) ->
  exists ms', typed_prompt strict (Some r') = Ret (d, ms') /\ Forall2 same ms ms'.
Proof.
  intros strict r r' d ms Hs Hd Hv. pose proof (succeeds_read _ _ _ Hs Hd) as S. unfold prompt_result_json in S.
  set (O := obj_set (bs "messages") _ _) in S. assert (NoDup (map fst O)) as N by (subst O; nodups).
  destruct (same_obj_inv _ _ S) as (o1 & o' & E & _). rewrite E in S.
  assert (obj_get (bs "code") o' = None) as C by (apply (same_get_none _ _ _ N S); subst O; objs; reflexivity).
  assert (obj_get (bs "description") o' = Some (JStr d)) as G1 by (apply (same_get_str _ _ _ _ N S); subst O; objs; reflexivity).
  destruct (same_get_some (bs "messages") _ _ (JArr ms) N S) as (x & G2 & H2); [subst O; objs; reflexivity|].
  inversion H2 as [| | | | |a l' F|]; subst.
  unfold typed_prompt. cbn [reply_value]. rewrite E. cbn [is_error_object]. rewrite C.
  assert (strict && negb (valid_get_prompt (JObj o')) = false)%bool as ->.
  { destruct strict; [|reflexivity]. destruct (Hv eq_refl) as [K V]. cbn [andb].
    assert (valid_get_prompt (JObj o') = true) as ->; [|reflexivity]. apply get_prompt_iff. exists o'. split; [reflexivity|]. split.
    - exists (JStr d). split; [exact G1|now exists d].
    - exists (JArr l'). split; [exact G2|]. exists l'. split; [reflexivity|]. exact (steady_all _ _ _ steady_message K V F). }
  exists l'. split; [|exact F]. unfold parse_prompt_result, array_member, get_str. now rewrite G1, G2.
Qed.

Lemma read_returns : forall strict c r r' contents items, succeeds r (JObj (read_obj c contents items)) -> delivered r r' ->
  (strict = true -> Forall keyed items /\ Forall (fun v => TextContent v \/ ResourceContents v) items) ->
  exists items', typed_read strict (Some r') = Ret items' /\ Forall2 same items items'.
Proof.
  intros strict c r r' contents items Hs Hd Hv. pose proof (succeeds_read _ _ _ Hs Hd) as S.
  set (O := read_obj c contents items) in S. assert (NoDup (map fst O)) as N by apply read_obj_nodup.
  destruct (same_obj_inv _ _ S) as (o1 & o' & E & _). rewrite E in S.
  assert (obj_get (bs "code") o' = None) as C by (apply (same_get_none _ _ _ N S); apply read_obj_code).
  destruct (same_get_some (bs "contents") _ _ _ N S (read_obj_contents c contents items)) as (x & G2 & H2).
  inversion H2 as [| | | | |a l' F|]; subst.
  unfold typed_read, read_value_typed. cbn [reply_value]. rewrite E. cbn [is_error_object]. rewrite C.
  assert (strict && negb (valid_read (JObj o')) = false)%bool as ->.
  { destruct strict; [|reflexivity]. destruct (Hv eq_refl) as [K V]. cbn [andb].
    assert (valid_read (JObj o') = true) as ->; [|reflexivity]. apply ValProofs.read_iff. exists o'. split; [reflexivity|].
    exists (JArr l'). split; [exact G2|]. exists l'. split; [reflexivity|]. exact (steady_all _ _ _ steady_read K V F). }
  exists l'. split; [|exact F]. now rewrite G2.
Qed.

(** From the registered handler to the caller. *)
Section EndToEnd.
  Variables (ops : list reg_op) (w : world) (q : request) (s : server) (n : bstr) (a : json).
  Hypothesis Hreg : sv_reg s = reg_run ops.

  Lemma call_runs_as : forall pre t h, n <> [] -> tool_now n (rev ops) = Some (t, Some h) -> ~ supports t Required ->
    requests q (bs "tools/call") (call_params n a) ->
    exists a', same a a' /\
      (forall out, w_tool w h a' = Ret out -> (sv_strict s = true -> Forall Content (to_content out)) ->
         exists r, dispatch w pre false false q s = (Reply r, s) /\ succeeds r (tool_json_out out)) /\
      (forall out, w_tool w h a' = Ret out -> sv_strict s = true -> ~ Forall Content (to_content out) ->
         exists r, dispatch w pre false false q s = (Reply r, s) /\ fails r INTERNAL (bs "Invalid tool result shape")) /\
      (forall what, w_tool w h a' = Threw what ->
         exists r, dispatch w pre false false q s = (Reply r, s) /\ fails r INTERNAL what) /\
      (forall out, w_tool w h a' = Ret out ->
         exists r, dispatch w pre true false q s = (Reply r, s) /\ fails r INTERNAL (bs "Cancelled")).
  Proof.
    intros pre t h Hn Ht Hs (M & p & P & S). destruct (call_received _ _ _ S) as (E1 & E2 & E3).
    exists (call_args (Some p)). split; [exact E3|].
    destruct (handler_now _ _ _ _ Ht) as [H1 H2].
    assert (beq (task_support (tl_exec t)) (bs "required") = false) as R.
    { destruct (beq _ _) eqn:E; [|reflexivity]. apply beq_eq in E. exfalso. apply Hs.
      destruct (support_cases t) as [[_ K]|[[K _]|[K _]]]; [exact K|rewrite K in E; discriminate E|rewrite K in E; discriminate E]. }
    assert (forall mid, handle_tool w mid (rq_params q) s =
      match w_tool w h (call_args (Some p)) with
      | Threw what => (AError INTERNAL what, s)
      | Ret out => if mid then (AError INTERNAL (bs "Cancelled"), s)
                   else if (sv_strict s && negb (valid_call_tool (tool_json_out out)))%bool then (AError INTERNAL (bs "Invalid tool result shape"), s)
                   else (AResult (tool_json_out out), s)
      end) as K.
    { intro mid. rewrite P. unfold handle_tool. rewrite E1, E2, Hreg, H1, H2, R. destruct n; [easy|]. reflexivity. }
    split; [|split; [|split]].
    - intros out W V. rewrite dispatch_call, K, W by exact M.
      assert (sv_strict s && negb (valid_call_tool (tool_json_out out)) = false)%bool as ->.
      { destruct (sv_strict s); [|reflexivity]. specialize (V eq_refl). apply tool_valid in V. now rewrite V. }
      destruct (respond_result (rq_id q) (tool_json_out out)) as (r & A & B). exists r. cbn [fst snd]. rewrite A. now split.
    - intros out W V1 V2. rewrite dispatch_call, K, W by exact M.
      assert (valid_call_tool (tool_json_out out) = false) as ->.
      { destruct (valid_call_tool _) eqn:E; [|reflexivity]. now apply tool_valid in E. }
      rewrite V1. cbn [andb negb fst snd]. destruct (respond_fails (rq_id q) INTERNAL (bs "Invalid tool result shape")) as (r & A & B).
      exists r. rewrite A. now split.
    - intros what W. rewrite dispatch_call, K, W by exact M. cbn [fst snd].
      destruct (respond_fails (rq_id q) INTERNAL what) as (r & A & B). exists r. rewrite A. now split.
    - intros out W. rewrite dispatch_call, K, W by exact M. cbn [fst snd].
      destruct (respond_fails (rq_id q) INTERNAL (bs "Cancelled")) as (r & A & B). exists r. rewrite A. now split.
  Qed.

  Lemma call_through : forall pre t h, n <> [] -> tool_now n (rev ops) = Some (t, Some h) -> ~ supports t Required ->
    requests q (bs "tools/call") (call_params n a) ->
    exists a', same a a' /\
      (forall out, w_tool w h a' = Ret out -> (sv_strict s = true -> Forall Content (to_content out)) ->
         exists r, dispatch w pre false false q s = (Reply r, s) /\
           forall strict r', delivered r r' -> (strict = true -> Forall keyed (to_content out) /\ Forall Content (to_content out)) ->
             exists res, typed_call strict (Some r') = Ret res /\ same_out out res) /\
      (forall out, w_tool w h a' = Ret out -> sv_strict s = true -> ~ Forall Content (to_content out) ->
         exists r, dispatch w pre false false q s = (Reply r, s) /\
           forall strict r', delivered r r' -> typed_call strict (Some r') = Threw (bs "Invalid tool result shape")) /\
      (forall what, w_tool w h a' = Threw what ->
         exists r, dispatch w pre false false q s = (Reply r, s) /\ forall strict r', delivered r r' -> typed_call strict (Some r') = Threw what) /\
      (forall out, w_tool w h a' = Ret out ->
         exists r, dispatch w pre true false q s = (Reply r, s) /\ forall strict r', delivered r r' -> typed_call strict (Some r') = Threw (bs "Cancelled")).
  Proof.
    intros pre t h Hn Ht Hs Q. destruct (call_runs_as pre t h Hn Ht Hs Q) as (a' & A & B & C & D & E). exists a'. split; [exact A|].
    split; [|split; [|split]].
    - intros out W V. destruct (B out W V) as (r & R1 & R2). exists r. split; [exact R1|]. intros strict r'. now apply call_returns.
    - intros out W V1 V2. destruct (C out W V1 V2) as (r & R1 & R2). exists r. split; [exact R1|]. intros strict r'. now apply call_throws with (c := INTERNAL).
    - intros what W. destruct (D what W) as (r & R1 & R2). exists r. split; [exact R1|]. intros strict r'. now apply call_throws with (c := INTERNAL).
    - intros out W. destruct (E out W) as (r & R1 & R2). exists r. split; [exact R1|]. intros strict r'. now apply call_throws with (c := INTERNAL).
  Qed.

  Lemma prompt_through : forall d h, prompt_now n (rev ops) = Some (d, Some h) -> requests q (bs "prompts/get") (call_params n a) ->
    exists a', same a a' /\
      (forall x ms, w_prompt w h a' = Ret (x, ms) -> (sv_strict s = true -> Forall PromptMessage ms) ->
         exists r, dispatch w false false false q s = (Reply r, s) /\
           forall strict r', delivered r r' -> (strict = true -> Forall keyed ms /\ Forall PromptMessage ms) ->
             exists ms', typed_prompt strict (Some r') = Ret (x, ms') /\ Forall2 same ms ms') /\
      (forall what, w_prompt w h a' = Threw what ->
         exists r, dispatch w false false false q s = (Reply r, s) /\ forall strict r', delivered r r' -> typed_prompt strict (Some r') = Threw what).
  Proof.
    intros d h Ht (M & p & P & S). destruct (call_received _ _ _ S) as (E1 & E2 & E3).
    exists (call_args (Some p)). split; [exact E3|].
    destruct (pinv_run ops) as (_ & A & _). pose proof (A n) as G. rewrite Ht in G. cbn [option_map snd] in G.
    split.
    - intros x ms W V. rewrite dispatch_prompt, P by exact M. unfold handle_prompt. rewrite E1, Hreg, G, W.
      assert (sv_strict s && negb (forallb message_shape ms) = false)%bool as ->.
      { destruct (sv_strict s); [|reflexivity]. specialize (V eq_refl). cbn [andb].
        assert (forallb message_shape ms = true) as ->; [|reflexivity]. apply forallb_forall. intros y I. apply message_iff. eapply Forall_forall; eauto. }
      destruct (respond_result (rq_id q) (prompt_result_json x ms)) as (r & B & C). exists r. rewrite B. split; [reflexivity|].
      intros strict r'. now apply prompt_returns.
    - intros what W. rewrite dispatch_prompt, P by exact M. unfold handle_prompt. rewrite E1, Hreg, G, W.
      destruct (respond_fails (rq_id q) INTERNAL what) as (r & B & C). exists r. rewrite B. split; [reflexivity|].
      intros strict r'. now apply prompt_throws with (c := INTERNAL).
  Qed.
End EndToEnd.

Lemma read_through : forall w pre q s u contents, u <> [] -> yields (sv_reg s) (w_read w) u contents ->
  sv_strict s = false \/ Forall (fun v => TextContent v \/ ResourceContents v) contents ->
  requests q (bs "resources/read") (read_params u None None) ->
  exists r, dispatch w pre false false q s = (Reply r, s) /\
    forall strict r', delivered r r' -> (strict = true -> Forall keyed contents /\ Forall (fun v => TextContent v \/ ResourceContents v) contents) ->
      exists items, typed_read strict (Some r') = Ret items /\ Forall2 same contents items.
Proof.
  intros w pre q s u contents Hu Hy Hs (M & p & P & S). rewrite dispatch_read, P by exact M.
  assert (wants u None None (Some p)) as (o & [= ->] & E1 & E2 & E3).
  { unfold read_params in S. set (O := opt_set _ _ _ _) in S. assert (NoDup (map fst O)) as N by (subst O; nodups).
    destruct (same_obj_inv _ _ S) as (o1 & o' & -> & _). exists o'. split; [reflexivity|].
    split; [apply (same_get_str _ _ _ _ N S); subst O; objs; reflexivity|]. split; apply (same_get_none _ _ _ N S); subst O; objs; reflexivity. }
  assert (handle_read (read_config s) (sv_reg s) (w_read w) false (Some (JObj o)) = AResult (JObj (read_obj (read_config s) contents contents))) as ->.
  { unfold handle_read, get_str, get_int. rewrite E1, E2, E3. cbn [or_empty option_map]. destruct u as [|x u]; [contradiction|].
    assert (build_read (read_config s) contents None None = inr (JObj (read_obj (read_config s) contents contents))) as B.
    { rewrite build_read_is. change (rc_strict (read_config s)) with (sv_strict s). destruct Hs as [-> |Hs]; [reflexivity|].
      assert (forallb read_item contents = true) as ->; [|cbn [negb]; now rewrite andb_false_r].
      apply forallb_forall. intros v I. apply read_item_iff. rewrite Forall_forall in Hs. now apply Hs. }
    destruct Hy as [(h & R & Y)|(h & vs & R & Y)]; rewrite R, Y, B; reflexivity. }
  destruct (respond_result (rq_id q) (JObj (read_obj (read_config s) contents contents))) as (r & B & C). exists r. rewrite B. split; [reflexivity|].
  intros strict r' D V. now apply (read_returns strict (read_config s) r r' contents contents).
Qed.

(** What strict mode lets through. *)
Lemma call_strict : forall resp res, typed_call true resp = Ret res -> Forall Content (to_content res) /\ ~ nothing resp.
Proof.
  intros resp res. unfold typed_call. destruct (is_error_object _); [discriminate|]. cbn [andb].
  destruct (valid_call_tool (reply_value resp)) eqn:E; [|discriminate]. cbn [negb]. intro H. injection H as <-. split.
  - apply call_tool_iff in E. destruct E as (o & E & (v & G & l & -> & F) & _). rewrite E. unfold parse_call, array_member. now rewrite G.
  - intro N. destruct resp as [r|]; [|discriminate E]. destruct (N r eq_refl) as [A B]. cbn in E. unfold value_or_error in E. rewrite A, B in E. discriminate E.
Qed.
Lemma prompt_strict : forall resp d ms, typed_prompt true resp = Ret (d, ms) -> Forall PromptMessage ms /\ ~ nothing resp.
Proof.
  intros resp d ms. unfold typed_prompt. destruct (is_error_object _); [discriminate|]. cbn [andb].
  destruct (valid_get_prompt (reply_value resp)) eqn:E; [|discriminate]. cbn [negb]. intro H. split.
  - apply get_prompt_iff in E. destruct E as (o & E & (v' & G' & x & ->) & (v & G & l & -> & F)). rewrite E in H. unfold parse_prompt_result, array_member in H. rewrite G in H.
    injection H as _ <-. exact F.
  - intro N. destruct resp as [r|]; [|discriminate E]. destruct (N r eq_refl) as [A B]. cbn in E. unfold value_or_error in E. rewrite A, B in E. discriminate E.
Qed.
Lemma read_strict : forall resp items, typed_read true resp = Ret items -> Forall (fun v => TextContent v \/ ResourceContents v) items /\ ~ nothing resp.
Proof.
  intros resp items. unfold typed_read. destruct (read_value_typed _ _ _ _) as [what|l] eqn:E; [discriminate|]. intro H. injection H as <-. split.
  - exact (strict_client _ _ _ _ E).
  - intro N. destruct resp as [r|]; [|discriminate E]. destruct (N r eq_refl) as [A B]. cbn in E. unfold value_or_error in E. rewrite A, B in E. discriminate E.
Qed.

(** The read that can be stopped. *)
Lemma stop_never : forall strict ask u chunk fuel i off agg, stop_loop (fun _ => false) strict ask u chunk fuel i off agg = read_loop strict ask u chunk fuel off agg.
Proof.
  intros strict ask u chunk fuel. induction fuel as [|f IH]; intros i off agg; [reflexivity|]. cbn [stop_loop read_loop].
  destruct (read_range _ _ _ _ _) as [what|[|v part]]; try reflexivity. destruct (text_bytes (v :: part)); [reflexivity|apply IH].
Qed.

Lemma stop_ends : forall stop strict ask u chunk fuel i off agg j, stop j = true -> i <= j -> j < i + fuel ->
  stop_loop stop strict ask u chunk fuel i off agg <> CFuel.
Proof.
  intros stop strict ask u chunk fuel. induction fuel as [|f IH]; intros i off agg j Hj H1 H2; [lia|]. cbn [stop_loop].
  destruct (stop i) eqn:E; [discriminate|].
  destruct (read_range _ _ _ _ _) as [what|[|v part]]; try discriminate. destruct (text_bytes (v :: part)); [discriminate|].
  apply (IH (S i) _ _ j Hj); [|lia]. enough (i <> j) by lia. congruence.
Qed.

Section Stopped.
Context (net : json -> json) (Hnet : forall v, same v (net v)).
Context (stop : nat -> bool) (strict : bool) (c : read_cfg) (g : registry) (rd : readers) (u : bstr) (contents : list json) (text : bstr).
Context (Hu : u <> []) (Hy : yields g rd u contents) (Ht : text_of contents text).
Context (chunk : N) (Hc : (0 < chunk < 2 ^ 63)%N) (Hsize : (N.of_nat (length text) < 2 ^ 63)%N).

Lemma stop_reads : forall fuel off agg before, off <= length text -> length text - off < fuel ->
  text_of agg before -> Forall (a_piece c chunk) agg -> before = firstn off text -> (forall j, j < length agg -> stop j = false) ->
  exists items off', stop_loop stop strict (read_call net c g rd) u chunk fuel (length agg) (N.of_nat off) agg = CDone items /\
    text_of items (firstn off' text) /\ Forall (a_piece c chunk) items /\ (forall j, j < length items -> stop j = false) /\
    (stop (length items) = true \/ length text <= off').
Proof.
  induction fuel as [|f IH]; intros off agg before Ho Hf Ha Hp Hb Hj; [lia|]. cbn [stop_loop].
  destruct (stop (length agg)) eqn:Es.
  { exists agg, off. subst before. repeat (split; [first [reflexivity|assumption]|]). now left. }
  rewrite !(to_i64_small text chunk Hc Hsize) by lia. rewrite nat_N_Z.
  assert (sensible (Some (Z.of_nat off)) (Some (Z.of_N chunk))) as Hs by (clear - Hc; split; intros z E; injection E as <-; lia).
  destruct (range_reads net Hnet strict c g rd u contents text Hu Hy Ht _ _ Hs) as (items & -> & K). cbv zeta in K.
  destruct K as [[K ->]|[K (v & -> & T)]].
  - apply part_nil in K; [|lia]. exists agg, off. subst before. repeat (split; [first [reflexivity|assumption]|]). now right.
  - set (t := part (clamp_of (rc_exp c)) (Some (Z.of_nat off)) (Some (Z.of_N chunk)) text) in *.
    unfold text_bytes. cbn [fold_right]. rewrite (proj2 (item_text_iff v t) T). rewrite Nat.add_0_r.
    pose proof (part_prefix (clamp_of (rc_exp c)) (Some (Z.of_N chunk)) off text) as P. fold t in P.
    pose proof (part_length (clamp_of (rc_exp c)) (Some (Z.of_nat off)) (Z.of_N chunk) text) as [L1 L2]. fold t in L1, L2.
    assert (length t <= length text - off) as L3 by (rewrite P, firstn_length, skipn_length; clear; lia).
    destruct (length t) as [|m] eqn:El; [destruct t; [contradiction|discriminate]|].
    replace (N.modulo (N.of_nat off + N.of_nat (S m)) two64) with (N.of_nat (off + S m)).
    2: { change two64 with (2 ^ 64)%N. rewrite N.mod_small; clear - L3 Hsize; lia. }
    replace (S (length agg)) with (length (agg ++ [v])) by (rewrite app_length; cbn [length]; clear; lia).
    apply (IH (off + S m) (agg ++ [v]) (before ++ t)); try (clear - Ho L3 Hf; lia).
    + destruct Ha as (ts & F & ->). exists (ts ++ [t]). split; [apply Forall2_app; [exact F|now repeat constructor]|].
      rewrite concat_app. cbn [concat]. now rewrite app_nil_r.
    + apply Forall_app. split; [exact Hp|]. constructor; [|constructor]. exists t. rewrite El. split; [exact T|]. split; [exact K|].
      split; [clear - L2; lia|exact L1].
    + subst before. rewrite P. apply firstn_more.
    + intros j Hl. rewrite app_length in Hl. cbn [length] in Hl. destruct (Nat.eq_dec j (length agg)) as [->|Nj]; [exact Es|apply Hj; clear - Hl Nj; lia].
Qed.
End Stopped.

(** A server whose windows never come to an end. *)
Lemma endless : forall u chunk fuel off agg,
  read_loop false (fun _ => JObj [(bs "contents", JArr [make_text (bs "x")])]) u chunk fuel off agg = CFuel.
Proof. intros u chunk fuel. induction fuel as [|f IH]; intros off agg; [reflexivity|]. cbn [read_loop]. apply IH. Qed.
