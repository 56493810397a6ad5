(** Proofs about following tasks kept by the peer. *)
From Coq Require Import Ascii String List Permutation Arith NArith ZArith Bool Lia ZifyBool ZifyNat ZifyN.
From Verif Require Import StrModel StrProofs DoubleModel JsonModel JsonSpec JsonProofs ObjSpec ObjProofs MapModel MapProofs RpcModel TaskModel TaskSpec TaskProofs DescModel DescSpec DescProofs RegModel RegSpec RegProofs TmplModel ValModel ValSpec ValProofs ReadModel SubModel LogModel ErrModel ErrSpec ErrProofs CancelModel ServModel ServSpec ServProofs CallProofs CallTaskProofs PeerModel PeerSpec PeerProofs TrackModel TrackSpec.
Import ListNotations.
Local Open Scope nat_scope.

(** Shapes do not depend on the order of members. *)
Definition stable (P : json -> Prop) : Prop := forall v v', ok v -> same v v' -> (P v <-> P v').
Definition stable_obj (P : obj -> Prop) : Prop := forall o o', ok (JObj o) -> same (JObj o) (JObj o') -> (P o <-> P o').

Lemma same_str : forall s v, same (JStr s) v -> v = JStr s.
Proof. intros s v H. now inversion H. Qed.

Lemma stable_string : stable a_string.
Proof. intros v v' _ H. unfold a_string. inversion H; subst; split; intros [x E]; try discriminate; eauto. Qed.
Lemma stable_integer : stable an_integer.
Proof. intros v v' _ H. unfold an_integer. inversion H; subst; split; intros [x E]; try discriminate; eauto. Qed.
Lemma stable_boolean : stable a_boolean.
Proof. intros v v' _ H. unfold a_boolean. inversion H; subst; split; intros [x E]; try discriminate; eauto. Qed.
Lemma stable_number : stable a_number.
Proof. intros v v' _ H. unfold a_number. inversion H; subst; split; intros [[x E]|[x E]]; try discriminate; eauto. Qed.
Lemma stable_eq : forall s, stable (eq (JStr s)).
Proof. intros s v v' _ H. inversion H; subst; split; intro E; try discriminate; exact E. Qed.
Lemma stable_one_of : forall l, stable (one_of l).
Proof. intros l v v' _ H. unfold one_of. inversion H; subst; split; intros [x [E I]]; try discriminate; eauto. Qed.

Lemma stable_list : forall P, stable P -> stable (list_of P).
Proof.
  intros P SP v v' O H. unfold list_of. inversion H as [| | | | |a b F|]; subst; try (split; intros (l & E & _); discriminate).
  assert (Forall P a <-> Forall P b) as K.
  { inversion O as [| | | | |? Oa|]; subst. clear -SP F Oa. induction F as [|x y a b XY F IH]; [split; constructor|].
    inversion Oa; subst. specialize (IH H2). pose proof (SP x y H1 XY). split; intro K; inversion K; subst; constructor; tauto. }
  split; intros (l & E & Q); injection E as <-; eexists; (split; [reflexivity|tauto]).
Qed.

Lemma stable_must : forall k P, stable P -> stable_obj (must k P).
Proof.
  intros k P SP o o' O H. pose proof (same_get (bs k) o o' (proj1 (ok_obj_inv _ O)) H) as G. unfold must.
  destruct (obj_get (bs k) o) as [v|] eqn:E; destruct (obj_get (bs k) o') as [v'|]; try easy.
  pose proof (SP v v' (ok_get _ _ _ O E) G). split; intros (x & X & Q); injection X as <-; eexists; (split; [reflexivity|tauto]).
Qed.

Lemma stable_may : forall k P, stable P -> stable_obj (may k P).
Proof.
  intros k P SP o o' O H. pose proof (same_get (bs k) o o' (proj1 (ok_obj_inv _ O)) H) as G. unfold may.
  destruct (obj_get (bs k) o) as [v|] eqn:E; destruct (obj_get (bs k) o') as [v'|]; try easy.
  pose proof (SP v v' (ok_get _ _ _ O E) G). split; intros Q x X; injection X as <-; specialize (Q _ eq_refl); tauto.
Qed.

Lemma stable_object : forall P, stable_obj P -> stable (an_object P).
Proof.
  intros P SP v v' O H. unfold an_object. destruct v as [|b|z|d|s|l|o]; try (inversion H; subst; split; intros (x & X & _); discriminate).
  assert (exists o', v' = JObj o') as [o' ->] by (apply same_obj_inv in H as (? & ? & -> & _); eauto).
  pose proof (SP o o' O H). split; intros (x & X & Q); injection X as <-; eexists; (split; [reflexivity|tauto]).
Qed.

Lemma stable_and : forall P Q, stable_obj P -> stable_obj Q -> stable_obj (fun o => P o /\ Q o).
Proof. intros P Q HP HQ o o' O H. specialize (HP o o' O H). specialize (HQ o o' O H). tauto. Qed.
Lemma stable_or : forall P Q, stable_obj P -> stable_obj Q -> stable_obj (fun o => P o \/ Q o).
Proof. intros P Q HP HQ o o' O H. specialize (HP o o' O H). specialize (HQ o o' O H). tauto. Qed.
Lemma stable_not : forall P, stable_obj P -> stable_obj (fun o => ~ P o).
Proof. intros P HP o o' O H. specialize (HP o o' O H). tauto. Qed.

Ltac stables := repeat first
  [ exact stable_string | exact stable_integer | exact stable_boolean | exact stable_number | apply stable_eq | apply stable_one_of
  | apply stable_list | apply stable_must | apply stable_may | apply stable_object | apply stable_and | apply stable_or | apply stable_not ].

Lemma stable_annotations : stable Annotations.
Proof. unfold Annotations. stables. Qed.
Lemma stable_contents : stable ResourceContents.
Proof. unfold ResourceContents. stables. Qed.

Lemma content_cases : forall v, Content v <-> an_object (fun o =>
  (must "type" (eq (JStr (bs "text"))) o /\ must "text" a_string o /\ may "annotations" Annotations o) \/
  (must "type" (one_of [bs "image"; bs "audio"]) o /\ must "mimeType" a_string o /\ must "data" a_string o /\ may "annotations" Annotations o) \/
  (must "type" (eq (JStr (bs "resource_link"))) o /\ must "uri" a_string o /\ must "name" a_string o /\
    may "title" a_string o /\ may "description" a_string o /\ may "mimeType" a_string o /\ may "size" an_integer o /\ may "annotations" Annotations o) \/
  (must "type" (eq (JStr (bs "resource"))) o /\ must "resource" ResourceContents o /\ may "annotations" Annotations o)) v.
Proof.
  intro v. split.
  - intros H. destruct H; (eexists; split; [reflexivity|]); tauto.
  - intros (o & -> & [H|[H|[H|H]]]).
    + now apply content_text.
    + now apply content_media.
    + now apply content_link.
    + now apply content_embedded.
Qed.

Lemma stable_content : stable Content.
Proof.
  intros v v' O H. rewrite !content_cases. revert v v' O H.
  match goal with |- forall v v', ok v -> same v v' -> (an_object ?P v <-> _) => change (stable (an_object P)) end.
  stables; try exact stable_annotations; try exact stable_contents.
Qed.

Lemma stable_sampling : stable SamplingContent.
Proof.
  intros v v' O H. unfold SamplingContent. pose proof (stable_content v v' O H). pose proof (stable_list _ stable_content v v' O H). tauto.
Qed.

Lemma stable_kind : forall k, stable (kind_result k).
Proof.
  intros [| | |]; cbn [kind_result]; try (unfold CallToolResult, CreateMessageResult, ElicitResult; stables; first [exact stable_content|exact stable_sampling]).
  intros v v' _ _. tauto.
Qed.

Lemma kind_iff : forall k v, kind_shape k v = true <-> kind_result k v.
Proof. intros [| | |] v; cbn [kind_shape kind_result]; [now split|apply call_tool_iff|apply create_result_iff|apply elicit_result_iff]. Qed.

(** Requests that name a task. *)
Lemma carried_id : forall A m i (read : response -> ret A) q, carried (Sends m (Some (id_params i)) read) q -> requests q m (JObj [(bs "taskId", JStr i)]).
Proof.
  intros A m i read q (m' & p & f & E & M & P). injection E as <- <- <-. split; [exact M|].
  change (id_params i) with (JObj [(bs "taskId", JStr i)]) in P. apply same_opt_some in P as (v & -> & P). exists v. now split.
Qed.

Lemma names_task : forall i v, same (JObj [(bs "taskId", JStr i)]) v -> parse_task_id (Some v) = (true, i).
Proof. intros i v H. apply (parse_task_id_json i [(bs "taskId", JStr i)]); [constructor; [now intros []|constructor]|reflexivity|exact H]. Qed.

Lemma dispatch_get : forall w pre mid post q s, rq_method q = bs "tasks/get" ->
  dispatch w pre mid post q s = (respond (rq_id q) (handle_get_task (rq_params q) s), s).
Proof. intros w pre mid post q s H. unfold dispatch. rewrite H. methods. reflexivity. Qed.
Lemma dispatch_list : forall w pre mid post q s, rq_method q = bs "tasks/list" ->
  dispatch w pre mid post q s = (respond (rq_id q) (handle_list_tasks (rq_params q) s), s).
Proof. intros w pre mid post q s H. unfold dispatch. rewrite H. methods. reflexivity. Qed.
Lemma dispatch_cancel : forall w pre mid post q s, rq_method q = bs "tasks/cancel" ->
  dispatch w pre mid post q s = (let '(a, s) := handle_cancel_task w (rq_params q) s in (respond (rq_id q) a, s)).
Proof. intros w pre mid post q s H. unfold dispatch. rewrite H. methods. reflexivity. Qed.


Lemma strict_valid : forall b t, (b && negb (valid_task (task_json t)))%bool = false.
Proof. intros b t. rewrite task_valid. apply andb_false_r. Qed.

Lemma handles_get : forall x q i, requests q (bs "tasks/get") (JObj [(bs "taskId", JStr i)]) -> may_ask x ->
  handles x q = (respond (rq_id q) (match ts_get i (kept x) with None => AError INVALID_PARAMS (bs "Unknown task") | Some t => AResult (task_json t) end), kept x).
Proof.
  intros x q i (M & v & P & S) A. destruct x as [w pre mid post s|a mid c]; cbn [handles kept may_ask] in *.
  - rewrite dispatch_get by exact M. rewrite P. unfold handle_get_task. rewrite (names_task i v S). unfold strict_task. destruct (ts_get i (sv_tasks s)); [now rewrite strict_valid|reflexivity].
  - rewrite peer_get by exact M. rewrite P. unfold peer_get_task. rewrite (proj2 (can_task_iff c) A). cbn [negb]. rewrite (names_task i v S). unfold strict_shape.
    destruct (ts_get i (cl_tasks c)); [now rewrite strict_valid|reflexivity].
Qed.

Definition now_at (x : side) : bstr := match x with AtServer w _ _ _ _ => w_now w | AtClient a _ _ => ap_now a end.
Lemma handles_cancel : forall x q i, requests q (bs "tasks/cancel") (JObj [(bs "taskId", JStr i)]) -> may_cancel x ->
  let t := ts_terminal (cancel_attempt i (snd CANCELLED_PAYLOAD) (now_at x)) (kept x) in
  handles x q = (respond (rq_id q) (match fst t with Won k => AResult (task_json k) | _ => AError INVALID_PARAMS (bs "Task is not cancellable") end), snd t).
Proof.
  intros x q i (M & v & P & S) A. destruct x as [w pre mid post s|a mid c]; cbn [handles kept may_cancel now_at] in *.
  - rewrite dispatch_cancel by exact M. rewrite P. unfold handle_cancel_task. destruct A as (l & k & ->). cbn [negb]. rewrite (names_task i v S). unfold strict_task.
    cbn [CANCELLED_PAYLOAD snd]. destruct (ts_terminal _ (sv_tasks s)) as [[]]; cbn [fst snd]; rewrite ?strict_valid; reflexivity.
  - rewrite peer_cancel by exact M. rewrite P. unfold peer_cancel_task. rewrite (proj2 (can_cancel_iff c) A). cbn [negb]. rewrite (names_task i v S). unfold strict_shape.
    cbn [CANCELLED_PAYLOAD snd]. destruct (ts_terminal _ (cl_tasks c)) as [[]]; cbn [fst snd]; rewrite ?strict_valid; reflexivity.
Qed.

Lemma tasks_valid : forall l n, valid_tasks (tasks_json l n) = true.
Proof. intros l n. apply tasks_iff, tasks_json_valid. Qed.

Lemma handles_list : forall x q l n, rq_method q = bs "tasks/list" -> may_list x -> tasks_list (rq_params q) (kept x) = ListPage (tasks_json l n) ->
  handles x q = (respond (rq_id q) (AResult (tasks_json l n)), kept x).
Proof.
  intros x q l n M A E. destruct x as [w pre mid post s|a mid c]; cbn [handles kept may_list] in *.
  - rewrite dispatch_list by exact M. unfold handle_list_tasks. rewrite E, tasks_valid. cbn [negb]. now rewrite andb_false_r.
  - rewrite peer_list by exact M. unfold peer_list_tasks. rewrite (proj2 (can_list_iff c) A). cbn [negb]. rewrite E. unfold strict_shape. rewrite tasks_valid. cbn [negb]. now rewrite andb_false_r.
Qed.

Lemma handles_list_page : forall x q y ts, rq_method q = bs "tasks/list" -> may_list x -> handles x q = (Reply y, ts) -> rs_error y = None ->
  exists v, tasks_list (rq_params q) (kept x) = ListPage v /\ rs_result y = Some v.
Proof.
  intros x q y ts M A. destruct x as [w pre mid post s|a mid c]; cbn [handles kept may_list] in *.
  - rewrite dispatch_list by exact M. unfold handle_list_tasks. intros H E. apply pair_equal_spec in H as [H _].
    destruct (tasks_list (rq_params q) (sv_tasks s)) as [m| |v]; [injection H as <-; discriminate|injection H as <-; discriminate|].
    destruct (_ && _)%bool; injection H as <-; [discriminate|]. now exists v.
  - rewrite peer_list by exact M. unfold peer_list_tasks. rewrite (proj2 (can_list_iff c) A). cbn [negb]. intros H E. apply pair_equal_spec in H as [H _].
    destruct (tasks_list (rq_params q) (cl_tasks c)) as [m| |v]; [injection H as <-; discriminate|injection H as <-; discriminate|]. unfold strict_shape in H.
    destruct (_ && _)%bool; injection H as <-; [discriminate|]. now exists v.
Qed.

(** What the callers read. *)
Lemma read_error : forall A strict valid (read : json -> A) m1 m2 i c m r r', respond i (AError c m) = Reply r -> delivered r r' ->
  expect strict valid read m1 m2 r' = Threw m.
Proof.
  intros A strict valid read m1 m2 i c m r r' R D. destruct (respond_fails i c m) as (r0 & R0 & F). rewrite R in R0. injection R0 as <-.
  destruct (delivered_error _ _ _ _ F D) as (_ & e & E & M). unfold expect. rewrite E, <- M. now destruct (rs_result r').
Qed.

Lemma read_value : forall A strict valid (read : json -> A) m1 m2 i x y r r', respond i (AResult x) = Reply r -> delivered r r' ->
  (forall v, same x v -> valid v = true /\ read v = y) -> expect strict valid read m1 m2 r' = Ret y.
Proof.
  intros A strict valid read m1 m2 i x y r r' R D H. destruct (respond_result i x) as (r0 & R0 & F). rewrite R in R0. injection R0 as <-.
  destruct (delivered_result _ _ _ F D) as [(v & V1 & V2) E]. unfold expect. rewrite E, V1. destruct (H v V2) as [-> ->]. cbn [negb]. now rewrite andb_false_r.
Qed.

Lemma read_task : forall strict m1 m2 i t r r', respond i (AResult (task_json t)) = Reply r -> delivered r r' ->
  expect strict valid_task parse_task m1 m2 r' = Ret t.
Proof.
  intros strict m1 m2 i t r r' R D. apply (read_value _ _ _ _ _ _ _ _ t _ _ R D). intros v V. split; [now apply (task_arrives t)|now apply parse_task_json].
Qed.

Lemma tasks_arrive : forall l n v, same (tasks_json l n) v -> valid_tasks v = true.
Proof.
  intros l n v X. unfold tasks_json in X. set (z := opt_set _ _ _ _) in X.
  assert (NoDup (map fst z)) as Nz by (unfold z; nodups).
  assert (exists z', v = JObj z') as [z' ->] by (apply same_obj_inv in X as (? & ? & -> & _); eauto).
  unfold valid_tasks, arr_field, opt_str, opt_field.
  rewrite (same_field (bs "nextCursor") _ _ n Nz X) by (unfold z; objs; reflexivity).
  destruct (same_get_some (bs "tasks") _ _ (JArr (map task_json l)) Nz X) as (y & G & Y); [unfold z; objs; reflexivity|]. rewrite G.
  inversion Y as [| | | | |a b F|]; subst. clear -F. assert (forallb valid_task b = true) as ->; [|now destruct n].
  revert b F. induction l as [|t l IH]; intros b F; inversion F; subst; [reflexivity|]. cbn. rewrite (task_arrives t) by assumption. now apply IH.
Qed.

Lemma read_page : forall strict m1 m2 i l n r r', respond i (AResult (tasks_json l n)) = Reply r -> delivered r r' ->
  expect strict valid_tasks parse_tasks m1 m2 r' = Ret (l, n).
Proof.
  intros strict m1 m2 i l n r r' R D. apply (read_value _ _ _ _ _ _ _ _ (l, n) _ _ R D). intros v V. split; [now apply (tasks_arrive l n)|now apply parse_tasks_json].
Qed.

(** Asking for one task. *)
Lemma gives_get : forall strict x i, may_ask x ->
  gives (call_get strict i) x (match ts_get i (kept x) with Some t => Ret t | None => Threw (bs "Unknown task") end) (kept x).
Proof.
  intros strict x i A q C. apply carried_id in C. rewrite (handles_get x q i C A). destruct (ts_get i (kept x)) as [t|].
  - destruct (respond_result (rq_id q) (task_json t)) as (r & R & _). exists r. rewrite R. split; [reflexivity|]. intros r' D.
    eexists _, _, _. split; [reflexivity|]. now apply (read_task _ _ _ _ _ _ _ R).
  - destruct (respond_fails (rq_id q) INVALID_PARAMS (bs "Unknown task")) as (r & R & _). exists r. rewrite R. split; [reflexivity|]. intros r' D.
    eexists _, _, _. split; [reflexivity|]. now apply (read_error _ _ _ _ _ _ _ _ _ _ _ R).
Qed.

Lemma gives_tasks : forall strict x vs, few vs -> kept x = ts_run tstore0 vs -> may_list x ->
  exists l, gives (call_tasks strict) x (Ret l) (kept x) /\ map tk_id l = ids (kept x) /\ forall t, In t l -> ts_get (tk_id t) (kept x) = Some t.
Proof.
  intros strict x vs F K A. destruct (TaskProofs.list_all vs F) as (l & L & I & G). rewrite <- K in L, I, G. exists l. split; [|now split].
  intros q (m & p & f & E & M & P). injection E as <- <- <-. apply same_opt_none in P.
  rewrite (handles_list x q l None M A) by (rewrite P; exact L).
  destruct (respond_result (rq_id q) (tasks_json l None)) as (r & R & _). exists r. rewrite R. split; [reflexivity|]. intros r' D.
  eexists _, _, _. split; [reflexivity|]. cbv beta. now rewrite (read_page _ _ _ _ _ _ _ _ R D).
Qed.

Lemma unknown_list : forall strict x c n, ~ may_list x ->
  gives (call_list strict c n) x (Threw (bs "Task listing not supported")) (kept x).
Proof.
  intros strict x c n A q (m & p & f & E & M & P). injection E as <- <- <-. destruct x as [w pre mid post s|a mid c0]; [now destruct A|].
  cbn [handles kept may_list] in *. rewrite peer_list by exact M. unfold peer_list_tasks.
  assert (can_list c0 = false) as -> by (apply not_true_iff_false; now rewrite can_list_iff). cbn [negb].
  destruct (respond_fails (rq_id q) METHOD_NOT_ALLOWED (bs "Task listing not supported")) as (r & R & _). exists r. rewrite R. split; [reflexivity|]. intros r' D.
  eexists _, _, _. split; [reflexivity|]. now apply (read_error _ _ _ _ _ _ _ _ _ _ _ R).
Qed.
Lemma unknown_get : forall strict x i, ~ may_ask x -> gives (call_get strict i) x (Threw (bs "Tasks not supported")) (kept x).
Proof.
  intros strict x i A q C. apply carried_id in C as (M & v & P & S). destruct x as [w pre mid post s|a mid c0]; [now destruct A|].
  cbn [handles kept may_ask] in *. rewrite peer_get by exact M. unfold peer_get_task.
  assert (can_task c0 = false) as -> by (apply not_true_iff_false; now rewrite can_task_iff). cbn [negb].
  destruct (respond_fails (rq_id q) METHOD_NOT_ALLOWED (bs "Tasks not supported")) as (r & R & _). exists r. rewrite R. split; [reflexivity|]. intros r' D.
  eexists _, _, _. split; [reflexivity|]. now apply (read_error _ _ _ _ _ _ _ _ _ _ _ R).
Qed.
Lemma unknown_cancel : forall strict x i, ~ may_cancel x -> gives (call_cancel strict i) x (Threw (bs "Task cancellation not supported")) (kept x).
Proof.
  intros strict x i A q C. apply carried_id in C as (M & v & P & S).
  destruct (respond_fails (rq_id q) METHOD_NOT_ALLOWED (bs "Task cancellation not supported")) as (r & R & _).
  assert (handles x q = (Reply r, kept x)) as H.
  { destruct x as [w pre mid post s|a mid c0]; cbn [handles kept may_cancel] in *.
    - rewrite dispatch_cancel by exact M. unfold handle_cancel_task.
      destruct (sc_tasks (sv_caps s)) as [[[l [|]] c]|]; [exfalso; apply A; now exists l, c| |]; cbn [negb]; now rewrite R.
    - rewrite peer_cancel by exact M. unfold peer_cancel_task.
      assert (can_cancel c0 = false) as -> by (apply not_true_iff_false; now rewrite can_cancel_iff). cbn [negb fst snd]. now rewrite R. }
  exists r. split; [exact H|]. intros r' D. eexists _, _, _. split; [reflexivity|]. now apply (read_error _ _ _ _ _ _ _ _ _ _ _ R).
Qed.

(** Page by page. *)
Lemma list_params_asks : forall n c p, (0 < n)%Z -> same_opt (list_params c (Some n)) p -> asks n c p.
Proof.
  intros n c p Hn H. unfold list_params in H. replace (Z.ltb 0 n) with true in H by lia.
  set (z := obj_set (bs "limit") (JInt n) (opt_set (bs "cursor") JStr c [])) in H.
  assert (match z with [] => None | _ :: _ => Some (JObj z) end = Some (JObj z)) as E by (unfold z; now destruct c). rewrite E in H.
  assert (NoDup (map fst z)) as N by (unfold z; nodups). apply same_opt_some in H as (v & -> & H).
  assert (exists o, v = JObj o) as [o ->] by (apply same_obj_inv in H as (? & ? & -> & _); eauto).
  exists o. split; [reflexivity|]. split.
  - apply (same_get_int _ _ _ _ N H). unfold z. apply get_set_same.
  - rewrite (same_field (bs "cursor") _ _ c N H); [now destruct c|]. unfold z. objs. reflexivity.
Qed.

Lemma same_opt_refl : forall v, same_opt v v.
Proof. intros [v|]; constructor. apply same_refl. Qed.

Definition plain_request {A : Type} (k : call A) : request :=
  match k with Sends m p _ => {| rq_id := IdInt 1; rq_method := m; rq_params := p |} | Returns _ => {| rq_id := IdInt 1; rq_method := []; rq_params := None |} end.
Lemma plain_carried : forall A m p (f : response -> ret A), carried (Sends m p f) (plain_request (Sends m p f)).
Proof. intros A m p f. exists m, p, f. split; [reflexivity|]. split; [reflexivity|]. apply same_opt_refl. Qed.
Lemma delivered_refl : forall r, delivered r r.
Proof. intro r. split; [reflexivity|]. split; apply same_opt_refl. Qed.

Lemma page_read : forall strict n c x page next, (0 < n)%Z -> may_list x -> gives (call_list strict c (Some n)) x (Ret (page, next)) (kept x) ->
  exists params v, asks n c params /\ tasks_list params (kept x) = ListPage v /\ parse_tasks v = (page, next).
Proof.
  intros strict n c x page next Hn A H. set (q := plain_request (call_list strict c (Some n))).
  assert (carried (call_list strict c (Some n)) q) as C by apply plain_carried.
  destruct (H q C) as (r & R & D). destruct (D r (delivered_refl r)) as (m & p & f & E & F). injection E as <- <- <-.
  unfold expect in F. destruct (rs_error r) eqn:Er; [discriminate|].
  destruct (handles_list_page x q r _ eq_refl A R Er) as (v & T & V). rewrite V in F. destruct (_ && _)%bool; [discriminate|]. injection F as F.
  exists (rq_params q), v. split; [|split; assumption]. apply list_params_asks; [exact Hn|apply same_opt_refl].
Qed.

Lemma fetched_walk : forall strict n vs c pages us, fetched strict n vs c pages us -> (0 < n)%Z -> walk n vs c (map (map tk_id) pages) us.
Proof.
  intros strict n vs c pages us H Hn. induction H as [vs c x page K A G|vs ws us c x page c' pages K A G H IH].
  - destruct (page_read strict n c x page None Hn A G) as (p & v & P1 & P2 & P3). rewrite K in P2. now apply (walk_last n vs c p v page).
  - destruct (page_read strict n c x page (Some c') Hn A G) as (p & v & P1 & P2 & P3). rewrite K in P2. now apply (walk_more n vs ws us c p v page c').
Qed.

Lemma fetched_all : forall strict n vs pages us, fetched strict n vs None pages us -> (0 < n < 2 ^ 63)%Z -> (N.of_nat (creations us) < 2 ^ 63)%N ->
  map tk_id (concat pages) = ids (ts_run tstore0 us) /\ Forall (fun page => (Z.of_nat (length page) <= n)%Z) pages.
Proof.
  intros strict n vs pages us H Hn Hu. destruct (walk_all n vs _ us (fetched_walk _ _ _ _ _ _ H ltac:(lia)) Hn Hu) as [A B]. split.
  - now rewrite concat_map.
  - rewrite Forall_map in B. eapply Forall_impl; [|exact B]. intros p Hp. cbv beta in Hp. now rewrite map_length in Hp.
Qed.

Lemma page_given : forall strict n x c start l next, (0 < n < 2 ^ 63)%Z -> starts c start -> (start < 2 ^ 63)%N -> may_list x ->
  ts_list start (Some (Z.to_N n)) (kept x) = Some (l, next) -> gives (call_list strict c (Some n)) x (Ret (l, next)) (kept x).
Proof.
  intros strict n x c start l next Hn Hc Hs A E q (m & p & f & K & M & P). injection K as <- <- <-.
  apply list_params_asks in P; [|lia]. rewrite (handles_list x q l next M A).
  2:{ rewrite (tasks_list_asks n c start _ _ Hn Hc Hs P), E. reflexivity. }
  destruct (respond_result (rq_id q) (tasks_json l next)) as (r & R & _). exists r. rewrite R. split; [reflexivity|]. intros r' D.
  eexists _, _, _. split; [reflexivity|]. now apply (read_page _ _ _ _ _ _ _ _ R).
Qed.

Lemma fetch_ends_from : forall strict n x vs, (0 < n < 2 ^ 63)%Z -> (N.of_nat (creations vs) < 2 ^ 63)%N -> kept x = ts_run tstore0 vs -> may_list x ->
  forall k c start, starts c start -> (start <= N.of_nat (creations vs))%N -> creations vs - N.to_nat start < k ->
  exists pages, fetched strict n vs c pages vs.
Proof.
  intros strict n x vs Hn Hu K A k. induction k as [|k IH]; intros c start Hc Hs Hk; [lia|].
  destruct (ts_list_spec (creations vs) (ts_run tstore0 vs) start (Z.to_N n)) as (page' & E & F).
  { apply sinv_run. unfold few. lia. } { rewrite ids_length. lia. } { rewrite ids_length. lia. } { lia. }
  rewrite <- K in E. pose proof (page_given strict n x c start _ _ Hn Hc ltac:(lia) A E) as G. rewrite K, ids_length in *.
  destruct (N.ltb_spec (N.min (N.of_nat (creations vs)) (start + Z.to_N n)) (N.of_nat (creations vs))) as [L|L].
  - set (e := N.min (N.of_nat (creations vs)) (start + Z.to_N n)) in *.
    destruct (IH (Some (print_N e)) e eq_refl) as [pages W]; [unfold e; lia|unfold e; lia|].
    eexists. eapply (fetched_more strict n vs [] vs c x); [exact K|exact A|rewrite K; exact G|]. rewrite app_nil_r. exact W.
  - eexists. eapply (fetched_last strict n vs c x); [exact K|exact A|rewrite K; exact G].
Qed.

Lemma fetch_ends : forall strict n x vs, (0 < n < 2 ^ 63)%Z -> (N.of_nat (creations vs) < 2 ^ 63)%N -> kept x = ts_run tstore0 vs -> may_list x ->
  exists pages, fetched strict n vs None pages vs.
Proof. intros strict n x vs Hn Hu K A. apply (fetch_ends_from strict n x vs Hn Hu K A (S (creations vs)) None 0%N eq_refl); lia. Qed.

(** Cancelling. *)
Lemma known_id : forall n s i, sinv n s -> (In i (ids s) <-> ts_get i s <> None).
Proof.
  intros n s i I. rewrite (si_ids _ _ I), <- (si_dom _ _ I). unfold ts_get. destruct (aget i (ts_recs s)) eqn:E.
  - split; [easy|intros _; apply aget_in in E; exact (in_map fst _ _ E)].
  - split; [intro H; apply aget_none in E; easy|easy].
Qed.

Lemma cancel_unfinished : forall strict x vs i, few vs -> kept x = ts_run tstore0 vs -> may_cancel x -> unfinished i (kept x) ->
  exists t ts, gives (call_cancel strict i) x (Ret t) ts /\
    tk_id t = i /\ tk_status t = bs "cancelled" /\ ts_get i ts = Some t /\
    TaskSpec.outcome i ts = Some (true, JObj [(bs "code", JInt (-32603)); (bs "message", JStr (bs "Cancelled"))]) /\
    forall j, j <> i -> ts_get j ts = ts_get j (kept x) /\ TaskSpec.outcome j ts = TaskSpec.outcome j (kept x).
Proof.
  intros strict x vs i F K A [U1 U2]. pose proof (sinv_run vs F) as I. rewrite <- K in I.
  set (b := cancel_attempt i (snd CANCELLED_PAYLOAD) (now_at x)).
  destruct (outcome_terminal _ (kept x) b I) as (O1 & O2 & _). change (at_id b) with i in *.
  apply (known_id _ _ _ I) in U1 as D. specialize (O2 D). rewrite U2 in O2. destruct O2 as [O2 (t & W)].
  exists t, (snd (ts_terminal b (kept x))). split; [|].
  { intros q C. apply carried_id in C. rewrite (handles_cancel x q i C A). fold b. rewrite W.
    destruct (respond_result (rq_id q) (task_json t)) as (r & R & _). exists r. rewrite R. split; [reflexivity|]. intros r' D'.
    eexists _, _, _. split; [reflexivity|]. now apply (read_task _ _ _ _ _ _ _ R). }
  pose proof (terminal_cases _ _ b I) as TC. change (at_id b) with i in TC.
  assert (forall j, j <> i -> ts_get j (snd (ts_terminal b (kept x))) = ts_get j (kept x)) as OG.
  { intros j J. unfold ts_terminal, ts_get. change (at_id b) with i. destruct (aget i (ts_recs (kept x))) as [rc|]; [|reflexivity].
    destruct (_ || _)%bool; [reflexivity|]. cbn [snd ts_recs]. now rewrite aget_aset_other. }
  assert (ts_get i (snd (ts_terminal b (kept x))) = Some t) as G.
  { revert W. unfold ts_terminal, ts_get. change (at_id b) with i. destruct (aget i (ts_recs (kept x))) as [rc|]; [|discriminate].
    destruct (_ || _)%bool; [discriminate|]. cbn [fst snd ts_recs]. intro W. injection W as <-. now rewrite aget_aset_same. }
  destruct (aget i (ts_recs (kept x))) as [rc|] eqn:E; [|destruct TC as [TC _]; rewrite TC in W; discriminate].
  destruct (tr_payload rc) eqn:Ep; [rewrite TC in W; discriminate|]. destruct TC as (_ & t' & T1 & _ & T2). rewrite W in T1. injection T1 as <-.
  split; [now rewrite T2|]. split; [now rewrite T2|]. split; [exact G|]. split; [exact O2|]. intros j J. split; [now apply OG|now apply O1].
Qed.

Lemma cancel_finished : forall strict x vs i, few vs -> kept x = ts_run tstore0 vs -> may_cancel x -> ~ unfinished i (kept x) ->
  exists ts, gives (call_cancel strict i) x (Threw (bs "Task is not cancellable")) ts /\ same_tasks (kept x) ts.
Proof.
  intros strict x vs i F K A U. pose proof (sinv_run vs F) as I. rewrite <- K in I.
  set (b := cancel_attempt i (snd CANCELLED_PAYLOAD) (now_at x)).
  pose proof (terminal_cases _ _ b I) as TC. change (at_id b) with i in TC.
  assert (forall t, fst (ts_terminal b (kept x)) <> Won t) as NW.
  { intros t W. apply U. unfold unfinished, ts_get, TaskSpec.outcome.
    destruct (aget i (ts_recs (kept x))) as [rc|]; [|destruct TC as [TC _]; rewrite TC in W; discriminate].
    destruct (tr_payload rc); [rewrite TC in W; discriminate|]. now split. }
  exists (snd (ts_terminal b (kept x))). split.
  - intros q C. apply carried_id in C. rewrite (handles_cancel x q i C A). fold b.
    assert (match fst (ts_terminal b (kept x)) with Won k => AResult (task_json k) | _ => AError INVALID_PARAMS (bs "Task is not cancellable") end =
      AError INVALID_PARAMS (bs "Task is not cancellable")) as -> by (destruct (fst (ts_terminal b (kept x))) eqn:W; try reflexivity; now destruct (NW _ eq_refl)).
    destruct (respond_fails (rq_id q) INVALID_PARAMS (bs "Task is not cancellable")) as (r & R & _). exists r. rewrite R. split; [reflexivity|]. intros r' D.
    eexists _, _, _. split; [reflexivity|]. now apply (read_error _ _ _ _ _ _ _ _ _ _ _ R).
  - intro j. revert NW. unfold ts_terminal, ts_get, TaskSpec.outcome. change (at_id b) with i. destruct (aget i (ts_recs (kept x))) as [rc|]; [|intros _; now split].
    destruct (_ || _)%bool; [intros _; now split|]. cbn [fst]. intro NW. now destruct (NW _ eq_refl).
Qed.

(** Results. *)
Lemma ok_related : forall i, ok (related_value i).
Proof. intro i. unfold related_value. apply ok_set; [now apply plain_bs|constructor|apply ok_nil]. Qed.

Lemma ok_at : forall k o, ok (JObj o) -> ok (JObj (obj_at k o)).
Proof. intros k o H. unfold obj_at. destruct (obj_get k o) as [[| | | | | |]|] eqn:E; try apply ok_nil. exact (ok_get _ _ _ H E). Qed.

Lemma ok_attach : forall o i, ok (JObj o) -> ok (attach_result (JObj o) i).
Proof.
  intros o i H. unfold attach_result. apply ok_set; [now apply plain_bs| |exact H]. apply ok_set; [now apply plain_bs|apply ok_related|now apply ok_at].
Qed.

Lemma ok_attach_error : forall o i, ok (JObj o) -> ok (attach_error (JObj o) i).
Proof.
  intros o i H. unfold attach_error. apply ok_set; [now apply plain_bs| |exact H].
  apply ok_set; [now apply plain_bs| |now apply ok_at]. apply ok_set; [now apply plain_bs|apply ok_related|now apply ok_at, ok_at].
Qed.

Lemma related_same : forall i v v', (forall x, v = Some x -> ok x) -> same_opt v v' -> related_to i v -> related_to i v'.
Proof.
  intros i v v' O S (m & r & -> & R1 & R2). apply same_opt_some in S as (x & -> & S). specialize (O _ eq_refl).
  assert (exists m', x = JObj m') as [m' ->] by (apply same_obj_inv in S as (? & ? & -> & _); eauto).
  destruct (same_get_some _ _ _ _ (proj1 (ok_obj_inv _ O)) S R1) as (y & Y1 & Y2).
  assert (exists r', y = JObj r') as [r' ->] by (apply same_obj_inv in Y2 as (? & ? & -> & _); eauto).
  exists m', r'. split; [reflexivity|]. split; [exact Y1|].
  apply (same_get_str _ _ _ _ (proj1 (ok_obj_inv _ (ok_get _ _ _ O R1))) Y2 R2).
Qed.

Lemma marked_arrives : forall o i v, ok (JObj o) -> same (attach_result (JObj o) i) v -> marked i o v.
Proof.
  intros o i v O S. pose proof (ok_attach o i O) as OA. destruct (attach_result_obj o i) as (o1 & E & G & m & M1 & (x & M2 & M3) & _). rewrite E in *.
  assert (exists o', v = JObj o') as [o' ->] by (apply same_obj_inv in S as (? & ? & -> & _); eauto). exists o'. split; [reflexivity|].
  pose proof (proj1 (ok_obj_inv _ OA)) as N. split.
  - intros k K. rewrite <- (G k K). exact (same_opt_get k _ _ N S).
  - apply (related_same i (obj_get (bs "_meta") o1)); [intros y Y; exact (ok_get _ _ _ OA Y)|exact (same_opt_get _ _ _ N S)|].
    exists m, x. now split.
Qed.

Lemma marked_error_arrives : forall c s i v, ok (JObj [(bs "code", JInt c); (bs "message", JStr s)]) ->
  same (attach_error (JObj [(bs "code", JInt c); (bs "message", JStr s)]) i) v -> marked_error i c s v.
Proof.
  intros c s i v O S. pose proof (ok_attach_error _ i O) as OA.
  destruct (attach_error_obj [(bs "code", JInt c); (bs "message", JStr s)] i) as (o1 & E & G & d & D1 & D2 & m & M1 & (x & M2 & M3) & _). rewrite E in *.
  assert (exists o', v = JObj o') as [o' ->] by (apply same_obj_inv in S as (? & ? & -> & _); eauto).
  pose proof (proj1 (ok_obj_inv _ OA)) as N. destruct (same_get_some _ _ _ _ N S D1) as (y & Y1 & Y2).
  assert (exists d', y = JObj d') as [d' ->] by (apply same_obj_inv in Y2 as (? & ? & -> & _); eauto).
  exists o', d'. split; [reflexivity|]. split; [apply (same_get_int _ _ _ _ N S); rewrite G by discriminate; reflexivity|].
  split; [apply (same_get_str _ _ _ _ N S); rewrite G by discriminate; reflexivity|]. split; [exact Y1|].
  pose proof (ok_get _ _ _ OA D1) as OD.
  apply (related_same i (obj_get (bs "_meta") d)); [intros z Z; exact (ok_get _ _ _ OD Z)|exact (same_opt_get _ _ _ (proj1 (ok_obj_inv _ OD)) Y2)|].
  exists m, x. now split.
Qed.

Definition finished_at (x : side) (i : rpcid) (k : task_kind) (t : bstr) (p : bool * json) : done :=
  match x with
  | AtServer _ _ _ _ s => finish_result i (sv_strict s) (Some k) t (Some p)
  | AtClient _ _ c => peer_finish i (cl_strict c) (Some k) t (Some p)
  end.

Lemma handles_result : forall x q i e p k, requests q (bs "tasks/result") (JObj [(bs "taskId", JStr i)]) -> may_ask x ->
  TaskSpec.outcome i (kept x) = Some (e, p) -> ts_kind i (kept x) = Some k -> handles x q = (finished_at x (rq_id q) k i (e, p), kept x).
Proof.
  intros x q i e p k Q A O K. destruct x as [w pre mid post s|a mid c]; cbn [handles kept may_ask finished_at] in *.
  - now rewrite (result_reply _ _ _ _ _ _ _ _ _ _ Q O K).
  - now rewrite (peer_result_reply _ _ _ _ _ _ _ _ Q (proj2 (can_task_iff c) A) O K).
Qed.

Lemma kind_attach : forall k o i, kind_result k (attach_result (JObj o) i) <-> kind_result k (JObj o).
Proof.
  intros k o i. rewrite <- !kind_iff. destruct (attach_result_obj o i) as (o1 & -> & G & _).
  destruct k; cbn [kind_shape]; [reflexivity| | |].
  - unfold valid_call_tool, arr_field, opt_bool, opt_field. now rewrite !G by discriminate.
  - unfold valid_create_result, str_field. now rewrite !G by discriminate.
  - unfold valid_elicitation_result, opt_str, opt_field. now rewrite !G by discriminate.
Qed.

Lemma finished_value : forall x i k t o, (match x with AtServer _ _ _ _ _ => True | AtClient _ _ _ => k = KCreateMessage \/ k = KElicitation end) ->
  (strict_side x = true -> kind_result k (JObj o)) ->
  finished_at x i k t (false, JObj o) = respond i (AResult (attach_result (JObj o) t)).
Proof.
  intros x i k t o W V. assert (strict_side x = true -> kind_shape k (attach_result (JObj o) t) = true) as V'.
  { intro S. apply kind_iff, kind_attach. now apply V. }
  destruct x as [w pre mid post s|a mid c]; cbn [finished_at strict_side finish_result peer_finish] in *.
  - destruct (sv_strict s); [|reflexivity]. specialize (V' eq_refl). destruct k; cbn [kind_shape] in V'; rewrite ?V'; easy.
  - destruct (cl_strict c); [|reflexivity]. specialize (V' eq_refl). destruct W as [-> | ->]; cbn [kind_shape] in V'; now rewrite V'.
Qed.

Lemma gives_result : forall strict m x i o k, may_ask x -> TaskSpec.outcome i (kept x) = Some (false, JObj o) -> ts_kind i (kept x) = Some k ->
  ok (JObj o) -> (match x with AtServer _ _ _ _ _ => True | AtClient _ _ _ => k = KCreateMessage \/ k = KElicitation end) ->
  aget i m = None \/ aget i m = Some k -> (strict = true \/ strict_side x = true -> kind_result k (JObj o)) ->
  gives_such (call_result strict m i) x (marked i o) (kept x).
Proof.
  intros strict m x i o k A O K OK W R V q C. apply carried_id in C. rewrite (handles_result x q i _ _ k C A O K).
  rewrite finished_value by tauto.
  destruct (respond_result (rq_id q) (attach_result (JObj o) i)) as (r & R1 & R2). exists r. rewrite R1. split; [reflexivity|]. intros r' D.
  destruct (delivered_result _ _ _ R2 D) as [(v & V1 & V2) E]. exists v. split; [|now apply marked_arrives].
  eexists _, _, _. split; [reflexivity|]. cbv beta. rewrite E, V1. destruct R as [-> | ->]; [reflexivity|].
  destruct strict; [|reflexivity].
  assert (kind_shape k v = true) as ->; [|reflexivity].
  apply kind_iff. apply (stable_kind k _ _ (ok_attach o i OK) V2). apply kind_attach. apply V. now left.
Qed.

Lemma gives_failure : forall strict m x i c s k, may_ask x ->
  TaskSpec.outcome i (kept x) = Some (true, JObj [(bs "code", JInt c); (bs "message", JStr s)]) -> ts_kind i (kept x) = Some k -> int64 c ->
  gives_such (call_result strict m i) x (marked_error i c s) (kept x).
Proof.
  intros strict m x i c s k A O K I q C. apply carried_id in C. rewrite (handles_result x q i _ _ k C A O K).
  set (p := JObj [(bs "code", JInt c); (bs "message", JStr s)]) in *.
  exists {| rs_id := rq_id q; rs_result := None; rs_error := Some (attach_error p i) |}. split; [now destruct x|].
  intros r' (_ & D1 & D2). cbn [rs_result rs_error] in D1, D2. apply same_opt_some in D2 as (v & E & V). exists v. split.
  - eexists _, _, _. split; [reflexivity|]. cbv beta. now rewrite E.
  - apply marked_error_arrives; [|exact V]. constructor; [|repeat constructor; now apply plain_bs|repeat constructor; apply I].
    cbn [map fst]. repeat constructor; cbn [In]; intuition discriminate.
Qed.

Lemma gives_wait : forall strict m x i q, may_ask x -> unfinished i (kept x) -> carried (call_result strict m i) q -> handles x q = (Waits i, kept x).
Proof.
  intros strict m x i q A [U1 U2] C. apply carried_id in C as (M & v & P & S). unfold ts_get, TaskSpec.outcome in *.
  destruct x as [w pre mid post s|a mid c]; cbn [handles kept may_ask] in *.
  - rewrite dispatch_result by exact M. rewrite P. unfold handle_task_result. rewrite (names_task i v S).
    destruct (aget i (ts_recs (sv_tasks s))) as [rc|]; [|easy]. now destruct (tr_payload rc).
  - rewrite peer_result by exact M. rewrite P. unfold peer_task_result. rewrite (proj2 (can_task_iff c) A). cbn [negb]. rewrite (names_task i v S).
    destruct (aget i (ts_recs (cl_tasks c))) as [rc|]; [|easy]. now destruct (tr_payload rc).
Qed.

Lemma gives_unknown : forall strict m x i, may_ask x -> ts_get i (kept x) = None ->
  gives_such (call_result strict m i) x (fun v => exists o, v = JObj o /\ obj_get (bs "code") o = Some (JInt (-32602)) /\ obj_get (bs "message") o = Some (JStr (bs "Unknown task"))) (kept x).
Proof.
  intros strict m x i A G q C. apply carried_id in C as (M & v & P & S). unfold ts_get in G.
  destruct (respond_fails (rq_id q) INVALID_PARAMS (bs "Unknown task")) as (r & R & F). exists r. split.
  - destruct x as [w pre mid post s|a mid c]; cbn [handles kept may_ask] in *.
    + rewrite dispatch_result by exact M. rewrite P. unfold handle_task_result. rewrite (names_task i v S).
      destruct (aget i (ts_recs (sv_tasks s))) as [rc|]; [easy|]. cbn [finish_result]. now rewrite R.
    + rewrite peer_result by exact M. rewrite P. unfold peer_task_result. rewrite (proj2 (can_task_iff c) A). cbn [negb]. rewrite (names_task i v S).
      destruct (aget i (ts_recs (cl_tasks c))) as [rc|]; [easy|]. cbn [peer_finish]. now rewrite R.
  - intros r' (_ & D1 & D2). destruct F as (_ & e & E & N & E1 & E2). rewrite E in D2. apply same_opt_some in D2 as (y & Y & D2).
    assert (exists o, y = JObj o) as [o ->] by (apply same_obj_inv in D2 as (? & ? & -> & _); eauto).
    exists (JObj o). split; [eexists _, _, _; split; [reflexivity|]; cbv beta; now rewrite Y|]. exists o. split; [reflexivity|].
    split; [exact (same_get_int _ _ _ _ N D2 E1)|exact (same_get_str _ _ _ _ N D2 E2)].
Qed.

(** From the call to the result. *)
Lemma carried_tool : forall strict n a ttl q, carried (call_tool_task strict n a ttl) q -> requests q (bs "tools/call") (task_params n a ttl).
Proof. intros strict n a ttl q (m & p & f & E & M & P). injection E as <- <- <-. split; [exact M|]. apply same_opt_some in P as (v & -> & P). now exists v. Qed.

Lemma tool_started : forall strict ops w pre mid s n a ttl t h vs, n <> [] -> sv_reg s = reg_run ops -> tool_now n (rev ops) = Some (t, Some h) ->
  ~ supports t Forbidden -> sv_tasks s = ts_run tstore0 vs ->
  gives (call_tool_task strict n a ttl) (AtServer w pre mid false s) (Ret (new_task (ts_next (sv_tasks s)) (w_now w) ttl, None))
    (ts_run tstore0 (vs ++ [TCreate KToolCall ttl (w_now w)])).
Proof.
  intros strict ops w pre mid s n a ttl t h vs N R H S T q C. apply carried_tool in C.
  destruct (call_task ops w pre q s n a N R mid t h ttl H S C) as (r & v & D & V & E). exists r. cbn [handles]. rewrite D. cbn [sv_tasks set_tasks]. split.
  - rewrite ts_run_app, <- T. reflexivity.
  - intros r' D'. eexists _, _, _. split; [reflexivity|]. subst v.
    assert (r = {| rs_id := rq_id q; rs_result := Some (created_json (new_task (ts_next (sv_tasks s)) (w_now w) ttl) None); rs_error := None |}) as ->.
    { destruct V as [V1 V2]. pose proof (dispatch_answers _ _ _ _ _ _ _ _ D) as [I _]. destruct r as [x1 x2 x3]. change (x1 = rq_id q) in I. change (x3 = None) in V2. change (x2 = Some (created_json (new_task (ts_next (sv_tasks s)) (w_now w) ttl) None)) in V1. now subst. }
    apply (created_round strict q _ _ _ _ r' eq_refl D').
Qed.

Lemma remembered : forall i k m, i <> [] -> aget i (remember i k m) = Some k.
Proof. intros i k m H. destruct i; [easy|]. apply aget_aset_same. Qed.

Lemma new_id : forall n now ttl, tk_id (new_task n now ttl) <> [].
Proof. intros n now ttl. unfold new_task. cbn [tk_id]. unfold task_name. discriminate. Qed.

Lemma tool_told : forall strict m w pre mid post s vs ttl now us now' ws out,
  let i := tk_id (new_task (ts_next (ts_run tstore0 vs)) now ttl) in
  let a := tool_worker (sv_strict s) i now' (Ret out) in
  few (vs ++ TCreate KToolCall ttl now :: us ++ TTerminal a :: ws) -> untouched i (vs ++ us) ->
  sv_tasks s = ts_run tstore0 (vs ++ TCreate KToolCall ttl now :: us ++ TTerminal a :: ws) ->
  (strict = true \/ sv_strict s = true -> Forall Content (to_content out)) ->
  Forall ok (to_content out) -> (forall v, to_struct out = Some v \/ to_meta out = Some v -> ok v) ->
  gives_such (call_result strict (remember i KToolCall m) i) (AtServer w pre mid post s) (fun v => exists o, v = JObj o /\
    same_opt (Some (JArr (to_content out))) (obj_get (bs "content") o) /\ same_opt (to_struct out) (obj_get (bs "structuredContent") o) /\
    obj_get (bs "isError") o = Some (JBool (to_error out)) /\ related_to i (obj_get (bs "_meta") o)) (sv_tasks s).
Proof.
  intros strict m w pre mid post s vs ttl now us now' ws out i a F U T V K1 K2.
  assert (sv_strict s = true -> Forall Content (to_content out)) as V' by tauto.
  destruct (worker_good (sv_strict s) i now' out V') as (A1 & A2 & A3 & _). fold a in A1, A2, A3.
  destruct (task_ends vs KToolCall ttl now us a ws F U A1) as [K O]. fold i in K, O. rewrite <- T in K, O. rewrite A2, A3 in O.
  destruct (tool_tells out) as (o & E & T1 & T2 & T3 & T4). rewrite E in O.
  assert (ok (JObj o)) as OK.
  { rewrite <- E. unfold tool_json_out, tool_result_json. apply ok_set; [now apply plain_bs|constructor|].
    apply ok_opt_set; [now apply plain_bs|intros x X; apply K2; now right|]. apply ok_opt_set; [now apply plain_bs|intros x X; apply K2; now left|].
    apply ok_set; [now apply plain_bs|now constructor|apply ok_nil]. }
  pose proof (gives_result strict (remember i KToolCall m) (AtServer w pre mid post s) i o KToolCall I O K OK I (or_intror (remembered i _ m (new_id _ _ _)))) as G.
  specialize (G ltac:(cbn [kind_result strict_side]; intro S; rewrite <- E; apply call_tool_iff, tool_valid, V, S)).
  intros q C. destruct (G q C) as (r & R & D). exists r. split; [exact R|]. intros r' D'. destruct (D r' D') as (y & Y & o' & -> & M1 & M2). exists (JObj o'). split; [exact Y|].
  exists o'. split; [reflexivity|]. split; [rewrite <- T1; apply M1; discriminate|]. split; [rewrite <- T2; apply M1; discriminate|]. split; [|exact M2].
  assert (same_opt (obj_get (bs "isError") o) (obj_get (bs "isError") o')) as B by (apply M1; discriminate). rewrite T4 in B. apply same_opt_some in B as (z & -> & Z). now inversion Z.
Qed.

Lemma internal_int64 : int64 INTERNAL.
Proof. unfold int64, INTERNAL. change two63 with (2 ^ 63)%Z. lia. Qed.

Lemma tool_failed : forall strict m w pre mid post s vs ttl now us now' ws what,
  let i := tk_id (new_task (ts_next (ts_run tstore0 vs)) now ttl) in
  let a := tool_worker (sv_strict s) i now' (Threw what) in
  few (vs ++ TCreate KToolCall ttl now :: us ++ TTerminal a :: ws) -> untouched i (vs ++ us) ->
  sv_tasks s = ts_run tstore0 (vs ++ TCreate KToolCall ttl now :: us ++ TTerminal a :: ws) ->
  gives_such (call_result strict m i) (AtServer w pre mid post s) (marked_error i (-32603) what) (sv_tasks s).
Proof.
  intros strict m w pre mid post s vs ttl now us now' ws what i a F U T.
  destruct (task_ends vs KToolCall ttl now us a ws F U eq_refl) as [K O]. fold i in K, O. rewrite <- T in K, O.
  exact (gives_failure strict m (AtServer w pre mid post s) i INTERNAL what _ I O K internal_int64).
Qed.

Lemma elicit_told : forall strict m scl caps h1 b n h2 i e f r a mid, few_requests (h1 ++ PWork b n :: h2) ->
  nth_error (cl_workers (peer_run (client0 scl caps) h1)) n = Some (i, WElicit e) ->
  (forall ev, In ev h1 -> ~ cancels_task i ev) ->
  ap_elicit b = Some f -> f e = Ret r -> (strict = true \/ scl = true -> proper r) -> (forall v, ed_content r = Some v -> ok v) ->
  cc_tasks caps <> None -> i <> [] ->
  let c := peer_run (client0 scl caps) (h1 ++ PWork b n :: h2) in
  gives_such (call_result strict (remember i KElicitation m) i) (AtClient a mid c) (fun v => exists o, v = JObj o /\
    obj_get (bs "action") o = Some (JStr (ed_action r)) /\ same_opt (ed_content r) (obj_get (bs "content") o) /\
    obj_get (bs "elicitationId") o = option_map JStr (ed_id r) /\ related_to i (obj_get (bs "_meta") o)) (cl_tasks c).
Proof.
  intros strict m scl caps h1 b n h2 i e f r a mid F N NC A R V K1 CT NE c.
  destruct (worker_ends scl caps h1 b n h2 i _ F N NC) as (_ & K & O). fold c in K, O.
  cbn [peer_worker work_kind] in K, O. rewrite A, R in O. unfold worker_value in O.
  assert (scl && negb (valid_elicitation_result (elicited_json r)) = false)%bool as W.
  { destruct scl; [|reflexivity]. specialize (V (or_intror eq_refl)). apply elicited_valid in V. now rewrite V. }
  rewrite W in O. cbn [complete_attempt at_error at_payload] in O. unfold elicited_json in O. set (o := opt_set _ _ _ _) in O.
  assert (obj_get (bs "action") o = Some (JStr (ed_action r)) /\ obj_get (bs "content") o = ed_content r /\ obj_get (bs "elicitationId") o = option_map JStr (ed_id r)) as (G1 & G2 & G3).
  { unfold o. split; [objs; reflexivity|]. split; [objs; destruct (ed_content r); reflexivity|]. objs. destruct (ed_id r); reflexivity. }
  assert (ok (JObj o)) as OK.
  { unfold o. apply ok_opt_set; [now apply plain_bs|intros; constructor|]. apply ok_opt_set; [now apply plain_bs|exact K1|]. apply ok_set; [now apply plain_bs|constructor|apply ok_nil]. }
  destruct (run_fixed scl caps (h1 ++ PWork b n :: h2)) as [ST SC]. fold c in ST, SC.
  pose proof (gives_result strict (remember i KElicitation m) (AtClient a mid c) i o KElicitation) as G. cbn [may_ask kept strict_side kind_result] in G. rewrite ST, SC in G.
  specialize (G CT O K OK (or_intror eq_refl) (or_intror (remembered i _ m NE))).
  specialize (G ltac:(intro S; apply elicit_result_iff; change (JObj o) with (elicited_json r); apply elicited_valid, V, S)).
  intros q C. destruct (G q C) as (r0 & R0 & D). exists r0. split; [exact R0|]. intros r' D'. destruct (D r' D') as (y & Y & o' & -> & M1 & M2). exists (JObj o'). split; [exact Y|].
  exists o'. split; [reflexivity|].
  assert (same_opt (obj_get (bs "action") o) (obj_get (bs "action") o')) as B1 by (apply M1; discriminate).
  assert (same_opt (obj_get (bs "elicitationId") o) (obj_get (bs "elicitationId") o')) as B2 by (apply M1; discriminate).
  rewrite G1 in B1. rewrite G3 in B2. apply same_opt_some in B1 as (z & -> & Z). split; [now inversion Z|].
  split; [rewrite <- G2; apply M1; discriminate|]. split; [|exact M2].
  destruct (ed_id r); cbn [option_map] in *; [apply same_opt_some in B2 as (z2 & -> & Z2); now inversion Z2|now apply same_opt_none in B2].
Qed.

Lemma sample_told : forall strict m scl caps h1 b n h2 i x p y z f o a mid, few_requests (h1 ++ PWork b n :: h2) ->
  nth_error (cl_workers (peer_run (client0 scl caps) h1)) n = Some (i, WSample x p y z) ->
  (forall ev, In ev h1 -> ~ cancels_task i ev) ->
  the_sampler b = Some f -> f x p y z = Ret (JObj o) -> (strict = true \/ scl = true -> CreateMessageResult (JObj o)) -> ok (JObj o) ->
  cc_tasks caps <> None -> i <> [] ->
  let c := peer_run (client0 scl caps) (h1 ++ PWork b n :: h2) in
  gives_such (call_result strict (remember i KCreateMessage m) i) (AtClient a mid c) (marked i o) (cl_tasks c).
Proof.
  intros strict m scl caps h1 b n h2 i x p y z f o a mid F N NC A R V OK CT NE c.
  destruct (worker_ends scl caps h1 b n h2 i _ F N NC) as (_ & K & O). fold c in K, O.
  cbn [peer_worker work_kind] in K, O. rewrite A, R in O. unfold worker_value in O.
  assert (scl && negb (valid_create_result (JObj o)) = false)%bool as W.
  { destruct scl; [|reflexivity]. specialize (V (or_intror eq_refl)). apply create_result_iff in V. now rewrite V. }
  rewrite W in O. cbn [complete_attempt at_error at_payload] in O.
  destruct (run_fixed scl caps (h1 ++ PWork b n :: h2)) as [ST SC]. fold c in ST, SC.
  pose proof (gives_result strict (remember i KCreateMessage m) (AtClient a mid c) i o KCreateMessage) as G. cbn [may_ask kept strict_side kind_result] in G. rewrite ST, SC in G.
  exact (G CT O K OK (or_introl eq_refl) (or_intror (remembered i _ m NE)) V).
Qed.

Lemma peer_failed : forall strict m scl caps h1 b n h2 i w what a mid, few_requests (h1 ++ PWork b n :: h2) ->
  nth_error (cl_workers (peer_run (client0 scl caps) h1)) n = Some (i, w) ->
  (forall ev, In ev h1 -> ~ cancels_task i ev) -> work_threw b w what -> cc_tasks caps <> None ->
  let c := peer_run (client0 scl caps) (h1 ++ PWork b n :: h2) in
  gives_such (call_result strict m i) (AtClient a mid c) (marked_error i (-32603) what) (cl_tasks c).
Proof.
  intros strict m scl caps h1 b n h2 i w what a mid F N NC TH CT c.
  destruct (worker_ends scl caps h1 b n h2 i _ F N NC) as (_ & K & O). fold c in K, O.
  assert (peer_worker b scl i w = worker_failed i (ap_now b) what) as W.
  { destruct w as [e|x p y z]; destruct TH as (f & A & R); cbn [peer_worker]; now rewrite A, R. }
  rewrite W in O. cbn [worker_failed complete_attempt at_error at_payload] in O.
  destruct (run_fixed scl caps (h1 ++ PWork b n :: h2)) as [ST SC]. fold c in ST, SC.
  refine (gives_failure strict m (AtClient a mid c) i INTERNAL what _ _ O K internal_int64). cbn [may_ask]. now rewrite SC.
Qed.

(** A server asking its client to call a tool. *)
Lemma client_has_no_tools : forall strict a mid c n args ttl,
  gives (call_tool_task strict n args ttl) (AtClient a mid c) (Threw (bs "Method not found")) (cl_tasks c).
Proof.
  intros strict a mid c n args ttl q C. apply carried_tool in C as (M & _). cbn [handles].
  destruct (peer_unknown a mid q c) as (r & R & F).
  { rewrite M. unfold peer_methods. cbn [In]. intuition discriminate. }
  exists r. rewrite R. split; [reflexivity|]. intros r' D. eexists _, _, _. split; [reflexivity|].
  destruct (delivered_error _ _ _ _ F D) as (_ & e & E & Me). unfold expect. rewrite E, <- Me. now destruct (rs_result r').
Qed.

(** The server's own calls. *)
Lemma own_tool_runs : forall ops w g n a t h, g = reg_run ops -> tool_now n (rev ops) = Some (t, Some h) ->
  (forall out, w_tool w h a = Ret out -> exists o, own_tool w g n a = Ret (JObj o) /\
     obj_get (bs "content") o = Some (JArr (to_content out)) /\ obj_get (bs "isError") o = Some (JBool (to_error out)) /\
     forall k, k <> bs "content" -> k <> bs "isError" -> obj_get k o = None) /\
  (forall what, w_tool w h a = Threw what -> own_tool w g n a = Threw what).
Proof.
  intros ops w g n a t h -> H. destruct (tinv_run ops) as (_ & A & _). unfold own_tool. rewrite A, H. cbn [option_map snd]. split.
  - intros out E. rewrite E. eexists. split; [reflexivity|]. split; [reflexivity|]. split; [reflexivity|]. intros k K1 K2.
    rewrite !get_set_other by assumption. reflexivity.
  - intros what E. now rewrite E.
Qed.

Lemma own_tool_none : forall ops w g n a, g = reg_run ops -> (forall t h, tool_now n (rev ops) <> Some (t, Some h)) -> own_tool w g n a = Ret JNull.
Proof.
  intros ops w g n a -> H. destruct (tinv_run ops) as (_ & A & _). unfold own_tool. rewrite A.
  destruct (tool_now n (rev ops)) as [[t [h|]]|]; [now destruct (H t h)|reflexivity|reflexivity].
Qed.

Lemma own_prompt_runs : forall ops w g n a d h, g = reg_run ops -> prompt_now n (rev ops) = Some (d, Some h) ->
  (forall x ms, w_prompt w h a = Ret (x, ms) -> exists v, own_prompt w g n a = Ret v /\ tells_prompt v x ms) /\
  (forall what, w_prompt w h a = Threw what -> own_prompt w g n a = Threw what).
Proof.
  intros ops w g n a d h -> H. destruct (RegProofs.pinv_run ops) as (_ & A & _).
  pose proof (A n) as G. rewrite H in G. cbn [option_map snd] in G. unfold own_prompt. rewrite G. split.
  - intros x ms E. rewrite E. eexists. split; [reflexivity|]. eexists. split; [reflexivity|]. split; reflexivity.
  - intros what E. now rewrite E.
Qed.

Lemma own_prompt_none : forall ops w g n a, g = reg_run ops -> prompt_now n (rev ops) = None -> own_prompt w g n a = Ret JNull.
Proof. intros ops w g n a -> H. destruct (RegProofs.pinv_run ops) as (_ & A & _). unfold own_prompt. now rewrite (A n), H. Qed.

Lemma dispatch_reads : forall w pre mid q s, rq_method q = bs "resources/read" ->
  dispatch w pre mid false q s = (respond (rq_id q) (handle_read (read_config s) (sv_reg s) (w_read w) mid (rq_params q)), s).
Proof. intros w pre mid q s H. unfold dispatch. rewrite H. methods. reflexivity. Qed.

Lemma own_reads : forall w pre q s u, u <> [] -> requests q (bs "resources/read") (JObj [(bs "uri", JStr u)]) ->
  let own := own_read (read_config s) (w_read w) (sv_reg s) u in
  exists r, dispatch w pre false false q s = (Reply r, s) /\
    ((exists v, succeeds r v /\ own = Ret v) \/ (exists m, fails r INTERNAL m /\ own = Threw m) \/
     (fails r RESOURCE_NOT_FOUND (bs "Resource not found") /\ own = Ret JNull)).
Proof.
  intros w pre q s u U (M & p & P & S) own. rewrite dispatch_reads by exact M. rewrite P.
  assert (NoDup (map fst [(bs "uri", JStr u)])) as N by (repeat constructor; now intros []).
  assert (exists o, p = JObj o) as [o ->] by (apply same_obj_inv in S as (? & ? & -> & _); eauto).
  unfold handle_read, get_str, get_int.
  rewrite (same_get_str (bs "uri") _ _ u N S eq_refl), (same_get_none (bs "offset") _ _ N S eq_refl), (same_get_none (bs "length") _ _ N S eq_refl).
  cbn [or_empty]. destruct u as [|u0 u']; [easy|]. fold (read_config s). unfold own, own_read. set (u := u0 :: u') in *.
  assert (forall p, let x := match p with PThrow what => AError INTERNAL what | POkay contents => match build_read (read_config s) contents None None with inl what => AError INTERNAL what | inr v => AResult v end end in
    let y := match p with PThrow what => Threw what | POkay contents => match build_read (read_config s) contents None None with inl what => Threw what | inr v => Ret v end end in
    exists r, (respond (rq_id q) x, s) = (Reply r, s) /\ ((exists v, succeeds r v /\ y = Ret v) \/ (exists m, fails r INTERNAL m /\ y = Threw m) \/
     (fails r RESOURCE_NOT_FOUND (bs "Resource not found") /\ y = Ret JNull))) as K.
  { intros [contents|what]; cbv zeta.
    - destruct (build_read (read_config s) contents None None) as [what|v].
      + destruct (respond_fails (rq_id q) INTERNAL what) as (r & R & F). exists r. rewrite R. split; [reflexivity|]. right. left. now exists what.
      + destruct (respond_result (rq_id q) v) as (r & R & F). exists r. rewrite R. split; [reflexivity|]. left. now exists v.
    - destruct (respond_fails (rq_id q) INTERNAL what) as (r & R & F). exists r. rewrite R. split; [reflexivity|]. right. left. now exists what. }
  destruct (resolve (sv_reg s) u) as [[h|]|h vs| |].
  - apply K.
  - destruct (respond_fails (rq_id q) RESOURCE_NOT_FOUND (bs "Resource not found")) as (r & R & F). exists r. rewrite R. split; [reflexivity|]. right. right. split; [exact F|reflexivity].
  - apply K.
  - destruct (respond_fails (rq_id q) INTERNAL (bs "Ambiguous resource template match")) as (r & R & F). exists r. rewrite R. split; [reflexivity|]. right. left. eexists. split; [exact F|reflexivity].
  - destruct (respond_fails (rq_id q) RESOURCE_NOT_FOUND (bs "Resource not found")) as (r & R & F). exists r. rewrite R. split; [reflexivity|]. right. right. split; [exact F|reflexivity].
Qed.

Lemma expect_strict : forall A valid (good : json -> Prop) (read : json -> A) m1 m2 r v, (forall x, valid x = true <-> good x) ->
  rs_error r = None -> rs_result r = Some v ->
  (good v -> expect true valid read m1 m2 r = Ret (read v)) /\ (~ good v -> expect true valid read m1 m2 r = Threw m2) /\ expect false valid read m1 m2 r = Ret (read v).
Proof.
  intros A valid good read m1 m2 r v V E R. unfold expect. rewrite E, R. cbn. split; [|split; [|reflexivity]]; intro G.
  - apply V in G. now rewrite G.
  - destruct (valid v) eqn:X; [now apply V in X|reflexivity].
Qed.
