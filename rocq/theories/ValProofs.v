From Coq Require Import Ascii String List Permutation Arith NArith ZArith Bool Lia ZifyBool ZifyNat ZifyN.
From Verif Require Import StrModel StrProofs DoubleModel JsonModel JsonSpec ObjSpec ObjProofs MapModel TaskModel TaskSpec TaskProofs DescModel DescSpec DescProofs RegModel RegSpec RegProofs ValModel ValSpec.
Import ListNotations.
Local Open Scope nat_scope.

Lemma str_iff : forall v, is_str v = true <-> a_string v.
Proof. intros []; cbn; split; try discriminate; try (intros [? H]; discriminate); intros _; eexists; reflexivity. Qed.
Lemma int_iff : forall v, is_int v = true <-> an_integer v.
Proof. intros []; cbn; split; try discriminate; try (intros [? H]; discriminate); intros _; eexists; reflexivity. Qed.
Lemma bool_iff : forall v, is_bool v = true <-> a_boolean v.
Proof. intros []; cbn; split; try discriminate; try (intros [? H]; discriminate); intros _; eexists; reflexivity. Qed.

Lemma str_field_iff : forall o k, str_field o (bs k) = true <-> must k a_string o.
Proof.
  intros o k. unfold str_field, must. destruct (obj_get (bs k) o) as [v|].
  - rewrite str_iff. split; [intro H; now exists v|intros (w & E & H); congruence].
  - split; [discriminate|intros (w & E & H); discriminate].
Qed.

Lemma opt_field_iff : forall p (P : json -> Prop), (forall v, p v = true <-> P v) -> forall o k, opt_field p o (bs k) = true <-> may k P o.
Proof.
  intros p P H o k. unfold opt_field, may. destruct (obj_get (bs k) o) as [v|].
  - rewrite H. split; [intros K w E; congruence|intro K; now apply K].
  - split; [discriminate|reflexivity].
Qed.

Lemma forallb_iff : forall A (p : A -> bool) (P : A -> Prop), (forall v, p v = true <-> P v) -> forall l, forallb p l = true <-> Forall P l.
Proof. intros A p P H l. rewrite forallb_forall, Forall_forall. split; intros K x Hx; apply H, K, Hx. Qed.

Lemma list_iff : forall p (P : json -> Prop), (forall v, p v = true <-> P v) -> forall v, (match v with JArr l => forallb p l | _ => false end) = true <-> list_of P v.
Proof.
  intros p P H v. unfold list_of. destruct v; try (split; [discriminate|intros (x & E & _); discriminate]).
  rewrite (forallb_iff _ p P H). split; [intro K; now exists l|intros (x & E & K); congruence].
Qed.

Lemma arr_field_iff : forall p (P : json -> Prop), (forall v, p v = true <-> P v) -> forall o k, arr_field p o (bs k) = true <-> must k (list_of P) o.
Proof.
  intros p P H o k. unfold arr_field, must. destruct (obj_get (bs k) o) as [v|].
  - pose proof (list_iff p P H v) as L. destruct v; (split; [intro K; eexists; split; [reflexivity|now apply L]|intros (w & E & K); apply L; congruence]).
  - split; [discriminate|intros (w & E & _); discriminate].
Qed.

Lemma obj_iff : forall p (P : obj -> Prop), (forall o, p o = true <-> P o) -> forall v, of_obj p v = true <-> an_object P v.
Proof.
  intros p P H v. unfold an_object. destruct v; try (split; [discriminate|intros (x & E & _); discriminate]).
  cbn. rewrite H. split; [intro K; now exists l|intros (x & E & K); congruence].
Qed.

Lemma opt_str_iff : forall o k, opt_str o (bs k) = true <-> may k a_string o.
Proof. exact (opt_field_iff _ _ str_iff). Qed.
Lemma opt_int_iff : forall o k, opt_int o (bs k) = true <-> may k an_integer o.
Proof. exact (opt_field_iff _ _ int_iff). Qed.
Lemma opt_bool_iff : forall o k, opt_bool o (bs k) = true <-> may k a_boolean o.
Proof. exact (opt_field_iff _ _ bool_iff). Qed.

Lemma str_array_iff : forall v, str_array v = true <-> list_of a_string v.
Proof. exact (list_iff _ _ str_iff). Qed.

Lemma one_of_iff : forall l v, (match v with JStr s => existsb (beq s) l | _ => false end) = true <-> one_of l v.
Proof.
  intros l v. unfold one_of. destruct v; try (split; [discriminate|intros (x & E & _); discriminate]).
  rewrite existsb_exists. split.
  - intros (x & Hi & E). apply beq_eq in E. subst x. now exists s.
  - intros (x & E & Hi). injection E as <-. exists s. split; [exact Hi|apply beq_refl].
Qed.

Lemma icon_iff : forall v, icon_shape v = true <-> Icon v.
Proof.
  unfold Icon. apply (obj_iff (fun o => (str_field o (bs "src") && opt_str o (bs "mimeType") && opt_field str_array o (bs "sizes") &&
       opt_field (fun t => match t with JStr s => beq s (bs "light") || beq s (bs "dark") | _ => false end) o (bs "theme"))%bool)).
  intro o. rewrite !andb_true_iff, str_field_iff, opt_str_iff, (opt_field_iff _ _ str_array_iff).
  assert (forall v, (match v with JStr s => (beq s (bs "light") || beq s (bs "dark"))%bool | _ => false end) = true <-> one_of [bs "light"; bs "dark"] v) as H.
  { intro v. rewrite <- one_of_iff. cbn [existsb]. destruct v; try reflexivity. now rewrite orb_false_r. }
  rewrite (opt_field_iff _ _ H). tauto.
Qed.

Lemma opt_icons_iff : forall o, opt_icons o = true <-> may "icons" (list_of Icon) o.
Proof. intro o. apply (opt_field_iff _ _ (list_iff _ _ icon_iff)). Qed.

Lemma number_iff : forall v, (match v with JInt _ | JDbl _ => true | _ => false end) = true <-> a_number v.
Proof.
  unfold a_number. intros []; split; try discriminate; try (intros [[? H]|[? H]]; discriminate); intros _; try reflexivity; [left|right]; eexists; reflexivity.
Qed.

Lemma annotations_iff : forall v, annotations_shape v = true <-> Annotations v.
Proof.
  unfold Annotations. apply (obj_iff (fun o => (opt_field str_array o (bs "audience") &&
               opt_field (fun p => match p with JInt _ | JDbl _ => true | _ => false end) o (bs "priority"))%bool)).
  intro o. now rewrite andb_true_iff, (opt_field_iff _ _ str_array_iff), (opt_field_iff _ _ number_iff).
Qed.

Lemma opt_annotations_iff : forall o, opt_annotations o = true <-> may "annotations" Annotations o.
Proof. intro o. apply (opt_field_iff _ _ annotations_iff). Qed.

Lemma str_field_not : forall o k, str_field o (bs k) = false <-> ~ must k a_string o.
Proof. intros o k. rewrite <- str_field_iff. now destruct (str_field o (bs k)). Qed.

Lemma resource_contents_iff : forall v, embedded_resource v = true <-> ResourceContents v.
Proof.
  apply (obj_iff resource_contents). intro o. unfold resource_contents. rewrite !andb_true_iff, opt_str_iff, str_field_iff.
  pose proof (str_field_iff o "text") as T1. pose proof (str_field_not o "text") as T2.
  pose proof (str_field_iff o "blob") as B1. pose proof (str_field_not o "blob") as B2.
  destruct (str_field o (bs "text")), (str_field o (bs "blob")); cbn [xorb]; intuition congruence.
Qed.

Lemma type_text : forall o t, obj_get (bs "type") o = Some (JStr t) -> forall k, must "type" (eq (JStr (bs k))) o <-> t = bs k.
Proof.
  intros o t E k. unfold must. split.
  - intros (v & E' & H). congruence.
  - intros ->. now exists (JStr (bs k)).
Qed.

Lemma type_in : forall o t, obj_get (bs "type") o = Some (JStr t) -> forall l, must "type" (one_of l) o <-> In t l.
Proof.
  intros o t E l. unfold must, one_of. split.
  - intros (v & E' & s & -> & H). congruence.
  - intro H. exists (JStr t). split; [exact E|]. now exists t.
Qed.

Definition content_of (o : obj) : Prop :=
  (must "type" (eq (JStr (bs "text"))) o /\ must "text" a_string o /\ may "annotations" Annotations o) \/
  (must "type" (one_of [bs "image"; bs "audio"]) o /\ must "mimeType" a_string o /\ must "data" a_string o /\ may "annotations" Annotations o) \/
  (must "type" (eq (JStr (bs "resource_link"))) o /\ must "uri" a_string o /\ must "name" a_string o /\
    may "title" a_string o /\ may "description" a_string o /\ may "mimeType" a_string o /\ may "size" an_integer o /\ may "annotations" Annotations o) \/
  (must "type" (eq (JStr (bs "resource"))) o /\ must "resource" ResourceContents o /\ may "annotations" Annotations o).

Lemma content_cases : forall v, Content v <-> an_object content_of v.
Proof.
  intro v. unfold an_object, content_of. split.
  - intro H. destruct H as [o H1 H2 H3|o H1 H2 H3 H4|o H1 H2 H3 H4 H5 H6 H7 H8|o H1 H2 H3]; exists o; (split; [reflexivity|]); tauto.
  - intros (o & -> & [H|[H|[H|H]]]).
    + apply content_text; tauto.
    + apply content_media; tauto.
    + apply content_link; tauto.
    + apply content_embedded; tauto.
Qed.

Lemma must_iff : forall p (P : json -> Prop), (forall v, p v = true <-> P v) -> forall o k,
  (match obj_get (bs k) o with Some v => p v | None => false end) = true <-> must k P o.
Proof.
  intros p P H o k. unfold must. destruct (obj_get (bs k) o) as [v|].
  - rewrite H. split; [intro K; now exists v|intros (w & E & K); congruence].
  - split; [discriminate|intros (w & E & _); discriminate].
Qed.

Lemma content_iff : forall v, content_shape v = true <-> Content v.
Proof.
  intro v. rewrite content_cases. destruct v; try (split; [discriminate|intros (x & E & _); discriminate]).
  transitivity (content_of l); [|split; [intro K; now exists l|intros (x & E & K); congruence]].
  unfold content_shape, content_of. destruct (obj_get (bs "type") l) as [ty|] eqn:E.
  2:{ split; [discriminate|]. unfold must at 1 3 6 9. rewrite E. intros [[(x & H & _) _]|[[(x & H & _) _]|[[(x & H & _) _]|[(x & H & _) _]]]]; discriminate. }
  assert (forall P, must "type" P l <-> P ty) as M.
  { intro P. unfold must. rewrite E. split; [intros (x & H & K); congruence|intro K; now exists ty]. }
  destruct ty as [| | | |t| |]; try (split; [discriminate|]; rewrite !M; unfold one_of; intros [[H _]|[[(x & H & _) _]|[[H _]|[H _]]]]; discriminate).
  rewrite !(type_text l t E), (type_in l t E). rewrite andb_true_iff, opt_annotations_iff. cbn [In].
  destruct (beq t (bs "text")) eqn:E1.
  { apply beq_eq in E1. subst t. rewrite str_field_iff. intuition discriminate. }
  apply beq_neq in E1. destruct (beq t (bs "image")) eqn:E2.
  { apply beq_eq in E2. subst t. cbn [orb]. rewrite andb_true_iff, !str_field_iff. intuition discriminate. }
  apply beq_neq in E2. destruct (beq t (bs "audio")) eqn:E3.
  { apply beq_eq in E3. subst t. cbn [orb]. rewrite andb_true_iff, !str_field_iff. intuition discriminate. }
  apply beq_neq in E3. cbn [orb]. destruct (beq t (bs "resource_link")) eqn:E4.
  { apply beq_eq in E4. subst t. rewrite !andb_true_iff, !str_field_iff, !opt_str_iff, opt_int_iff. intuition discriminate. }
  apply beq_neq in E4. destruct (beq t (bs "resource")) eqn:E5.
  { apply beq_eq in E5. subst t. rewrite (must_iff _ _ resource_contents_iff). intuition discriminate. }
  apply beq_neq in E5. intuition congruence.
Qed.

Lemma text_iff : forall v, text_shape v = true <-> TextContent v.
Proof.
  intro v. unfold text_shape, TextContent. rewrite andb_true_iff, content_iff.
  apply and_iff_compat_l. apply (obj_iff (fun o => match obj_get (bs "type") o with Some (JStr t) => beq t (bs "text") | _ => false end)).
  intro o. unfold must. destruct (obj_get (bs "type") o) as [[]|]; try (split; [discriminate|intros (x & E & K); congruence]).
  rewrite beq_eq. split; [intros ->; eexists; split; reflexivity|intros (x & E & K); congruence].
Qed.

Lemma message_iff : forall v, message_shape v = true <-> PromptMessage v.
Proof.
  intro v. unfold message_shape, PromptMessage. rewrite orb_true_iff, content_iff. apply or_iff_compat_l.
  apply (obj_iff (fun o => (str_field o (bs "role") && match obj_get (bs "content") o with Some c => content_shape c | None => false end)%bool)).
  intro o. now rewrite andb_true_iff, str_field_iff, (must_iff _ _ content_iff).
Qed.

Lemma call_tool_iff : forall v, valid_call_tool v = true <-> CallToolResult v.
Proof.
  apply (obj_iff (fun o => (arr_field content_shape o (bs "content") && opt_bool o (bs "isError"))%bool)).
  intro o. now rewrite andb_true_iff, opt_bool_iff, (arr_field_iff _ _ content_iff).
Qed.

Lemma read_item_iff : forall v, read_item v = true <-> TextContent v \/ ResourceContents v.
Proof.
  intro v. rewrite <- text_iff, <- resource_contents_iff. unfold read_item. destruct v; try (cbn; intuition discriminate).
  now rewrite orb_true_iff.
Qed.

Lemma read_iff : forall v, valid_read v = true <-> ReadResourceResult v.
Proof.
  apply (obj_iff (fun o => arr_field read_item o (bs "contents"))). intro o. now rewrite (arr_field_iff _ _ read_item_iff).
Qed.

Lemma get_prompt_iff : forall v, valid_get_prompt v = true <-> GetPromptResult v.
Proof.
  apply (obj_iff (fun o => (str_field o (bs "description") && arr_field message_shape o (bs "messages"))%bool)).
  intro o. now rewrite andb_true_iff, str_field_iff, (arr_field_iff _ _ message_iff).
Qed.

Lemma completion_iff : forall v, valid_completion v = true <-> CompleteResult v.
Proof.
  assert (forall v, of_obj (fun c => (arr_field is_str c (bs "values") && opt_int c (bs "total") && opt_bool c (bs "hasMore"))%bool) v = true <->
    an_object (fun c => must "values" (list_of a_string) c /\ may "total" an_integer c /\ may "hasMore" a_boolean c) v) as H.
  { apply obj_iff. intro c. rewrite !andb_true_iff, (arr_field_iff _ _ str_iff), opt_int_iff, opt_bool_iff. tauto. }
  intro v. rewrite <- (obj_iff (fun o => match obj_get (bs "completion") o with Some c => of_obj (fun c => (arr_field is_str c (bs "values") && opt_int c (bs "total") && opt_bool c (bs "hasMore"))%bool) c | None => false end) _ (fun o => must_iff _ _ H o "completion")).
  unfold valid_completion, of_obj. destruct v; reflexivity.
Qed.

Lemma elicit_request_iff : forall v, valid_elicitation_request v = true <-> ElicitRequest v.
Proof.
  apply (obj_iff (fun o => (str_field o (bs "message") && match obj_get (bs "requestedSchema") o with Some _ => true | None => false end &&
       opt_str o (bs "title") && opt_str o (bs "mode") && opt_str o (bs "url") && opt_str o (bs "elicitationId"))%bool)).
  intro o. rewrite !andb_true_iff, !opt_str_iff, str_field_iff, (must_iff (fun _ => true) (fun _ => True)) by (intro; tauto). tauto.
Qed.

Lemma elicit_result_iff : forall v, valid_elicitation_result v = true <-> ElicitResult v.
Proof.
  apply (obj_iff (fun o => (match obj_get (bs "action") o with
       | Some (JStr a) => beq a (bs "accept") || beq a (bs "decline") || beq a (bs "cancel")
       | _ => false
       end && opt_str o (bs "elicitationId"))%bool)).
  intro o. rewrite andb_true_iff, opt_str_iff. apply and_iff_compat_r.
  rewrite <- (must_iff _ _ (one_of_iff [bs "accept"; bs "decline"; bs "cancel"])). cbn [existsb].
  destruct (obj_get (bs "action") o) as [[]|]; try reflexivity. now rewrite orb_false_r, orb_assoc.
Qed.

Lemma ttl_iff : forall v, (match v with JInt _ | JNull => true | _ => false end) = true <-> an_integer v \/ v = JNull.
Proof. unfold an_integer. intros []; split; try discriminate; try (intros [[? H]|H]; discriminate); intros _; try reflexivity; [now right|left; eexists; reflexivity]. Qed.

Lemma task_iff : forall v, valid_task v = true <-> TaskShape v.
Proof.
  apply (obj_iff (fun o => (str_field o (bs "taskId") && str_field o (bs "status") && str_field o (bs "createdAt") && str_field o (bs "lastUpdatedAt") &&
       opt_str o (bs "statusMessage") && opt_int o (bs "pollInterval") &&
       opt_field (fun t => match t with JInt _ | JNull => true | _ => false end) o (bs "ttl"))%bool)).
  intro o. rewrite !andb_true_iff, !str_field_iff, opt_str_iff, opt_int_iff, (opt_field_iff _ _ ttl_iff). tauto.
Qed.

Lemma created_iff : forall v, valid_created v = true <-> CreateTaskResult v.
Proof.
  apply (obj_iff (fun o => match obj_get (bs "task") o with Some t => valid_task t | None => false end)). intro o. apply (must_iff _ _ task_iff).
Qed.

Lemma tasks_iff : forall v, valid_tasks v = true <-> ListTasksResult v.
Proof.
  apply (obj_iff (fun o => (arr_field valid_task o (bs "tasks") && opt_str o (bs "nextCursor"))%bool)).
  intro o. now rewrite andb_true_iff, opt_str_iff, (arr_field_iff _ _ task_iff).
Qed.

Lemma cursor_iff : forall o, cursor_ok o = true <-> may "nextCursor" Cursor o.
Proof.
  assert (forall v, (is_str v || is_int v)%bool = true <-> Cursor v) as H by (intro v; unfold Cursor; now rewrite orb_true_iff, str_iff, int_iff).
  intro o. exact (opt_field_iff _ _ H o "nextCursor").
Qed.

Lemma tools_iff : forall v, valid_tools v = true <-> ListToolsResult v.
Proof.
  apply (obj_iff (fun o => (arr_field (of_obj tool_shape) o (bs "tools") && cursor_ok o)%bool)).
  intro o. rewrite andb_true_iff, cursor_iff. apply and_iff_compat_r. apply arr_field_iff. apply obj_iff. intro x. unfold tool_shape.
  rewrite !andb_true_iff, str_field_iff, !opt_str_iff, opt_annotations_iff, opt_icons_iff. tauto.
Qed.

Lemma resources_iff : forall v, valid_resources v = true <-> ListResourcesResult v.
Proof.
  apply (obj_iff (fun o => (arr_field (of_obj resource_shape) o (bs "resources") && cursor_ok o)%bool)).
  intro o. rewrite andb_true_iff, cursor_iff. apply and_iff_compat_r. apply arr_field_iff. apply obj_iff. intro x. unfold resource_shape.
  rewrite !andb_true_iff, !str_field_iff, !opt_str_iff, opt_int_iff, opt_annotations_iff, opt_icons_iff. tauto.
Qed.

Lemma templates_iff : forall v, valid_templates v = true <-> ListTemplatesResult v.
Proof.
  apply (obj_iff (fun o => (arr_field (of_obj template_shape) o (bs "resourceTemplates") && cursor_ok o)%bool)).
  intro o. rewrite andb_true_iff, cursor_iff. apply and_iff_compat_r. apply arr_field_iff. apply obj_iff. intro x. unfold template_shape.
  rewrite !andb_true_iff, !str_field_iff, !opt_str_iff, opt_annotations_iff, opt_icons_iff. tauto.
Qed.

Lemma prompts_iff : forall v, valid_prompts v = true <-> ListPromptsResult v.
Proof.
  apply (obj_iff (fun o => (arr_field (of_obj prompt_shape) o (bs "prompts") && cursor_ok o)%bool)).
  intro o. rewrite andb_true_iff, cursor_iff. apply and_iff_compat_r. apply arr_field_iff. apply obj_iff. intro x. unfold prompt_shape.
  rewrite !andb_true_iff, !str_field_iff, !opt_str_iff, opt_icons_iff. tauto.
Qed.

Lemma roots_iff : forall v, valid_roots v = true <-> ListRootsResult v.
Proof.
  apply (obj_iff (fun o => arr_field (of_obj root_shape) o (bs "roots"))). intro o. apply arr_field_iff. apply obj_iff. intro x. unfold root_shape.
  now rewrite andb_true_iff, str_field_iff, opt_str_iff.
Qed.

Lemma one_or_many_iff : forall v, one_or_many v = true <-> SamplingContent v.
Proof.
  intro v. unfold one_or_many, SamplingContent, list_of. destruct v; try (rewrite content_iff; split; [now left|intros [H|(l' & E & _)]; [exact H|discriminate]]).
  rewrite (forallb_iff _ _ _ content_iff). split; [intro H; right; now exists l|]. intros [H|(l' & E & H)]; [|congruence].
  apply content_iff in H. discriminate.
Qed.

Lemma create_params_iff : forall v, valid_create_params v = true <-> CreateMessageParams v.
Proof.
  apply (obj_iff (fun o => arr_field (of_obj (fun m => opt_field one_or_many m (bs "content"))) o (bs "messages"))).
  intro o. apply arr_field_iff. apply obj_iff. intro m. apply (opt_field_iff _ _ one_or_many_iff).
Qed.

Lemma create_result_iff : forall v, valid_create_result v = true <-> CreateMessageResult v.
Proof.
  apply (obj_iff (fun o => (str_field o (bs "model") && str_field o (bs "role") && match obj_get (bs "content") o with Some c => one_or_many c | None => false end)%bool)).
  intro o. rewrite !andb_true_iff, !str_field_iff, (must_iff _ _ one_or_many_iff). tauto.
Qed.

(** What the builders make is accepted. *)
Lemma content_make_text : forall t, Content (make_text t).
Proof. intro t. apply content_iff. reflexivity. Qed.

Lemma content_make_image : forall m d, Content (make_image m d).
Proof. intros m d. apply content_iff. reflexivity. Qed.
Lemma content_make_audio : forall m d, Content (make_audio m d).
Proof. intros m d. apply content_iff. reflexivity. Qed.
Lemma content_make_link : forall u n a b c, Content (make_link u n a b c).
Proof. intros u n [a|] [b|] [c|]; apply content_iff; reflexivity. Qed.
Lemma content_make_embedded_text : forall u t m, Content (make_embedded_text u t m).
Proof. intros u t [m|]; apply content_iff; reflexivity. Qed.
Lemma content_make_embedded_blob : forall u b m, Content (make_embedded_blob u b m).
Proof. intros u b m. apply content_iff. reflexivity. Qed.

Lemma get_text_made : forall t, get_text (make_text t) = Some t.
Proof. reflexivity. Qed.

Lemma collect_made : forall l, collect_text (map make_text l) = l.
Proof. induction l as [|t l IH]; [reflexivity|]. change (collect_text (map make_text (t :: l))) with (t :: collect_text (map make_text l)). now rewrite IH. Qed.

Lemma tool_result_iff : forall c s m e, CallToolResult (tool_result_json c s m e) <-> Forall Content c.
Proof.
  intros c s m e. rewrite <- call_tool_iff. unfold tool_result_json, valid_call_tool, arr_field, opt_bool, opt_field. objs.
  rewrite andb_true_r. apply (forallb_iff _ _ _ content_iff).
Qed.

Definition prompt_texts (cs : list prompt_call) : list bstr := flat_map (fun c => match c with PText t => [t] | _ => [] end) cs.

Lemma prompt_build_spec : forall cs, snd (prompt_build cs) = map make_text (prompt_texts cs).
Proof.
  assert (forall cs st, snd (fold_left (fun st c => match c with PDescribe d => (d, snd st) | PText t => (fst st, snd st ++ [make_text t]) end) cs st) =
    snd st ++ map make_text (prompt_texts cs)) as H.
  { induction cs as [|[d|t] cs IH]; intro st; cbn [fold_left prompt_texts flat_map map app].
    - now rewrite app_nil_r.
    - rewrite IH. reflexivity.
    - rewrite IH. cbn [fst snd]. rewrite <- app_assoc. reflexivity. }
  intro cs. apply H.
Qed.

Lemma prompt_result_iff : forall d l, GetPromptResult (prompt_result_json d l) <-> Forall PromptMessage l.
Proof.
  intros d l. rewrite <- get_prompt_iff. unfold prompt_result_json, valid_get_prompt, str_field, arr_field. objs. cbn [is_str andb].
  apply (forallb_iff _ _ _ message_iff).
Qed.

Lemma prompt_built : forall cs, GetPromptResult (prompt_result_json (fst (prompt_build cs)) (snd (prompt_build cs))).
Proof.
  intro cs. apply prompt_result_iff. rewrite prompt_build_spec. apply Forall_forall. intros x H. apply in_map_iff in H.
  destruct H as (t & <- & _). left. apply content_make_text.
Qed.

Lemma sampling_iff : forall m r c, CreateMessageResult (sampling_json m r c) <-> Forall Content c.
Proof.
  intros m r c. rewrite <- create_result_iff. unfold sampling_json, valid_create_result, str_field. objs. cbn [is_str andb one_or_many].
  apply (forallb_iff _ _ _ content_iff).
Qed.

Definition sampling_texts (cs : list sampling_call) : list bstr := flat_map (fun c => match c with SText t => [t] | _ => [] end) cs.

Lemma sampling_build_spec : forall cs, exists m r, sampling_build cs = sampling_json m r (map make_text (sampling_texts cs)).
Proof.
  assert (forall cs (st : bstr * bstr * list json), exists m r, fold_left (fun st c => let '(m, r, l) := st in
     match c with SModel x => (x, r, l) | SRole x => (m, x, l) | SText t => (m, r, l ++ [make_text t]) end) cs st = (m, r, snd st ++ map make_text (sampling_texts cs))) as H.
  { induction cs as [|c cs IH]; intros [[m r] l]; cbn [fold_left sampling_texts flat_map map app snd].
    - exists m, r. now rewrite app_nil_r.
    - destruct c as [x|x|t]; cbn [app map]; [destruct (IH (x, r, l)) as (m' & r' & E)|destruct (IH (m, x, l)) as (m' & r' & E)|destruct (IH (m, r, l ++ [make_text t])) as (m' & r' & E)];
        exists m', r'; rewrite E; cbn [snd]; [reflexivity|reflexivity|]. now rewrite <- app_assoc. }
  intro cs. destruct (H cs ([], [], [])) as (m & r & E). exists m, r. unfold sampling_build. now rewrite E.
Qed.

Lemma sampling_built : forall cs, CreateMessageResult (sampling_build cs).
Proof.
  intro cs. destruct (sampling_build_spec cs) as (m & r & ->). apply sampling_iff. apply Forall_forall. intros x H. apply in_map_iff in H.
  destruct H as (t & <- & _). apply content_make_text.
Qed.

Lemma task_json_valid : forall t, TaskShape (task_json t).
Proof.
  intro t. apply task_iff. unfold valid_task, task_json, str_field, opt_str, opt_int, opt_field. objs.
  destruct (tk_message t), (tk_ttl t), (tk_poll t); reflexivity.
Qed.

Lemma created_json_valid : forall t m, CreateTaskResult (created_json t m).
Proof.
  intros t m. apply created_iff. unfold valid_created, created_json. objs. apply task_iff, task_json_valid.
Qed.

Lemma tasks_json_valid : forall l n, ListTasksResult (tasks_json l n).
Proof.
  intros l n. apply tasks_iff. unfold valid_tasks, tasks_json, arr_field, opt_str, opt_field. objs. apply andb_true_iff. split; [|now destruct n].
  rewrite (forallb_iff _ _ _ task_iff). apply Forall_forall. intros x H. apply in_map_iff in H. destruct H as (t & <- & _). apply task_json_valid.
Qed.

(** Descriptions in strict mode. *)
Lemma strs_iff : forall l, forallb is_str (map JStr l) = true.
Proof. induction l as [|s l IH]; [reflexivity|exact IH]. Qed.

Lemma icon_json_iff : forall i, icon_shape (icon_json i) = true <-> (forall s, ic_theme i = Some s -> s = bs "light" \/ s = bs "dark").
Proof.
  intro i. unfold icon_shape, icon_json, str_field, opt_str, opt_field. objs.
  assert ((match match ic_sizes i with Some x => Some (JArr (map JStr x)) | None => None end with Some v => str_array v | None => true end) = true) as ->.
  { destruct (ic_sizes i); [apply strs_iff|reflexivity]. }
  assert ((match match ic_mime i with Some x => Some (JStr x) | None => None end with Some v => is_str v | None => true end) = true) as -> by now destruct (ic_mime i).
  cbn [is_str andb]. destruct (ic_theme i) as [s|]; [|now split]. rewrite orb_true_iff, !beq_eq. split; [intros H x E; now injection E as <-|intro H; now apply H].
Qed.

Lemma icons_json_iff : forall l, (match match l with Some x => Some (icons_json x) | None => None end with
  | Some v => match v with JArr l => forallb icon_shape l | _ => false end | None => true end) = true <-> themed l.
Proof.
  intros [l|]; unfold themed.
  - unfold icons_json. rewrite forallb_forall. split.
    + intros H ics i s E Hi Ht. injection E as <-. specialize (H (icon_json i) (in_map icon_json _ _ Hi)). rewrite icon_json_iff in H. now apply H.
    + intros H x Hx. apply in_map_iff in Hx. destruct Hx as (i & <- & Hi). apply icon_json_iff. intros s E. now apply (H l i s).
  - split; [discriminate|reflexivity].
Qed.

Lemma opt_idj : forall v, match v with Some x => Some (idj x) | None => None end = v.
Proof. now intros [v|]. Qed.

Lemma annots_iff : forall v, (match v with Some x => annotations_shape x | None => true end) = true <-> (forall a, v = Some a -> Annotations a).
Proof.
  intros [v|]; [|easy]. rewrite annotations_iff. split; [intros H a E; now injection E as <-|intro H; now apply H].
Qed.

Lemma opt_strs : forall v, (match match v with Some x => Some (JStr x) | None => None end with Some x => is_str x | None => true end) = true.
Proof. now intros [v|]. Qed.

Lemma tool_json_iff : forall t, ToolShape (tool_json t) <-> shows (tl_annot t) (tl_icons t).
Proof.
  intro t. unfold shows. rewrite <- annots_iff, <- icons_json_iff.
  transitivity (of_obj tool_shape (tool_json t) = true).
  { symmetry. apply obj_iff. intro x. unfold tool_shape. rewrite !andb_true_iff, str_field_iff, !opt_str_iff, opt_annotations_iff, opt_icons_iff. tauto. }
  unfold of_obj, tool_json, tool_shape, str_field, opt_str, opt_annotations, opt_icons, opt_field. objs. rewrite opt_idj, opt_strs.
  assert ((match match tl_desc t with [] => None | _ :: _ => Some (JStr (tl_desc t)) end with Some x => is_str x | None => true end) = true) as -> by now destruct (tl_desc t).
  cbn [is_str andb]. now rewrite andb_true_iff.
Qed.

Lemma resource_json_iff : forall t, ResourceShape (resource_json t) <-> shows (rs_annot t) (rs_icons t).
Proof.
  intro t. unfold shows. rewrite <- annots_iff, <- icons_json_iff.
  transitivity (of_obj resource_shape (resource_json t) = true).
  { symmetry. apply obj_iff. intro x. unfold resource_shape. rewrite !andb_true_iff, !str_field_iff, !opt_str_iff, opt_int_iff, opt_annotations_iff, opt_icons_iff. tauto. }
  unfold of_obj, resource_json, resource_shape, str_field, opt_str, opt_int, opt_annotations, opt_icons, opt_field. objs. rewrite opt_idj, !opt_strs.
  assert ((match match rs_size t with Some x => Some (JInt x) | None => None end with Some x => is_int x | None => true end) = true) as -> by now destruct (rs_size t).
  cbn [is_str andb]. now rewrite andb_true_iff.
Qed.

Lemma template_json_iff : forall t, TemplateShape (template_json t) <-> shows (tp_annot t) (tp_icons t).
Proof.
  intro t. unfold shows. rewrite <- annots_iff, <- icons_json_iff.
  transitivity (of_obj template_shape (template_json t) = true).
  { symmetry. apply obj_iff. intro x. unfold template_shape. rewrite !andb_true_iff, !str_field_iff, !opt_str_iff, opt_annotations_iff, opt_icons_iff. tauto. }
  unfold of_obj, template_json, template_shape, str_field, opt_str, opt_annotations, opt_icons, opt_field. objs. rewrite opt_idj, !opt_strs.
  cbn [is_str andb]. now rewrite andb_true_iff.
Qed.

Lemma prompt_json_iff : forall t, PromptShape (prompt_json t) <-> themed (pr_icons t).
Proof.
  intro t. rewrite <- icons_json_iff.
  transitivity (of_obj prompt_shape (prompt_json t) = true).
  { symmetry. apply obj_iff. intro x. unfold prompt_shape. rewrite !andb_true_iff, !str_field_iff, !opt_str_iff, opt_icons_iff. tauto. }
  unfold of_obj, prompt_json, prompt_shape, str_field, opt_str, opt_icons, opt_field. objs. rewrite !opt_strs.
  assert ((match match pr_desc t with [] => None | _ :: _ => Some (JStr (pr_desc t)) end with Some x => is_str x | None => true end) = true) as -> by now destruct (pr_desc t).
  now cbn [is_str andb].
Qed.

(** A page of a listing. *)
Lemma list_result_page : forall A key (js : A -> json) l params, beq (bs "nextCursor") key = false -> beq key (bs "nextCursor") = false ->
  exists items next, incl items l /\ list_result key js l params = JObj (opt_set (bs "nextCursor") JStr next (obj_set key (JArr (map js items)) [])) /\
    page key (list_result key js l params) (map js items) next.
Proof.
  intros A key js l params K1 K2. unfold list_result. destruct (paging params) as [s limit].
  set (items := firstn _ _). set (next := next_cursor _ _ _). exists items, next. split; [|split; [reflexivity|]].
  - intros x H. unfold items in H. apply firstn_incl, skipn_incl in H. exact H.
  - eexists. split; [reflexivity|]. rewrite !get_opt_set, K2, !get_set, K1. rewrite beq_refl. cbn [obj_get]. split; [reflexivity|]. rewrite beq_refl. now destruct next.
Qed.

Lemma checked_page : forall A key k (js : A -> json) (valid : json -> bool) (p : json -> bool) (P : json -> Prop) l params,
  key = bs k -> beq (bs "nextCursor") key = false -> beq key (bs "nextCursor") = false ->
  (forall o, valid (JObj o) = (arr_field p o key && cursor_ok o)%bool) -> (forall v, p v = true <-> P v) ->
  exists items next, incl items l /\ page key (list_result key js l params) (map js items) next /\
    checked false key valid (list_result key js l params) = Some (list_result key js l params) /\
    (Forall (fun x => P (js x)) items -> checked true key valid (list_result key js l params) = Some (list_result key js l params)) /\
    (~ Forall (fun x => P (js x)) items -> checked true key valid (list_result key js l params) = None).
Proof.
  intros A key k js valid p P l params Ek K1 K2 Hv Hp. destruct (list_result_page A key js l params K1 K2) as (items & next & H1 & H2 & H3).
  exists items, next. split; [exact H1|]. split; [exact H3|]. split; [reflexivity|].
  assert ((valid (list_result key js l params) && valid_list key (list_result key js l params))%bool = forallb p (map js items)) as E.
  { rewrite H2, Hv. unfold arr_field, cursor_ok, valid_list, opt_str, opt_field. rewrite !get_opt_set, K2, !get_set, K1, !beq_refl. cbn [obj_get].
    destruct next; cbn [is_str orb andb]; now rewrite !andb_true_r. }
  unfold checked. rewrite E. cbn [andb]. pose proof (forallb_iff _ p P Hp (map js items)) as F. rewrite Forall_map in F.
  destruct (forallb p (map js items)); cbn [negb].
  - split; [reflexivity|]. intro N. exfalso. apply N. now apply F.
  - split; [|reflexivity]. intro N. apply F in N. discriminate.
Qed.
