From Coq Require Import Ascii String List Permutation Arith NArith ZArith Bool.
From Verif Require Import StrModel DoubleModel JsonModel JsonSpec MapModel TaskModel DescModel DescSpec RegModel RegSpec RegProofs ValModel ValSpec ValProofs.
Import ListNotations.
Local Open Scope nat_scope.

(** C69: each strict validator accepts exactly the values of its shape. *)
Theorem C69_content : forall v, content_shape v = true <-> Content v.
Proof. exact content_iff. Qed.
Print Assumptions C69_content.
Theorem C69_call_tool : forall v, valid_call_tool v = true <-> CallToolResult v.
Proof. exact call_tool_iff. Qed.
Print Assumptions C69_call_tool.
Theorem C69_read_resource : forall v, valid_read v = true <-> ReadResourceResult v.
Proof. exact read_iff. Qed.
Print Assumptions C69_read_resource.
Theorem C69_get_prompt : forall v, valid_get_prompt v = true <-> GetPromptResult v.
Proof. exact get_prompt_iff. Qed.
Print Assumptions C69_get_prompt.
Theorem C69_completion : forall v, valid_completion v = true <-> CompleteResult v.
Proof. exact completion_iff. Qed.
Print Assumptions C69_completion.
Theorem C69_elicitation : forall v, (valid_elicitation_request v = true <-> ElicitRequest v) /\ (valid_elicitation_result v = true <-> ElicitResult v).
Proof. intro v. split; [apply elicit_request_iff|apply elicit_result_iff]. Qed.
Print Assumptions C69_elicitation.
Theorem C69_task : forall v, (valid_task v = true <-> TaskShape v) /\ (valid_created v = true <-> CreateTaskResult v) /\
  (valid_tasks v = true <-> ListTasksResult v).
Proof. intro v. split; [apply task_iff|]. split; [apply created_iff|apply tasks_iff]. Qed.
Print Assumptions C69_task.
Theorem C69_lists : forall v, (valid_tools v = true <-> ListToolsResult v) /\ (valid_resources v = true <-> ListResourcesResult v) /\
  (valid_templates v = true <-> ListTemplatesResult v) /\ (valid_prompts v = true <-> ListPromptsResult v) /\
  (valid_roots v = true <-> ListRootsResult v).
Proof.
  intro v. split; [apply tools_iff|]. split; [apply resources_iff|]. split; [apply templates_iff|]. split; [apply prompts_iff|apply roots_iff].
Qed.
Print Assumptions C69_lists.
Theorem C69_sampling : forall v, (valid_create_params v = true <-> CreateMessageParams v) /\ (valid_create_result v = true <-> CreateMessageResult v).
Proof. intro v. split; [apply create_params_iff|apply create_result_iff]. Qed.
Print Assumptions C69_sampling.

(** C60: the typed builders make content that the schema allows. *)
Theorem C60_content : (forall t, Content (make_text t)) /\ (forall m d, Content (make_image m d)) /\ (forall m d, Content (make_audio m d)) /\
  (forall u n a b c, Content (make_link u n a b c)) /\ (forall u t m, Content (make_embedded_text u t m)) /\
  (forall u b m, Content (make_embedded_blob u b m)).
Proof.
  split; [exact content_make_text|]. split; [exact content_make_image|]. split; [exact content_make_audio|].
  split; [exact content_make_link|]. split; [exact content_make_embedded_text|exact content_make_embedded_blob].
Qed.
Print Assumptions C60_content.

(** C60: a tool result made of such content passes the strict check, and no other does. *)
Theorem C60_tool_result : forall (c : list json) (structured meta : option json) (err : bool),
  valid_call_tool (tool_result_json c structured meta err) = true <-> Forall Content c.
Proof. intros c s m e. rewrite call_tool_iff. apply tool_result_iff. Qed.
Print Assumptions C60_tool_result.

(** C60: prompts and sampling results made with the builders pass, and carry the texts given. *)
Theorem C60_prompt : forall cs : list prompt_call,
  valid_get_prompt (prompt_result_json (fst (prompt_build cs)) (snd (prompt_build cs))) = true /\
  collect_text (snd (prompt_build cs)) = prompt_texts cs.
Proof. intro cs. split; [apply get_prompt_iff, prompt_built|]. rewrite prompt_build_spec. apply collect_made. Qed.
Print Assumptions C60_prompt.

Theorem C60_sampling : forall cs : list sampling_call,
  valid_create_result (sampling_build cs) = true /\
  exists o, sampling_build cs = JObj o /\ obj_get (bs "content") o = Some (JArr (map make_text (sampling_texts cs))).
Proof.
  intro cs. split; [apply create_result_iff, sampling_built|]. destruct (sampling_build_spec cs) as (m & r & ->). eexists. split; reflexivity.
Qed.
Print Assumptions C60_sampling.

Theorem C60_text_sampling : forall m r t, valid_create_result (make_text_sampling m r t) = true.
Proof. reflexivity. Qed.
Print Assumptions C60_text_sampling.

(** C60: what the server says about tasks passes. *)
Theorem C60_tasks : (forall t, valid_task (task_json t) = true) /\ (forall t m, valid_created (created_json t m) = true) /\
  (forall l n, valid_tasks (tasks_json l n) = true).
Proof.
  split; [intro t; apply task_iff, task_json_valid|]. split; [intros t m; apply created_iff, created_json_valid|intros l n; apply tasks_iff, tasks_json_valid].
Qed.
Print Assumptions C60_tasks.

Example C60_ex :
  Forall Content [make_text (bs "hi"); make_link (bs "u") (bs "n") None (Some (bs "d")) None; make_embedded_blob (bs "u") (bs "QUJD") (bs "image/png")] /\
  valid_call_tool (tool_result_json [JStr (bs "hi")] None None false) = false /\
  valid_call_tool (tool_result_json [make_embedded [(bs "uri", JStr (bs "u")); (bs "text", JStr []); (bs "blob", JStr [])]] None None false) = false.
Proof.
  split; [|split; reflexivity]. constructor; [apply content_make_text|]. constructor; [apply content_make_link|].
  constructor; [apply content_make_embedded_blob|constructor].
Qed.

(** C70: a strict server answers a listing exactly as a lenient one does, except that a page is
    refused when it has an entry with badly shaped annotations or icons. *)
Theorem C70_tools : forall ops params, exists l items next, tools_of ops l /\ incl items l /\
  page (bs "tools") (tools_list (reg_run ops) params) (map tool_json items) next /\
  tools_answer false (reg_run ops) params = Some (tools_list (reg_run ops) params) /\
  (Forall (fun t => shows (tl_annot t) (tl_icons t)) items -> tools_answer true (reg_run ops) params = Some (tools_list (reg_run ops) params)) /\
  (~ Forall (fun t => shows (tl_annot t) (tl_icons t)) items -> tools_answer true (reg_run ops) params = None).
Proof.
  intros ops params. exists (tool_list (reg_run ops)).
  destruct (checked_page _ (bs "tools") "tools" tool_json valid_tools (of_obj tool_shape) (fun v => of_obj tool_shape v = true) (tool_list (reg_run ops)) params)
    as (items & next & H1 & H2 & H3 & H4 & H5); try reflexivity.
  assert (forall t, of_obj tool_shape (tool_json t) = true <-> shows (tl_annot t) (tl_icons t)) as K.
  { intro t. rewrite <- tool_json_iff. apply obj_iff. intro x. unfold tool_shape. rewrite !andb_true_iff, str_field_iff, !opt_str_iff, opt_annotations_iff, opt_icons_iff. tauto. }
  assert (Forall (fun t => of_obj tool_shape (tool_json t) = true) items <-> Forall (fun t => shows (tl_annot t) (tl_icons t)) items) as F.
  { rewrite !Forall_forall. split; intros Q x Hx; apply K, Q, Hx. }
  exists items, next. split; [apply tool_list_spec|]. split; [exact H1|]. split; [exact H2|]. split; [exact H3|]. rewrite <- F. now split.
Qed.
Print Assumptions C70_tools.

Theorem C70_resources : forall ui ops params, exists l items next, resources_of ui ops l /\ incl items l /\
  page (bs "resources") (resources_list ui (reg_run ops) params) (map resource_json items) next /\
  resources_answer false ui (reg_run ops) params = Some (resources_list ui (reg_run ops) params) /\
  (Forall (fun t => shows (rs_annot t) (rs_icons t)) items -> resources_answer true ui (reg_run ops) params = Some (resources_list ui (reg_run ops) params)) /\
  (~ Forall (fun t => shows (rs_annot t) (rs_icons t)) items -> resources_answer true ui (reg_run ops) params = None).
Proof.
  intros ui ops params. exists (resource_list ui (reg_run ops)).
  destruct (checked_page _ (bs "resources") "resources" resource_json valid_resources (of_obj resource_shape) (fun v => of_obj resource_shape v = true) (resource_list ui (reg_run ops)) params)
    as (items & next & H1 & H2 & H3 & H4 & H5); try reflexivity.
  assert (forall t, of_obj resource_shape (resource_json t) = true <-> shows (rs_annot t) (rs_icons t)) as K.
  { intro t. rewrite <- resource_json_iff. apply obj_iff. intro x. unfold resource_shape. rewrite !andb_true_iff, !str_field_iff, !opt_str_iff, opt_int_iff, opt_annotations_iff, opt_icons_iff. tauto. }
  assert (Forall (fun t => of_obj resource_shape (resource_json t) = true) items <-> Forall (fun t => shows (rs_annot t) (rs_icons t)) items) as F.
  { rewrite !Forall_forall. split; intros Q x Hx; apply K, Q, Hx. }
  exists items, next. split; [apply resource_list_spec|]. split; [exact H1|]. split; [exact H2|]. split; [exact H3|]. rewrite <- F. now split.
Qed.
Print Assumptions C70_resources.

Theorem C70_templates : forall ops params, exists l items next, templates_of ops l /\ incl items l /\
  page (bs "resourceTemplates") (templates_list (reg_run ops) params) (map template_json items) next /\
  templates_answer false (reg_run ops) params = Some (templates_list (reg_run ops) params) /\
  (Forall (fun t => shows (tp_annot t) (tp_icons t)) items -> templates_answer true (reg_run ops) params = Some (templates_list (reg_run ops) params)) /\
  (~ Forall (fun t => shows (tp_annot t) (tp_icons t)) items -> templates_answer true (reg_run ops) params = None).
Proof.
  intros ops params. exists (template_list (reg_run ops)).
  destruct (checked_page _ (bs "resourceTemplates") "resourceTemplates" template_json valid_templates (of_obj template_shape) (fun v => of_obj template_shape v = true) (template_list (reg_run ops)) params)
    as (items & next & H1 & H2 & H3 & H4 & H5); try reflexivity.
  assert (forall t, of_obj template_shape (template_json t) = true <-> shows (tp_annot t) (tp_icons t)) as K.
  { intro t. rewrite <- template_json_iff. apply obj_iff. intro x. unfold template_shape. rewrite !andb_true_iff, !str_field_iff, !opt_str_iff, opt_annotations_iff, opt_icons_iff. tauto. }
  assert (Forall (fun t => of_obj template_shape (template_json t) = true) items <-> Forall (fun t => shows (tp_annot t) (tp_icons t)) items) as F.
  { rewrite !Forall_forall. split; intros Q x Hx; apply K, Q, Hx. }
  exists items, next. split; [apply template_list_spec|]. split; [exact H1|]. split; [exact H2|]. split; [exact H3|]. rewrite <- F. now split.
Qed.
Print Assumptions C70_templates.

Theorem C70_prompts : forall ops params, exists l items next, prompts_of ops l /\ incl items l /\
  page (bs "prompts") (prompts_list (reg_run ops) params) (map prompt_json items) next /\
  prompts_answer false (reg_run ops) params = Some (prompts_list (reg_run ops) params) /\
  (Forall (fun t => themed (pr_icons t)) items -> prompts_answer true (reg_run ops) params = Some (prompts_list (reg_run ops) params)) /\
  (~ Forall (fun t => themed (pr_icons t)) items -> prompts_answer true (reg_run ops) params = None).
Proof.
  intros ops params. exists (prompt_list (reg_run ops)).
  destruct (checked_page _ (bs "prompts") "prompts" prompt_json valid_prompts (of_obj prompt_shape) (fun v => of_obj prompt_shape v = true) (prompt_list (reg_run ops)) params)
    as (items & next & H1 & H2 & H3 & H4 & H5); try reflexivity.
  assert (forall t, of_obj prompt_shape (prompt_json t) = true <-> themed (pr_icons t)) as K.
  { intro t. rewrite <- prompt_json_iff. apply obj_iff. intro x. unfold prompt_shape. rewrite !andb_true_iff, !str_field_iff, !opt_str_iff, opt_icons_iff. tauto. }
  assert (Forall (fun t => of_obj prompt_shape (prompt_json t) = true) items <-> Forall (fun t => themed (pr_icons t)) items) as F.
  { rewrite !Forall_forall. split; intros Q x Hx; apply K, Q, Hx. }
  exists items, next. split; [apply prompt_list_spec|]. split; [exact H1|]. split; [exact H2|]. split; [exact H3|]. rewrite <- F. now split.
Qed.
Print Assumptions C70_prompts.

Definition odd_tool (a : option json) : tool :=
  {| tl_name := bs "t"; tl_title := None; tl_desc := []; tl_icons := None; tl_input := JNull; tl_output := None; tl_annot := a; tl_exec := None; tl_meta := None |}.

Example C70_ex :
  tools_answer true (reg_run [RegTool (odd_tool (Some (JStr (bs "x")))) None; RegToolName (bs "a") None]) None = None /\
  tools_answer true (reg_run [RegTool (odd_tool None) None; RegToolName (bs "a") None]) None <> None.
Proof. split; [reflexivity|discriminate]. Qed.
