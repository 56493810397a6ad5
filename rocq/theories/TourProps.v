(** C205: the walk through the pages of a list while entries come and go; and of C28, what is shown
    of entries registered by name alone. *)
From Coq Require Import Ascii String List Sorted Arith NArith ZArith Bool Lia.
From Verif Require Import StrModel StrProofs JsonModel MapModel TaskModel TaskSpec TaskProofs DescModel RegModel RegSpec RegProofs TourSpec TourProofs.
Import ListNotations.
Local Open Scope nat_scope.

(** Full statement (tools_toured): an entry that is there throughout is returned exactly once.
    Missing from the four theorems below: entries before which others are unregistered between
    the pages (they may be left out) or registered (they may be returned again). *)
Theorem C205_tools_partial : tour_good tools_of tl_name tool_json (bs "tools") (fun ops => tools_list (reg_run ops)).
Proof.
  apply (tour_good_of (bs "tools") tool_json ltac:(discriminate) tools_of tl_name (fun ops => tool_list (reg_run ops)) tool_list_spec tools_of_unique).
  - intro ops. apply tool_list_spec.
  - exact tool_list_len.
Qed.
Print Assumptions C205_tools_partial.

Theorem C205_resources_partial : forall ui,
  tour_good (resources_of ui) rs_uri resource_json (bs "resources") (fun ops => resources_list ui (reg_run ops)).
Proof.
  intro ui. apply (tour_good_of (bs "resources") resource_json ltac:(discriminate) (resources_of ui) rs_uri (fun ops => resource_list ui (reg_run ops)) (resource_list_spec ui) (resources_of_unique ui)).
  - intro ops. apply resource_list_spec.
  - exact (resource_list_len ui).
Qed.
Print Assumptions C205_resources_partial.

Theorem C205_templates_partial : tour_good templates_of tp_uri template_json (bs "resourceTemplates") (fun ops => templates_list (reg_run ops)).
Proof.
  apply (tour_good_of (bs "resourceTemplates") template_json ltac:(discriminate) templates_of tp_uri (fun ops => template_list (reg_run ops)) template_list_spec templates_of_unique).
  - intro ops. apply template_list_spec.
  - exact template_list_len.
Qed.
Print Assumptions C205_templates_partial.

Theorem C205_prompts_partial : tour_good prompts_of pr_name prompt_json (bs "prompts") (fun ops => prompts_list (reg_run ops)).
Proof.
  apply (tour_good_of (bs "prompts") prompt_json ltac:(discriminate) prompts_of pr_name (fun ops => prompt_list (reg_run ops)) prompt_list_spec prompts_of_unique).
  - intro ops. apply prompt_list_spec.
  - exact prompt_list_len.
Qed.
Print Assumptions C205_prompts_partial.

(** The walk ends. *)
Theorem C205_ends :
  tour_ends tools_of (bs "tools") (fun ops => tools_list (reg_run ops)) /\
  (forall ui, tour_ends (resources_of ui) (bs "resources") (fun ops => resources_list ui (reg_run ops))) /\
  tour_ends templates_of (bs "resourceTemplates") (fun ops => templates_list (reg_run ops)) /\
  tour_ends prompts_of (bs "prompts") (fun ops => prompts_list (reg_run ops)).
Proof.
  split; [|split; [intro ui|split]].
  - exact (tour_ends_of (bs "tools") tool_json ltac:(discriminate) tools_of (fun ops => tool_list (reg_run ops)) tool_list_spec tool_list_len).
  - exact (tour_ends_of (bs "resources") resource_json ltac:(discriminate) (resources_of ui) (fun ops => resource_list ui (reg_run ops)) (resource_list_spec ui) (resource_list_len ui)).
  - exact (tour_ends_of (bs "resourceTemplates") template_json ltac:(discriminate) templates_of (fun ops => template_list (reg_run ops)) template_list_spec template_list_len).
  - exact (tour_ends_of (bs "prompts") prompt_json ltac:(discriminate) prompts_of (fun ops => prompt_list (reg_run ops)) prompt_list_spec prompt_list_len).
Qed.
Print Assumptions C205_ends.

(** What is shown of an entry registered by its name alone. *)
Theorem C28_by_name : forall ops x h,
  (tool_now x (rev ops) = None ->
   In {| tl_name := x; tl_title := None; tl_desc := bs "Tool: " ++ x; tl_icons := None;
         tl_input := JObj [(bs "type", JStr (bs "object")); (bs "properties", JObj [])];
         tl_output := None; tl_annot := None; tl_exec := None; tl_meta := None |}
      (tool_list (reg_run (ops ++ [RegToolName x h])))) /\
  (forall t g, tool_now x (rev ops) = Some (t, g) -> In t (tool_list (reg_run (ops ++ [RegToolName x h])))) /\
  ((forall s, x <> bs "ui://" ++ s) -> forall ui,
   In {| rs_uri := x; rs_name := bs "Resource: " ++ x; rs_title := None; rs_desc := None; rs_mime := None; rs_size := None;
         rs_annot := None; rs_meta := None; rs_icons := None |}
      (resource_list ui (reg_run (ops ++ [RegResourceUri x h])))) /\
  In {| pr_name := x; pr_title := None; pr_desc := bs "Prompt: " ++ x; pr_args := None; pr_meta := None; pr_icons := None |}
     (prompt_list (reg_run (ops ++ [RegPromptName x h]))).
Proof.
  intros ops x h. split; [|split; [|split]].
  - intro H. apply tool_list_spec. exists h. rewrite rev_app_distr. cbn [rev List.app tool_now tl_name]. rewrite beq_refl, H. reflexivity.
  - intros t g H. apply tool_list_spec. exists h. rewrite rev_app_distr. cbn [rev List.app tool_now].
    assert (tl_name t = x) as -> by (exact (tool_named _ _ _ _ H)). rewrite beq_refl, H. reflexivity.
  - intros H ui. apply resource_list_spec. exists (default_resource x), h. rewrite rev_app_distr. cbn [rev List.app resource_now rs_uri default_resource].
    rewrite beq_refl. split; [reflexivity|]. apply shown_plain. exact H.
  - apply prompt_list_spec. exists h. rewrite rev_app_distr. cbn [rev List.app prompt_now pr_name]. rewrite beq_refl. reflexivity.
Qed.
Print Assumptions C28_by_name.

Definition three (a b c : string) : list reg_op := [RegToolName (bs c) (Some 0); RegToolName (bs a) (Some 1); RegToolName (bs b) (Some 2)].
Definition shown_as (s : string) : json := tool_json (default_tool (bs s)).

(** An entry is left out when one before it is unregistered between two pages. *)
Theorem C205_skipped_refuted : exists moments pages,
  moments = [three "a" "b" "c"; three "a" "b" "c" ++ [UnregTool (bs "a")]] /\
  tour (bs "tools") 1 None (map (fun ops => tools_list (reg_run ops)) [three "a" "b" "c"; three "a" "b" "c" ++ [UnregTool (bs "a")]]) pages /\
  Forall (fun ops => exists h, tool_now (bs "b") (rev ops) = Some (default_tool (bs "b"), h)) moments /\
  concat pages = [shown_as "a"; shown_as "c"] /\ shown_as "b" <> shown_as "a" /\ shown_as "b" <> shown_as "c".
Proof.
  exists [three "a" "b" "c"; three "a" "b" "c" ++ [UnregTool (bs "a")]], [[shown_as "a"]; [shown_as "c"]]. split; [reflexivity|]. split; [|split; [|split; [reflexivity|]]].
  - cbn [map]. eapply tour_more; [apply ask_params_asks| |eapply tour_last; [apply ask_params_asks|]].
    + eexists. split; [vm_compute; reflexivity|]. split; vm_compute; reflexivity.
    + eexists. split; [vm_compute; reflexivity|]. split; vm_compute; reflexivity.
  - repeat constructor; exists (Some 2); reflexivity.
  - split; vm_compute; discriminate.
Qed.
Print Assumptions C205_skipped_refuted.

(** An entry is returned twice when one before it is registered between two pages. *)
Theorem C205_twice_refuted : exists pages,
  tour (bs "tools") 2 None (map (fun ops => tools_list (reg_run ops)) [three "b" "c" "d"; three "b" "c" "d" ++ [RegToolName (bs "a") (Some 3)]]) pages /\
  concat pages = [shown_as "b"; shown_as "c"; shown_as "c"; shown_as "d"].
Proof.
  exists [[shown_as "b"; shown_as "c"]; [shown_as "c"; shown_as "d"]]. split; [|reflexivity].
  cbn [map]. eapply tour_more; [apply ask_params_asks| |eapply tour_last; [apply ask_params_asks|]].
  - eexists. split; [vm_compute; reflexivity|]. split; vm_compute; reflexivity.
  - eexists. split; [vm_compute; reflexivity|]. split; vm_compute; reflexivity.
Qed.
Print Assumptions C205_twice_refuted.

Theorem C205_refuted : ~ tools_toured.
Proof.
  intro H. destruct C205_skipped_refuted as (moments & pages & -> & T & P & E & N1 & N2).
  destruct (H 1%Z [three "a" "b" "c"; three "a" "b" "c" ++ [UnregTool (bs "a")]] pages ltac:(lia)) with (t := default_tool (bs "b")) as (a & b & Q & _).
  - repeat constructor; vm_compute; reflexivity.
  - cbn [successive]. split; [now eexists|exact I].
  - exact T.
  - exact P.
  - rewrite E in Q. assert (In (shown_as "b") [shown_as "a"; shown_as "c"]) as J by (rewrite Q; apply in_or_app; right; now left).
    destruct J as [J|[J|[]]]; [exact (N1 (eq_sym J))|exact (N2 (eq_sym J))].
Qed.
Print Assumptions C205_refuted.

(** The hypotheses of C205_tools_partial are met: a tool that comes last is registered between
    the pages. *)
Definition grown : list (list reg_op) := [three "a" "b" "c"; three "a" "b" "c" ++ [RegToolName (bs "d") (Some 3)]].
Example C205_walked : exists pages,
  tour (bs "tools") 2 None (map (fun ops => tools_list (reg_run ops)) grown) pages /\
  concat pages = [shown_as "a"; shown_as "b"; shown_as "c"; shown_as "d"] /\
  Forall (there tools_of tl_name (bs "c")) grown /\ none_lost tools_of tl_name (bs "c") grown /\ none_new tools_of tl_name (bs "c") grown.
Proof.
  exists [[shown_as "a"; shown_as "b"]; [shown_as "c"; shown_as "d"]]. split; [|split; [reflexivity|]].
  - unfold grown. cbn [map]. eapply tour_more; [apply ask_params_asks| |eapply tour_last; [apply ask_params_asks|]].
    + eexists. split; [vm_compute; reflexivity|]. split; vm_compute; reflexivity.
    + eexists. split; [vm_compute; reflexivity|]. split; vm_compute; reflexivity.
  - split; [|split].
    + repeat constructor; apply there_tool; vm_compute; discriminate.
    + cbn [none_lost successive grown]. split; [|exact I]. intros k _ H. apply there_tool in H. apply there_tool.
      rewrite rev_app_distr. cbn [rev List.app tool_now]. destruct (beq k (bs "d")) eqn:B; [discriminate|exact H].
    + cbn [none_new successive grown]. split; [|exact I]. intros k Bk H. apply there_tool in H. apply there_tool.
      rewrite rev_app_distr in H. cbn [rev List.app tool_now] in H. destruct (beq k (bs "d")) eqn:B; [|exact H].
      apply beq_eq in B. subst k. apply blt_before in Bk. vm_compute in Bk. discriminate.
Qed.
