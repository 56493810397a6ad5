From Coq Require Import Ascii String List Permutation Sorted Arith NArith ZArith Bool Lia.
From Verif Require Import StrModel StrProofs DoubleModel JsonModel JsonSpec JsonProofs ObjSpec ObjProofs MapModel TaskModel TaskSpec TaskProofs DescModel DescSpec DescProofs RegModel RegSpec RegProofs.
Import ListNotations.
Local Open Scope nat_scope.

(** C28. Whatever was registered and unregistered before, a client that follows the cursors with
    a fixed limit gets, page after page, the entries in byte order of their names, each once;
    no page is longer than the limit, and the pages come to an end. *)
Theorem C28_tools : forall ops, (N.of_nat (length ops) < 2 ^ 63)%N ->
  exists l, tools_of ops l /\ forall n, (0 < n < 2 ^ 63)%Z ->
    (exists pages, follow (tools_list (reg_run ops)) (bs "tools") n None pages) /\
    forall pages, follow (tools_list (reg_run ops)) (bs "tools") n None pages ->
      concat pages = map tool_json l /\ Forall (fun p => (Z.of_nat (length p) <= n)%Z) pages.
Proof.
  intros ops H. apply (pages_spec _ (fun l => tools_of ops l));
    [discriminate|exact (few_len _ _ (tool_list_len ops) H)|exact (tool_list_spec ops)].
Qed.

Theorem C28_resources : forall ui ops, (N.of_nat (length ops) < 2 ^ 63)%N ->
  exists l, resources_of ui ops l /\ forall n, (0 < n < 2 ^ 63)%Z ->
    (exists pages, follow (resources_list ui (reg_run ops)) (bs "resources") n None pages) /\
    forall pages, follow (resources_list ui (reg_run ops)) (bs "resources") n None pages ->
      concat pages = map resource_json l /\ Forall (fun p => (Z.of_nat (length p) <= n)%Z) pages.
Proof.
  intros ui ops H. apply (pages_spec _ (fun l => resources_of ui ops l));
    [discriminate|exact (few_len _ _ (resource_list_len ui ops) H)|exact (resource_list_spec ui ops)].
Qed.

Theorem C28_templates : forall ops, (N.of_nat (length ops) < 2 ^ 63)%N ->
  exists l, templates_of ops l /\ forall n, (0 < n < 2 ^ 63)%Z ->
    (exists pages, follow (templates_list (reg_run ops)) (bs "resourceTemplates") n None pages) /\
    forall pages, follow (templates_list (reg_run ops)) (bs "resourceTemplates") n None pages ->
      concat pages = map template_json l /\ Forall (fun p => (Z.of_nat (length p) <= n)%Z) pages.
Proof.
  intros ops H. apply (pages_spec _ (fun l => templates_of ops l));
    [discriminate|exact (few_len _ _ (template_list_len ops) H)|exact (template_list_spec ops)].
Qed.

Theorem C28_prompts : forall ops, (N.of_nat (length ops) < 2 ^ 63)%N ->
  exists l, prompts_of ops l /\ forall n, (0 < n < 2 ^ 63)%Z ->
    (exists pages, follow (prompts_list (reg_run ops)) (bs "prompts") n None pages) /\
    forall pages, follow (prompts_list (reg_run ops)) (bs "prompts") n None pages ->
      concat pages = map prompt_json l /\ Forall (fun p => (Z.of_nat (length p) <= n)%Z) pages.
Proof.
  intros ops H. apply (pages_spec _ (fun l => prompts_of ops l));
    [discriminate|exact (few_len _ _ (prompt_list_len ops) H)|exact (prompt_list_spec ops)].
Qed.

(** C29. Calls and lists follow the latest registration of each name. *)
Theorem C29_tool_lookup : forall ops x, aget x (rg_th (reg_run ops)) = option_map snd (tool_now x (rev ops)).
Proof. intros ops x. exact (proj1 (proj2 (tinv_run ops)) x). Qed.

Theorem C29_tool_listing : forall ops, exists l, tools_of ops l /\
  page (bs "tools") (tools_list (reg_run ops) None) (map tool_json l) None.
Proof.
  intros ops. eexists. split; [exact (tool_list_spec ops)|]. apply list_result_nolimit; [discriminate|reflexivity].
Qed.

Theorem C29_resource_lookup : forall ops x, aget x (rg_rh (reg_run ops)) = option_map snd (resource_now x (rev ops)).
Proof. intros ops x. exact (proj1 (proj2 (proj2 (rinv_run ops))) x). Qed.

Theorem C29_resource_listing : forall ui ops, exists l, resources_of ui ops l /\
  page (bs "resources") (resources_list ui (reg_run ops) None) (map resource_json l) None.
Proof.
  intros ui ops. eexists. split; [exact (resource_list_spec ui ops)|]. apply list_result_nolimit; [discriminate|reflexivity].
Qed.

Theorem C29_template_lookup : forall ops t h, In (t, h) (rg_rt (reg_run ops)) <-> template_now (tp_uri t) (rev ops) = Some (t, h).
Proof. intros ops t h. exact (proj1 (proj2 (minv_run ops)) t h). Qed.

Theorem C29_template_listing : forall ops, exists l, templates_of ops l /\
  page (bs "resourceTemplates") (templates_list (reg_run ops) None) (map template_json l) None.
Proof.
  intros ops. eexists. split; [exact (template_list_spec ops)|]. apply list_result_nolimit; [discriminate|reflexivity].
Qed.

Theorem C29_prompt_lookup : forall ops x, aget x (rg_ph (reg_run ops)) = option_map snd (prompt_now x (rev ops)).
Proof. intros ops x. exact (proj1 (proj2 (pinv_run ops)) x). Qed.

Theorem C29_prompt_listing : forall ops, exists l, prompts_of ops l /\
  page (bs "prompts") (prompts_list (reg_run ops) None) (map prompt_json l) None.
Proof.
  intros ops. eexists. split; [exact (prompt_list_spec ops)|]. apply list_result_nolimit; [discriminate|reflexivity].
Qed.

(** C30. A cursor that is a negative number or at or past the end gives an empty last page. The
    number must fit 64 bits: see the refutation. *)
Theorem C30_tools_partial : forall ops l o z, (N.of_nat (length ops) < 2 ^ 63)%N -> tools_of ops l ->
  (- 2 ^ 63 <= z < 2 ^ 63)%Z -> (z < 0 \/ Z.of_nat (length l) <= z)%Z ->
  (obj_get (bs "cursor") o = Some (JStr (print_Z z)) \/ obj_get (bs "cursor") o = Some (JInt z)) ->
  (forall n, obj_get (bs "limit") o = Some (JInt n) -> (n < 2 ^ 63)%Z) ->
  page (bs "tools") (tools_list (reg_run ops) (Some (JObj o))) [] None.
Proof.
  intros ops l o z H L Hz Ho Hc Hl. rewrite (tools_of_unique _ _ _ L (tool_list_spec ops)) in Ho.
  pose proof (few_len _ _ (tool_list_len ops) H) as Hs.
  destruct (paging_outside o z (N.of_nat (length (tool_list (reg_run ops)))) Hz Hc ltac:(lia) Hs Hl) as (s & limit & E & H1 & H2).
  assert (bs "tools" <> bs "nextCursor") as K by discriminate.
  exact (outside (bs "tools") tool_json _ K Hs _ s limit E H1 H2).
Qed.

Theorem C30_resources_partial : forall ui ops l o z, (N.of_nat (length ops) < 2 ^ 63)%N -> resources_of ui ops l ->
  (- 2 ^ 63 <= z < 2 ^ 63)%Z -> (z < 0 \/ Z.of_nat (length l) <= z)%Z ->
  (obj_get (bs "cursor") o = Some (JStr (print_Z z)) \/ obj_get (bs "cursor") o = Some (JInt z)) ->
  (forall n, obj_get (bs "limit") o = Some (JInt n) -> (n < 2 ^ 63)%Z) ->
  page (bs "resources") (resources_list ui (reg_run ops) (Some (JObj o))) [] None.
Proof.
  intros ui ops l o z H L Hz Ho Hc Hl. rewrite (resources_of_unique _ _ _ _ L (resource_list_spec ui ops)) in Ho.
  pose proof (few_len _ _ (resource_list_len ui ops) H) as Hs.
  destruct (paging_outside o z (N.of_nat (length (resource_list ui (reg_run ops)))) Hz Hc ltac:(lia) Hs Hl) as (s & limit & E & H1 & H2).
  assert (bs "resources" <> bs "nextCursor") as K by discriminate.
  exact (outside (bs "resources") resource_json _ K Hs _ s limit E H1 H2).
Qed.

Theorem C30_templates_partial : forall ops l o z, (N.of_nat (length ops) < 2 ^ 63)%N -> templates_of ops l ->
  (- 2 ^ 63 <= z < 2 ^ 63)%Z -> (z < 0 \/ Z.of_nat (length l) <= z)%Z ->
  (obj_get (bs "cursor") o = Some (JStr (print_Z z)) \/ obj_get (bs "cursor") o = Some (JInt z)) ->
  (forall n, obj_get (bs "limit") o = Some (JInt n) -> (n < 2 ^ 63)%Z) ->
  page (bs "resourceTemplates") (templates_list (reg_run ops) (Some (JObj o))) [] None.
Proof.
  intros ops l o z H L Hz Ho Hc Hl. rewrite (templates_of_unique _ _ _ L (template_list_spec ops)) in Ho.
  pose proof (few_len _ _ (template_list_len ops) H) as Hs.
  destruct (paging_outside o z (N.of_nat (length (template_list (reg_run ops)))) Hz Hc ltac:(lia) Hs Hl) as (s & limit & E & H1 & H2).
  assert (bs "resourceTemplates" <> bs "nextCursor") as K by discriminate.
  exact (outside (bs "resourceTemplates") template_json _ K Hs _ s limit E H1 H2).
Qed.

Theorem C30_prompts_partial : forall ops l o z, (N.of_nat (length ops) < 2 ^ 63)%N -> prompts_of ops l ->
  (- 2 ^ 63 <= z < 2 ^ 63)%Z -> (z < 0 \/ Z.of_nat (length l) <= z)%Z ->
  (obj_get (bs "cursor") o = Some (JStr (print_Z z)) \/ obj_get (bs "cursor") o = Some (JInt z)) ->
  (forall n, obj_get (bs "limit") o = Some (JInt n) -> (n < 2 ^ 63)%Z) ->
  page (bs "prompts") (prompts_list (reg_run ops) (Some (JObj o))) [] None.
Proof.
  intros ops l o z H L Hz Ho Hc Hl. rewrite (prompts_of_unique _ _ _ L (prompt_list_spec ops)) in Ho.
  pose proof (few_len _ _ (prompt_list_len ops) H) as Hs.
  destruct (paging_outside o z (N.of_nat (length (prompt_list (reg_run ops)))) Hz Hc ltac:(lia) Hs Hl) as (s & limit & E & H1 & H2).
  assert (bs "prompts" <> bs "nextCursor") as K by discriminate.
  exact (outside (bs "prompts") prompt_json _ K Hs _ s limit E H1 H2).
Qed.

(** The number one past the largest 64-bit integer is past the end of every list, yet the server
    starts again at the first entry. *)
Theorem C30_beyond_refuted : exists ops o l, tools_of ops l /\ l <> [] /\
  obj_get (bs "cursor") o = Some (JStr (print_Z (2 ^ 63))) /\
  page (bs "tools") (tools_list (reg_run ops) (Some (JObj o))) (map tool_json l) None.
Proof.
  exists [RegToolName (bs "a") None], [(bs "cursor", JStr (bs "9223372036854775808"))], (tool_list (reg_run [RegToolName (bs "a") None])).
  split; [apply tool_list_spec|]. split; [discriminate|]. split; [vm_compute; reflexivity|].
  eexists. split; [vm_compute; reflexivity|]. split; vm_compute; reflexivity.
Qed.

(** C36. The client helpers end after at most one call per entry and one more, with the whole list;
    each entry complete unless it has icons of unknown theme (C59). *)
Theorem C36_tools : forall ops l net limit fuel, (N.of_nat (length ops) < 2 ^ 63)%N -> tools_of ops l ->
  (forall v, same v (net v)) -> (forall n, limit = Some n -> (n < 2 ^ 31)%Z) -> length l < fuel ->
  exists r, list_all (remote net (bs "tools") parse_tool (tools_list (reg_run ops))) limit fuel None = Some r /\ 
    Forall2 (fun x y => tl_name y = tl_name x /\ (themed (tl_icons x) -> same_tool x y)) l r.
Proof.
  intros ops l net limit fuel H L Hn Hl Hf. rewrite (tools_of_unique _ _ _ L (tool_list_spec ops)) in *.
  pose proof (few_len _ _ (tool_list_len ops) H) as Hs.
  apply list_all_spec; [discriminate|exact Hs|exact Hn|intros x v _; exact (tool_back_any x v)|intros n En; specialize (Hl n En); lia|exact Hf].
Qed.

Theorem C36_resources : forall ui ops l net limit fuel, (N.of_nat (length ops) < 2 ^ 63)%N -> resources_of ui ops l ->
  (forall v, same v (net v)) -> (forall n, limit = Some n -> (n < 2 ^ 31)%Z) -> length l < fuel ->
  exists r, list_all (remote net (bs "resources") parse_resource (resources_list ui (reg_run ops))) limit fuel None = Some r /\ 
    Forall2 (fun x y => rs_uri y = rs_uri x /\ (themed (rs_icons x) -> same_resource x y)) l r.
Proof.
  intros ui ops l net limit fuel H L Hn Hl Hf. rewrite (resources_of_unique _ _ _ _ L (resource_list_spec ui ops)) in *.
  pose proof (few_len _ _ (resource_list_len ui ops) H) as Hs.
  apply list_all_spec; [discriminate|exact Hs|exact Hn|intros x v _; exact (resource_back_any x v)|intros n En; specialize (Hl n En); lia|exact Hf].
Qed.

Theorem C36_templates : forall ops l net limit fuel, (N.of_nat (length ops) < 2 ^ 63)%N -> templates_of ops l ->
  (forall v, same v (net v)) -> (forall n, limit = Some n -> (n < 2 ^ 31)%Z) -> length l < fuel ->
  exists r, list_all (remote net (bs "resourceTemplates") parse_template (templates_list (reg_run ops))) limit fuel None = Some r /\ 
    Forall2 (fun x y => tp_uri y = tp_uri x /\ (themed (tp_icons x) -> same_template x y)) l r.
Proof.
  intros ops l net limit fuel H L Hn Hl Hf. rewrite (templates_of_unique _ _ _ L (template_list_spec ops)) in *.
  pose proof (few_len _ _ (template_list_len ops) H) as Hs.
  apply list_all_spec; [discriminate|exact Hs|exact Hn|intros x v _; exact (template_back_any x v)|intros n En; specialize (Hl n En); lia|exact Hf].
Qed.

Theorem C36_prompts : forall ops l net limit fuel, (N.of_nat (length ops) < 2 ^ 63)%N -> prompts_of ops l ->
  (forall v, same v (net v)) -> (forall n, limit = Some n -> (n < 2 ^ 31)%Z) -> length l < fuel ->
  exists r, list_all (remote net (bs "prompts") parse_prompt (prompts_list (reg_run ops))) limit fuel None = Some r /\ 
    Forall2 (fun x y => pr_name y = pr_name x /\ (themed (pr_icons x) -> same_prompt x y)) l r.
Proof.
  intros ops l net limit fuel H L Hn Hl Hf. rewrite (prompts_of_unique _ _ _ L (prompt_list_spec ops)) in *.
  pose proof (few_len _ _ (prompt_list_len ops) H) as Hs.
  apply list_all_spec; [discriminate|exact Hs|exact Hn|intros x v _; exact (prompt_back_any x v)|intros n En; specialize (Hl n En); lia|exact Hf].
Qed.

(** A history with re-registration, removal, a hidden resource and byte order against length. *)
Definition tool_ex0 : tool :=
  {| tl_name := bs "echo"; tl_title := Some (bs "Echo"); tl_desc := bs "x"; tl_icons := None; tl_input := JNull; tl_output := None;
     tl_annot := None; tl_exec := None; tl_meta := None |}.
Definition tmpl_ex : template :=
  {| tp_uri := bs "file://{p}"; tp_name := bs "f"; tp_title := None; tp_desc := None; tp_mime := None; tp_annot := None; tp_meta := None; tp_icons := None |}.
Definition reg_ex : list reg_op :=
  [RegToolName (bs "b") (Some 1); RegTool tool_ex0 (Some 2); RegToolName (bs "echo") (Some 3); RegToolName (bs "a") None; UnregTool (bs "b");
   RegToolName (bs "ab") (Some 4); RegResourceUri (bs "ui://x") (Some 5); RegResourceUri (bs "file://y") (Some 6);
   RegResourceUri (bs "file://y") (Some 7); RegPromptName (bs "p") (Some 8); RegTemplate tmpl_ex None; RegTemplate tmpl_ex (Some 9)].

Example reg_ex_tools : map tl_name (tool_list (reg_run reg_ex)) = [bs "a"; bs "ab"; bs "echo"].
Proof. vm_compute. reflexivity. Qed.
Example reg_ex_echo : tool_now (bs "echo") (rev reg_ex) = Some (tool_ex0, Some 3).
Proof. vm_compute. reflexivity. Qed.
Example reg_ex_resources : map rs_uri (resource_list false (reg_run reg_ex)) = [bs "file://y"] /\
  map (fun r => (rs_uri r, rs_mime r)) (resource_list true (reg_run reg_ex)) = [(bs "file://y", None); (bs "ui://x", Some (bs "text/html+mcp"))].
Proof. split; vm_compute; reflexivity. Qed.
Example reg_ex_templates : rg_rt (reg_run reg_ex) = [(tmpl_ex, Some 9)].
Proof. vm_compute. reflexivity. Qed.
Example reg_ex_all : option_map (map tl_name) (list_all (remote (fun v => v) (bs "tools") parse_tool (tools_list (reg_run reg_ex))) (Some 2%Z) 4 None) =
  Some [bs "a"; bs "ab"; bs "echo"].
Proof. vm_compute. reflexivity. Qed.
Example reg_ex_themed : forall x, In x (tool_list (reg_run reg_ex)) -> themed (tl_icons x).
Proof.
  intros x H. apply tool_list_spec in H. destruct H as (h & E). intros ics i s EI. exfalso. revert E.
  assert (In x (map snd (rg_tm (reg_run reg_ex))) -> tl_icons x = None) as K.
  { vm_compute. intros [<- |[<- |[<- |[]]]]; reflexivity. }
  intro E. rewrite K in EI; [discriminate|]. apply in_map_iff. exists (tl_name x, x). split; [reflexivity|].
  apply MapProofs.aget_in. rewrite (proj1 (proj2 (proj2 (tinv_run reg_ex)))), E. reflexivity.
Qed.
Example reg_ex_outside : page (bs "tools") (tools_list (reg_run reg_ex) (Some (JObj [(bs "cursor", JStr (bs "-1")); (bs "limit", JInt 2)]))) [] None.
Proof. eexists. split; [vm_compute; reflexivity|]. split; vm_compute; reflexivity. Qed.

Print Assumptions C28_tools.
Print Assumptions C28_resources.
Print Assumptions C28_templates.
Print Assumptions C28_prompts.
Print Assumptions C29_tool_lookup.
Print Assumptions C29_tool_listing.
Print Assumptions C29_resource_lookup.
Print Assumptions C29_resource_listing.
Print Assumptions C29_template_lookup.
Print Assumptions C29_template_listing.
Print Assumptions C29_prompt_lookup.
Print Assumptions C29_prompt_listing.
Print Assumptions C30_tools_partial.
Print Assumptions C30_resources_partial.
Print Assumptions C30_templates_partial.
Print Assumptions C30_prompts_partial.
Print Assumptions C30_beyond_refuted.
Print Assumptions C36_tools.
Print Assumptions C36_resources.
Print Assumptions C36_templates.
Print Assumptions C36_prompts.
