From Coq Require Import Ascii String List Permutation Arith NArith ZArith Bool Lia.
From Verif Require Import StrModel StrProofs DoubleModel JsonModel JsonSpec MapModel RpcModel TaskModel ObjSpec DescModel DescSpec RegModel RegSpec RegProofs ValModel ValSpec ValProofs CacheModel CacheSpec CacheProofs.
Import ListNotations.
Local Open Scope nat_scope.

(** C54, the time to live. Whenever a list call is answered from the cache, the list is one that
    an earlier call on the same list read from its reply, returned and stored while caching was
    on; since that store nothing said that the list changed and caching was not switched off; and
    less than one millisecond more than the time to live now in force has passed. *)
Theorem C54_ttl : forall strict now h k l, served (lrun (lcache0 strict now) h) k l -> exists a c t b r n,
  h = a ++ LBegin k :: c ++ LStore t :: b /\ begins a = t /\ In (LReply t r) (a ++ LBegin k :: c) /\ list_reply strict k r = Got l /\
  In (t, Returned l) (lc_out (lrun (lcache0 strict now) h)) /\
  (forall e, In e b -> ~ clears k e) /\ ttl_now (a ++ LBegin k :: c) <> None /\ ttl_now h = Some n /\ (elapsed b < (Z.of_N n + 1) * 1000000)%Z.
Proof.
  intros strict now h k l H. apply hit_served in H as (a & t & b & r & n & -> & (a1 & a2 & -> & B) & Rin & Rg & _ & Out & N & Ta & Tn & E).
  exists a1, a2, t, b, r, n. split; [now rewrite <- app_assoc|]. do 7 (split; [assumption|]). exact E.
Qed.
Print Assumptions C54_ttl.

(** C54, with the sender's order kept: if the notifications that a list changed are never
    processed while a call on that list is under way, then a list served from the cache was asked
    for after the last of them. *)
Theorem C54_fresh_partial : forall strict now h k l,
  (forall a m b t, h = a ++ LNotify m :: b -> concerns m k -> ~ unanswered (lcache0 strict now) a t k) ->
  served (lrun (lcache0 strict now) h) k l -> exists a c t b r,
  h = a ++ LBegin k :: c ++ LStore t :: b /\ begins a = t /\ In (LReply t r) h /\ list_reply strict k r = Got l /\
  (forall m, In (LNotify m) (c ++ LStore t :: b) -> ~ concerns m k).
Proof. exact hit_fresh. Qed.
Print Assumptions C54_fresh_partial.

(** C54 fails without that: the reply has come, the notification is processed, then the calling
    thread stores the old list; it is served for the whole time to live. *)
Definition tool_named (n : bstr) : json := JObj [(bs "name", JStr n)].
Definition tools_reply (ns : list bstr) : reply :=
  RResponse (Some {| rs_id := IdInt 1; rs_result := Some (JObj [(bs "tools", JArr (map tool_named ns))]); rs_error := None |}).
Theorem C54_stale_refuted : exists strict now a b k l l' r',
  served (lrun (lcache0 strict now) (a ++ LNotify (bs "notifications/tools/list_changed") :: b)) k l /\ k = KTools /\
  (forall x, ~ In (LBegin x) b) /\ In (LReply 0 r') a /\ list_reply strict k r' = Got l /\ l <> l' /\ list_reply strict k (tools_reply [bs "new"]) = Got l'.
Proof.
  exists false, 0%Z, [LTtl (Some 60000%N); LBegin KTools; LReply 0 (tools_reply [bs "old"])], [LStore 0; LTime 59000000000%N], KTools,
    [ETool (parse_tool [(bs "name", JStr (bs "old"))])], [ETool (parse_tool [(bs "name", JStr (bs "new"))])], (tools_reply [bs "old"]).
  split; [vm_compute; right; now left|]. split; [reflexivity|]. split; [intros x [H|[H|[]]]; discriminate H|]. split; [cbn; auto|].
  split; [vm_compute; reflexivity|]. split; [discriminate|vm_compute; reflexivity].
Qed.
Print Assumptions C54_stale_refuted.

(** C54, the other half: within the time to live the stored list is what is served, while nothing
    clears it and no other call on the list stores. *)
Theorem C54_kept : forall strict now a t b k l n, let s0 := lcache0 strict now in let h := a ++ LStore t :: b in
  (exists x y, a = x ++ LBegin k :: y /\ begins x = t) -> ~ In t (map fst (lc_out (lrun s0 a))) ->
  In (t, Returned l) (lc_out (lrun s0 (a ++ [LStore t]))) ->
  (forall e, In e b -> ~ clears k e) -> (forall t', In (LStore t') b -> ~ exists x y, h = x ++ LBegin k :: y /\ begins x = t') ->
  ttl_now a <> None -> ttl_now h = Some n -> (n < 2 ^ 63)%N -> (elapsed b < (Z.of_N n + 1) * 1000000)%Z -> served (lrun s0 h) k l.
Proof. exact hit_kept. Qed.
Print Assumptions C54_kept.

(** With caching off every call asks the server. *)
Theorem C54_off : forall strict now h k l, ttl_now h = None -> ~ served (lrun (lcache0 strict now) h) k l.
Proof.
  intros strict now h k l T. pose proof (linv_run strict now h) as [_ I2 _ I4 I5 _ _]. apply off_asks; [rewrite I4; exact I5|congruence].
Qed.
Print Assumptions C54_off.

(** A history in which the cache serves: the list is stored, other lists change, time passes. *)
Definition cache_ex : list lact :=
  [LTtl (Some 1000%N); LBegin KTools; LTime 5000%N; LReply 0 (tools_reply [bs "x"]); LStore 0;
   LNotify (bs "notifications/prompts/list_changed"); LTime 1000999999%N].
Example cache_ex_served : served (lrun (lcache0 true 7) cache_ex) KTools [ETool (parse_tool [(bs "name", JStr (bs "x"))])] \/
  served (lrun (lcache0 false 7) cache_ex) KTools [ETool (parse_tool [(bs "name", JStr (bs "x"))])].
Proof. right. vm_compute. right. now left. Qed.
Example cache_ex_hyp : forall a m b t, cache_ex = a ++ LNotify m :: b -> concerns m KTools -> ~ unanswered (lcache0 false 7) a t KTools.
Proof.
  intros a m b t E C. assert (In (LNotify m) cache_ex) as H by (rewrite E; apply in_or_app; right; now left).
  cbn [cache_ex In] in H. repeat (destruct H as [H|H]; [try discriminate H|]); [|destruct H]. injection H as <-. discriminate C.
Qed.
Example cache_ex_late : forall l, ~ served (lrun (lcache0 false 7) (cache_ex ++ [LTime 1%N])) KTools l.
Proof. intros l H. apply served_hit in H; [vm_compute in H; discriminate H|]. intros t o Q. vm_compute in Q. destruct Q as [Q|[]]. injection Q as <- _. vm_compute. lia. Qed.

(** C55: an error response is stored as an empty list and served until the time to live is over. *)
Theorem C55_failed_refuted : exists h p e, served (lrun (lcache0 true 0) h) KTools [] /\
  (forall t r, In (LReply t r) h -> r = RResponse (Some p)) /\ rs_error p = Some e.
Proof.
  exists [LTtl (Some 60000%N); LBegin KTools; LReply 0 (RResponse (Some {| rs_id := IdInt 1; rs_result := None; rs_error := Some (JObj []) |})); LStore 0].
  exists {| rs_id := IdInt 1; rs_result := None; rs_error := Some (JObj []) |}, (JObj []).
  split; [vm_compute; right; now left|]. split; [|reflexivity]. intros t r [H|[H|[H|[H|[]]]]]; try discriminate H. injection H as _ <-. reflexivity.
Qed.
Print Assumptions C55_failed_refuted.

(** C55 for failures that reach the caller as an exception (a timeout, a closed transport, a result
    refused in strict mode): nothing of them is ever served. If no call on the list got an error
    response or none, then what the cache serves is what a result said. *)
Theorem C55_thrown_partial : forall strict now h k l,
  (forall t r, In (LReply t r) h -> (exists a b, h = a ++ LBegin k :: b /\ begins a = t) -> r = RException \/ exists v, is_result r v) ->
  served (lrun (lcache0 strict now) h) k l -> exists t r v, In (LReply t r) h /\ is_result r v /\ l = read_list k v /\ (strict = true -> valid_list k v = true) /\
    In (t, Returned l) (lc_out (lrun (lcache0 strict now) h)).
Proof.
  intros strict now h k l Q H. apply hit_served in H as (a & t & b & r & n & E & (a1 & a2 & Ea & B) & Rin & Rg & _ & Out & _).
  assert (Rh : In (LReply t r) h) by (rewrite E; apply in_or_app; now left).
  assert (Bh : exists a b, h = a ++ LBegin k :: b /\ begins a = t) by (exists a1, (a2 ++ LStore t :: b); rewrite E, Ea, <- app_assoc; auto).
  destruct (got_result _ _ _ _ Rg) as [(v & V & L & S)|(N & X & _)].
  - exists t, r, v. auto.
  - destruct (Q t r Rh Bh) as [Z|(v & V)]; [contradiction|exfalso; exact (N v V)].
Qed.
Print Assumptions C55_thrown_partial.
Example cache_ex_results : forall t r, In (LReply t r) cache_ex -> (exists a b, cache_ex = a ++ LBegin KTools :: b /\ begins a = t) -> r = RException \/ exists v, is_result r v.
Proof.
  intros t r H _. cbn [cache_ex In] in H. repeat (destruct H as [H|H]; [try discriminate H|]); [|destruct H]. injection H as _ <-.
  right. eexists. eexists. split; [reflexivity|]. split; reflexivity.
Qed.

(** C36 for the calls that ask for the whole list at once: reading the result of a server's
    listing, as it arrives over a connection that may reorder members, gives the registered
    entries in order. *)
Theorem C36_tools_whole : forall ops l v, tools_of ops l -> same (tools_list (reg_run ops) None) v ->
  exists r, list_reply false KTools (RResponse (Some {| rs_id := IdInt 1; rs_result := Some v; rs_error := None |})) = Got (map ETool r) /\
    Forall2 (fun x y => tl_name y = tl_name x /\ (themed (tl_icons x) -> same_tool x y)) l r.
Proof.
  intros ops l v L H. rewrite (tools_of_unique _ _ _ L (tool_list_spec ops)). cbn [list_reply rs_error rs_result andb].
  destruct (read_listing KTools tool_json parse_tool ETool 
    (fun x y => tl_name y = tl_name x /\ (themed (tl_icons x) -> same_tool x y)) (tool_list (reg_run ops)) (fun o => eq_refl) tool_back_any v H) as (r & -> & F). now exists r.
Qed.
Print Assumptions C36_tools_whole.
Theorem C36_resources_whole : forall ui ops l v, resources_of ui ops l -> same (resources_list ui (reg_run ops) None) v ->
  exists r, list_reply false KResources (RResponse (Some {| rs_id := IdInt 1; rs_result := Some v; rs_error := None |})) = Got (map EResource r) /\
    Forall2 (fun x y => rs_uri y = rs_uri x /\ (themed (rs_icons x) -> same_resource x y)) l r.
Proof.
  intros ui ops l v L H. rewrite (resources_of_unique _ _ _ _ L (resource_list_spec ui ops)). cbn [list_reply RpcModel.rs_error rs_result andb].
  destruct (read_listing KResources resource_json parse_resource EResource 
    (fun x y => rs_uri y = rs_uri x /\ (themed (rs_icons x) -> same_resource x y)) (resource_list ui (reg_run ops)) (fun o => eq_refl) resource_back_any v H) as (r & -> & F). now exists r.
Qed.
Print Assumptions C36_resources_whole.
Theorem C36_templates_whole : forall ops l v, templates_of ops l -> same (templates_list (reg_run ops) None) v ->
  exists r, list_reply false KTemplates (RResponse (Some {| rs_id := IdInt 1; rs_result := Some v; rs_error := None |})) = Got (map ETemplate r) /\
    Forall2 (fun x y => tp_uri y = tp_uri x /\ (themed (tp_icons x) -> same_template x y)) l r.
Proof.
  intros ops l v L H. rewrite (templates_of_unique _ _ _ L (template_list_spec ops)). cbn [list_reply RpcModel.rs_error rs_result andb].
  destruct (read_listing KTemplates template_json parse_template ETemplate 
    (fun x y => tp_uri y = tp_uri x /\ (themed (tp_icons x) -> same_template x y)) (template_list (reg_run ops)) (fun o => eq_refl) template_back_any v H) as (r & -> & F). now exists r.
Qed.
Print Assumptions C36_templates_whole.
Theorem C36_prompts_whole : forall ops l v, prompts_of ops l -> same (prompts_list (reg_run ops) None) v ->
  exists r, list_reply false KPrompts (RResponse (Some {| rs_id := IdInt 1; rs_result := Some v; rs_error := None |})) = Got (map EPrompt r) /\
    Forall2 (fun x y => pr_name y = pr_name x /\ (themed (pr_icons x) -> same_prompt x y)) l r.
Proof.
  intros ops l v L H. rewrite (prompts_of_unique _ _ _ L (prompt_list_spec ops)). cbn [list_reply RpcModel.rs_error rs_result andb].
  destruct (read_listing KPrompts prompt_json parse_prompt EPrompt 
    (fun x y => pr_name y = pr_name x /\ (themed (pr_icons x) -> same_prompt x y)) (prompt_list (reg_run ops)) (fun o => eq_refl) prompt_back_any v H) as (r & -> & F). now exists r.
Qed.
Print Assumptions C36_prompts_whole.

(** Outside C36, when another server writes a list wrongly: what is not an object becomes a tool without a
    name, while the other three calls leave it out. *)
Theorem C36_malformed : forall o l strict_off, obj_get (bs "tools") o = Some (JArr l) -> strict_off = false ->
  exists r, list_reply strict_off KTools (RResponse (Some {| rs_id := IdInt 1; rs_result := Some (JObj o); rs_error := None |})) = Got r /\
    length r = length l /\ forall n v, nth_error l n = Some v -> (forall x, v <> JObj x) -> exists t, nth_error r n = Some (ETool t) /\ tl_name t = [].
Proof.
  intros o l off G ->. eexists. split; [reflexivity|]. unfold read_list. cbn [list_key]. rewrite G. clear G. induction l as [|v l IH]; [split; [reflexivity|now intros [] v]|].
  destruct IH as [IH1 IH2]. assert (exists t, read_item KTools v = [ETool t] /\ ((forall x, v <> JObj x) -> tl_name t = [])) as (t & T & N).
  { destruct v; eexists; (split; [reflexivity|]); try reflexivity. intros H. now contradiction (H l0). }
  cbn [flat_map]. rewrite T. cbn [app length]. split; [now rewrite IH1|]. intros [|n] w; cbn [nth_error]; [|apply IH2]. intros [= <-] H. exists t. split; [reflexivity|now apply N].
Qed.
Print Assumptions C36_malformed.
