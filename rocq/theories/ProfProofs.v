From Coq Require Import Ascii String List Permutation Arith NArith ZArith Bool Lia.
From Verif Require Import StrModel StrProofs DoubleModel JsonModel JsonSpec JsonProofs ObjSpec ObjProofs MapModel MapProofs RpcModel TaskModel TaskSpec TaskProofs DescModel DescSpec DescProofs RegModel RegSpec RegProofs TmplModel TmplSpec TmplProofs ValModel ValSpec ValProofs ReadModel ReadSpec ReadProofs SubModel LogModel ErrModel ErrSpec CancelModel ServModel ServSpec ServProofs CallProofs DispProofs PeerModel PeerSpec PeerProofs ProfModel ProfSpec.
Import ListNotations.
Local Open Scope nat_scope.

Lemma at_number_is : forall A (l : list A) b k, at_number l b (k + b) = nth_error l k.
Proof.
  intros A l b k. unfold at_number. assert (Nat.leb b (k + b) = true) as -> by (apply Nat.leb_le; lia). now replace (k + b - b) with k by lia.
Qed.

(** Each registration of the profile is in force. *)
Lemma tools_now : forall ops b k t h, nth_error prof_tools k = Some (t, h) -> tool_now (tl_name t) (rev (ops ++ profile_ops b)) = Some (t, Some (k + b)).
Proof.
  intros ops b k t h E. rewrite rev_app_distr.
  do 13 (destruct k as [|k]; [cbn [nth_error prof_tools] in E; injection E as <- <-; vm_compute; reflexivity|]).
  destruct k; discriminate E.
Qed.
Lemma prompts_now : forall ops b k p h, nth_error prof_prompts k = Some (p, h) -> prompt_now (pr_name p) (rev (ops ++ profile_ops b)) = Some (p, Some (k + b)).
Proof.
  intros ops b k p h E. rewrite rev_app_distr.
  do 4 (destruct k as [|k]; [cbn [nth_error prof_prompts] in E; injection E as <- <-; vm_compute; reflexivity|]).
  destruct k; discriminate E.
Qed.
Lemma resources_now : forall ops b k x h, nth_error prof_resources k = Some (x, h) -> resource_now (rs_uri x) (rev (ops ++ profile_ops b)) = Some (x, Some (k + b)).
Proof.
  intros ops b k x h E. rewrite rev_app_distr.
  do 3 (destruct k as [|k]; [cbn [nth_error prof_resources] in E; injection E as <- <-; vm_compute; reflexivity|]).
  destruct k; discriminate E.
Qed.
Lemma template_is : forall ops b, template_now (tp_uri prof_template) (rev (ops ++ profile_ops b)) = Some (prof_template, Some b).
Proof. intros ops b. rewrite rev_app_distr. vm_compute. reflexivity. Qed.
Lemma template_other : forall ops b u, u <> tp_uri prof_template -> template_now u (rev (ops ++ profile_ops b)) = template_now u (rev ops).
Proof.
  intros ops b u N. rewrite rev_app_distr. change (rev (profile_ops b)) with (rev (numbered (fun e n => RegPrompt (fst e) (Some n)) prof_prompts b ++
    numbered (fun e n => RegTool (fst e) (Some n)) prof_tools b) ++ [RegTemplate prof_template (Some b)] ++ rev (numbered (fun e n => RegResource (fst e) (Some n)) prof_resources b)).
  cbn [numbered prof_prompts prof_tools prof_resources rev List.app template_now].
  destruct (beq u (tp_uri prof_template)) eqn:E; [apply beq_eq in E; contradiction|reflexivity].
Qed.
Lemma resource_other : forall ops b u, ~ In u (map (fun e => rs_uri (fst e)) prof_resources) -> resource_now u (rev (ops ++ profile_ops b)) = resource_now u (rev ops).
Proof.
  intros ops b u N. rewrite rev_app_distr. cbn [profile_ops numbered prof_prompts prof_tools prof_resources rev List.app resource_now fst].
  repeat match goal with |- context[if beq u ?x then _ else _] =>
    let E := fresh in destruct (beq u x) eqn:E; [apply beq_eq in E; exfalso; apply N; rewrite E; cbn [prof_resources map fst]; auto 6 using in_eq, in_cons|clear E] end.
  reflexivity.
Qed.

(** A call of a tool of the profile. *)
Lemma prof_call : forall e ops b w pre q s k t h a, offers s ops b -> nth_error prof_tools k = Some (t, h) -> named q (bs "tools/call") (tl_name t) a ->
  Forall Content (to_content (fst (h e a))) ->
  exists r, dispatch (prof_world e b w) pre false false q s = (Reply r, s) /\ succeeds r (tool_json_out (fst (h e a))).
Proof.
  intros e ops b w pre q s k t h a O K (M & o & P & P1 & P2 & P3) C. pose proof (tools_now ops b k t h K) as T. rewrite <- O in * || idtac.
  destruct (handler_now _ _ _ _ T) as [H1 H2]. rewrite <- O in H1, H2.
  assert (tl_exec t = None) as X. { do 13 (destruct k as [|k]; [cbn [nth_error prof_tools] in K; injection K as <- <-; reflexivity|]). destruct k; discriminate K. }
  assert (tl_name t <> []) as N. { do 13 (destruct k as [|k]; [cbn [nth_error prof_tools] in K; injection K as <- <-; discriminate|]). destruct k; discriminate K. }
  rewrite dispatch_call by exact M.
  assert (handle_tool (prof_world e b w) false (rq_params q) s = (AResult (tool_json_out (fst (h e a))), s)) as ->.
  { rewrite P. unfold handle_tool, call_name, call_args, parse_metadata, get_str. rewrite P1, P2, P3. cbn [or_empty].
    destruct (tl_name t) as [|c n] eqn:En; [contradiction|]. rewrite H1, H2, X. cbn [negb andb]. 
    change (beq (task_support None) (bs "required")) with false. cbv iota.
    cbn [prof_world w_tool]. rewrite at_number_is, K. apply tool_valid in C. now rewrite C, andb_false_r. }
  cbn [fst snd]. eexists. split; [reflexivity|]. now split.
Qed.

Lemma call_answered : forall e ops b w pre q s k t h a l, offers s ops b -> nth_error prof_tools k = Some (t, h) -> named q (bs "tools/call") (tl_name t) a ->
  Forall Content (to_content (fst (h e a))) -> Forall2 is_item l (to_content (fst (h e a))) ->
  answered (prof_world e b w) pre q s (to_error (fst (h e a))) l.
Proof.
  intros e ops b w pre q s k t h a l O K N C L. destruct (prof_call e ops b w pre q s k t h a O K N C) as (r & D & R).
  destruct (tool_tells (fst (h e a))) as (o & E & E1 & _ & _ & E2). rewrite E in R. exists r, o, (to_content (fst (h e a))).
  split; [exact D|]. split; [exact R|]. split; [|now split]. rewrite <- E. apply call_tool_iff, tool_valid, C.
Qed.

Lemma text_content : forall t, Content (make_text t).
Proof. intro t. apply content_iff. reflexivity. Qed.
Lemma text_is : forall t, is_item (AText t) (make_text t).
Proof. intro t. eexists. split; [reflexivity|]. split; reflexivity. Qed.
Lemma media_is : forall ty m d, is_item (AMedia ty m d) (make_media ty m d).
Proof. intros ty m d. eexists. split; [reflexivity|]. split; [|split]; reflexivity. Qed.
Lemma embedded_content : forall u t m, Content (make_embedded_text u t (Some m)).
Proof. intros u t m. apply content_iff. reflexivity. Qed.
Lemma embedded_is : forall u t m, is_item (AResource u t m) (make_embedded_text u t (Some m)).
Proof. intros u t m. eexists. split; [reflexivity|]. split; [reflexivity|]. eexists. split; [reflexivity|]. split; [|split]; reflexivity. Qed.
Lemma text_one : forall t, Forall Content [make_text t].
Proof. intro t. constructor; [apply text_content|constructor]. Qed.
Lemma text_only : forall t, Forall2 is_item [AText t] [make_text t].
Proof. intro t. constructor; [apply text_is|constructor]. Qed.

(** The tools whose answer is always the same. *)
Lemma constant_runs : forall e ops b w pre q s n err l a, offers s ops b -> In (n, err, l) constant_answers -> named q (bs "tools/call") n a ->
  answered (prof_world e b w) pre q s err l.
Proof.
  intros e ops b w pre q s n err l a O I N. cbn [constant_answers In] in I.
  Ltac via k := match goal with O : offers ?s ?ops ?b, N : named ?q _ _ ?a |- answered (prof_world ?e ?b ?w) ?pre ?q ?s ?err ?l =>
    let C := fresh "C" in pose proof (call_answered e ops b w pre q s k _ _ a l O eq_refl N) as C; apply C end.
  repeat (destruct I as [I|I]; [injection I as <- <- <-|]); [| | | | | | | | |destruct I].
  - via 0; [apply text_one|apply text_only].
  - via 1; [constructor; [apply content_iff; reflexivity|constructor]|constructor; [apply media_is|constructor]].
  - via 2; [constructor; [apply content_iff; reflexivity|constructor]|constructor; [apply media_is|constructor]].
  - via 3; [constructor; [apply embedded_content|constructor]|constructor; [apply embedded_is|constructor]].
  - via 4.
    + constructor; [apply text_content|]. constructor; [apply content_iff; reflexivity|]. constructor; [apply embedded_content|constructor].
    + constructor; [apply text_is|]. constructor; [apply media_is|]. constructor; [apply embedded_is|constructor].
  - via 5; [apply text_one|apply text_only].
  - via 6; [apply text_one|apply text_only].
  - via 7; [apply text_one|apply text_only].
  - via 12; [apply text_one|apply text_only].
Qed.

(** The conversations. *)
Definition talk (n : bstr) (k : nat) (h : prof_handler) : Prop := exists t, nth_error prof_tools k = Some (t, h) /\ tl_name t = n.
Lemma talk_answered : forall e ops b w pre q s n k h a err t, offers s ops b -> talk n k h -> named q (bs "tools/call") n a ->
  fst (h e a) = tool_says err [make_text t] -> answered (prof_world e b w) pre q s err [AText t].
Proof.
  intros e ops b w pre q s n k h a err t O (tl & K & <-) N E. pose proof (call_answered e ops b w pre q s k tl h a [AText t] O K N) as C.
  rewrite E in C. apply C; [apply text_one|apply text_only].
Qed.
Lemma sampling_talk : talk (bs "test_sampling") 8 h_sampling. Proof. eexists. split; reflexivity. Qed.
Lemma elicit_talk : talk (bs "test_elicitation") 9 h_elicit. Proof. eexists. split; reflexivity. Qed.
Lemma defaults_talk : talk (bs "test_elicitation_sep1034_defaults") 10 h_defaults. Proof. eexists. split; reflexivity. Qed.
Lemma enums_talk : talk (bs "test_elicitation_sep1330_enums") 11 h_enums. Proof. eexists. split; reflexivity. Qed.

Lemma sampling_says : forall e a, exists err t, fst (h_sampling e a) = tool_says err [make_text t].
Proof.
  intros e a. unfold h_sampling. destruct (pe_stop e 0); [now eexists _, _|]. destruct (do_message e (prof_sampling a)) as [[v|x] out]; now eexists _, _.
Qed.
Lemma elicit_says : forall e a, exists err t, fst (h_elicit e a) = tool_says err [make_text t].
Proof. intros e a. unfold h_elicit. destruct (pe_stop e 0); [now eexists _, _|]. destruct (do_elicit e (prof_elicit a)) as [[v|x] out]; now eexists _, _. Qed.
Lemma defaults_says : forall e a, exists err t, fst (h_defaults e a) = tool_says err [make_text t].
Proof. intros e a. unfold h_defaults. destruct (pe_stop e 0); [now eexists _, _|]. destruct (do_elicit e prof_defaults) as [[v|x] out]; now eexists _, _. Qed.
Lemma enums_says : forall e a, exists err t, fst (h_enums e a) = tool_says err [make_text t].
Proof. intros e a. unfold h_enums. destruct (pe_stop e 0); [now eexists _, _|]. destruct (do_elicit e prof_enums) as [[v|x] out]; now eexists _, _. Qed.

(** Every tool is answered. *)
Lemma always_answered : forall e ops b w pre q s n a, offers s ops b -> In n profile_tools -> named q (bs "tools/call") n a ->
  exists err l, answered (prof_world e b w) pre q s err l.
Proof.
  intros e ops b w pre q s n a O I N.
  assert ((exists err l, In (n, err, l) constant_answers) \/ In n [bs "test_sampling"; bs "test_elicitation"; bs "test_elicitation_sep1034_defaults"; bs "test_elicitation_sep1330_enums"]) as D.
  { cbn [profile_tools In] in I. repeat (destruct I as [<-|I]); [..|destruct I].
    all: first [right; cbn [In]; tauto|left; eexists _, _; unfold constant_answers; auto 12 using in_eq, in_cons]. }
  destruct D as [(err & l & D)|D].
  - exists err, l. eapply constant_runs; eauto.
  - cbn [In] in D. destruct D as [<-|[<-|[<-|[<-|[]]]]].
    + destruct (sampling_says e a) as (err & t & E). exists err, [AText t]. eapply talk_answered; eauto using sampling_talk.
    + destruct (elicit_says e a) as (err & t & E). exists err, [AText t]. eapply talk_answered; eauto using elicit_talk.
    + destruct (defaults_says e a) as (err & t & E). exists err, [AText t]. eapply talk_answered; eauto using defaults_talk.
    + destruct (enums_says e a) as (err & t & E). exists err, [AText t]. eapply talk_answered; eauto using enums_talk.
Qed.

(** What is sent. *)
Lemma sends_of : forall e n a k h, talk n k h -> profile_sends e n a = snd (h e a).
Proof.
  intros e n a k h (t & K & <-). unfold profile_sends.
  do 13 (destruct k as [|k]; [cbn [nth_error prof_tools] in K; injection K as <- <-; reflexivity|]). destruct k; discriminate K.
Qed.

Lemma log_sent : forall x q s a, ou_ask x <> None ->
  (lv (sv_level s) <= lv LInfo ->
   Forall2 (fun i m => tells_log m (nth i log_texts [])) (filter (fun i => negb (ou_stop x i) && negb (ou_throttled x i))%bool [0; 1; 2])
     (profile_sends (env_of x q s) (bs "test_tool_with_logging") a)) /\
  (lv LInfo < lv (sv_level s) -> profile_sends (env_of x q s) (bs "test_tool_with_logging") a = []).
Proof.
  intros x q s a N. rewrite (sends_of _ _ _ 5 h_logging) by (eexists; split; reflexivity). cbn [h_logging snd].
  unfold log_step. cbn [env_of pe_stop pe_min pe_throttled pe_ask]. destruct (ou_ask x) as [ask|]; [|contradiction]. split.
  - intro L. assert (suppressed LInfo (sv_level s) = false) as -> by (destruct (sv_level s); cbn in L; try lia; reflexivity).
    cbn [filter]. destruct (ou_stop x 0), (ou_throttled x 0), (ou_stop x 1), (ou_throttled x 1), (ou_stop x 2), (ou_throttled x 2); cbn [negb andb List.app];
      repeat (constructor; [eexists _, _; repeat split; reflexivity|]); constructor.
  - intro L. assert (suppressed LInfo (sv_level s) = true) as -> by (destruct (sv_level s); cbn in L; try lia; reflexivity).
    now destruct (ou_stop x 0), (ou_stop x 1), (ou_stop x 2).
Qed.

Lemma token_nonempty : forall q, token_of q <> [].
Proof.
  intro q. unfold token_of. destruct (progress_token (rq_params q)) as [t|] eqn:E; [|discriminate]. unfold progress_token in E.
  destruct (rq_params q) as [[| | | | | |o]|]; try discriminate. destruct (obj_get (bs "_meta") o) as [[| | | | | |m]|]; try discriminate.
  destruct (obj_get (bs "progressToken") m) as [[| |z| |[|c y]| |]|]; try discriminate; injection E as <-; [|discriminate].
  unfold print_Z. destruct (Z.ltb z 0); [discriminate|]. intro Z0. destruct (print_N_spec (Z.to_N z)) as (_ & _ & Q). contradiction.
Qed.

Lemma progress_sent : forall x q s a, ou_ask x <> None ->
  Forall2 (fun i m => tells_progress m (token_of q) (nth i progress_steps (DZero false, []))) (filter (fun i => negb (ou_stop x i)) [0; 1; 2])
    (profile_sends (env_of x q s) (bs "test_tool_with_progress") a).
Proof.
  intros x q s a N. rewrite (sends_of _ _ _ 7 h_progress) by (eexists; split; reflexivity). cbn [h_progress snd]. cbn [env_of pe_token]. fold (token_of q).
  unfold progress_step. cbn [env_of pe_stop pe_ask]. destruct (ou_ask x) as [ask|]; [|contradiction].
  assert (forall p m, unit_range p = true -> tells_progress (SNote (progress_note (token_of q) p m)) (token_of q) (p, m)) as T.
  { intros p m U. eexists. split; [reflexivity|]. intros n' strict ea A E. rewrite (progress_arrives _ _ _ _ strict ea A E), U.
    pose proof (token_nonempty q) as Z. destruct (token_of q); [contradiction|]. cbn [negb andb ef_call]. now rewrite andb_false_r. }
  cbn [filter]. destruct (ou_stop x 0), (ou_stop x 1), (ou_stop x 2); cbn [negb List.app];
    repeat (constructor; [apply T; vm_compute; reflexivity|]); constructor.
Qed.

Lemma stopped_talk : forall x ops b w pre q s n a, offers s ops b ->
  In n [bs "test_sampling"; bs "test_elicitation"; bs "test_elicitation_sep1034_defaults"; bs "test_elicitation_sep1330_enums"] ->
  named q (bs "tools/call") n a -> ou_stop x 0 = true ->
  profile_sends (env_of x q s) n a = [] /\ exists t, answered (prof_world (env_of x q s) b w) pre q s true [AText t].
Proof.
  intros x ops b w pre q s n a O I N St. set (e := env_of x q s). assert (pe_stop e 0 = true) as P by exact St. clearbody e.
  cbn [In] in I. destruct I as [<-|[<-|[<-|[<-|[]]]]].
  - rewrite (sends_of _ _ _ _ _ sampling_talk). unfold h_sampling. rewrite P. split; [reflexivity|]. eexists.
    eapply talk_answered; [exact O|exact sampling_talk|exact N|]. unfold h_sampling. rewrite P. reflexivity.
  - rewrite (sends_of _ _ _ _ _ elicit_talk). unfold h_elicit. rewrite P. split; [reflexivity|]. eexists.
    eapply talk_answered; [exact O|exact elicit_talk|exact N|]. unfold h_elicit. rewrite P. reflexivity.
  - rewrite (sends_of _ _ _ _ _ defaults_talk). unfold h_defaults. rewrite P. split; [reflexivity|]. eexists.
    eapply talk_answered; [exact O|exact defaults_talk|exact N|]. unfold h_defaults. rewrite P. reflexivity.
  - rewrite (sends_of _ _ _ _ _ enums_talk). unfold h_enums. rewrite P. split; [reflexivity|]. eexists.
    eapply talk_answered; [exact O|exact enums_talk|exact N|]. unfold h_enums. rewrite P. reflexivity.
Qed.

(** Nothing else is sent. *)
Lemma quiet : forall e n a, ~ In n [bs "test_tool_with_logging"; bs "test_tool_with_progress"; bs "test_sampling"; bs "test_elicitation"; bs "test_elicitation_sep1034_defaults"; bs "test_elicitation_sep1330_enums"] ->
  profile_sends e n a = [].
Proof.
  intros e n a N. unfold profile_sends. cbn [prof_tools tool_called plain_tool tl_name].
  repeat match goal with |- context[if beq n ?k then _ else _] => let E := fresh in destruct (beq n k) eqn:E;
    [first [reflexivity|apply beq_eq in E; subst n; exfalso; apply N; cbn [In]; tauto]|clear E] end.
  reflexivity.
Qed.

(** Arguments. *)
Lemma argument_is : forall a k x d, argument a k x -> string_argument a k d = or_else x d.
Proof.
  intros a k x d A. unfold string_argument. destruct x as [t|]; cbn [argument or_else] in *.
  - destruct A as (o & -> & ->). reflexivity.
  - destruct a as [| | | | | |o]; try reflexivity. specialize (A o). destruct (obj_get k o) as [[| | | |t| |]|]; try reflexivity. now contradiction (A t).
Qed.

(** The prompts. *)
Definition prompt_of (n : bstr) (k : nat) (h : json -> bstr * list json) : Prop := exists p, nth_error prof_prompts k = Some (p, h) /\ pr_name p = n.
Lemma prompt_answered : forall e ops b w q s n k h a l, offers s ops b -> prompt_of n k h -> named q (bs "prompts/get") n a ->
  Forall PromptMessage (snd (h a)) ->
  Forall2 (fun i v => exists m c, v = JObj m /\ obj_get (bs "role") m = Some (JStr (bs "user")) /\ obj_get (bs "content") m = Some c /\ is_item i c) l (snd (h a)) ->
  prompted (prof_world e b w) q s (fst (h a)) l.
Proof.
  intros e ops b w q s n k h a l O (p & K & <-) (M & o & P & P1 & P2 & P3) V L. pose proof (prompts_now ops b k p h K) as T.
  destruct (RegProofs.pinv_run (ops ++ profile_ops b)) as (_ & A & _). pose proof (A (pr_name p)) as G. rewrite T in G. cbn [option_map snd] in G. rewrite <- O in G.
  unfold prompted. rewrite dispatch_prompt by exact M.
  assert (handle_prompt (prof_world e b w) (rq_params q) s = AResult (prompt_result_json (fst (h a)) (snd (h a)))) as ->.
  { rewrite P. unfold handle_prompt, call_name, call_args, get_str. rewrite P1, P2. cbn [or_empty].
    rewrite G. cbn [prof_world w_prompt]. rewrite at_number_is, K. destruct (h a) as [d ms] eqn:E. cbn [fst snd] in *.
    assert (forallb message_shape ms = true) as ->; [|now rewrite andb_false_r].
    apply forallb_forall. intros y I. apply message_iff. eapply Forall_forall; eauto. }
  eexists _, _, (snd (h a)). split; [reflexivity|]. split; [split; reflexivity|]. split; [now apply prompt_result_iff|]. split; [|split]; [objs; reflexivity..|exact L].
Qed.
Lemma user_message : forall c, Content c -> PromptMessage (prompt_message (bs "user") c).
Proof.
  intros c C. apply message_iff. unfold message_shape, prompt_message. apply content_iff in C. apply orb_true_iff. right.
  unfold str_field. objs. rewrite C. reflexivity.
Qed.
Lemma user_is : forall i c, is_item i c -> exists m c', prompt_message (bs "user") c = JObj m /\ obj_get (bs "role") m = Some (JStr (bs "user")) /\ obj_get (bs "content") m = Some c' /\ is_item i c'.
Proof. intros i c H. eexists _, c. split; [reflexivity|]. split; [reflexivity|]. split; [reflexivity|exact H]. Qed.

Lemma simple_prompt : forall e ops b w q s a, offers s ops b -> named q (bs "prompts/get") (bs "test_simple_prompt") a ->
  prompted (prof_world e b w) q s (bs "Simple prompt for MCP conformance testing.") [AText (bs "This is a simple prompt for testing.")].
Proof.
  intros e ops b w q s a O N. pose proof (fun l => prompt_answered e ops b w q s _ 0 _ a l O (ex_intro _ _ (conj eq_refl eq_refl)) N) as P. apply P.
  - constructor; [apply user_message, text_content|constructor].
  - constructor; [apply user_is, text_is|constructor].
Qed.
Lemma arguments_prompt : forall e ops b w q s a x y, offers s ops b -> named q (bs "prompts/get") (bs "test_prompt_with_arguments") a ->
  argument a (bs "arg1") x -> argument a (bs "arg2") y ->
  prompted (prof_world e b w) q s (bs "Prompt with argument substitution for MCP conformance testing.")
    [AText (bs "Prompt with arguments: arg1='" ++ or_else x [] ++ bs "', arg2='" ++ or_else y [] ++ bs "'")].
Proof.
  intros e ops b w q s a x y O N X Y. rewrite <- (argument_is _ _ _ [] X), <- (argument_is _ _ _ [] Y).
  pose proof (fun l => prompt_answered e ops b w q s _ 1 _ a l O (ex_intro _ _ (conj eq_refl eq_refl)) N) as P. apply P.
  - constructor; [apply user_message, text_content|constructor].
  - constructor; [apply user_is, text_is|constructor].
Qed.
Lemma resource_prompt : forall e ops b w q s a x, offers s ops b -> named q (bs "prompts/get") (bs "test_prompt_with_embedded_resource") a ->
  argument a (bs "resourceUri") x ->
  prompted (prof_world e b w) q s (bs "Prompt containing an embedded resource for MCP conformance testing.")
    [AResource (or_else x (bs "test://example-resource")) (bs "Embedded resource content for testing.") (bs "text/plain");
     AText (bs "Please process the embedded resource above.")].
Proof.
  intros e ops b w q s a x O N X. rewrite <- (argument_is _ _ _ (bs "test://example-resource") X).
  pose proof (fun l => prompt_answered e ops b w q s _ 2 _ a l O (ex_intro _ _ (conj eq_refl eq_refl)) N) as P. apply P.
  - constructor; [apply user_message, embedded_content|]. constructor; [apply user_message, text_content|constructor].
  - constructor; [apply user_is, embedded_is|]. constructor; [apply user_is, text_is|constructor].
Qed.
Lemma image_prompt : forall e ops b w q s a, offers s ops b -> named q (bs "prompts/get") (bs "test_prompt_with_image") a ->
  prompted (prof_world e b w) q s (bs "Prompt containing image content for MCP conformance testing.")
    [AMedia (bs "image") (bs "image/png") PNG; AText (bs "Please analyze the image above.")].
Proof.
  intros e ops b w q s a O N.
  pose proof (fun l => prompt_answered e ops b w q s _ 3 _ a l O (ex_intro _ _ (conj eq_refl eq_refl)) N) as P. apply P.
  - constructor; [apply user_message, content_iff; reflexivity|]. constructor; [apply user_message, text_content|constructor].
  - constructor; [apply user_is, media_is|]. constructor; [apply user_is, text_is|constructor].
Qed.

(** The resources. *)
Lemma resource_read : forall w pre q s u kind mime payload, reads q u None None -> u <> [] -> In kind [bs "text"; bs "blob"] ->
  yields (sv_reg s) (w_read w) u [resource_item kind u mime payload] -> read_back w pre q s u mime kind payload.
Proof.
  intros w pre q s u kind mime payload (M & R) N K Y. unfold read_back. rewrite dispatch_read by exact M.
  assert (ResourceContents (resource_item kind u mime payload)) as V.
  { cbn [In] in K. destruct K as [<-|[<-|[]]]; apply resource_contents_iff; reflexivity. }
  destruct (full_read (read_config s) _ _ u _ _ N Y (or_intror (Forall_cons _ (or_intror V) (Forall_nil _))) R) as (o & -> & C).
  eexists _, o, _. split; [reflexivity|]. split; [split; reflexivity|]. split.
  - apply ValProofs.read_iff. unfold valid_read, arr_field. rewrite C. cbn [forallb]. rewrite andb_true_r. apply read_item_iff. now right.
  - unfold resource_item in C. split; [exact C|]. cbn [In] in K. destruct K as [<-|[<-|[]]]; split; [|split| |split]; objs; reflexivity.
Qed.
Lemma fixed_read : forall e ops b w pre q s u mime kind payload, offers s ops b -> In (u, mime, kind, payload) fixed_resources -> reads q u None None ->
  read_back (prof_world e b w) pre q s u mime kind payload.
Proof.
  intros e ops b w pre q s u mime kind payload O I R.
  assert (exists k x h, nth_error prof_resources k = Some (x, h) /\ rs_uri x = u /\ h u = POkay [resource_item kind u mime payload] /\ u <> [] /\ In kind [bs "text"; bs "blob"])
    as (k & x & h & K & <- & H & N & D).
  { cbn [fixed_resources In] in I. destruct I as [I|[I|[I|[]]]]; injection I as <- <- <- <-; [exists 0|exists 1|exists 2]; eexists _, _;
      (split; [reflexivity|]; split; [reflexivity|]; split; [reflexivity|]; split; [discriminate|]); cbn [In]; tauto. }
  apply resource_read; [exact R|exact N|exact D|]. left. exists (k + b). split.
  - rewrite O. pose proof (resolve_spec (ops ++ profile_ops b) (rs_uri x)) as S. pose proof (resources_now ops b k x h K) as T. rewrite T in S.
    destruct (resolve (reg_run (ops ++ profile_ops b)) (rs_uri x)) as [h'|h' vs| |]; [|destruct S as [S _]; discriminate S..].
    destruct S as (r & S). injection S as _ <-. reflexivity.
  - cbn [prof_world w_read rd_direct]. now rewrite at_number_is, K.
Qed.

Lemma esc_plain : forall i, unescaped i -> esc i = i.
Proof.
  intros i U. induction i as [|c i IH]; [reflexivity|]. cbn [esc flat_map]. fold (esc i). rewrite IH by (intros x X; apply U; now right).
  destruct (U c (or_introl eq_refl)) as (L & Q & B).
  assert (esc_char c = [c]) as ->; [|reflexivity]. unfold esc_char.
  assert (forall n, (n < 256)%N -> chr n <> c -> N.eqb (code c) n = false) as E.
  { intros n Ln D. apply N.eqb_neq. intro X. apply D. subst n. apply chr_code. }
  rewrite (E 34%N), (E 92%N) by (try reflexivity; intro X; first [apply Q; now rewrite <- X|apply B; now rewrite <- X]).
  repeat match goal with |- context[N.eqb (code c) ?n] => assert (N.eqb (code c) n = false) as -> by (apply N.eqb_neq; lia) end.
  assert (N.ltb (code c) 32 = false) as -> by (apply N.ltb_ge; lia). reflexivity.
Qed.
Lemma document_is : forall i, unescaped i ->
  data_document (bs "{""id"":""" ++ i ++ bs """,""templateTest"":true,""data"":""Data for ID: " ++ i ++ bs """}") i.
Proof.
  intros i U. unfold data_document. set (v := JObj _).
  assert (bs "{""id"":""" ++ i ++ bs """,""templateTest"":true,""data"":""Data for ID: " ++ i ++ bs """}" = ser v ++ []) as ->.
  { unfold v. rewrite app_nil_r. cbn [ser map fst snd]. unfold ser_member, ser_str. rewrite (esc_plain i U).
    assert (esc (bs "Data for ID: " ++ i) = bs "Data for ID: " ++ i) as ->.
    { unfold esc. rewrite flat_map_app. fold (esc i). rewrite (esc_plain i U). reflexivity. }
    cbn [join]. repeat (rewrite <- ?app_assoc; cbn [List.app bs]). reflexivity. }
  apply parse_json_ser; [|vm_compute; auto].
  unfold v. constructor.
  - repeat constructor; cbn [In]; intuition discriminate.
  - cbn [map fst]. constructor; [now apply plainb_plain|]. constructor; [now apply plainb_plain|]. constructor; [now apply plainb_plain|constructor].
  - cbn [map snd]. repeat constructor.
Qed.

Lemma resolve_match : forall ops u h vs, resolve (reg_run ops) u = RTemplate h vs -> exists t, serves ops u t h /\ match_template (tp_uri t) u = Some vs.
Proof.
  intros ops u h vs R. unfold resolve in R. destruct (aget u _); [discriminate|].
  pose proof (resolve_templates_spec (rg_rt (reg_run ops)) u None) as S. rewrite R in S.
  destruct S as [[S _]|[_ (l1 & t & l2 & El & M & _)]]; [discriminate|]. exists t. split; [|exact M].
  apply serves_in. split; [rewrite El; apply in_or_app; right; now left|]. apply match_some. now rewrite M.
Qed.
Lemma data_vars : forall i vs, match_template (tp_uri prof_template) (data_uri i) = Some vs -> aget (bs "id") vs = Some i.
Proof.
  intros i vs M. unfold match_template in M.
  assert (tokenize (S (length (tp_uri prof_template))) (tp_uri prof_template) = TokOk [TLit (bs "test://template/"); TVar (bs "id"); TLit (bs "/data")]) as T by (vm_compute; reflexivity).
  rewrite T in M. destruct (tmatch _ (data_uri i) []) as [[|] vs'] eqn:E; [|discriminate]. injection M as ->.
  destruct (tmatch_true _ _ _ _ E) as (_ & _ & S & R). specialize (S (bs "id") (or_introl eq_refl)).
  assert (NoDup (names [TLit (bs "test://template/"); TVar (bs "id"); TLit (bs "/data")])) as Nd by (repeat constructor; intros []). specialize (R Nd). cbn [replaced] in R. unfold data_uri in R. rewrite app_nil_r in R.
  apply app_inv_head, app_inv_tail in R. unfold value_in in R. destruct (aget (bs "id") vs); [now subst|contradiction].
Qed.
Lemma data_instance : forall i, instance (tp_uri prof_template) (data_uri i).
Proof.
  intro i. exists [TLit (bs "test://template/"); TVar (bs "id"); TLit (bs "/data")]. split; [reflexivity|]. split.
  - unfold well_formed. apply Forall_forall. intros t [<-|[<-|[<-|[]]]]; [| split; [discriminate|] |]; intro X; vm_compute in X; intuition discriminate.
  - unfold data_uri. rewrite <- (app_nil_r (bs "/data")). apply filled_lit, filled_var, filled_lit, filled_nil.
Qed.
Lemma data_resolves : forall ops b i, alone ops (data_uri i) -> exists vs, resolve (reg_run (ops ++ profile_ops b)) (data_uri i) = RTemplate b vs /\ aget (bs "id") vs = Some i.
Proof.
  intros ops b i [A1 A2]. pose proof (resolve_spec (ops ++ profile_ops b) (data_uri i)) as S.
  assert (resource_now (data_uri i) (rev (ops ++ profile_ops b)) = None) as N.
  { rewrite resource_other; [exact A1|]. cbn [prof_resources map fst plain_resource rs_uri In]. unfold data_uri. cbn [bs List.app]. intuition discriminate. }
  assert (forall t h, serves (ops ++ profile_ops b) (data_uri i) t h -> t = prof_template /\ h = b) as One.
  { intros t h [T I]. assert (tp_uri t = tp_uri prof_template) as E.
    { destruct (beq (tp_uri t) (tp_uri prof_template)) eqn:E; [now apply beq_eq in E|].
      assert (tp_uri t <> tp_uri prof_template) as D by (intro X; apply beq_eq in X; rewrite X in E; discriminate).
      rewrite template_other in T by exact D. exact (A2 t h (conj T I)). }
    rewrite E, template_is in T. injection T as <- <-. now split. }
  assert (serves (ops ++ profile_ops b) (data_uri i) prof_template b) as Me by (split; [apply template_is|apply data_instance]).
  destruct (resolve (reg_run (ops ++ profile_ops b)) (data_uri i)) as [h|h vs| |] eqn:R.
  - destruct S as (r & S). rewrite N in S. discriminate.
  - destruct (resolve_match _ _ _ _ R) as (t & T & M). destruct (One _ _ T) as [-> ->]. exists vs. split; [reflexivity|]. now apply data_vars.
  - destruct S as (_ & t1 & h1 & t2 & h2 & D & S1 & S2). destruct (One _ _ S1) as [-> _], (One _ _ S2) as [-> _]. contradiction.
  - destruct S as (_ & S). now contradiction (S _ _ Me).
Qed.
Lemma data_read : forall e ops b w pre q s i, offers s ops b -> alone ops (data_uri i) -> reads q (data_uri i) None None ->
  read_back (prof_world e b w) pre q s (data_uri i) (bs "application/json") (bs "text")
    (bs "{""id"":""" ++ i ++ bs """,""templateTest"":true,""data"":""Data for ID: " ++ i ++ bs """}").
Proof.
  intros e ops b w pre q s i O A R. apply resource_read; [exact R|discriminate|cbn [In]; tauto|]. right.
  destruct (data_resolves ops b i A) as (vs & V & G). exists b, vs. rewrite O. split; [exact V|].
  cbn [prof_world w_read rd_template]. rewrite Nat.eqb_refl. unfold template_data. rewrite G. reflexivity.
Qed.

(** In parts. *)
Lemma part_read : forall w pre q s u off len mime kind payload, reads q u off len -> sensible off len -> (off, len) <> (None, None) -> u <> [] ->
  In kind [bs "text"; bs "blob"] -> yields (sv_reg s) (w_read w) u [resource_item kind u mime payload] ->
  exists r, dispatch w pre false false q s = (Reply r, s) /\ fails r INTERNAL (bs "Chunking requires text content").
Proof.
  intros w pre q s u off len mime kind payload (M & o & P & E1 & E2 & E3) [S1 S2] D N K Y. rewrite dispatch_read by exact M.
  assert (handle_read (read_config s) (sv_reg s) (w_read w) false (rq_params q) = AError INTERNAL (bs "Chunking requires text content")) as ->.
  { rewrite P. unfold handle_read, get_str, get_int. rewrite E1, E2, E3. cbn [or_empty].
    assert (match option_map JInt off with Some (JInt z) => Some z | _ => None end = off) as -> by now destruct off.
    assert (match option_map JInt len with Some (JInt z) => Some z | _ => None end = len) as -> by now destruct len.
    destruct u as [|x u]; [contradiction|].
    assert ((match off with Some z => Z.ltb z 0 | None => false end) = false) as -> by (destruct off as [z|]; [apply Z.ltb_ge; auto|reflexivity]).
    assert ((match len with Some z => Z.leb z 0 | None => false end) = false) as -> by (destruct len as [z|]; [apply Z.leb_gt; auto|reflexivity]).
    assert (build_read (read_config s) [resource_item kind (x :: u) mime payload] off len = inl (bs "Chunking requires text content")) as B.
    { rewrite build_read_is. assert (flatten [resource_item kind (x :: u) mime payload] = None) as -> by (cbn [In] in K; destruct K as [<-|[<-|[]]]; reflexivity).
      destruct off, len; try reflexivity. contradiction. }
    destruct Y as [(h & R & Q)|(h & vs & R & Q)]; rewrite R, Q, B; reflexivity. }
  destruct (respond_fails (rq_id q) INTERNAL (bs "Chunking requires text content")) as (r & -> & F). eauto.
Qed.
Lemma fixed_yields : forall e ops b w s u mime kind payload, offers s ops b -> In (u, mime, kind, payload) fixed_resources ->
  yields (sv_reg s) (w_read (prof_world e b w)) u [resource_item kind u mime payload] /\ u <> [] /\ In kind [bs "text"; bs "blob"].
Proof.
  intros e ops b w s u mime kind payload O I.
  assert (exists k x h, nth_error prof_resources k = Some (x, h) /\ rs_uri x = u /\ h u = POkay [resource_item kind u mime payload] /\ u <> [] /\ In kind [bs "text"; bs "blob"])
    as (k & x & h & K & <- & H & N & D).
  { cbn [fixed_resources In] in I. destruct I as [I|[I|[I|[]]]]; injection I as <- <- <- <-; [exists 0|exists 1|exists 2]; eexists _, _;
      (split; [reflexivity|]; split; [reflexivity|]; split; [reflexivity|]; split; [discriminate|]); cbn [In]; tauto. }
  split; [|now split]. left. exists (k + b). split.
  - rewrite O. pose proof (resolve_spec (ops ++ profile_ops b) (rs_uri x)) as S. pose proof (resources_now ops b k x h K) as T. rewrite T in S.
    destruct (resolve (reg_run (ops ++ profile_ops b)) (rs_uri x)) as [h'|h' vs| |]; [|destruct S as [S _]; discriminate S..].
    destruct S as (r & S). injection S as _ <-. reflexivity.
  - cbn [prof_world w_read rd_direct]. now rewrite at_number_is, K.
Qed.
Lemma fixed_part : forall e ops b w pre q s u mime kind payload off len, offers s ops b -> In (u, mime, kind, payload) fixed_resources ->
  reads q u off len -> sensible off len -> (off, len) <> (None, None) ->
  exists r, dispatch (prof_world e b w) pre false false q s = (Reply r, s) /\ fails r INTERNAL (bs "Chunking requires text content").
Proof.
  intros e ops b w pre q s u mime kind payload off len O I R S D. destruct (fixed_yields e ops b w s u mime kind payload O I) as (Y & N & K).
  eapply part_read; eauto.
Qed.
Lemma data_part : forall e ops b w pre q s i off len, offers s ops b -> alone ops (data_uri i) -> reads q (data_uri i) off len -> sensible off len -> (off, len) <> (None, None) ->
  exists r, dispatch (prof_world e b w) pre false false q s = (Reply r, s) /\ fails r INTERNAL (bs "Chunking requires text content").
Proof.
  intros e ops b w pre q s i off len O A R S D. eapply (part_read _ _ _ _ _ _ _ (bs "application/json") (bs "text")); [exact R|exact S|exact D|discriminate|cbn [In]; tauto|]. right.
  destruct (data_resolves ops b i A) as (vs & V & G). exists b, vs. rewrite O. split; [exact V|].
  cbn [prof_world w_read rd_template]. rewrite Nat.eqb_refl. unfold template_data. rewrite G. reflexivity.
Qed.

(** Values that arrive. *)
Lemma ok_nodup : forall o, ok (JObj o) -> NoDup (map fst o).
Proof. intros o H. now inversion H. Qed.
Lemma ok_get : forall k o v, ok (JObj o) -> obj_get k o = Some v -> ok v.
Proof.
  intros k o v H G. inversion H as [| | | | | |l N P F]; subst. apply get_in in G. rewrite Forall_forall in F. apply F. apply in_map_iff. now exists (k, v).
Qed.
Lemma path_same : forall p v v' x, ok v -> same v v' -> at_path v p = Some x -> exists x', at_path v' p = Some x' /\ same x x'.
Proof.
  induction p as [|k p IH]; intros v v' x O S A.
  - cbn in A. injection A as <-. exists v'. now split.
  - destruct v as [| | | | | |o]; try discriminate A. destruct (same_obj_inv _ _ S) as (o1 & o' & -> & _). cbn [at_path] in *.
    destruct (obj_get k o) as [y|] eqn:G; [|discriminate]. destruct (same_get_some _ _ _ _ (ok_nodup _ O) S G) as (y' & -> & Y).
    exact (IH _ _ _ (ok_get _ _ _ O G) Y A).
Qed.
Lemma text_same : forall v v', ok v -> same v v' -> get_text v' = get_text v.
Proof.
  intros v v' O S. destruct v as [| | | | | |o]; try (inversion S; subst; reflexivity).
  destruct (same_obj_inv _ _ S) as (o1 & o' & -> & _). unfold get_text, get_str.
  assert (forall k, match obj_get k o' with Some (JStr x) => Some x | _ => None end = match obj_get k o with Some (JStr x) => Some x | _ => None end) as E.
  { intro k. pose proof (same_get k o o' (ok_nodup _ O) S) as G. destruct (obj_get k o) as [y|], (obj_get k o') as [y'|]; try contradiction; [|reflexivity].
    now inversion G; subst. }
  now rewrite (E (bs "type")), (E (bs "text")).
Qed.
Lemma first_of_same : forall l l', Forall ok l -> Forall2 same l l' -> first_of l' = first_of l.
Proof.
  intros l l' O F. induction F as [|x x' l l' S F IH]; [reflexivity|]. inversion O; subst. cbn [first_of]. rewrite (text_same x x') by assumption. now rewrite IH.
Qed.
Lemma first_same : forall v v', ok v -> same v v' -> first_text_content v' = first_text_content v.
Proof.
  intros v v' O S. destruct v as [| | | | | |o]; try (inversion S; subst; reflexivity).
  destruct (same_obj_inv _ _ S) as (o1 & o' & -> & _). unfold first_text_content.
  pose proof (same_get (bs "content") o o' (ok_nodup _ O) S) as G. destruct (obj_get (bs "content") o) as [y|] eqn:Y, (obj_get (bs "content") o') as [y'|]; try contradiction; [|reflexivity].
  pose proof (ok_get _ _ _ O Y) as Oy. destruct y as [| | | | |l|c]; try (inversion G; subst; reflexivity).
  - inversion G as [| | | | |l0 l' F|]; subst. inversion Oy; subst. now apply first_of_same.
  - pose proof (text_same _ _ Oy G) as T. destruct (same_obj_inv _ _ G) as (c1 & c' & -> & _). now rewrite T.
Qed.
Lemma text_item : forall t v, is_item (AText t) v <-> get_text v = Some t.
Proof.
  intros t v. split.
  - intros (o & -> & A & B). unfold get_text, get_str. now rewrite A, B.
  - destruct v as [| | | | | |o]; try discriminate. unfold get_text, get_str. intro H. exists o. split; [reflexivity|].
    destruct (obj_get (bs "type") o) as [[| | | |y| |]|]; try discriminate. destruct (beq y (bs "text")) eqn:E; [|discriminate]. apply beq_eq in E as ->.
    destruct (obj_get (bs "text") o) as [[| | | |z| |]|]; try discriminate. now injection H as ->.
Qed.
Lemma first_is : forall v t, first_text v t -> first_text_content v = t.
Proof.
  intros v t (o & -> & [(c & G & I)|(x & i & y & G & I & N)]); unfold first_text_content; rewrite G; apply text_item in I.
  - destruct c as [| | | | | |c]; try discriminate. now rewrite I.
  - clear G. induction N as [|z x Z N IH]; cbn [List.app first_of]; [now rewrite I|].
    destruct (get_text z) as [u|] eqn:E; [|exact IH]. apply text_item in E. now contradiction (Z u).
Qed.

(** Sampling. *)
Lemma user_text_ok : forall a, ok (JObj (obj_set (bs "content") (JArr [make_text a]) (obj_set (bs "role") (JStr (bs "user")) []))).
Proof.
  intro a. cbn. constructor; cbn [map fst snd].
  - apply nodupb_nodup. reflexivity.
  - constructor; [now apply plainb_plain|]. constructor; [now apply plainb_plain|constructor].
  - constructor; [constructor|]. constructor; [|constructor]. constructor. constructor; [|constructor]. constructor; cbn [map fst snd].
    + apply nodupb_nodup. reflexivity.
    + constructor; [now apply plainb_plain|]. constructor; [now apply plainb_plain|constructor].
    + repeat constructor.
Qed.
Lemma messages_same : forall a m, same (JArr (sm_messages (prof_sampling a))) m ->
  one_user_text m (string_argument a (bs "prompt") (bs "Test prompt for sampling")).
Proof.
  intros a m S. cbn [sm_messages prof_sampling] in S. inversion S as [| | | | |l l' F|]; subst. inversion F as [|x x' r r' X R]; subst. inversion R; subst.
  set (t := string_argument _ _ _) in *. pose proof (user_text_ok t) as O. destruct (same_obj_inv _ _ X) as (o1 & o' & -> & _).
  pose proof (same_get_str (bs "role") _ _ (bs "user") (ok_nodup _ O) X eq_refl) as G1.
  destruct (same_get_some (bs "content") _ _ (JArr [make_text t]) (ok_nodup _ O) X eq_refl) as (c & G2 & C).
  pose proof (ok_get (bs "content") _ _ O eq_refl) as Oc. inversion C as [| | | | |l l' F2|]; subst. inversion F2 as [|y y' r r' Y R2]; subst. inversion R2; subst.
  inversion Oc as [| | | | |l Fo|]; subst. inversion Fo; subst.
  exists o', y'. split; [reflexivity|]. split; [exact G1|]. split; [exact G2|]. apply text_item. rewrite (text_same _ _ ltac:(eassumption) Y). reflexivity.
Qed.
Lemma text_arrives : forall t v, same (make_text t) v -> content_shape v = true.
Proof.
  intros t v S. destruct (same_obj_inv _ _ S) as (o1 & o' & -> & _). unfold content_shape, str_field, opt_annotations, opt_field. unfold make_text in S. match type of S with same (JObj ?x) _ => set (o := x) in * end.
  assert (NoDup (map fst o)) as N by (apply nodupb_nodup; reflexivity).
  rewrite (same_get_str (bs "type") _ _ (bs "text") N S eq_refl), (same_get_str (bs "text") _ _ t N S eq_refl), (same_get_none (bs "annotations") _ _ N S eq_refl). reflexivity.
Qed.
Lemma sampling_params : forall a p, same (message_params (prof_sampling a) None) p -> CreateMessageParams p.
Proof.
  intros a p S. apply create_params_iff. unfold message_params in S. destruct (same_obj_inv _ _ S) as (o1 & o' & -> & _).
  assert (NoDup (map fst (opt_set (bs "task") metadata_json None (message_obj (prof_sampling a))))) as N by (apply nodupb_nodup; reflexivity).
  destruct (same_get_some (bs "messages") _ _ (JArr (sm_messages (prof_sampling a))) N S eq_refl) as (m & G & M).
  unfold valid_create_params, arr_field. rewrite G. clear - M. cbn [sm_messages prof_sampling] in M.
  inversion M as [| | | | |l l' F|]; subst. inversion F as [|x x' r r' X R]; subst. inversion R; subst.
  set (t := string_argument _ _ _) in *. pose proof (user_text_ok t) as O. destruct (same_obj_inv _ _ X) as (o1 & o' & -> & _).
  destruct (same_get_some (bs "content") _ _ (JArr [make_text t]) (ok_nodup _ O) X eq_refl) as (c & G2 & C).
  inversion C as [| | | | |l l' F2|]; subst. inversion F2 as [|y y' r r' Y R2]; subst. inversion R2; subst.
  cbn [forallb of_obj]. unfold opt_field. rewrite G2. cbn [one_or_many forallb]. now rewrite (text_arrives _ _ Y).
Qed.

Lemma prof_sampling_round : forall x ap c q s a f, brings x ap c -> the_sampler ap = Some f ->
  exists m p y z, one_user_text m (string_argument a (bs "prompt") (bs "Test prompt for sampling")) /\
    (forall v, f m p y z = Ret v -> ok v -> (cl_strict c = true -> CreateMessageResult v) ->
       exists v', fst (do_message (env_of x q s) (prof_sampling a)) = Ret v' /\ same v v') /\
    (forall what, f m p y z = Threw what ->
       exists v', fst (do_message (env_of x q s) (prof_sampling a)) = Ret v' /\ first_text_content v' = []).
Proof.
  intros x ap c q s a f (ask & X & B) A. destruct (B (bs "sampling/createMessage") (Some (message_params (prof_sampling a) None))) as (q' & M & P & K).
  assert (carried (request_message (prof_sampling a)) q') as C by (eexists _, _, _; split; [reflexivity|]; now split).
  assert (params_ok c q') as V.
  { intros _. apply same_opt_some in P as (v & -> & S). cbn [or_null]. now apply sampling_params with a. }
  destruct (sample_dispatch ap false q' c f _ A C V) as (m & p & y & z & G & D). exists m, p, y, z. split; [apply messages_same, G|].
  unfold do_message. cbn [env_of pe_ask]. rewrite X. unfold request_message. cbn [fst]. split.
  - intros v F O R. rewrite F in D. unfold strict_shape in D.
    assert (cl_strict c && negb (valid_create_result v) = false)%bool as E.
    { destruct (cl_strict c); [|reflexivity]. specialize (R eq_refl). apply create_result_iff in R. now rewrite R. }
    rewrite E in D. destruct (respond_result (rq_id q') v) as (r & Q & Y). rewrite Q in D. destruct (K r c D) as (r' & D' & ->).
    exists (value_or_error r'). split; [reflexivity|]. exact (succeeds_read _ _ _ Y D').
  - intros what F. rewrite F in D. destruct (respond_fails (rq_id q') INTERNAL what) as (r & Q & Y). pose proof Q as Q0. rewrite Q in D. destruct (K r c D) as (r' & D' & ->).
    exists (value_or_error r'). split; [reflexivity|]. cbn in Q0. injection Q0 as <-. destruct D' as (_ & D1 & D2). cbn [rs_result rs_error] in D1, D2.
    apply same_opt_some in D2 as (v & D2 & S). unfold value_or_error. rewrite D2. inversion D1 as [E|]. rewrite <- ?E.
    assert (ok (error_object INTERNAL what None)) as O.
    { constructor; cbn [map fst snd List.app].
      - apply nodupb_nodup. reflexivity.
      - constructor; [now apply plainb_plain|]. constructor; [now apply plainb_plain|constructor].
      - constructor; [constructor; unfold INTERNAL; lia|]. repeat constructor. }
    exact (first_same _ _ O S).
Qed.

Lemma sampling_runs : forall x ops b w pre q s ap c f a pr, offers s ops b -> brings x ap c -> the_sampler ap = Some f ->
  named q (bs "tools/call") (bs "test_sampling") a -> argument a (bs "prompt") pr -> ou_stop x 0 = false ->
  exists m p y z, one_user_text m (or_else pr (bs "Test prompt for sampling")) /\
    (forall v t, f m p y z = Ret v -> ok v -> (cl_strict c = true -> CreateMessageResult v) -> first_text v t ->
       answered (prof_world (env_of x q s) b w) pre q s false [AText (bs "LLM response: " ++ t)]) /\
    (forall what, f m p y z = Threw what ->
       answered (prof_world (env_of x q s) b w) pre q s false [AText (bs "LLM response: ")]).
Proof.
  intros x ops b w pre q s ap c f a pr O B A N P St. destruct (prof_sampling_round x ap c q s a f B A) as (m & p & y & z & U & G & T).
  exists m, p, y, z. rewrite (argument_is _ _ _ _ P) in U. split; [exact U|].
  assert (pe_stop (env_of x q s) 0 = false) as Pe by exact St. set (e := env_of x q s) in *. clearbody e. split.
  - intros v t F Ov V Ft. destruct (G v F Ov V) as (v' & E & S). eapply talk_answered; [exact O|exact sampling_talk|exact N|].
    unfold h_sampling. rewrite Pe. destruct (do_message e (prof_sampling a)) as [r out]. cbn [fst] in *. subst r. rewrite (first_same _ _ Ov S), (first_is _ _ Ft). reflexivity.
  - intros what F. destruct (T what F) as (v' & E & S). eapply talk_answered; [exact O|exact sampling_talk|exact N|].
    unfold h_sampling. rewrite Pe. destruct (do_message e (prof_sampling a)) as [r out]. cbn [fst] in *. subst r. now rewrite S.
Qed.
Lemma sampling_silent : forall x ops b w pre q s a, offers s ops b -> no_answer x -> named q (bs "tools/call") (bs "test_sampling") a -> ou_stop x 0 = false ->
  answered (prof_world (env_of x q s) b w) pre q s false [AText (bs "LLM response: ")].
Proof.
  intros x ops b w pre q s a O X N St. eapply talk_answered; [exact O|exact sampling_talk|exact N|].
  unfold h_sampling. cbn [env_of pe_stop]. rewrite St. unfold do_message. cbn [env_of pe_ask].
  destruct X as [X|ask X T|ask X T]; rewrite X; [reflexivity|..]; unfold request_message.
  - destruct (T (bs "sampling/createMessage") (Some (message_params (prof_sampling a) None))) as (what & ->). reflexivity.
  - destruct (T (bs "sampling/createMessage") (Some (message_params (prof_sampling a) None))) as (r & c & msg & -> & R & E). unfold value_or_error. rewrite R, E. reflexivity.
Qed.

(** Elicitation. *)
Lemma prof_elicit_round : forall x ap c q s E f, brings x ap c -> ap_elicit ap = Some f -> cc_elicit (sv_client s) <> None ->
  exists e', same_elicit E e' /\
    (forall r, f e' = Ret r -> (cl_strict c = true \/ sv_strict s = true -> proper r) ->
       exists r', fst (do_elicit (env_of x q s) E) = Ret r' /\ same_elicited r r') /\
    (forall what, f e' = Threw what -> fst (do_elicit (env_of x q s) E) = Ret elicited0).
Proof.
  intros x ap c q s E f (ask & X & B) A Cc. destruct (B (bs "elicitation/create") (Some (elicit_params E None))) as (q' & M & P & K).
  assert (request_elicit (sv_strict s) (sv_client s) E = Sends (bs "elicitation/create") (Some (elicit_params E None)) (elicit_reply (sv_strict s))) as R.
  { unfold request_elicit. destruct (cc_elicit (sv_client s)); [|contradiction]. now rewrite elicit_params_valid, andb_false_r. }
  assert (carried (request_elicit (sv_strict s) (sv_client s) E) q') as C by (rewrite R; eexists _, _, _; split; [reflexivity|]; now split).
  destruct (elicit_round ap false q' c f E (sv_strict s) (sv_client s) A C) as (e' & S & G & T & _). exists e'. split; [exact S|].
  unfold do_elicit. cbn [env_of pe_ask pe_strict pe_peer]. rewrite X, R. cbn [fst]. split.
  - intros r F V. destruct (G r F V) as (y & D & L). destruct (K y c D) as (y' & D' & ->). destruct (L y' D') as (r' & (m & p & read & Q & Z) & Sr).
    rewrite R in Q. injection Q as _ _ <-. exists r'. now split.
  - intros what F. destruct (T what F) as (y & D & _ & L). destruct (K y c D) as (y' & D' & ->). destruct (L y' D') as (m & p & read & Q & Z).
    rewrite R in Q. injection Q as _ _ <-. exact Z.
Qed.
Lemma asks_same : forall E e' l, same_elicit E e' -> ok (el_schema E) -> (forall p v, In (p, v) l -> at_path (el_schema E) p = Some v) -> asks e' (el_message E) l.
Proof.
  intros E e' l (M & S & _) O A. split; [exact M|]. intros p v I. eapply path_same; eauto.
Qed.
Lemma same_response : forall r r', same_elicited r r' -> ed_action r' = ed_action r /\ (ed_content r' = None <-> ed_content r = None).
Proof. intros r r' (A & B & _). split; [exact A|]. inversion B; split; congruence || discriminate. Qed.

Lemma elicit_runs : forall x ops b w pre q s ap c f a msg, offers s ops b -> brings x ap c -> ap_elicit ap = Some f -> cc_elicit (sv_client s) <> None ->
  named q (bs "tools/call") (bs "test_elicitation") a -> argument a (bs "message") msg -> ou_stop x 0 = false ->
  exists e', asks e' (or_else msg (bs "Please provide your information")) names_asked /\
    (forall r, f e' = Ret r -> (cl_strict c = true \/ sv_strict s = true -> proper r) ->
       answered (prof_world (env_of x q s) b w) pre q s false [AText (user_response r)]) /\
    (forall what, f e' = Threw what -> answered (prof_world (env_of x q s) b w) pre q s false [AText (user_response elicited0)]).
Proof.
  intros x ops b w pre q s ap c f a msg O B A Cc N P St. destruct (prof_elicit_round x ap c q s (prof_elicit a) f B A Cc) as (e' & S & G & T).
  exists e'. split.
  - assert (el_message (prof_elicit a) = or_else msg (bs "Please provide your information")) as <- by exact (argument_is _ _ _ _ P).
    apply asks_same; [exact S|apply okb_ok; reflexivity|]. intros p v I. cbn [names_asked In] in I. destruct I as [I|[I|[I|[]]]]; injection I as <- <-; reflexivity.
  - assert (pe_stop (env_of x q s) 0 = false) as Pe by exact St. set (e := env_of x q s) in *. clearbody e. split.
    + intros r F V. destruct (G r F V) as (r' & E & Sr). apply same_response in Sr as [S1 S2]. eapply talk_answered; [exact O|exact elicit_talk|exact N|].
      unfold h_elicit. rewrite Pe. destruct (do_elicit e (prof_elicit a)) as [z out]. cbn [fst] in *. subst z. unfold user_response. rewrite S1.
      destruct (ed_content r), (ed_content r'); try reflexivity; [now discriminate (proj1 S2 eq_refl)|now discriminate (proj2 S2 eq_refl)].
    + intros what F. pose proof (T what F) as E. eapply talk_answered; [exact O|exact elicit_talk|exact N|].
      unfold h_elicit. rewrite Pe. destruct (do_elicit e (prof_elicit a)) as [z out]. cbn [fst] in *. now subst z.
Qed.
Lemma completed_runs : forall x ops b w pre q s ap c f a n k E h l, offers s ops b -> brings x ap c -> ap_elicit ap = Some f -> cc_elicit (sv_client s) <> None ->
  named q (bs "tools/call") n a -> talk n k h -> ou_stop x 0 = false ->
  (forall e, pe_stop e 0 = false -> fst (h e a) = elicit_completed (fst (do_elicit e E))) ->
  ok (el_schema E) -> (forall p v, In (p, v) l -> at_path (el_schema E) p = Some v) ->
  exists e', asks e' (el_message E) l /\
    (forall r, f e' = Ret r -> (cl_strict c = true \/ sv_strict s = true -> proper r) ->
       answered (prof_world (env_of x q s) b w) pre q s false [AText (completed_response r)]) /\
    (forall what, f e' = Threw what -> answered (prof_world (env_of x q s) b w) pre q s false [AText (completed_response elicited0)]).
Proof.
  intros x ops b w pre q s ap c f a n k E h l O B A Cc N Tk St H Ok L. destruct (prof_elicit_round x ap c q s E f B A Cc) as (e' & S & G & T).
  exists e'. split; [now apply asks_same|].
  assert (pe_stop (env_of x q s) 0 = false) as Pe by exact St. set (e := env_of x q s) in *. clearbody e. specialize (H e Pe). split.
  - intros r F V. destruct (G r F V) as (r' & Er & Sr). apply same_response in Sr as [S1 S2]. eapply talk_answered; [exact O|exact Tk|exact N|].
    rewrite H, Er. unfold elicit_completed, completed_response. rewrite S1.
    destruct (ed_content r), (ed_content r'); try reflexivity; [now discriminate (proj1 S2 eq_refl)|now discriminate (proj2 S2 eq_refl)].
  - intros what F. eapply talk_answered; [exact O|exact Tk|exact N|]. rewrite H, (T what F). reflexivity.
Qed.
Lemma defaults_runs : forall x ops b w pre q s ap c f a, offers s ops b -> brings x ap c -> ap_elicit ap = Some f -> cc_elicit (sv_client s) <> None ->
  named q (bs "tools/call") (bs "test_elicitation_sep1034_defaults") a -> ou_stop x 0 = false ->
  exists e', asks e' (bs "Test client default value handling - please accept with defaults") defaults_asked /\
    (forall r, f e' = Ret r -> (cl_strict c = true \/ sv_strict s = true -> proper r) ->
       answered (prof_world (env_of x q s) b w) pre q s false [AText (completed_response r)]) /\
    (forall what, f e' = Threw what -> answered (prof_world (env_of x q s) b w) pre q s false [AText (completed_response elicited0)]).
Proof.
  intros x ops b w pre q s ap c f a O B A Cc N St. apply (completed_runs x ops b w pre q s ap c f a _ _ prof_defaults h_defaults defaults_asked O B A Cc N defaults_talk St).
  - intros e Pe. unfold h_defaults. rewrite Pe. now destruct (do_elicit e prof_defaults).
  - apply okb_ok. vm_compute. reflexivity.
  - intros p v I. cbn [defaults_asked In] in I. repeat (destruct I as [I|I]; [injection I as <- <-; vm_compute; reflexivity|]). destruct I.
Qed.
Lemma enums_runs : forall x ops b w pre q s ap c f a, offers s ops b -> brings x ap c -> ap_elicit ap = Some f -> cc_elicit (sv_client s) <> None ->
  named q (bs "tools/call") (bs "test_elicitation_sep1330_enums") a -> ou_stop x 0 = false ->
  exists e', asks e' (bs "Please respond to the enum schema variants.") enums_asked /\
    (forall r, f e' = Ret r -> (cl_strict c = true \/ sv_strict s = true -> proper r) ->
       answered (prof_world (env_of x q s) b w) pre q s false [AText (completed_response r)]) /\
    (forall what, f e' = Threw what -> answered (prof_world (env_of x q s) b w) pre q s false [AText (completed_response elicited0)]).
Proof.
  intros x ops b w pre q s ap c f a O B A Cc N St. apply (completed_runs x ops b w pre q s ap c f a _ _ prof_enums h_enums enums_asked O B A Cc N enums_talk St).
  - intros e Pe. unfold h_enums. rewrite Pe. now destruct (do_elicit e prof_enums).
  - apply okb_ok. vm_compute. reflexivity.
  - intros p v I. cbn [enums_asked In] in I. repeat (destruct I as [I|I]; [injection I as <- <-; vm_compute; reflexivity|]). destruct I.
Qed.
Lemma elicit_silent : forall x ops b w pre q s a, offers s ops b -> cc_elicit (sv_client s) = None -> named q (bs "tools/call") (bs "test_elicitation") a -> ou_stop x 0 = false ->
  profile_sends (env_of x q s) (bs "test_elicitation") a = [] /\
  answered (prof_world (env_of x q s) b w) pre q s false [AText (bs "User response: ")].
Proof.
  intros x ops b w pre q s a O Cc N St.
  assert (do_elicit (env_of x q s) (prof_elicit a) = (Ret elicited0, [])) as D.
  { unfold do_elicit. cbn [env_of pe_ask pe_strict pe_peer]. unfold request_elicit. rewrite Cc. now destruct (ou_ask x). }
  split.
  - rewrite (sends_of _ _ _ _ _ elicit_talk). unfold h_elicit. cbn [env_of pe_stop]. now rewrite St, D.
  - eapply talk_answered; [exact O|exact elicit_talk|exact N|]. unfold h_elicit. cbn [env_of pe_stop]. now rewrite St, D.
Qed.
