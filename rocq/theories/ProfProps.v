(** C171 to C175: the profile a server offers to the conformance suite. *)
From Coq Require Import Ascii String List Permutation Arith NArith ZArith Bool Lia.
From Verif Require Import StrModel DoubleModel JsonModel JsonSpec JsonProofs ObjSpec ObjProofs MapModel RpcModel TaskModel TaskSpec DescModel DescSpec RegModel RegSpec TmplModel TmplSpec ValModel ValSpec ReadModel ReadSpec SubModel LogModel CancelModel ServModel ServSpec CallProofs PeerModel PeerSpec ProfModel ProfSpec ProfProofs.
Import ListNotations.
Local Open Scope nat_scope.

(** A server with the profile, strict or not; a world without other handlers; a client. *)
Definition prof_caps : ccaps := {| cc_roots := None; cc_sampling := true; cc_elicit := Some []; cc_tasks := None; cc_exp := []; cc_ext := [] |}.
Definition prof_server (strict : bool) (caps : ccaps) : server :=
  {| sv_strict := strict; sv_name := bs "s"; sv_caps := scaps0; sv_client := caps; sv_reg := reg_run ([] ++ profile_ops 5);
     sv_tasks := tstore0; sv_subs := subs0; sv_level := LDebug; sv_sent := [] |}.
Definition bare_world : world :=
  {| w_tool := fun _ _ => Threw (bs "none"); w_read := {| rd_direct := fun _ _ => PThrow (bs "none"); rd_template := fun _ _ _ => PThrow (bs "none") |};
     w_prompt := fun _ _ => Threw (bs "none"); w_complete := None; w_sample := None; w_now := bs "t"; w_connected := true |}.
Definition asking (method n : bstr) (a : json) : request :=
  {| rq_id := IdInt 1; rq_method := method; rq_params := Some (JObj [(bs "name", JStr n); (bs "arguments", a)]) |}.
Definition reading (u : bstr) (more : obj) : request :=
  {| rq_id := IdInt 1; rq_method := bs "resources/read"; rq_params := Some (JObj ((bs "uri", JStr u) :: more)) |}.
Definition no_one : outside := {| ou_stop := fun _ => false; ou_throttled := fun _ => false; ou_ask := None |}.

(** C171: each fixed resource, and each instance of the template, is read whole: one item with its
    uri, its type and its payload, whatever else is registered before, in strict mode and not.
    Missing: the two refutations below. *)
Theorem C171_fixed_partial : forall e ops b w pre q s u mime kind payload, offers s ops b -> In (u, mime, kind, payload) fixed_resources ->
  reads q u None None -> read_back (prof_world e b w) pre q s u mime kind payload.
Proof. exact fixed_read. Qed.
Print Assumptions C171_fixed_partial.

Theorem C171_data_partial : forall e ops b w pre q s i, offers s ops b -> alone ops (data_uri i) -> reads q (data_uri i) None None ->
  exists text, read_back (prof_world e b w) pre q s (data_uri i) (bs "application/json") (bs "text") text /\ (unescaped i -> data_document text i).
Proof. intros e ops b w pre q s i O A R. eexists. split; [eapply data_read; eauto|apply document_is]. Qed.
Print Assumptions C171_data_partial.

(** In parts, no resource of the profile can be read: every offset and every length is refused. *)
Theorem C171_parts_refuted : forall e ops b w pre q s u off len, offers s ops b ->
  In u (map (fun x => fst (fst (fst x))) fixed_resources) \/ (exists i, u = data_uri i /\ alone ops u) ->
  reads q u off len -> sensible off len -> (off, len) <> (None, None) ->
  exists r, dispatch (prof_world e b w) pre false false q s = (Reply r, s) /\ fails r INTERNAL (bs "Chunking requires text content").
Proof.
  intros e ops b w pre q s u off len O [I|(i & -> & A)] R S D; [|eapply data_part; eauto].
  apply in_map_iff in I as ((((u' & m) & k) & p) & <- & I). eapply fixed_part; eauto.
Qed.
Print Assumptions C171_parts_refuted.

(** An id with a quotation mark makes a text that is another document: the id is written as it is. *)
Definition forged : bstr := bs "1"",""admin"":true,""x"":""".
Theorem C171_forged_refuted : exists o q r i text, alone [] (data_uri forged) /\ reads q (data_uri forged) None None /\
  dispatch (prof_world (env_of no_one q (prof_server true prof_caps)) 5 bare_world) false false false q (prof_server true prof_caps) = (Reply r, prof_server true prof_caps) /\
  succeeds r (JObj o) /\ obj_get (bs "contents") o = Some (JArr [JObj i]) /\ obj_get (bs "text") i = Some (JStr text) /\
  ~ data_document text forged /\
  exists d, parse_json text = POk (JObj d) [] /\ obj_get (bs "id") d = Some (JStr (bs "1")) /\ obj_get (bs "admin") d = Some (JBool true).
Proof.
  eexists _, (reading (data_uri forged) []), _, _, _. split; [|split; [|split; [|split; [|split; [|split; [|split]]]]]].
  - split; [reflexivity|]. intros t h [T _]. discriminate T.
  - split; [reflexivity|]. eexists. split; [reflexivity|]. split; [|split]; reflexivity.
  - vm_compute. reflexivity.
  - split; reflexivity.
  - vm_compute. reflexivity.
  - vm_compute. reflexivity.
  - vm_compute. intro X. discriminate X.
  - eexists. split; [vm_compute; reflexivity|]. split; vm_compute; reflexivity.
Qed.
Print Assumptions C171_forged_refuted.

Example C171_ex : offers (prof_server true prof_caps) [] 5 /\ alone [] (data_uri (bs "a/b 7")) /\ unescaped (bs "a/b 7") /\
  reads (reading (data_uri (bs "a/b 7")) []) (data_uri (bs "a/b 7")) None None /\
  reads (reading (bs "test://static-text") [(bs "offset", JInt 2); (bs "length", JInt 4)]) (bs "test://static-text") (Some 2%Z) (Some 4%Z) /\
  sensible (Some 2%Z) (Some 4%Z).
Proof.
  split; [reflexivity|]. split; [split; [reflexivity|]; intros t h [T _]; discriminate T|]. split.
  - intros c I. cbn in I. repeat (destruct I as [<-|I]; [split; [vm_compute; discriminate|]; split; discriminate|]). destruct I.
  - split; [|split]; [split; [reflexivity|]; eexists; split; [reflexivity|]; split; [|split]; reflexivity..|]. split; intros z E; injection E as <-; lia.
Qed.

(** C172: a call of any tool of the profile, with any arguments, whatever the client does and whenever
    it is cancelled, is answered with a result of the protocol's shape, and those without a
    conversation always with the same one. *)
Theorem C172_answered : forall e ops b w pre q s n a, offers s ops b -> In n profile_tools -> named q (bs "tools/call") n a ->
  exists err l, answered (prof_world e b w) pre q s err l.
Proof. exact always_answered. Qed.
Print Assumptions C172_answered.

Theorem C172_constant : forall e ops b w pre q s n err l a, offers s ops b -> In (n, err, l) constant_answers -> named q (bs "tools/call") n a ->
  answered (prof_world e b w) pre q s err l.
Proof. exact constant_runs. Qed.
Print Assumptions C172_constant.

(** A tool that is cancelled before its conversation says so, and sends nothing; only six tools ever
    send anything. *)
Theorem C172_cancelled : forall x ops b w pre q s n a, offers s ops b ->
  In n [bs "test_sampling"; bs "test_elicitation"; bs "test_elicitation_sep1034_defaults"; bs "test_elicitation_sep1330_enums"] ->
  named q (bs "tools/call") n a -> ou_stop x 0 = true ->
  profile_sends (env_of x q s) n a = [] /\ exists t, answered (prof_world (env_of x q s) b w) pre q s true [AText t].
Proof. exact stopped_talk. Qed.
Print Assumptions C172_cancelled.

Theorem C172_quiet : forall e n a, ~ In n [bs "test_tool_with_logging"; bs "test_tool_with_progress"; bs "test_sampling"; bs "test_elicitation";
    bs "test_elicitation_sep1034_defaults"; bs "test_elicitation_sep1330_enums"] -> profile_sends e n a = [].
Proof. exact quiet. Qed.
Print Assumptions C172_quiet.

Example C172_ex : named (asking (bs "tools/call") (bs "test_error_handling") (JObj [])) (bs "tools/call") (bs "test_error_handling") (JObj []) /\
  In (bs "test_error_handling") profile_tools /\
  match dispatch (prof_world (env_of no_one (asking (bs "tools/call") (bs "test_error_handling") (JObj [])) (prof_server true prof_caps)) 5 bare_world) false false false
      (asking (bs "tools/call") (bs "test_error_handling") (JObj [])) (prof_server true prof_caps) with
  | (Reply r, _) => match rs_result r with Some (JObj o) => obj_get (bs "isError") o | _ => None end
  | _ => None
  end = Some (JBool true).
Proof.
  split; [split; [reflexivity|]; eexists; split; [reflexivity|]; split; [|split]; reflexivity|]. split; [cbn [profile_tools In]; tauto|vm_compute; reflexivity].
Qed.

(** C173: the logging tool sends its messages in order, all but those at whose turn the call was
    cancelled or that the rate limit drops, and none to a client that wants only higher levels; the
    progress tool reports its steps in order under the token of the request, and each report, however
    it is carried, reaches the progress handler of the client with that step, strict or not. *)
Theorem C173_log : forall x q s a, ou_ask x <> None ->
  (lv (sv_level s) <= lv LInfo ->
   Forall2 (fun i m => tells_log m (nth i log_texts [])) (filter (fun i => negb (ou_stop x i) && negb (ou_throttled x i))%bool [0; 1; 2])
     (profile_sends (env_of x q s) (bs "test_tool_with_logging") a)) /\
  (lv LInfo < lv (sv_level s) -> profile_sends (env_of x q s) (bs "test_tool_with_logging") a = []).
Proof. exact log_sent. Qed.
Print Assumptions C173_log.

Theorem C173_progress : forall x q s a, ou_ask x <> None ->
  Forall2 (fun i m => tells_progress m (token_of q) (nth i progress_steps (DZero false, []))) (filter (fun i => negb (ou_stop x i)) [0; 1; 2])
    (profile_sends (env_of x q s) (bs "test_tool_with_progress") a).
Proof. exact progress_sent. Qed.
Print Assumptions C173_progress.

Example C173_ex :
  let q := {| rq_id := IdInt 1; rq_method := bs "tools/call";
              rq_params := Some (JObj [(bs "name", JStr (bs "test_tool_with_progress")); (bs "_meta", JObj [(bs "progressToken", JInt 7)])]) |} in
  let x := {| ou_stop := fun i => Nat.eqb i 2; ou_throttled := fun i => Nat.eqb i 1; ou_ask := Some (fun _ _ => Threw (bs "gone")) |} in
  token_of q = bs "7" /\ length (profile_sends (env_of x q (prof_server true prof_caps)) (bs "test_tool_with_progress") (JObj [])) = 2 /\
  length (profile_sends (env_of x q (prof_server true prof_caps)) (bs "test_tool_with_logging") (JObj [])) = 1 /\ lv (sv_level (prof_server true prof_caps)) <= lv LInfo.
Proof. cbv zeta. repeat split; vm_compute; try reflexivity; lia. Qed.

(** C174: joined with a client whose answers the transport brings. The sampling tool asks the client's
    sampling handler with the prompt of the call as the one message of the user, and answers with the
    first text of the handler's result; the elicitation tools ask the client's elicitation handler their
    question, and answer with what the user did. Missing: the refutations below. *)
Theorem C174_sampling_partial : forall x ops b w pre q s ap c f a pr, offers s ops b -> brings x ap c -> the_sampler ap = Some f ->
  named q (bs "tools/call") (bs "test_sampling") a -> argument a (bs "prompt") pr -> ou_stop x 0 = false ->
  exists m p y z, one_user_text m (or_else pr (bs "Test prompt for sampling")) /\
    forall v t, f m p y z = Ret v -> ok v -> (cl_strict c = true -> CreateMessageResult v) -> first_text v t ->
      answered (prof_world (env_of x q s) b w) pre q s false [AText (bs "LLM response: " ++ t)].
Proof.
  intros x ops b w pre q s ap c f a pr O B A N P St. destruct (sampling_runs x ops b w pre q s ap c f a pr O B A N P St) as (m & p & y & z & U & G & _).
  exists m, p, y, z. now split.
Qed.
Print Assumptions C174_sampling_partial.

Theorem C174_elicit_partial : forall x ops b w pre q s ap c f a msg, offers s ops b -> brings x ap c -> ap_elicit ap = Some f -> cc_elicit (sv_client s) <> None ->
  named q (bs "tools/call") (bs "test_elicitation") a -> argument a (bs "message") msg -> ou_stop x 0 = false ->
  exists e', asks e' (or_else msg (bs "Please provide your information")) names_asked /\
    forall r, f e' = Ret r -> (cl_strict c = true \/ sv_strict s = true -> proper r) ->
      answered (prof_world (env_of x q s) b w) pre q s false [AText (user_response r)].
Proof.
  intros x ops b w pre q s ap c f a msg O B A C N P St. destruct (elicit_runs x ops b w pre q s ap c f a msg O B A C N P St) as (e' & U & G & _).
  exists e'. now split.
Qed.
Print Assumptions C174_elicit_partial.

Theorem C174_defaults_partial : forall x ops b w pre q s ap c f a, offers s ops b -> brings x ap c -> ap_elicit ap = Some f -> cc_elicit (sv_client s) <> None ->
  named q (bs "tools/call") (bs "test_elicitation_sep1034_defaults") a -> ou_stop x 0 = false ->
  exists e', asks e' (bs "Test client default value handling - please accept with defaults") defaults_asked /\
    forall r, f e' = Ret r -> (cl_strict c = true \/ sv_strict s = true -> proper r) ->
      answered (prof_world (env_of x q s) b w) pre q s false [AText (completed_response r)].
Proof.
  intros x ops b w pre q s ap c f a O B A C N St. destruct (defaults_runs x ops b w pre q s ap c f a O B A C N St) as (e' & U & G & _). exists e'. now split.
Qed.
Print Assumptions C174_defaults_partial.

Theorem C174_enums_partial : forall x ops b w pre q s ap c f a, offers s ops b -> brings x ap c -> ap_elicit ap = Some f -> cc_elicit (sv_client s) <> None ->
  named q (bs "tools/call") (bs "test_elicitation_sep1330_enums") a -> ou_stop x 0 = false ->
  exists e', asks e' (bs "Please respond to the enum schema variants.") enums_asked /\
    forall r, f e' = Ret r -> (cl_strict c = true \/ sv_strict s = true -> proper r) ->
      answered (prof_world (env_of x q s) b w) pre q s false [AText (completed_response r)].
Proof.
  intros x ops b w pre q s ap c f a O B A C N St. destruct (enums_runs x ops b w pre q s ap c f a O B A C N St) as (e' & U & G & _). exists e'. now split.
Qed.
Print Assumptions C174_enums_partial.

(** A sampling that fails is reported as a success with an empty response: when the client's handler
    throws, when there is no transport, when the transport throws and when it brings an error. *)
Theorem C174_sampling_refuted : forall x ops b w pre q s a, offers s ops b -> named q (bs "tools/call") (bs "test_sampling") a -> ou_stop x 0 = false ->
  (no_answer x \/ exists ap c f, brings x ap c /\ the_sampler ap = Some f /\ forall m p y z, exists what, f m p y z = Threw what) ->
  answered (prof_world (env_of x q s) b w) pre q s false [AText (bs "LLM response: ")].
Proof.
  intros x ops b w pre q s a O N St [X|(ap & c & f & B & A & F)]; [now apply sampling_silent with ops a|].
  assert (exists pr, argument a (bs "prompt") pr) as (pr & P).
  { destruct a as [| | | | | |o]; try (exists None; intros o t E; discriminate E). destruct (obj_get (bs "prompt") o) as [[| | | |t| |]|] eqn:G;
      try (exists None; intros o' t' E X; injection E as <-; rewrite G in X; discriminate X). exists (Some t), o. now split. }
  destruct (sampling_runs x ops b w pre q s ap c f a pr O B A N P St) as (m & p & y & z & _ & _ & G). destruct (F m p y z) as (what & E). exact (G what E).
Qed.
Print Assumptions C174_sampling_refuted.

(** An elicitation that fails is too: when the client's handler throws; and for a client without the
    capability nothing is asked. *)
Theorem C174_elicit_refuted : forall x ops b w pre q s a, offers s ops b -> named q (bs "tools/call") (bs "test_elicitation") a -> ou_stop x 0 = false ->
  (cc_elicit (sv_client s) = None \/ exists ap c f, brings x ap c /\ ap_elicit ap = Some f /\ forall e, exists what, f e = Threw what) ->
  answered (prof_world (env_of x q s) b w) pre q s false [AText (bs "User response: ")].
Proof.
  intros x ops b w pre q s a O N St D.
  assert (cc_elicit (sv_client s) = None \/ cc_elicit (sv_client s) <> None) as [Cc|Cc] by (destruct (cc_elicit (sv_client s)); [right; discriminate|now left]).
  { exact (proj2 (elicit_silent x ops b w pre q s a O Cc N St)). }
  destruct D as [D|(ap & c & f & B & A & F)]; [contradiction|].
  assert (exists msg, argument a (bs "message") msg) as (msg & P).
  { destruct a as [| | | | | |o]; try (exists None; intros o t E; discriminate E). destruct (obj_get (bs "message") o) as [[| | | |t| |]|] eqn:G;
      try (exists None; intros o' t' E X; injection E as <-; rewrite G in X; discriminate X). exists (Some t), o. now split. }
  destruct (elicit_runs x ops b w pre q s ap c f a msg O B A Cc N P St) as (e' & _ & _ & G). destruct (F e') as (what & E). exact (G what E).
Qed.
Print Assumptions C174_elicit_refuted.

(** A client, and a transport that brings its answers. *)
Definition prof_app : app :=
  {| ap_roots := None; ap_elicit := Some (fun e => Ret {| ed_action := bs "decline"; ed_content := None; ed_id := None |});
     ap_sample := Some (fun m _ _ _ => Ret (JObj [(bs "content", JArr [JObj [(bs "type", JStr (bs "image"))]; make_text (bs "hi")])])); ap_sample_stop := None; ap_now := bs "t" |}.
Definition prof_line : outside :=
  {| ou_stop := fun _ => false; ou_throttled := fun _ => false;
     ou_ask := Some (fun m p => match peer_dispatch prof_app false {| rq_id := IdInt 4; rq_method := m; rq_params := p |} (client0 false prof_caps) with
                                | (Reply r, _) => Ret r
                                | _ => Threw (bs "none")
                                end) |}.
Example C174_ex : brings prof_line prof_app (client0 false prof_caps) /\ offers (prof_server true prof_caps) [] 5 /\
  first_text (JObj [(bs "content", JArr [JObj [(bs "type", JStr (bs "image"))]; make_text (bs "hi")])]) (bs "hi") /\
  (forall n, In n [bs "test_sampling"; bs "test_elicitation"] ->
     profile_sends (env_of prof_line (asking (bs "tools/call") n (JObj [])) (prof_server true prof_caps)) n (JObj []) <> []) /\
  no_answer no_one.
Proof.
  split; [|split; [reflexivity|split; [|split]]].
  - eexists. split; [reflexivity|]. intros m p. eexists {| rq_id := IdInt 4; rq_method := m; rq_params := p |}. split; [reflexivity|]. split.
    + cbn [rq_params]. destruct p; constructor. apply same_refl.
    + intros r c' E. exists r. cbv beta. rewrite E. split; [|reflexivity]. split; [reflexivity|].
      split; [destruct (rs_result r)|destruct (rs_error r)]; constructor; apply same_refl.
  - eexists. split; [reflexivity|]. right. exists [JObj [(bs "type", JStr (bs "image"))]], (make_text (bs "hi")), []. split; [reflexivity|]. split; [apply text_is|].
    constructor; [|constructor]. intros x (o & E & T & _). injection E as <-. vm_compute in T. discriminate T.
  - intros n [<-|[<-|[]]]; vm_compute; discriminate.
  - now constructor.
Qed.

(** C175: each prompt is answered with messages of the user of the protocol's shape, in strict mode and
    not, in which the arguments of the request stand as they were given; and a completion is always
    answered with the three values. Missing: an argument declared as required is not required. *)
Theorem C175_simple_partial : forall e ops b w q s a, offers s ops b -> named q (bs "prompts/get") (bs "test_simple_prompt") a ->
  prompted (prof_world e b w) q s (bs "Simple prompt for MCP conformance testing.") [AText (bs "This is a simple prompt for testing.")].
Proof. exact simple_prompt. Qed.
Print Assumptions C175_simple_partial.
Theorem C175_arguments_partial : forall e ops b w q s a x y, offers s ops b -> named q (bs "prompts/get") (bs "test_prompt_with_arguments") a ->
  argument a (bs "arg1") x -> argument a (bs "arg2") y ->
  prompted (prof_world e b w) q s (bs "Prompt with argument substitution for MCP conformance testing.")
    [AText (bs "Prompt with arguments: arg1='" ++ or_else x [] ++ bs "', arg2='" ++ or_else y [] ++ bs "'")].
Proof. exact arguments_prompt. Qed.
Print Assumptions C175_arguments_partial.
Theorem C175_resource_partial : forall e ops b w q s a x, offers s ops b -> named q (bs "prompts/get") (bs "test_prompt_with_embedded_resource") a ->
  argument a (bs "resourceUri") x ->
  prompted (prof_world e b w) q s (bs "Prompt containing an embedded resource for MCP conformance testing.")
    [AResource (or_else x (bs "test://example-resource")) (bs "Embedded resource content for testing.") (bs "text/plain");
     AText (bs "Please process the embedded resource above.")].
Proof. exact resource_prompt. Qed.
Print Assumptions C175_resource_partial.
Theorem C175_image_partial : forall e ops b w q s a, offers s ops b -> named q (bs "prompts/get") (bs "test_prompt_with_image") a ->
  prompted (prof_world e b w) q s (bs "Prompt containing image content for MCP conformance testing.")
    [AMedia (bs "image") (bs "image/png") PNG; AText (bs "Please analyze the image above.")].
Proof. exact image_prompt. Qed.
Print Assumptions C175_image_partial.
Theorem C175_completion_partial : forall e b w pre mid post q s ref name value ctx, requests q (bs "completion/complete") (complete_params ref name value ctx) ->
  exists r, dispatch (prof_world e b w) pre mid post q s = (Reply r, s) /\
    forall strict r', delivered r r' -> complete_reply strict r' = Ret {| cp_values := [bs "alpha"; bs "beta"; bs "gamma"]; cp_total := Some 3%Z; cp_more := false |}.
Proof.
  intros e b w pre mid post q s ref name value ctx R.
  destruct (complete_runs (prof_world e b w) pre mid post q s prof_complete ref name value ctx eq_refl R) as (ref' & ctx' & _ & _ & G & _). exact (G _ eq_refl).
Qed.
Print Assumptions C175_completion_partial.

(** The prompt with arguments declares both as required; without any it is answered all the same, with
    empty texts. *)
Theorem C175_required_refuted : forall e ops b w q s, offers s ops b ->
  (exists p h l, prompt_now (bs "test_prompt_with_arguments") (rev (ops ++ profile_ops b)) = Some (p, h) /\ pr_args p = Some (JArr l) /\ length l = 2 /\
     forall v, In v l -> at_path v [bs "required"] = Some (JBool true)) /\
  (named q (bs "prompts/get") (bs "test_prompt_with_arguments") (JObj []) ->
   prompted (prof_world e b w) q s (bs "Prompt with argument substitution for MCP conformance testing.") [AText (bs "Prompt with arguments: arg1='', arg2=''")]).
Proof.
  intros e ops b w q s O. split.
  - eexists _, _, _. split; [exact (prompts_now ops b 1 _ _ eq_refl)|]. split; [reflexivity|]. split; [reflexivity|].
    intros v I. cbn in I. destruct I as [<-|[<-|[]]]; reflexivity.
  - intro N. apply (arguments_prompt e ops b w q s (JObj []) None None O N); intros o t E; injection E as <-; discriminate.
Qed.
Print Assumptions C175_required_refuted.

Example C175_ex : named (asking (bs "prompts/get") (bs "test_prompt_with_arguments") (JObj [(bs "arg1", JStr (bs "u"))])) (bs "prompts/get")
    (bs "test_prompt_with_arguments") (JObj [(bs "arg1", JStr (bs "u"))]) /\
  argument (JObj [(bs "arg1", JStr (bs "u"))]) (bs "arg1") (Some (bs "u")) /\ argument (JObj [(bs "arg1", JStr (bs "u"))]) (bs "arg2") None.
Proof.
  split; [split; [reflexivity|]; eexists; split; [reflexivity|]; split; [|split]; reflexivity|]. split; [eexists; split; reflexivity|].
  intros o t E. injection E as <-. vm_compute. discriminate.
Qed.
