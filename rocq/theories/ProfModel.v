(** The profile of tools, prompts and resources that a server can offer to the conformance suite. *)
From Coq Require Import Ascii String List Arith NArith ZArith Bool.
From Verif Require Import StrModel DoubleModel JsonModel RpcModel MapModel TaskModel DescModel RegModel TmplModel ValModel ReadModel SubModel LogModel CancelModel ServModel PeerModel.
Import ListNotations.
Local Open Scope nat_scope.

(** kTestPngBase64 and kTestWavBase64, src/mcp/ConformanceServerSupport.h:24-26. *)
Definition PNG : bstr := bs "iVBORw0KGgoAAAANSUhEUgAAAAEAAAABCAQAAAC1HAwCAAAAC0lEQVR42mP8/x8AAwMCAO+jZ5QAAAAASUVORK5CYII=".
Definition WAV : bstr := bs "UklGRiQAAABXQVZFZm10IBAAAAABAAEAESsAACJWAAACABAAZGF0YQAAAAA=".

(** makeSchemaProperty, ConformanceServerSupport.h:28-36. *)
Definition schema_property (ty : bstr) (desc : option bstr) : json :=
  JObj (opt_set (bs "description") JStr desc (obj_set (bs "type") (JStr ty) [])).

(** makeEnumArray, ConformanceServerSupport.h:55-61. *)
Definition enum_array (l : list bstr) : json := JArr (map JStr l).

(** makeObjectSchema, ConformanceServerSupport.h:38-53. *)
Definition object_schema (properties : obj) (required : list bstr) : json :=
  let o := obj_set (bs "type") (JStr (bs "object")) [] in
  let o := obj_set (bs "properties") (JObj properties) o in
  let o := obj_set (bs "additionalProperties") (JBool false) o in
  JObj (match required with [] => o | _ :: _ => obj_set (bs "required") (enum_array required) o end).

(** makeTitledEnumOptions, ConformanceServerSupport.h:63-72. *)
Definition titled_options (l : list (bstr * bstr)) : json :=
  JArr (map (fun e => JObj (obj_set (bs "title") (JStr (snd e)) (obj_set (bs "const") (JStr (fst e)) []))) l).

(** makePromptArguments, ConformanceServerSupport.h:74-84. *)
Definition prompt_arguments (l : list (bstr * bstr * bool)) : json :=
  JArr (map (fun e => JObj (obj_set (bs "required") (JBool (snd e))
                             (obj_set (bs "description") (JStr (snd (fst e))) (obj_set (bs "name") (JStr (fst (fst e))) [])))) l).

(** makePromptMessage, ConformanceServerSupport.h:86-91. *)
Definition prompt_message (role : bstr) (content : json) : json :=
  JObj (obj_set (bs "content") content (obj_set (bs "role") (JStr role) [])).

(** getStringArgument, ConformanceServerSupport.h:93-106. *)
Definition string_argument (arguments : json) (key fallback : bstr) : bstr :=
  match arguments with
  | JObj o => match obj_get key o with Some (JStr s) => s | _ => fallback end
  | _ => fallback
  end.

(** extractFirstTextContent, ConformanceServerSupport.h:108-136. *)
Fixpoint first_of (l : list json) : bstr :=
  match l with
  | [] => []
  | v :: r => match get_text v with Some t => t | None => first_of r end
  end.
Definition first_text_content (result : json) : bstr :=
  match result with
  | JObj o =>
      match obj_get (bs "content") o with
      | Some (JObj c) => match get_text (JObj c) with Some t => t | None => [] end
      | Some (JArr l) => first_of l
      | _ => []
      end
  | _ => []
  end.

(** makeJsonSchema202012ToolSchema, ConformanceServerSupport.h:138-165. *)
Definition json_schema_2020 : json :=
  let text := schema_property (bs "string") None in
  let address := JObj (obj_set (bs "properties") (JObj (obj_set (bs "city") text (obj_set (bs "street") text [])))
                        (obj_set (bs "type") (JStr (bs "object")) [])) in
  let properties := obj_set (bs "address") (JObj (obj_set (bs "$ref") (JStr (bs "#/$defs/address")) [])) (obj_set (bs "name") text []) in
  let o := obj_set (bs "$schema") (JStr (bs "https://json-schema.org/draft/2020-12/schema")) [] in
  let o := obj_set (bs "type") (JStr (bs "object")) o in
  let o := obj_set (bs "$defs") (JObj (obj_set (bs "address") address [])) o in
  let o := obj_set (bs "properties") (JObj properties) o in
  JObj (obj_set (bs "additionalProperties") (JBool false) o).

(** makeTextResource and makeBlobResource, ConformanceServerSupport.h:167-193. *)
Definition resource_item (kind uri mime payload : bstr) : json :=
  JObj (obj_set kind (JStr payload) (obj_set (bs "mimeType") (JStr mime) (obj_set (bs "uri") (JStr uri) []))).
Definition text_resource (uri mime text : bstr) : produced := POkay [resource_item (bs "text") uri mime text].
Definition blob_resource (uri mime blob : bstr) : produced := POkay [resource_item (bs "blob") uri mime blob].

(** What a handler meets while it runs: what its i-th look at the stop token says; whether the rate
    limit drops its i-th log message; the progress token of the request; the server's mode, the
    client's capabilities and the lowest log level; and the transport, if there is one, as what the
    future of a request brings: a response, or an exception. *)
Record prof_env := {
  pe_stop : nat -> bool; pe_throttled : nat -> bool; pe_token : option bstr;
  pe_strict : bool; pe_peer : ccaps; pe_min : level; pe_ask : option (bstr -> option json -> ret response)
}.

(** What a handler hands to the transport. *)
Inductive sent := SNote (n : notification) | SReq (method : bstr) (params : option json).

(** One LogToClient with level info, Server.cpp:2239-2292, behind a look at the stop token; the
    exceptions of the transport are swallowed there. *)
Definition log_step (e : prof_env) (i : nat) (text : bstr) : list sent :=
  if pe_stop e i then []
  else if suppressed LInfo (pe_min e) then []
  else if pe_throttled e i then []
  else match pe_ask e with
       | None => []
       | Some _ => [SNote {| nt_method := bs "notifications/message"; nt_params := Some (log_payload LInfo text None) |}]
       end.

(** One SendProgress, Server.cpp:2223-2237, likewise. *)
Definition progress_step (e : prof_env) (i : nat) (token : bstr) (p : dbl) (text : bstr) : list sent :=
  if pe_stop e i then []
  else match pe_ask e with None => [] | Some _ => [SNote (progress_note token p text)] end.

(** RequestCreateMessage, Server.cpp:2398-2457: exceptions become null. *)
Definition do_message (e : prof_env) (p : sampling) : ret json * list sent :=
  match pe_ask e with
  | None => (Ret JNull, [])
  | Some ask =>
      match request_message p with
      | Returns x => (x, [])
      | Sends m ps read => (match ask m ps with Ret r => read r | Threw _ => Ret JNull end, [SReq m ps])
      end
  end.

(** RequestElicitation, Server.cpp:2582-2654: exceptions pass. *)
Definition do_elicit (e : prof_env) (q : elicit) : ret elicited * list sent :=
  match pe_ask e with
  | None => (Ret elicited0, [])
  | Some ask =>
      match request_elicit (pe_strict e) (pe_peer e) q with
      | Returns x => (x, [])
      | Sends m ps read => (match ask m ps with Ret r => read r | Threw what => Threw what end, [SReq m ps])
      end
  end.

(** A ToolResult with this content, Protocol.h:173-182. *)
Definition tool_says (error : bool) (content : list json) : tool_out :=
  {| to_content := content; to_struct := None; to_meta := None; to_error := error |}.
Definition prof_handler := prof_env -> json -> tool_out * list sent.
Definition fixed (content : list json) : prof_handler := fun _ _ => (tool_says false content, []).

(** The tools without a conversation, ConformanceServerSupport.h:322-398, 424-437, 671-684. *)
Definition h_simple := fixed [make_text (bs "This is a simple text response for testing.")].
Definition h_image := fixed [make_image (bs "image/png") PNG].
Definition h_audio := fixed [make_audio (bs "audio/wav") WAV].
Definition h_embedded := fixed [make_embedded_text (bs "test://embedded-resource") (bs "This is an embedded resource content.") (Some (bs "text/plain"))].
Definition h_multiple :=
  fixed [make_text (bs "Multiple content types test:"); make_image (bs "image/png") PNG;
         make_embedded_text (bs "test://mixed-content-resource") (bs "{""test"":""data"",""value"":123}") (Some (bs "application/json"))].
Definition h_error : prof_handler := fun _ _ => (tool_says true [make_text (bs "This tool intentionally returns an error for testing")], []).
Definition h_schema := fixed [make_text (bs "JSON Schema 2020-12 tool executed.")].

(** The logging tool, ConformanceServerSupport.h:400-422, and the progress tool, 439-462. The pauses
    are left out: what can happen in them is in the looks at the stop token. *)
Definition h_logging : prof_handler := fun e _ =>
  (tool_says false [make_text (bs "Tool with logging completed.")],
   log_step e 0 (bs "Tool execution started") ++ log_step e 1 (bs "Tool processing data") ++ log_step e 2 (bs "Tool execution completed")).
Definition D_ZERO : dbl := DZero false.
Definition D_HALF : dbl := DFin false 4503599627370496 (-53).
Definition D_ONE : dbl := DFin false 4503599627370496 (-52).
Definition h_progress : prof_handler := fun e _ =>
  let token := match pe_token e with Some t => t | None => bs "progress-test-1" end in
  (tool_says false [make_text (bs "Tool with progress completed.")],
   progress_step e 0 token D_ZERO (bs "Starting tool execution") ++ progress_step e 1 token D_HALF (bs "Processing tool execution") ++
   progress_step e 2 token D_ONE (bs "Completed tool execution")).

(** The sampling tool, ConformanceServerSupport.h:464-506. *)
Definition prof_sampling (arguments : json) : sampling :=
  {| sm_messages := [JObj (obj_set (bs "content") (JArr [make_text (string_argument arguments (bs "prompt") (bs "Test prompt for sampling"))])
                             (obj_set (bs "role") (JStr (bs "user")) []))];
     sm_prefs := None; sm_system := None; sm_context := None; sm_max := Some 100%Z; sm_temperature := None; sm_stop := None; sm_meta := None |}.
Definition h_sampling : prof_handler := fun e arguments =>
  if pe_stop e 0 then (tool_says true [make_text (bs "Sampling was cancelled.")], [])
  else
    let '(x, out) := do_message e (prof_sampling arguments) in
    (match x with
     | Ret v => tool_says false [make_text (bs "LLM response: " ++ first_text_content v)]
     | Threw what => tool_says true [make_text (bs "Sampling failed: " ++ what)]
     end, out).

Definition elicitation (message : bstr) (schema : json) : elicit :=
  {| el_message := message; el_schema := schema; el_title := None; el_mode := None; el_url := None; el_id := None; el_meta := None |}.

(** The elicitation tool, ConformanceServerSupport.h:508-552. *)
Definition prof_elicit (arguments : json) : elicit :=
  elicitation (string_argument arguments (bs "message") (bs "Please provide your information"))
    (object_schema (obj_set (bs "email") (schema_property (bs "string") (Some (bs "User's email address")))
                     (obj_set (bs "username") (schema_property (bs "string") (Some (bs "User's response"))) []))
       [bs "username"; bs "email"]).
Definition h_elicit : prof_handler := fun e arguments =>
  if pe_stop e 0 then (tool_says true [make_text (bs "Elicitation was cancelled.")], [])
  else
    let '(x, out) := do_elicit e (prof_elicit arguments) in
    (match x with
     | Ret r => tool_says false [make_text (bs "User response: " ++ ed_action r ++ match ed_content r with Some _ => bs " received" | None => [] end)]
     | Threw what => tool_says true [make_text (bs "Elicitation failed: " ++ what)]
     end, out).

(** The result of the other two elicitation tools, ConformanceServerSupport.h:602-613, 657-668. *)
Definition elicit_completed (x : ret elicited) : tool_out :=
  match x with
  | Ret r => tool_says false [make_text (bs "Elicitation completed: action=" ++ ed_action r ++ bs ", content=" ++
                                         match ed_content r with Some _ => bs "present" | None => bs "missing" end)]
  | Threw what => tool_says true [make_text (bs "Elicitation failed: " ++ what)]
  end.

(** The elicitation with defaults, ConformanceServerSupport.h:554-615; 95.5 is 191/2. *)
Definition typed_default (ty : bstr) (d : json) : obj := obj_set (bs "default") d (obj_set (bs "type") (JStr ty) []).
Definition D_955 : dbl := DFin false 6720215068966912 (-46).
Definition prof_defaults : elicit :=
  let p := obj_set (bs "name") (JObj (typed_default (bs "string") (JStr (bs "John Doe")))) [] in
  let p := obj_set (bs "age") (JObj (typed_default (bs "integer") (JInt 30))) p in
  let p := obj_set (bs "score") (JObj (typed_default (bs "number") (JDbl D_955))) p in
  let status := obj_set (bs "default") (JStr (bs "active"))
                  (obj_set (bs "enum") (enum_array [bs "active"; bs "inactive"; bs "pending"]) (obj_set (bs "type") (JStr (bs "string")) [])) in
  let p := obj_set (bs "status") (JObj status) p in
  let p := obj_set (bs "verified") (JObj (typed_default (bs "boolean") (JBool true))) p in
  elicitation (bs "Test client default value handling - please accept with defaults") (object_schema p []).
Definition h_defaults : prof_handler := fun e _ =>
  if pe_stop e 0 then (tool_says true [make_text (bs "Elicitation defaults test was cancelled.")], [])
  else let '(x, out) := do_elicit e prof_defaults in (elicit_completed x, out).

(** The elicitation with enumerations, ConformanceServerSupport.h:617-669. *)
Definition prof_enums : elicit :=
  let text (k : bstr) (v : json) := obj_set k v (obj_set (bs "type") (JStr (bs "string")) []) in
  let many (items : obj) := JObj (obj_set (bs "items") (JObj items) (obj_set (bs "type") (JStr (bs "array")) [])) in
  let options := enum_array [bs "option1"; bs "option2"; bs "option3"] in
  let titled a b c := titled_options [(bs "value1", a); (bs "value2", b); (bs "value3", c)] in
  let p := obj_set (bs "untitledSingle") (JObj (text (bs "enum") options)) [] in
  let p := obj_set (bs "titledSingle") (JObj (text (bs "oneOf") (titled (bs "First Option") (bs "Second Option") (bs "Third Option")))) p in
  let legacy := obj_set (bs "enumNames") (enum_array [bs "Option One"; bs "Option Two"; bs "Option Three"])
                  (text (bs "enum") (enum_array [bs "opt1"; bs "opt2"; bs "opt3"])) in
  let p := obj_set (bs "legacyEnum") (JObj legacy) p in
  let p := obj_set (bs "untitledMulti") (many (text (bs "enum") options)) p in
  let p := obj_set (bs "titledMulti") (many (obj_set (bs "anyOf") (titled (bs "First Choice") (bs "Second Choice") (bs "Third Choice")) [])) p in
  elicitation (bs "Please respond to the enum schema variants.") (object_schema p []).
Definition h_enums : prof_handler := fun e _ =>
  if pe_stop e 0 then (tool_says true [make_text (bs "Elicitation enum test was cancelled.")], [])
  else let '(x, out) := do_elicit e prof_enums in (elicit_completed x, out).

(** The tools with their handlers, in the order of registration,
    ConformanceServerSupport.h:322-684. *)
Definition plain_tool (name desc : bstr) (input : json) : tool :=
  {| tl_name := name; tl_title := None; tl_desc := desc; tl_icons := None; tl_input := input; tl_output := None; tl_annot := None;
     tl_exec := None; tl_meta := None |}.
Definition prof_tools : list (tool * prof_handler) :=
  let none := object_schema [] [] in
  let one k d := object_schema (obj_set k (schema_property (bs "string") (Some d)) []) [k] in
  [(plain_tool (bs "test_simple_text") (bs "Return simple text content for MCP conformance testing.") none, h_simple);
   (plain_tool (bs "test_image_content") (bs "Return image content for MCP conformance testing.") none, h_image);
   (plain_tool (bs "test_audio_content") (bs "Return audio content for MCP conformance testing.") none, h_audio);
   (plain_tool (bs "test_embedded_resource") (bs "Return embedded resource content for MCP conformance testing.") none, h_embedded);
   (plain_tool (bs "test_multiple_content_types") (bs "Return multiple content types for MCP conformance testing.") none, h_multiple);
   (plain_tool (bs "test_tool_with_logging") (bs "Send log notifications during tool execution.") none, h_logging);
   (plain_tool (bs "test_error_handling") (bs "Return a tool error result for MCP conformance testing.") none, h_error);
   (plain_tool (bs "test_tool_with_progress") (bs "Report progress notifications during tool execution.") none, h_progress);
   (plain_tool (bs "test_sampling") (bs "Request client-side sampling and return the response.") (one (bs "prompt") (bs "The prompt to send to the LLM")), h_sampling);
   (plain_tool (bs "test_elicitation") (bs "Request client-side elicitation and return the user response.") (one (bs "message") (bs "The message to show the user")), h_elicit);
   (plain_tool (bs "test_elicitation_sep1034_defaults") (bs "Request elicitation with primitive default values for SEP-1034 conformance.") none, h_defaults);
   (plain_tool (bs "test_elicitation_sep1330_enums") (bs "Request elicitation using SEP-1330 enum schema variants.") none, h_enums);
   (plain_tool (bs "json_schema_2020_12_tool") (bs "Tool with JSON Schema 2020-12 features") json_schema_2020, h_schema)].

(** The resources, ConformanceServerSupport.h:209-240, by number. *)
Definition plain_resource (uri name desc mime : bstr) : resource :=
  {| rs_uri := uri; rs_name := name; rs_title := None; rs_desc := Some desc; rs_mime := Some mime; rs_size := None; rs_annot := None;
     rs_meta := None; rs_icons := None |}.
Definition prof_resources : list (resource * (bstr -> produced)) :=
  [(plain_resource (bs "test://static-text") (bs "Static Text Resource") (bs "Static text for MCP conformance testing.") (bs "text/plain"),
    fun u => text_resource u (bs "text/plain") (bs "This is the content of the static text resource."));
   (plain_resource (bs "test://static-binary") (bs "Static Binary Resource") (bs "Static binary resource for MCP conformance testing.") (bs "image/png"),
    fun u => blob_resource u (bs "image/png") PNG);
   (plain_resource (bs "test://watched-resource") (bs "Watched Resource") (bs "Resource used for subscribe/unsubscribe conformance checks.") (bs "text/plain"),
    fun u => text_resource u (bs "text/plain") (bs "Watched resource content."))].

(** The template, ConformanceServerSupport.h:242-260. *)
Definition prof_template : template :=
  {| tp_uri := bs "test://template/{id}/data"; tp_name := bs "Template Data Resource"; tp_title := None;
     tp_desc := Some (bs "Template-backed resource for MCP conformance testing."); tp_mime := Some (bs "application/json");
     tp_annot := None; tp_meta := None; tp_icons := None |}.
Definition template_data (u : bstr) (vs : vars) : produced :=
  let i := match aget (bs "id") vs with Some v => v | None => bs "unknown" end in
  text_resource u (bs "application/json")
    (bs "{""id"":""" ++ i ++ bs """,""templateTest"":true,""data"":""Data for ID: " ++ i ++ bs """}").

(** The prompts, ConformanceServerSupport.h:262-320. *)
Definition plain_prompt (name desc : bstr) (args : option json) : prompt :=
  {| pr_name := name; pr_title := None; pr_desc := desc; pr_args := args; pr_meta := None; pr_icons := None |}.
Definition user_text (t : bstr) : json := prompt_message (bs "user") (make_text t).
Definition prof_prompts : list (prompt * (json -> bstr * list json)) :=
  [(plain_prompt (bs "test_simple_prompt") (bs "Simple prompt for MCP conformance testing.") None,
    fun _ => (bs "Simple prompt for MCP conformance testing.", [user_text (bs "This is a simple prompt for testing.")]));
   (plain_prompt (bs "test_prompt_with_arguments") (bs "Prompt with argument substitution for MCP conformance testing.")
      (Some (prompt_arguments [(bs "arg1", bs "First test argument", true); (bs "arg2", bs "Second test argument", true)])),
    fun a => (bs "Prompt with argument substitution for MCP conformance testing.",
              [user_text (bs "Prompt with arguments: arg1='" ++ string_argument a (bs "arg1") [] ++ bs "', arg2='" ++ string_argument a (bs "arg2") [] ++ bs "'")]));
   (plain_prompt (bs "test_prompt_with_embedded_resource") (bs "Prompt containing an embedded resource for MCP conformance testing.")
      (Some (prompt_arguments [(bs "resourceUri", bs "URI of the resource to embed", true)])),
    fun a => (bs "Prompt containing an embedded resource for MCP conformance testing.",
              [prompt_message (bs "user") (make_embedded_text (string_argument a (bs "resourceUri") (bs "test://example-resource"))
                                             (bs "Embedded resource content for testing.") (Some (bs "text/plain")));
               user_text (bs "Please process the embedded resource above.")]));
   (plain_prompt (bs "test_prompt_with_image") (bs "Prompt containing image content for MCP conformance testing.") None,
    fun _ => (bs "Prompt containing image content for MCP conformance testing.",
              [prompt_message (bs "user") (make_image (bs "image/png") PNG); user_text (bs "Please analyze the image above.")]))].

(** The completion handler, ConformanceServerSupport.h:199-207. *)
Definition prof_complete (_ : json) (_ _ : bstr) (_ : option json) : ret completion :=
  Ret {| cp_values := [bs "alpha"; bs "beta"; bs "gamma"]; cp_total := Some 3%Z; cp_more := false |}.

(** RegisterConformanceServerProfile, ConformanceServerSupport.h:198-685: the registrations, the
    handlers having the numbers from b on. *)
Fixpoint numbered {A : Type} (f : A -> nat -> reg_op) (l : list A) (b : nat) : list reg_op :=
  match l with [] => [] | x :: r => f x b :: numbered f r (S b) end.
Definition profile_ops (b : nat) : list reg_op :=
  numbered (fun e n => RegResource (fst e) (Some n)) prof_resources b ++
  [RegTemplate prof_template (Some b)] ++
  numbered (fun e n => RegPrompt (fst e) (Some n)) prof_prompts b ++
  numbered (fun e n => RegTool (fst e) (Some n)) prof_tools b.

(** The handlers of the profile in a world with other handlers. *)
Definition at_number {A : Type} (l : list A) (b n : nat) : option A := if Nat.leb b n then nth_error l (n - b) else None.
Definition prof_world (e : prof_env) (b : nat) (w : world) : world :=
  {| w_tool := fun n a => match at_number prof_tools b n with Some (_, h) => Ret (fst (h e a)) | None => w_tool w n a end;
     w_read := {| rd_direct := fun n u => match at_number prof_resources b n with Some (_, h) => h u | None => rd_direct (w_read w) n u end;
                  rd_template := fun n u vs => if Nat.eqb n b then template_data u vs else rd_template (w_read w) n u vs |};
     w_prompt := fun n a => match at_number prof_prompts b n with Some (_, h) => Ret (h a) | None => w_prompt w n a end;
     w_complete := Some prof_complete; w_sample := w_sample w; w_now := w_now w; w_connected := w_connected w |}.

(** What is outside the server while it answers: the looks at the stop token, the rate limit, and the
    transport. The rest of what a handler meets is the request's and the server's. *)
Record outside := { ou_stop : nat -> bool; ou_throttled : nat -> bool; ou_ask : option (bstr -> option json -> ret response) }.
Definition env_of (x : outside) (q : request) (s : server) : prof_env :=
  {| pe_stop := ou_stop x; pe_throttled := ou_throttled x; pe_token := progress_token (rq_params q);
     pe_strict := sv_strict s; pe_peer := sv_client s; pe_min := sv_level s; pe_ask := ou_ask x |}.

(** What the handler of the tool named n hands to the transport. *)
Fixpoint tool_called (n : bstr) (l : list (tool * prof_handler)) : option prof_handler :=
  match l with [] => None | (t, h) :: r => if beq n (tl_name t) then Some h else tool_called n r end.
Definition profile_sends (e : prof_env) (n : bstr) (a : json) : list sent :=
  match tool_called n prof_tools with Some h => snd (h e a) | None => [] end.
