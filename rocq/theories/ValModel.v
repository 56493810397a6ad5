(** The strict-mode validators and the typed builders. Values are trees without null pointers, so
    the null tests of the code never fail and are left out. *)
From Coq Require Import Ascii String List Arith NArith ZArith Bool.
From Verif Require Import StrModel DoubleModel JsonModel MapModel TaskModel DescModel RegModel.
Import ListNotations.
Local Open Scope nat_scope.

Definition is_str (v : json) : bool := match v with JStr _ => true | _ => false end.
Definition is_int (v : json) : bool := match v with JInt _ => true | _ => false end.
Definition is_bool (v : json) : bool := match v with JBool _ => true | _ => false end.

(** isStringField, include/mcp/validation/Validators.h:23-26. *)
Definition str_field (o : obj) (k : bstr) : bool := match obj_get k o with Some v => is_str v | None => false end.

(** isOptionalStringField, isOptionalBoolField, isOptionalIntegerField, Validators.h:28-46. *)
Definition opt_field (p : json -> bool) (o : obj) (k : bstr) : bool := match obj_get k o with Some v => p v | None => true end.
Definition opt_str (o : obj) (k : bstr) : bool := opt_field is_str o k.
Definition opt_bool (o : obj) (k : bstr) : bool := opt_field is_bool o k.
Definition opt_int (o : obj) (k : bstr) : bool := opt_field is_int o k.

(** isStringArray, Validators.h:48-59. *)
Definition str_array (v : json) : bool := match v with JArr l => forallb is_str l | _ => false end.

(** isIconObject, Validators.h:61-88. *)
Definition icon_shape (v : json) : bool :=
  match v with
  | JObj o =>
      (str_field o (bs "src") && opt_str o (bs "mimeType") && opt_field str_array o (bs "sizes") &&
       opt_field (fun t => match t with JStr s => beq s (bs "light") || beq s (bs "dark") | _ => false end) o (bs "theme"))%bool
  | _ => false
  end.

(** isOptionalIconsField, Validators.h:90-105. *)
Definition opt_icons (o : obj) : bool :=
  opt_field (fun v => match v with JArr l => forallb icon_shape l | _ => false end) o (bs "icons").

(** isAnnotationsShape and isOptionalAnnotationsField, Validators.h:107-139. *)
Definition annotations_shape (v : json) : bool :=
  match v with
  | JObj o => (opt_field str_array o (bs "audience") &&
               opt_field (fun p => match p with JInt _ | JDbl _ => true | _ => false end) o (bs "priority"))%bool
  | _ => false
  end.
Definition opt_annotations (o : obj) : bool := opt_field annotations_shape o (bs "annotations").

(** isEmbeddedResourceObject, Validators.h:141-159; also the second half of the test in
    validateReadResourceResultJson, 302-308. *)
Definition resource_contents (o : obj) : bool :=
  (str_field o (bs "uri") && xorb (str_field o (bs "text")) (str_field o (bs "blob")) && opt_str o (bs "mimeType"))%bool.
Definition embedded_resource (v : json) : bool := match v with JObj o => resource_contents o | _ => false end.

(** isContentItem, Validators.h:161-203. *)
Definition content_shape (v : json) : bool :=
  match v with
  | JObj o =>
      match obj_get (bs "type") o with
      | Some (JStr t) =>
          ((if beq t (bs "text") then str_field o (bs "text")
            else if (beq t (bs "image") || beq t (bs "audio"))%bool then (str_field o (bs "mimeType") && str_field o (bs "data"))%bool
            else if beq t (bs "resource_link") then
              (str_field o (bs "uri") && str_field o (bs "name") && opt_str o (bs "title") && opt_str o (bs "description") &&
               opt_str o (bs "mimeType") && opt_int o (bs "size"))%bool
            else if beq t (bs "resource") then
              match obj_get (bs "resource") o with Some r => embedded_resource r | None => false end
            else false) && opt_annotations o)%bool
      | _ => false
      end
  | _ => false
  end.

(** isTextContentItem, Validators.h:205-214. *)
Definition text_shape (v : json) : bool :=
  (content_shape v &&
   match v with JObj o => match obj_get (bs "type") o with Some (JStr t) => beq t (bs "text") | _ => false end | _ => false end)%bool.

(** isPromptMessageItem, Validators.h:225-242. *)
Definition message_shape (v : json) : bool :=
  (content_shape v ||
   match v with
   | JObj o => str_field o (bs "role") && match obj_get (bs "content") o with Some c => content_shape c | None => false end
   | _ => false
   end)%bool.

(** An array member all of whose items pass a test. *)
Definition arr_field (p : json -> bool) (o : obj) (k : bstr) : bool :=
  match obj_get k o with Some (JArr l) => forallb p l | _ => false end.

(** validateCallToolResultJson, Validators.h:245-278. *)
Definition valid_call_tool (v : json) : bool :=
  match v with JObj o => (arr_field content_shape o (bs "content") && opt_bool o (bs "isError"))%bool | _ => false end.

(** validateReadResourceResultJson, Validators.h:280-318. *)
Definition read_item (v : json) : bool := match v with JObj o => (text_shape v || resource_contents o)%bool | _ => false end.
Definition valid_read (v : json) : bool := match v with JObj o => arr_field read_item o (bs "contents") | _ => false end.

(** validateGetPromptResultJson, Validators.h:320-343. *)
Definition valid_get_prompt (v : json) : bool :=
  match v with JObj o => (str_field o (bs "description") && arr_field message_shape o (bs "messages"))%bool | _ => false end.

(** validateCompletionResultJson, Validators.h:345-372. *)
Definition valid_completion (v : json) : bool :=
  match v with
  | JObj o =>
      match obj_get (bs "completion") o with
      | Some (JObj c) => (arr_field is_str c (bs "values") && opt_int c (bs "total") && opt_bool c (bs "hasMore"))%bool
      | _ => false
      end
  | _ => false
  end.

(** validateElicitationRequestJson and validateElicitationResultJson, Validators.h:374-421. *)
Definition valid_elicitation_request (v : json) : bool :=
  match v with
  | JObj o =>
      (str_field o (bs "message") && match obj_get (bs "requestedSchema") o with Some _ => true | None => false end &&
       opt_str o (bs "title") && opt_str o (bs "mode") && opt_str o (bs "url") && opt_str o (bs "elicitationId"))%bool
  | _ => false
  end.
Definition valid_elicitation_result (v : json) : bool :=
  match v with
  | JObj o =>
      (match obj_get (bs "action") o with
       | Some (JStr a) => beq a (bs "accept") || beq a (bs "decline") || beq a (bs "cancel")
       | _ => false
       end && opt_str o (bs "elicitationId"))%bool
  | _ => false
  end.

(** validateTaskJson, validateCreateTaskResultJson, validateTasksListResultJson,
    Validators.h:427-487. *)
Definition valid_task (v : json) : bool :=
  match v with
  | JObj o =>
      (str_field o (bs "taskId") && str_field o (bs "status") && str_field o (bs "createdAt") && str_field o (bs "lastUpdatedAt") &&
       opt_str o (bs "statusMessage") && opt_int o (bs "pollInterval") &&
       opt_field (fun t => match t with JInt _ | JNull => true | _ => false end) o (bs "ttl"))%bool
  | _ => false
  end.
Definition valid_created (v : json) : bool :=
  match v with JObj o => match obj_get (bs "task") o with Some t => valid_task t | None => false end | _ => false end.
Definition valid_tasks (v : json) : bool :=
  match v with JObj o => (arr_field valid_task o (bs "tasks") && opt_str o (bs "nextCursor"))%bool | _ => false end.

(** The cursor test of the list validators, Validators.h:521-526 and siblings. *)
Definition cursor_ok (o : obj) : bool := opt_field (fun c => (is_str c || is_int c)%bool) o (bs "nextCursor").

Definition of_obj (p : obj -> bool) (v : json) : bool := match v with JObj o => p o | _ => false end.

(** validateToolsListResultJson, Validators.h:494-528. *)
Definition tool_shape (o : obj) : bool :=
  (str_field o (bs "name") && opt_str o (bs "title") && opt_str o (bs "description") && opt_annotations o && opt_icons o)%bool.
Definition valid_tools (v : json) : bool :=
  match v with JObj o => (arr_field (of_obj tool_shape) o (bs "tools") && cursor_ok o)%bool | _ => false end.

(** validateResourcesListResultJson, Validators.h:530-563. *)
Definition resource_shape (o : obj) : bool :=
  (str_field o (bs "uri") && str_field o (bs "name") && opt_str o (bs "title") && opt_str o (bs "description") &&
   opt_str o (bs "mimeType") && opt_int o (bs "size") && opt_annotations o && opt_icons o)%bool.
Definition valid_resources (v : json) : bool :=
  match v with JObj o => (arr_field (of_obj resource_shape) o (bs "resources") && cursor_ok o)%bool | _ => false end.

(** validateResourceTemplatesListResultJson, Validators.h:565-597. *)
Definition template_shape (o : obj) : bool :=
  (str_field o (bs "uriTemplate") && str_field o (bs "name") && opt_str o (bs "title") && opt_str o (bs "description") &&
   opt_str o (bs "mimeType") && opt_annotations o && opt_icons o)%bool.
Definition valid_templates (v : json) : bool :=
  match v with JObj o => (arr_field (of_obj template_shape) o (bs "resourceTemplates") && cursor_ok o)%bool | _ => false end.

(** validatePromptsListResultJson, Validators.h:599-630. *)
Definition prompt_shape (o : obj) : bool :=
  (str_field o (bs "name") && opt_str o (bs "title") && opt_str o (bs "description") && opt_icons o)%bool.
Definition valid_prompts (v : json) : bool :=
  match v with JObj o => (arr_field (of_obj prompt_shape) o (bs "prompts") && cursor_ok o)%bool | _ => false end.

(** validateRootsListResultJson, Validators.h:632-652. *)
Definition root_shape (o : obj) : bool := (str_field o (bs "uri") && opt_str o (bs "name"))%bool.
Definition valid_roots (v : json) : bool :=
  match v with JObj o => arr_field (of_obj root_shape) o (bs "roots") | _ => false end.

(** The content of a sampling message: one item or a list of items, Validators.h:665-676. *)
Definition one_or_many (c : json) : bool := match c with JArr l => forallb content_shape l | _ => content_shape c end.

(** validateCreateMessageParamsJson and validateCreateMessageResultJson, Validators.h:655-699. *)
Definition valid_create_params (v : json) : bool :=
  match v with
  | JObj o => arr_field (of_obj (fun m => opt_field one_or_many m (bs "content"))) o (bs "messages")
  | _ => false
  end.
Definition valid_create_result (v : json) : bool :=
  match v with
  | JObj o =>
      (str_field o (bs "model") && str_field o (bs "role") &&
       match obj_get (bs "content") o with Some c => one_or_many c | None => false end)%bool
  | _ => false
  end.

(** validateListResultStrict, src/mcp/Server.cpp:1803-1835, for one key. *)
Definition valid_list (key : bstr) (v : json) : bool :=
  match v with
  | JObj o => (match obj_get key o with Some (JArr _) => true | _ => false end && opt_str o (bs "nextCursor"))%bool
  | _ => false
  end.

(** makeText, makeImage, makeAudio, makeResourceLink, makeEmbeddedTextResource and
    makeEmbeddedBlobResource, include/mcp/typed/Content.h:19-103. *)
Definition make_text (t : bstr) : json := JObj (obj_set (bs "text") (JStr t) (obj_set (bs "type") (JStr (bs "text")) [])).
Definition make_media (ty m d : bstr) : json :=
  JObj (obj_set (bs "data") (JStr d) (obj_set (bs "mimeType") (JStr m) (obj_set (bs "type") (JStr ty) []))).
Definition make_image := make_media (bs "image").
Definition make_audio := make_media (bs "audio").
Definition make_link (u n : bstr) (title desc mime : option bstr) : json :=
  let o := obj_set (bs "name") (JStr n) (obj_set (bs "uri") (JStr u) (obj_set (bs "type") (JStr (bs "resource_link")) [])) in
  JObj (opt_set (bs "mimeType") JStr mime (opt_set (bs "description") JStr desc (opt_set (bs "title") JStr title o))).
Definition make_embedded (r : obj) : json :=
  JObj (obj_set (bs "resource") (JObj r) (obj_set (bs "type") (JStr (bs "resource")) [])).
Definition make_embedded_text (u t : bstr) (mime : option bstr) : json :=
  make_embedded (opt_set (bs "mimeType") JStr mime (obj_set (bs "text") (JStr t) (obj_set (bs "uri") (JStr u) []))).
Definition make_embedded_blob (u b m : bstr) : json :=
  make_embedded (obj_set (bs "mimeType") (JStr m) (obj_set (bs "blob") (JStr b) (obj_set (bs "uri") (JStr u) []))).

(** getType, getText and collectText, Content.h:105-163. *)
Definition get_type (v : json) : option bstr := match v with JObj o => get_str (bs "type") o | _ => None end.
Definition get_text (v : json) : option bstr :=
  match v with
  | JObj o => match get_str (bs "type") o with
              | Some t => if beq t (bs "text") then get_str (bs "text") o else None
              | None => None
              end
  | _ => None
  end.
Definition collect_text (l : list json) : list bstr := flat_map (fun v => match get_text v with Some t => [t] | None => [] end) l.

(** collectText for resource contents, Content.h:165-184: items without a type count too. *)
Definition collect_contents (l : list json) : list bstr :=
  flat_map (fun v => match get_text v with
                     | Some t => [t]
                     | None => match v with JObj o => match get_str (bs "text") o with Some t => [t] | None => [] end | _ => [] end
                     end) l.

(** buildToolResultJson, Server.cpp:857-873. *)
Definition tool_result_json (content : list json) (structured meta : option json) (is_error : bool) : json :=
  let o := obj_set (bs "content") (JArr content) [] in
  let o := opt_set (bs "structuredContent") (fun x => x) structured o in
  let o := opt_set META (fun x => x) meta o in
  JObj (obj_set (bs "isError") (JBool is_error) o).

(** serializePromptResult, Server.cpp:657-666. *)
Definition prompt_result_json (desc : bstr) (messages : list json) : json :=
  JObj (obj_set (bs "messages") (JArr messages) (obj_set (bs "description") (JStr desc) [])).

(** typed::prompts::ResultBuilder, include/mcp/typed/Prompts.h:63-83: the calls made on it. *)
Inductive prompt_call := PDescribe (d : bstr) | PText (t : bstr).
Definition prompt_build (cs : list prompt_call) : bstr * list json :=
  fold_left (fun st c => match c with PDescribe d => (d, snd st) | PText t => (fst st, snd st ++ [make_text t]) end) cs ([], []).

(** typed::SamplingResultBuilder and makeTextSamplingResult, include/mcp/typed/Sampling.h:17-88. *)
Inductive sampling_call := SModel (m : bstr) | SRole (r : bstr) | SText (t : bstr).
Definition sampling_json (m r : bstr) (c : list json) : json :=
  JObj (obj_set (bs "content") (JArr c) (obj_set (bs "role") (JStr r) (obj_set (bs "model") (JStr m) []))).
Definition sampling_build (cs : list sampling_call) : json :=
  let '(m, r, l) := fold_left (fun st c => let '(m, r, l) := st in
                                  match c with SModel x => (x, r, l) | SRole x => (m, x, l) | SText t => (m, r, l ++ [make_text t]) end)
                      cs ([], [], []) in
  sampling_json m r l.
Definition make_text_sampling (m r t : bstr) : json := sampling_json m r [make_text t].

(** The list handlers with their strict shape checks, Server.cpp:695-699, 727-731, 764-768,
    797-801: None stands for the InternalError answer. *)
Definition checked (strict : bool) (key : bstr) (valid : json -> bool) (v : json) : option json :=
  if (strict && negb (valid v && valid_list key v))%bool then None else Some v.
Definition tools_answer (strict : bool) (g : registry) (params : option json) : option json :=
  checked strict (bs "tools") valid_tools (tools_list g params).
Definition resources_answer (strict ui : bool) (g : registry) (params : option json) : option json :=
  checked strict (bs "resources") valid_resources (resources_list ui g params).
Definition templates_answer (strict : bool) (g : registry) (params : option json) : option json :=
  checked strict (bs "resourceTemplates") valid_templates (templates_list g params).
Definition prompts_answer (strict : bool) (g : registry) (params : option json) : option json :=
  checked strict (bs "prompts") valid_prompts (prompts_list g params).
