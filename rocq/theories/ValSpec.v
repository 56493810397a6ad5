(** The shapes that strict mode is about, written as in the protocol's schema. *)
From Coq Require Import Ascii String List Arith NArith ZArith Bool.
From Verif Require Import StrModel DoubleModel JsonModel MapModel TaskModel DescModel DescSpec RegModel ValModel.
Import ListNotations.
Local Open Scope nat_scope.

Definition a_string (v : json) : Prop := exists s, v = JStr s.
Definition an_integer (v : json) : Prop := exists z, v = JInt z.
Definition a_number (v : json) : Prop := (exists z, v = JInt z) \/ (exists d, v = JDbl d).
Definition a_boolean (v : json) : Prop := exists b, v = JBool b.
Definition one_of (l : list bstr) (v : json) : Prop := exists s, v = JStr s /\ In s l.
Definition list_of (P : json -> Prop) (v : json) : Prop := exists l, v = JArr l /\ Forall P l.

(** A member that must be there, and one that may be missing. *)
Definition must (k : string) (P : json -> Prop) (o : obj) : Prop := exists v, obj_get (bs k) o = Some v /\ P v.
Definition may (k : string) (P : json -> Prop) (o : obj) : Prop := forall v, obj_get (bs k) o = Some v -> P v.
Definition an_object (P : obj -> Prop) (v : json) : Prop := exists o, v = JObj o /\ P o.

Definition Icon := an_object (fun o =>
  must "src" a_string o /\ may "mimeType" a_string o /\ may "sizes" (list_of a_string) o /\
  may "theme" (one_of [bs "light"; bs "dark"]) o).

Definition Annotations := an_object (fun o => may "audience" (list_of a_string) o /\ may "priority" a_number o).

(** Text or binary contents of a resource, not both. *)
Definition ResourceContents := an_object (fun o =>
  must "uri" a_string o /\ may "mimeType" a_string o /\
  ((must "text" a_string o /\ ~ must "blob" a_string o) \/ (must "blob" a_string o /\ ~ must "text" a_string o))).

Inductive Content : json -> Prop :=
| content_text o : must "type" (eq (JStr (bs "text"))) o -> must "text" a_string o -> may "annotations" Annotations o -> Content (JObj o)
| content_media o : must "type" (one_of [bs "image"; bs "audio"]) o -> must "mimeType" a_string o -> must "data" a_string o ->
    may "annotations" Annotations o -> Content (JObj o)
| content_link o : must "type" (eq (JStr (bs "resource_link"))) o -> must "uri" a_string o -> must "name" a_string o ->
    may "title" a_string o -> may "description" a_string o -> may "mimeType" a_string o -> may "size" an_integer o ->
    may "annotations" Annotations o -> Content (JObj o)
| content_embedded o : must "type" (eq (JStr (bs "resource"))) o -> must "resource" ResourceContents o ->
    may "annotations" Annotations o -> Content (JObj o).

Definition TextContent (v : json) : Prop := Content v /\ an_object (must "type" (eq (JStr (bs "text")))) v.

Definition PromptMessage (v : json) : Prop := Content v \/ an_object (fun o => must "role" a_string o /\ must "content" Content o) v.

Definition CallToolResult := an_object (fun o => must "content" (list_of Content) o /\ may "isError" a_boolean o).
Definition ReadResourceResult := an_object (fun o => must "contents" (list_of (fun v => TextContent v \/ ResourceContents v)) o).
Definition GetPromptResult := an_object (fun o => must "description" a_string o /\ must "messages" (list_of PromptMessage) o).
Definition CompleteResult := an_object (fun o => must "completion" (an_object (fun c =>
  must "values" (list_of a_string) c /\ may "total" an_integer c /\ may "hasMore" a_boolean c)) o).
Definition ElicitRequest := an_object (fun o => must "message" a_string o /\ must "requestedSchema" (fun _ => True) o /\
  may "title" a_string o /\ may "mode" a_string o /\ may "url" a_string o /\ may "elicitationId" a_string o).
Definition ElicitResult := an_object (fun o => must "action" (one_of [bs "accept"; bs "decline"; bs "cancel"]) o /\ may "elicitationId" a_string o).
Definition TaskShape := an_object (fun o => must "taskId" a_string o /\ must "status" a_string o /\ must "createdAt" a_string o /\
  must "lastUpdatedAt" a_string o /\ may "statusMessage" a_string o /\ may "pollInterval" an_integer o /\
  may "ttl" (fun v => an_integer v \/ v = JNull) o).
Definition CreateTaskResult := an_object (must "task" TaskShape).
Definition ListTasksResult := an_object (fun o => must "tasks" (list_of TaskShape) o /\ may "nextCursor" a_string o).

Definition Cursor (v : json) : Prop := a_string v \/ an_integer v.
Definition ToolShape := an_object (fun o => must "name" a_string o /\ may "title" a_string o /\ may "description" a_string o /\
  may "annotations" Annotations o /\ may "icons" (list_of Icon) o).
Definition ResourceShape := an_object (fun o => must "uri" a_string o /\ must "name" a_string o /\ may "title" a_string o /\
  may "description" a_string o /\ may "mimeType" a_string o /\ may "size" an_integer o /\ may "annotations" Annotations o /\
  may "icons" (list_of Icon) o).
Definition TemplateShape := an_object (fun o => must "uriTemplate" a_string o /\ must "name" a_string o /\ may "title" a_string o /\
  may "description" a_string o /\ may "mimeType" a_string o /\ may "annotations" Annotations o /\ may "icons" (list_of Icon) o).
Definition PromptShape := an_object (fun o => must "name" a_string o /\ may "title" a_string o /\ may "description" a_string o /\
  may "icons" (list_of Icon) o).
Definition ListToolsResult := an_object (fun o => must "tools" (list_of ToolShape) o /\ may "nextCursor" Cursor o).
Definition ListResourcesResult := an_object (fun o => must "resources" (list_of ResourceShape) o /\ may "nextCursor" Cursor o).
Definition ListTemplatesResult := an_object (fun o => must "resourceTemplates" (list_of TemplateShape) o /\ may "nextCursor" Cursor o).
Definition ListPromptsResult := an_object (fun o => must "prompts" (list_of PromptShape) o /\ may "nextCursor" Cursor o).
Definition ListRootsResult := an_object (fun o => must "roots" (list_of (an_object (fun r => must "uri" a_string r /\ may "name" a_string r))) o).

Definition SamplingContent (v : json) : Prop := Content v \/ list_of Content v.
Definition CreateMessageParams := an_object (fun o => must "messages" (list_of (an_object (may "content" SamplingContent))) o).
Definition CreateMessageResult := an_object (fun o => must "model" a_string o /\ must "role" a_string o /\ must "content" SamplingContent o).

(** Icons and annotations of a registered entry that strict mode will show. *)
Definition shows (annot : option json) (icons : option (list icon)) : Prop :=
  (forall a, annot = Some a -> Annotations a) /\ themed icons.
