(** What the conformance profile promises, without reference to how its handlers are written. *)
From Coq Require Import Ascii String List Permutation Arith NArith ZArith Bool.
From Verif Require Import StrModel DoubleModel JsonModel JsonSpec ObjSpec MapModel RpcModel TaskModel TaskSpec DescModel DescSpec RegModel RegSpec TmplModel TmplSpec ValSpec ReadModel ReadSpec SubModel LogModel CancelModel ServModel ServSpec PeerModel PeerSpec ProfModel.
Import ListNotations.
Local Open Scope nat_scope.

(** A server on which the profile was registered after whatever else. *)
Definition offers (s : server) (ops : list reg_op) (b : nat) : Prop := sv_reg s = reg_run (ops ++ profile_ops b).

(** A plain call of the tool n, and a request for the prompt n, with these arguments; a request to
    read u, whole or in part. *)
Definition named (q : request) (method n : bstr) (a : json) : Prop :=
  rq_method q = method /\ exists o, rq_params q = Some (JObj o) /\ obj_get (bs "name") o = Some (JStr n) /\ obj_get (bs "arguments") o = Some a /\
    obj_get (bs "task") o = None.
Definition reads (q : request) (u : bstr) (offset len : option Z) : Prop := rq_method q = bs "resources/read" /\ wants u offset len (rq_params q).

(** The tools of the profile. *)
Definition profile_tools : list bstr :=
  [bs "test_simple_text"; bs "test_image_content"; bs "test_audio_content"; bs "test_embedded_resource"; bs "test_multiple_content_types";
   bs "test_tool_with_logging"; bs "test_error_handling"; bs "test_tool_with_progress"; bs "test_sampling"; bs "test_elicitation";
   bs "test_elicitation_sep1034_defaults"; bs "test_elicitation_sep1330_enums"; bs "json_schema_2020_12_tool"].

(** An item of content. *)
Inductive item := AText (t : bstr) | AMedia (ty mime data : bstr) | AResource (uri text mime : bstr).
Definition is_item (i : item) (v : json) : Prop :=
  exists o, v = JObj o /\
    match i with
    | AText t => obj_get (bs "type") o = Some (JStr (bs "text")) /\ obj_get (bs "text") o = Some (JStr t)
    | AMedia ty m d => obj_get (bs "type") o = Some (JStr ty) /\ obj_get (bs "mimeType") o = Some (JStr m) /\ obj_get (bs "data") o = Some (JStr d)
    | AResource u t m => obj_get (bs "type") o = Some (JStr (bs "resource")) /\ exists r, obj_get (bs "resource") o = Some (JObj r) /\
        obj_get (bs "uri") r = Some (JStr u) /\ obj_get (bs "text") r = Some (JStr t) /\ obj_get (bs "mimeType") r = Some (JStr m)
    end.

(** The call is answered with a result of the protocol's shape that has these items, marked as an
    error or not; the server stays as it was. *)
Definition answered (w : world) (pre : bool) (q : request) (s : server) (error : bool) (l : list item) : Prop :=
  exists r o vs, dispatch w pre false false q s = (Reply r, s) /\ succeeds r (JObj o) /\ CallToolResult (JObj o) /\
    obj_get (bs "content") o = Some (JArr vs) /\ obj_get (bs "isError") o = Some (JBool error) /\ Forall2 is_item l vs.

(** The tools whose answer is always the same. *)
Definition constant_answers : list (bstr * bool * list item) :=
  [(bs "test_simple_text", false, [AText (bs "This is a simple text response for testing.")]);
   (bs "test_image_content", false, [AMedia (bs "image") (bs "image/png") PNG]);
   (bs "test_audio_content", false, [AMedia (bs "audio") (bs "audio/wav") WAV]);
   (bs "test_embedded_resource", false, [AResource (bs "test://embedded-resource") (bs "This is an embedded resource content.") (bs "text/plain")]);
   (bs "test_multiple_content_types", false,
     [AText (bs "Multiple content types test:"); AMedia (bs "image") (bs "image/png") PNG;
      AResource (bs "test://mixed-content-resource") (bs "{""test"":""data"",""value"":123}") (bs "application/json")]);
   (bs "test_tool_with_logging", false, [AText (bs "Tool with logging completed.")]);
   (bs "test_error_handling", true, [AText (bs "This tool intentionally returns an error for testing")]);
   (bs "test_tool_with_progress", false, [AText (bs "Tool with progress completed.")]);
   (bs "json_schema_2020_12_tool", false, [AText (bs "JSON Schema 2020-12 tool executed.")])].

(** A log message of level info with this text. *)
Definition tells_log (m : sent) (text : bstr) : Prop :=
  exists n o, m = SNote n /\ nt_method n = bs "notifications/message" /\ nt_params n = Some (JObj o) /\
    obj_get (bs "level") o = Some (JStr (bs "info")) /\ obj_get (bs "data") o = Some (JStr text).
Definition log_texts : list bstr := [bs "Tool execution started"; bs "Tool processing data"; bs "Tool execution completed"].

(** The steps of the progress tool, and the token it reports under. *)
Definition progress_steps : list (dbl * bstr) :=
  [(DZero false, bs "Starting tool execution"); (DFin false 4503599627370496 (-53), bs "Processing tool execution");
   (DFin false 4503599627370496 (-52), bs "Completed tool execution")].
Definition token_of (q : request) : bstr := match progress_token (rq_params q) with Some t => t | None => bs "progress-test-1" end.

(** A progress notification that, however it is carried, reaches the progress handler of a client,
    strict or not. *)
Definition tells_progress (m : sent) (token : bstr) (step : dbl * bstr) : Prop :=
  exists n, m = SNote n /\ forall n' strict ea, arrives n n' -> ea_progress ea = true ->
    ef_call (peer_notice strict ea n') = Some (HProgress token (fst step) (snd step)).

(** The string argument of a call, if it has one. *)
Definition argument (a : json) (k : bstr) (x : option bstr) : Prop :=
  match x with
  | Some t => exists o, a = JObj o /\ obj_get k o = Some (JStr t)
  | None => forall o t, a = JObj o -> obj_get k o <> Some (JStr t)
  end.
Definition or_else (x : option bstr) (d : bstr) : bstr := match x with Some t => t | None => d end.

(** The transport brings the answers of a client, as they arrive. *)
Definition brings (x : outside) (ap : app) (c : client) : Prop :=
  exists ask, ou_ask x = Some ask /\ forall m p, exists q, rq_method q = m /\ same_opt p (rq_params q) /\
    forall r c', peer_dispatch ap false q c = (Reply r, c') -> exists r', delivered r r' /\ ask m p = Ret r'.

(** The first text among the contents of a sampling result. *)
Definition first_text (v : json) (t : bstr) : Prop :=
  exists o, v = JObj o /\
    ((exists c, obj_get (bs "content") o = Some c /\ is_item (AText t) c) \/
     (exists before i after, obj_get (bs "content") o = Some (JArr (before ++ i :: after)) /\ is_item (AText t) i /\
        Forall (fun c => forall x, ~ is_item (AText x) c) before)).

(** The messages of a sampling request: one text of the user. *)
Definition one_user_text (messages : json) (t : bstr) : Prop :=
  exists o i, messages = JArr [JObj o] /\ obj_get (bs "role") o = Some (JStr (bs "user")) /\ obj_get (bs "content") o = Some (JArr [i]) /\ is_item (AText t) i.

(** The transport fails: there is none, or it throws, or it brings an error. *)
Inductive no_answer (x : outside) : Prop :=
| no_transport : ou_ask x = None -> no_answer x
| no_reply ask : ou_ask x = Some ask -> (forall m p, exists what, ask m p = Threw what) -> no_answer x
| an_error ask : ou_ask x = Some ask -> (forall m p, exists r c msg, ask m p = Ret r /\ rs_result r = None /\
    rs_error r = Some (error_object c msg None)) -> no_answer x.

(** A prompt answered with a result of the protocol's shape: messages of the user, one per item. *)
Definition prompted (w : world) (q : request) (s : server) (desc : bstr) (l : list item) : Prop :=
  exists r o vs, dispatch w false false false q s = (Reply r, s) /\ succeeds r (JObj o) /\ GetPromptResult (JObj o) /\
    obj_get (bs "description") o = Some (JStr desc) /\ obj_get (bs "messages") o = Some (JArr vs) /\
    Forall2 (fun i v => exists m c, v = JObj m /\ obj_get (bs "role") m = Some (JStr (bs "user")) /\ obj_get (bs "content") m = Some c /\ is_item i c) l vs.

(** A read answered with a result of the protocol's shape: one item, with this uri and type, that is
    text or data. *)
Definition read_back (w : world) (pre : bool) (q : request) (s : server) (u mime kind payload : bstr) : Prop :=
  exists r o i, dispatch w pre false false q s = (Reply r, s) /\ succeeds r (JObj o) /\ ReadResourceResult (JObj o) /\
    obj_get (bs "contents") o = Some (JArr [JObj i]) /\ obj_get (bs "uri") i = Some (JStr u) /\ obj_get (bs "mimeType") i = Some (JStr mime) /\
    obj_get kind i = Some (JStr payload).

(** The fixed resources: uri, type, kind and payload. *)
Definition fixed_resources : list (bstr * bstr * bstr * bstr) :=
  [(bs "test://static-text", bs "text/plain", bs "text", bs "This is the content of the static text resource.");
   (bs "test://static-binary", bs "image/png", bs "blob", PNG);
   (bs "test://watched-resource", bs "text/plain", bs "text", bs "Watched resource content.")].

(** The uri of the data with this id. No other registration covers it. *)
Definition data_uri (i : bstr) : bstr := bs "test://template/" ++ i ++ bs "/data".
Definition alone (ops : list reg_op) (u : bstr) : Prop :=
  resource_now u (rev ops) = None /\ forall t h, serves ops u t h -> tp_uri t = bs "test://template/{id}/data".

(** A text that is the JSON document with this id. *)
Definition data_document (text i : bstr) : Prop :=
  parse_json text = POk (JObj [(bs "id", JStr i); (bs "templateTest", JBool true); (bs "data", JStr (bs "Data for ID: " ++ i))]) [].

(** An id that a JSON string holds as it is. *)
Definition unescaped (i : bstr) : Prop := forall c, In c i -> (32 <= code c)%N /\ c <> """"%char /\ c <> "\"%char.

(** What is found in a value along a path of member names. *)
Fixpoint at_path (v : json) (path : list bstr) : option json :=
  match path, v with
  | [], _ => Some v
  | k :: r, JObj o => match obj_get k o with Some x => at_path x r | None => None end
  | _ :: _, _ => None
  end.
Definition strings (l : list bstr) : json := JArr (map JStr l).
Definition choice (e : bstr * bstr) : json := JObj [(bs "const", JStr (fst e)); (bs "title", JStr (snd e))].
Definition choices (a b c : bstr) : json := JArr (map choice [(bs "value1", a); (bs "value2", b); (bs "value3", c)]).

(** The questions of the elicitation tools: what is found where in the requested schema. *)
Definition names_asked : list (list bstr * json) :=
  [([bs "properties"; bs "username"; bs "type"], JStr (bs "string")); ([bs "properties"; bs "email"; bs "type"], JStr (bs "string"));
   ([bs "required"], strings [bs "username"; bs "email"])].
Definition defaults_asked : list (list bstr * json) :=
  [([bs "properties"; bs "name"; bs "default"], JStr (bs "John Doe")); ([bs "properties"; bs "age"; bs "default"], JInt 30);
   ([bs "properties"; bs "score"; bs "default"], JDbl (DFin false 6720215068966912 (-46)));
   ([bs "properties"; bs "status"; bs "default"], JStr (bs "active")); ([bs "properties"; bs "status"; bs "enum"], strings [bs "active"; bs "inactive"; bs "pending"]);
   ([bs "properties"; bs "verified"; bs "default"], JBool true)].
Definition enums_asked : list (list bstr * json) :=
  [([bs "properties"; bs "untitledSingle"; bs "enum"], strings [bs "option1"; bs "option2"; bs "option3"]);
   ([bs "properties"; bs "titledSingle"; bs "oneOf"], choices (bs "First Option") (bs "Second Option") (bs "Third Option"));
   ([bs "properties"; bs "legacyEnum"; bs "enum"], strings [bs "opt1"; bs "opt2"; bs "opt3"]);
   ([bs "properties"; bs "legacyEnum"; bs "enumNames"], strings [bs "Option One"; bs "Option Two"; bs "Option Three"]);
   ([bs "properties"; bs "untitledMulti"; bs "items"; bs "enum"], strings [bs "option1"; bs "option2"; bs "option3"]);
   ([bs "properties"; bs "titledMulti"; bs "items"; bs "anyOf"], choices (bs "First Choice") (bs "Second Choice") (bs "Third Choice"))].
Definition asks (e : elicit) (message : bstr) (l : list (list bstr * json)) : Prop :=
  el_message e = message /\ forall p v, In (p, v) l -> exists v', at_path (el_schema e) p = Some v' /\ same v v'.

(** The text an elicitation tool answers with, by what the user did. *)
Definition user_response (r : elicited) : bstr :=
  bs "User response: " ++ ed_action r ++ match ed_content r with Some _ => bs " received" | None => [] end.
Definition completed_response (r : elicited) : bstr :=
  bs "Elicitation completed: action=" ++ ed_action r ++ bs ", content=" ++ match ed_content r with Some _ => bs "present" | None => bs "missing" end.
