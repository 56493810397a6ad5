(** Descriptions of tools, resources, resource templates and prompts: how the server writes
    them into list results and how the client reads them back. *)
From Coq Require Import Ascii String List Arith NArith ZArith Bool.
From Verif Require Import StrModel DoubleModel JsonModel MapModel TaskModel.
Import ListNotations.
Local Open Scope nat_scope.

(** struct Icon, include/mcp/Protocol.h:42-57. *)
Record icon := {
  ic_src : bstr;
  ic_mime : option bstr;
  ic_sizes : option (list bstr);
  ic_theme : option bstr
}.

(** struct Tool, Protocol.h:140-171. *)
Record tool := {
  tl_name : bstr;
  tl_title : option bstr;
  tl_desc : bstr;
  tl_icons : option (list icon);
  tl_input : json;
  tl_output : option json;
  tl_annot : option json;
  tl_exec : option json;
  tl_meta : option json
}.

(** struct Resource, Protocol.h:219-248. *)
Record resource := {
  rs_uri : bstr;
  rs_name : bstr;
  rs_title : option bstr;
  rs_desc : option bstr;
  rs_mime : option bstr;
  rs_size : option Z;
  rs_annot : option json;
  rs_meta : option json;
  rs_icons : option (list icon)
}.

(** struct ResourceTemplate, Protocol.h:250-277. *)
Record template := {
  tp_uri : bstr;
  tp_name : bstr;
  tp_title : option bstr;
  tp_desc : option bstr;
  tp_mime : option bstr;
  tp_annot : option json;
  tp_meta : option json;
  tp_icons : option (list icon)
}.

(** struct Prompt, Protocol.h:305-325. *)
Record prompt := {
  pr_name : bstr;
  pr_title : option bstr;
  pr_desc : bstr;
  pr_args : option json;
  pr_meta : option json;
  pr_icons : option (list icon)
}.

(** SerializeIconObject, src/mcp/MetadataSupport.h:22-39. *)
Definition icon_json (i : icon) : json :=
  let o := obj_set (bs "src") (JStr (ic_src i)) [] in
  let o := opt_set (bs "mimeType") JStr (ic_mime i) o in
  let o := opt_set (bs "sizes") (fun l => JArr (map JStr l)) (ic_sizes i) o in
  JObj (opt_set (bs "theme") JStr (ic_theme i) o).

(** SerializeIcons, MetadataSupport.h:41-47. *)
Definition icons_json (l : list icon) : json := JArr (map icon_json l).

(** AddOptionalIconsField, MetadataSupport.h:49-55. *)
Definition set_icons (l : option (list icon)) (o : obj) : obj := opt_set (bs "icons") icons_json l o.

(** IsSupportedIconTheme, MetadataSupport.h:18-20. *)
Definition theme_known (s : bstr) : bool := (beq s (bs "light") || beq s (bs "dark"))%bool.

(** The loop over a sizes array, MetadataSupport.h:86-91: the first entry that is not a string
    rejects the icon. *)
Fixpoint all_strs (l : list json) : option (list bstr) :=
  match l with
  | [] => Some []
  | JStr s :: r => match all_strs r with Some x => Some (s :: x) | None => None end
  | _ :: _ => None
  end.

(** ParseIconObject, MetadataSupport.h:57-109. The early returns all give nullopt, so their
    order does not show. *)
Definition parse_icon (o : obj) : option icon :=
  match obj_get (bs "src") o with
  | Some (JStr src) =>
      match (match obj_get (bs "mimeType") o with
             | None => Some None | Some (JStr s) => Some (Some s) | Some _ => None end) with
      | None => None
      | Some mime =>
          match (match obj_get (bs "sizes") o with
                 | None => Some None
                 | Some (JArr l) => match all_strs l with Some x => Some (Some x) | None => None end
                 | Some _ => None end) with
          | None => None
          | Some sizes =>
              match (match obj_get (bs "theme") o with
                     | None => Some None
                     | Some (JStr s) => if theme_known s then Some (Some s) else None
                     | Some _ => None end) with
              | None => None
              | Some theme => Some {| ic_src := src; ic_mime := mime; ic_sizes := sizes; ic_theme := theme |}
              end
          end
      end
  | _ => None
  end.

(** The loop of ParseIconsField, MetadataSupport.h:124-135: one bad icon rejects the list. *)
Fixpoint parse_icon_list (l : list json) : option (list icon) :=
  match l with
  | [] => Some []
  | JObj o :: r =>
      match parse_icon o with
      | Some i => match parse_icon_list r with Some x => Some (i :: x) | None => None end
      | None => None
      end
  | _ :: _ => None
  end.

(** ParseIconsField(object, "icons"), MetadataSupport.h:111-137. *)
Definition get_icons (o : obj) : option (list icon) :=
  match obj_get (bs "icons") o with Some (JArr l) => parse_icon_list l | _ => None end.

(** A string field written only when it is not empty: Server.cpp:499-501 and 573-575. *)
Definition set_nonempty (k s : bstr) (o : obj) : obj := match s with [] => o | _ :: _ => obj_set k (JStr s) o end.

Definition idj (v : json) : json := v.

(** makeToolObj, src/mcp/Server.cpp:493-519. *)
Definition tool_json (t : tool) : json :=
  let o := obj_set (bs "name") (JStr (tl_name t)) [] in
  let o := opt_set (bs "title") JStr (tl_title t) o in
  let o := set_nonempty (bs "description") (tl_desc t) o in
  let o := set_icons (tl_icons t) o in
  let o := obj_set (bs "inputSchema") (tl_input t) o in
  let o := opt_set (bs "outputSchema") idj (tl_output t) o in
  let o := opt_set (bs "annotations") idj (tl_annot t) o in
  let o := opt_set (bs "execution") idj (tl_exec t) o in
  JObj (opt_set META idj (tl_meta t) o).

(** makeResourceObj, Server.cpp:521-546. *)
Definition resource_json (r : resource) : json :=
  let o := obj_set (bs "uri") (JStr (rs_uri r)) [] in
  let o := obj_set (bs "name") (JStr (rs_name r)) o in
  let o := opt_set (bs "title") JStr (rs_title r) o in
  let o := opt_set (bs "description") JStr (rs_desc r) o in
  let o := opt_set (bs "mimeType") JStr (rs_mime r) o in
  let o := opt_set (bs "size") JInt (rs_size r) o in
  let o := opt_set (bs "annotations") idj (rs_annot r) o in
  let o := opt_set META idj (rs_meta r) o in
  JObj (set_icons (rs_icons r) o).

(** makeResourceTemplateObj, Server.cpp:548-569. *)
Definition template_json (t : template) : json :=
  let o := obj_set (bs "uriTemplate") (JStr (tp_uri t)) [] in
  let o := obj_set (bs "name") (JStr (tp_name t)) o in
  let o := opt_set (bs "title") JStr (tp_title t) o in
  let o := opt_set (bs "description") JStr (tp_desc t) o in
  let o := opt_set (bs "mimeType") JStr (tp_mime t) o in
  let o := opt_set (bs "annotations") idj (tp_annot t) o in
  let o := opt_set META idj (tp_meta t) o in
  JObj (set_icons (tp_icons t) o).

(** makePromptObj, Server.cpp:571-589. *)
Definition prompt_json (p : prompt) : json :=
  let o := obj_set (bs "name") (JStr (pr_name p)) [] in
  let o := opt_set (bs "title") JStr (pr_title p) o in
  let o := set_nonempty (bs "description") (pr_desc p) o in
  let o := opt_set (bs "arguments") idj (pr_args p) o in
  let o := opt_set META idj (pr_meta p) o in
  JObj (set_icons (pr_icons p) o).

Definition or_null (v : option json) : json := match v with Some x => x | None => JNull end.

(** PopulateToolFromListItem on a fresh Tool, src/mcp/Client.cpp:31-70. *)
Definition parse_tool (o : obj) : tool :=
  {| tl_name := or_empty (get_str (bs "name") o); tl_title := get_str (bs "title") o;
     tl_desc := or_empty (get_str (bs "description") o); tl_icons := get_icons o;
     tl_input := or_null (obj_get (bs "inputSchema") o); tl_output := obj_get (bs "outputSchema") o;
     tl_annot := obj_get (bs "annotations") o; tl_exec := obj_get (bs "execution") o;
     tl_meta := obj_get META o |}.

(** PopulateResourceFromListItem on a fresh Resource, Client.cpp:72-113. *)
Definition parse_resource (o : obj) : resource :=
  {| rs_uri := or_empty (get_str (bs "uri") o); rs_name := or_empty (get_str (bs "name") o);
     rs_title := get_str (bs "title") o; rs_desc := get_str (bs "description") o;
     rs_mime := get_str (bs "mimeType") o; rs_size := get_int (bs "size") o;
     rs_annot := obj_get (bs "annotations") o; rs_meta := obj_get META o; rs_icons := get_icons o |}.

(** PopulateResourceTemplateFromListItem on a fresh ResourceTemplate, Client.cpp:115-151. *)
Definition parse_template (o : obj) : template :=
  {| tp_uri := or_empty (get_str (bs "uriTemplate") o); tp_name := or_empty (get_str (bs "name") o);
     tp_title := get_str (bs "title") o; tp_desc := get_str (bs "description") o;
     tp_mime := get_str (bs "mimeType") o; tp_annot := obj_get (bs "annotations") o;
     tp_meta := obj_get META o; tp_icons := get_icons o |}.

(** PopulatePromptFromListItem on a fresh Prompt, Client.cpp:153-178. *)
Definition parse_prompt (o : obj) : prompt :=
  {| pr_name := or_empty (get_str (bs "name") o); pr_title := get_str (bs "title") o;
     pr_desc := or_empty (get_str (bs "description") o); pr_args := obj_get (bs "arguments") o;
     pr_meta := obj_get META o; pr_icons := get_icons o |}.
