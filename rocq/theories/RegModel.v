(** The server's registries, the four list requests, and the client helpers that page through
    them. *)
From Coq Require Import Ascii String List Arith NArith ZArith Bool.
From Verif Require Import StrModel DoubleModel JsonModel MapModel TaskModel DescModel.
Import ListNotations.
Local Open Scope nat_scope.

(** A registered std::function: None is an empty one, Some n the callable numbered n. *)
Definition callable := option nat.

(** The registries of Server::Impl, src/mcp/Server.cpp:1099-1106. *)
Record registry := {
  rg_th : list (bstr * callable);      (* toolHandlers *)
  rg_tm : list (bstr * tool);          (* toolMetadata *)
  rg_rh : list (bstr * callable);      (* resourceHandlers *)
  rg_rm : list (bstr * resource);      (* resourceMetadata *)
  rg_ru : list bstr;                   (* resourceUris *)
  rg_rt : list (template * callable);  (* resourceTemplates *)
  rg_ph : list (bstr * callable);      (* promptHandlers *)
  rg_pm : list (bstr * prompt)         (* promptMetadata *)
}.

Definition registry0 : registry :=
  {| rg_th := []; rg_tm := []; rg_rh := []; rg_rm := []; rg_ru := []; rg_rt := []; rg_ph := []; rg_pm := [] |}.

Definition set_tools (th : list (bstr * callable)) (tm : list (bstr * tool)) (g : registry) : registry :=
  {| rg_th := th; rg_tm := tm; rg_rh := rg_rh g; rg_rm := rg_rm g; rg_ru := rg_ru g; rg_rt := rg_rt g; rg_ph := rg_ph g; rg_pm := rg_pm g |}.
Definition set_resources (rh : list (bstr * callable)) (rm : list (bstr * resource)) (ru : list bstr) (g : registry) : registry :=
  {| rg_th := rg_th g; rg_tm := rg_tm g; rg_rh := rh; rg_rm := rm; rg_ru := ru; rg_rt := rg_rt g; rg_ph := rg_ph g; rg_pm := rg_pm g |}.
Definition set_templates (rt : list (template * callable)) (g : registry) : registry :=
  {| rg_th := rg_th g; rg_tm := rg_tm g; rg_rh := rg_rh g; rg_rm := rg_rm g; rg_ru := rg_ru g; rg_rt := rt; rg_ph := rg_ph g; rg_pm := rg_pm g |}.
Definition set_prompts (ph : list (bstr * callable)) (pm : list (bstr * prompt)) (g : registry) : registry :=
  {| rg_th := rg_th g; rg_tm := rg_tm g; rg_rh := rg_rh g; rg_rm := rg_rm g; rg_ru := rg_ru g; rg_rt := rg_rt g; rg_ph := ph; rg_pm := pm |}.

(** The metadata made up for a tool registered by name only, Server.cpp:2795-2798. *)
Definition default_tool (n : bstr) : tool :=
  {| tl_name := n; tl_title := None; tl_desc := bs "Tool: " ++ n; tl_icons := None;
     tl_input := JObj (obj_set (bs "properties") (JObj []) (obj_set (bs "type") (JStr (bs "object")) []));
     tl_output := None; tl_annot := None; tl_exec := None; tl_meta := None |}.

(** RegisterTool(name, handler), Server.cpp:2786-2804. The list-changed notification sent after
    the lock is released is left out here and below. *)
Definition reg_tool_name (n : bstr) (h : callable) (g : registry) : registry :=
  set_tools (aset n h (rg_th g))
            (match aget n (rg_tm g) with Some _ => rg_tm g | None => aset n (default_tool n) (rg_tm g) end) g.

(** RegisterTool(Tool, handler), Server.cpp:2806-2820. *)
Definition reg_tool (t : tool) (h : callable) (g : registry) : registry :=
  set_tools (aset (tl_name t) h (rg_th g)) (aset (tl_name t) t (rg_tm g)) g.

(** UnregisterTool, Server.cpp:2822-2835. *)
Definition unreg_tool (n : bstr) (g : registry) : registry := set_tools (adel n (rg_th g)) (adel n (rg_tm g)) g.

(** RegisterResource(Resource, handler), Server.cpp:2842-2859. *)
Definition reg_resource (r : resource) (h : callable) (g : registry) : registry :=
  set_resources (aset (rs_uri r) h (rg_rh g)) (aset (rs_uri r) r (rg_rm g))
                (match aget (rs_uri r) (rg_rh g) with Some _ => rg_ru g | None => rg_ru g ++ [rs_uri r] end) g.

(** RegisterResource(uri, handler), Server.cpp:2837-2840. *)
Definition default_resource (u : bstr) : resource :=
  {| rs_uri := u; rs_name := bs "Resource: " ++ u; rs_title := None; rs_desc := None; rs_mime := None; rs_size := None;
     rs_annot := None; rs_meta := None; rs_icons := None |}.
Definition reg_resource_uri (u : bstr) (h : callable) (g : registry) : registry := reg_resource (default_resource u) h g.

(** UnregisterResource, Server.cpp:2861-2877. *)
Definition unreg_resource (u : bstr) (g : registry) : registry :=
  set_resources (adel u (rg_rh g)) (adel u (rg_rm g)) (filter (fun v => negb (beq v u)) (rg_ru g)) g.

(** RegisterPrompt, both overloads, Server.cpp:2879-2897. *)
Definition reg_prompt (p : prompt) (h : callable) (g : registry) : registry :=
  set_prompts (aset (pr_name p) h (rg_ph g)) (aset (pr_name p) p (rg_pm g)) g.
Definition default_prompt (n : bstr) : prompt :=
  {| pr_name := n; pr_title := None; pr_desc := bs "Prompt: " ++ n; pr_args := None; pr_meta := None; pr_icons := None |}.
Definition reg_prompt_name (n : bstr) (h : callable) (g : registry) : registry := reg_prompt (default_prompt n) h g.

(** UnregisterPrompt, Server.cpp:2899-2912. *)
Definition unreg_prompt (n : bstr) (g : registry) : registry := set_prompts (adel n (rg_ph g)) (adel n (rg_pm g)) g.

(** UnregisterResourceTemplate, Server.cpp:3265-3282. *)
Definition without_template (u : bstr) (l : list (template * callable)) : list (template * callable) :=
  filter (fun e => negb (beq (tp_uri (fst e)) u)) l.
Definition unreg_template (u : bstr) (g : registry) : registry := set_templates (without_template u (rg_rt g)) g.

(** RegisterResourceTemplate, both overloads, Server.cpp:3224-3263; the one without a handler
    stores an empty function. *)
Definition reg_template (t : template) (h : callable) (g : registry) : registry :=
  set_templates (without_template (tp_uri t) (rg_rt g) ++ [(t, h)]) g.

(** The calls an application makes, each under registryMutex. *)
Inductive reg_op :=
| RegToolName (n : bstr) (h : callable) | RegTool (t : tool) (h : callable) | UnregTool (n : bstr)
| RegResourceUri (u : bstr) (h : callable) | RegResource (r : resource) (h : callable) | UnregResource (u : bstr)
| RegPromptName (n : bstr) (h : callable) | RegPrompt (p : prompt) (h : callable) | UnregPrompt (n : bstr)
| RegTemplate (t : template) (h : callable) | UnregTemplate (u : bstr).

Definition reg_step (g : registry) (o : reg_op) : registry :=
  match o with
  | RegToolName n h => reg_tool_name n h g
  | RegTool t h => reg_tool t h g
  | UnregTool n => unreg_tool n g
  | RegResourceUri u h => reg_resource_uri u h g
  | RegResource r h => reg_resource r h g
  | UnregResource u => unreg_resource u g
  | RegPromptName n h => reg_prompt_name n h g
  | RegPrompt p h => reg_prompt p h g
  | UnregPrompt n => unreg_prompt n g
  | RegTemplate t h => reg_template t h g
  | UnregTemplate u => unreg_template u g
  end.

Definition reg_run (ops : list reg_op) : registry := fold_left reg_step ops registry0.

(** operator< on std::string: char_traits<char>::compare, unsigned bytes, shorter first. *)
Fixpoint blt (a b : bstr) : bool :=
  match a, b with
  | _, [] => false
  | [], _ :: _ => true
  | x :: a', y :: b' => if N.ltb (code x) (code y) then true else if N.ltb (code y) (code x) then false else blt a' b'
  end.

(** std::sort by a key. The keys of the lists sorted here are distinct, so the result does not
    depend on the algorithm (RegProofs.sort_unique). *)
Fixpoint insert_by {A : Type} (key : A -> bstr) (x : A) (l : list A) : list A :=
  match l with
  | [] => [x]
  | y :: r => if blt (key y) (key x) then y :: insert_by key x r else x :: y :: r
  end.
Definition sort_by {A : Type} (key : A -> bstr) (l : list A) : list A := fold_right (insert_by key) [] l.

(** collectVisibleResources, Server.cpp:588-612. ui: the client announced the ui extension. *)
Definition UI : bstr := bs "ui://".
Definition visible_resources (ui : bool) (g : registry) : list resource :=
  flat_map (fun u =>
    match aget u (rg_rm g) with
    | None => []
    | Some r =>
        if starts_with UI u then
          if ui then
            [match rs_mime r with
             | Some _ => r
             | None => {| rs_uri := rs_uri r; rs_name := rs_name r; rs_title := rs_title r; rs_desc := rs_desc r;
                          rs_mime := Some (bs "text/html+mcp"); rs_size := rs_size r; rs_annot := rs_annot r;
                          rs_meta := rs_meta r; rs_icons := rs_icons r |}
             end]
          else []
        else [r]
    end) (rg_ru g).

(** The sorted vectors of the handlers: Server.cpp:672-679, 708-709, 742-750, 783-784. *)
Definition tool_list (g : registry) : list tool := sort_by tl_name (map snd (rg_tm g)).
Definition resource_list (ui : bool) (g : registry) : list resource := sort_by rs_uri (visible_resources ui g).
Definition template_list (g : registry) : list template := sort_by tp_uri (map fst (rg_rt g)).
Definition prompt_list (g : registry) : list prompt := sort_by pr_name (map snd (rg_pm g)).

(** parsePagingParams, Server.cpp:1771-1795: start and limit. *)
Definition paging (params : option json) : N * option N :=
  match params with
  | Some (JObj o) =>
      (match obj_get (bs "cursor") o with
       | Some (JStr c) => match cursor_start c with Some n => n | None => 0%N end
       | Some (JInt z) => Z.to_N (Z.modulo z (Z.of_N two64))
       | _ => 0%N
       end,
       match obj_get (bs "limit") o with
       | Some (JInt n) => if Z.ltb 0 n then Some (Z.to_N n) else None
       | _ => None
       end)
  | _ => (0%N, None)
  end.

(** computeNextCursor, Server.cpp:1797-1802. *)
Definition next_cursor (e total : N) (limit : option N) : option bstr :=
  match limit with Some _ => if N.ltb e total then Some (print_N e) else None | None => None end.

(** The common body of handleToolsList, handleResourcesList, handleResourceTemplatesList and
    handlePromptsList, Server.cpp:668-807, without the strict shape check. *)
Definition list_result {A : Type} (key : bstr) (js : A -> json) (l : list A) (params : option json) : json :=
  let '(s, limit) := paging params in
  let total := N.of_nat (length l) in
  let start := if N.ltb total s then total else s in
  let e := match limit with Some n => N.min total (N.modulo (start + n) two64) | None => total end in
  let items := firstn (N.to_nat e - N.to_nat start) (skipn (N.to_nat start) l) in
  JObj (opt_set (bs "nextCursor") JStr (next_cursor e total limit) (obj_set key (JArr (map js items)) [])).

Definition tools_list (g : registry) : option json -> json := list_result (bs "tools") tool_json (tool_list g).
Definition resources_list (ui : bool) (g : registry) : option json -> json :=
  list_result (bs "resources") resource_json (resource_list ui g).
Definition templates_list (g : registry) : option json -> json :=
  list_result (bs "resourceTemplates") template_json (template_list g).
Definition prompts_list (g : registry) : option json -> json := list_result (bs "prompts") prompt_json (prompt_list g).

(** The parameters sent by coListToolsPaged and its three siblings, src/mcp/Client.cpp:1525-1535,
    1661-1671, 1797-1807, 1939-1949. *)
Definition page_params (cursor : option bstr) (limit : option Z) : option json :=
  let o := opt_set (bs "cursor") JStr cursor [] in
  let o := match limit with Some n => if Z.ltb 0 n then obj_set (bs "limit") (JInt n) o else o | None => o end in
  match o with [] => None | _ :: _ => Some (JObj o) end.

(** How they read the result, Client.cpp:1559-1583 and siblings. *)
Definition parse_page {A : Type} (key : bstr) (parse : obj -> A) (v : json) : list A * option bstr :=
  match v with
  | JObj o =>
      (match obj_get key o with
       | Some (JArr l) => flat_map (fun x => match x with JObj i => [parse i] | _ => [] end) l
       | _ => []
       end,
       match obj_get (bs "nextCursor") o with
       | Some (JStr c) => Some c
       | Some (JInt z) => Some (print_Z z)
       | _ => None
       end)
  | _ => ([], None)
  end.

(** listAllTools, listAllResources, listAllResourceTemplates and listAllPrompts,
    include/mcp/typed/ClientTyped.h:351-406. ask: one remote call. None: the fuel ran out. *)
Fixpoint list_all {A : Type} (ask : option json -> list A * option bstr) (limit : option Z) (fuel : nat)
  (cursor : option bstr) : option (list A) :=
  match fuel with
  | 0 => None
  | S f =>
      let '(page, next) := ask (page_params cursor limit) in
      match next with
      | None => Some page
      | Some c => match list_all ask limit f (Some c) with Some r => Some (page ++ r) | None => None end
      end
  end.

(** One remote call: the request's parameters and the result cross the connection, which may
    reorder the members of objects. *)
Definition remote {A : Type} (net : json -> json) (key : bstr) (parse : obj -> A) (server : option json -> json)
  (params : option json) : list A * option bstr :=
  parse_page key parse (net (server (option_map net params))).
