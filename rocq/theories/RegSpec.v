(** What registering and unregistering mean, independently of how the registries are kept: the
    latest call that names an entry decides. Histories are given latest call first. *)
From Coq Require Import Ascii String List Permutation Sorted Arith NArith ZArith Bool.
From Verif Require Import StrModel DoubleModel JsonModel JsonSpec ObjSpec MapModel TaskModel TaskSpec DescModel DescSpec RegModel.
Import ListNotations.
Local Open Scope nat_scope.

(** A tool registered by name only keeps the description it already had, else gets the
    default one. *)
Fixpoint tool_now (n : bstr) (past : list reg_op) : option (tool * callable) :=
  match past with
  | [] => None
  | RegTool t h :: r => if beq n (tl_name t) then Some (t, h) else tool_now n r
  | RegToolName m h :: r =>
      if beq n m then Some (match tool_now n r with Some (t, _) => t | None => default_tool n end, h) else tool_now n r
  | UnregTool m :: r => if beq n m then None else tool_now n r
  | _ :: r => tool_now n r
  end.

Fixpoint resource_now (u : bstr) (past : list reg_op) : option (resource * callable) :=
  match past with
  | [] => None
  | RegResource x h :: r => if beq u (rs_uri x) then Some (x, h) else resource_now u r
  | RegResourceUri m h :: r => if beq u m then Some (default_resource u, h) else resource_now u r
  | UnregResource m :: r => if beq u m then None else resource_now u r
  | _ :: r => resource_now u r
  end.

Fixpoint prompt_now (n : bstr) (past : list reg_op) : option (prompt * callable) :=
  match past with
  | [] => None
  | RegPrompt p h :: r => if beq n (pr_name p) then Some (p, h) else prompt_now n r
  | RegPromptName m h :: r => if beq n m then Some (default_prompt n, h) else prompt_now n r
  | UnregPrompt m :: r => if beq n m then None else prompt_now n r
  | _ :: r => prompt_now n r
  end.

Fixpoint template_now (u : bstr) (past : list reg_op) : option (template * callable) :=
  match past with
  | [] => None
  | RegTemplate t h :: r => if beq u (tp_uri t) then Some (t, h) else template_now u r
  | UnregTemplate m :: r => if beq u m then None else template_now u r
  | _ :: r => template_now u r
  end.

(** How a resource is shown: ui:// resources only to clients with the ui extension, with a
    default type. *)
Inductive shown (ui : bool) : resource -> resource -> Prop :=
| shown_plain r : (forall s, rs_uri r <> bs "ui://" ++ s) -> shown ui r r
| shown_ui r s : ui = true -> rs_uri r = bs "ui://" ++ s -> rs_mime r <> None -> shown ui r r
| shown_ui_default r s r' : ui = true -> rs_uri r = bs "ui://" ++ s -> rs_mime r = None ->
    r' = {| rs_uri := rs_uri r; rs_name := rs_name r; rs_title := rs_title r; rs_desc := rs_desc r;
            rs_mime := Some (bs "text/html+mcp"); rs_size := rs_size r; rs_annot := rs_annot r;
            rs_meta := rs_meta r; rs_icons := rs_icons r |} ->
    shown ui r r'.

(** Byte order on strings: a proper prefix comes first, else the first differing byte decides. *)
Inductive before : bstr -> bstr -> Prop :=
| before_prefix p c s : before p (p ++ c :: s)
| before_byte p c d s t : (code c < code d)%N -> before (p ++ c :: s) (p ++ d :: t).

Definition in_order {A : Type} (key : A -> bstr) (l : list A) : Prop := StronglySorted (fun x y => before (key x) (key y)) l.

(** The lists a client is to be shown, by name in byte order. *)
Definition tools_of (ops : list reg_op) (l : list tool) : Prop :=
  in_order tl_name l /\ forall t, In t l <-> exists h, tool_now (tl_name t) (rev ops) = Some (t, h).
Definition resources_of (ui : bool) (ops : list reg_op) (l : list resource) : Prop :=
  in_order rs_uri l /\ forall r, In r l <-> exists r0 h, resource_now (rs_uri r0) (rev ops) = Some (r0, h) /\ shown ui r0 r.
Definition templates_of (ops : list reg_op) (l : list template) : Prop :=
  in_order tp_uri l /\ forall t, In t l <-> exists h, template_now (tp_uri t) (rev ops) = Some (t, h).
Definition prompts_of (ops : list reg_op) (l : list prompt) : Prop :=
  in_order pr_name l /\ forall p, In p l <-> exists h, prompt_now (pr_name p) (rev ops) = Some (p, h).

(** A page: the items under a key and the cursor of the next page, if any. *)
Definition page (key : bstr) (v : json) (items : list json) (next : option bstr) : Prop :=
  exists o, v = JObj o /\ obj_get key o = Some (JArr items) /\ obj_get (bs "nextCursor") o = option_map JStr next.

(** A client follows the cursors, asking for n items at a time, until there is no next one. *)
Inductive follow (ask : option json -> json) (key : bstr) (n : Z) : option bstr -> list (list json) -> Prop :=
| follow_last c params items :
    asks n c params -> page key (ask params) items None -> follow ask key n c [items]
| follow_more c params items c' rest :
    asks n c params -> page key (ask params) items (Some c') -> follow ask key n (Some c') rest ->
    follow ask key n c (items :: rest).
