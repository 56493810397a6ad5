From Coq Require Import Ascii String List Permutation Arith NArith ZArith Bool Lia.
From Verif Require Import StrModel DoubleModel JsonModel JsonSpec JsonProofs ObjSpec ObjProofs MapModel TaskModel TaskSpec TaskProofs DescModel DescSpec DescProofs.
Import ListNotations.
Local Open Scope nat_scope.

(** C59. What the server writes for a description, in whatever member order its maps iterate,
    travels as JSON text and is read back by the client as the same description, provided icon
    themes are the two the client knows. *)
Theorem C59_tool_partial : forall t v, themed (tl_icons t) -> same (tool_json t) v ->
  exists o, v = JObj o /\ same_tool t (parse_tool o).
Proof. exact tool_back. Qed.

Theorem C59_resource_partial : forall r v, themed (rs_icons r) -> same (resource_json r) v ->
  exists o, v = JObj o /\ same_resource r (parse_resource o).
Proof. exact resource_back. Qed.

Theorem C59_template_partial : forall t v, themed (tp_icons t) -> same (template_json t) v ->
  exists o, v = JObj o /\ same_template t (parse_template o).
Proof. exact template_back. Qed.

Theorem C59_prompt_partial : forall p v, themed (pr_icons p) -> same (prompt_json p) v ->
  exists o, v = JObj o /\ same_prompt p (parse_prompt o).
Proof. exact prompt_back. Qed.

(** The same through JSON text. *)
Theorem C59_tool_wire_partial : forall t v, themed (tl_icons t) -> tool_fits t -> same (tool_json t) v ->
  exists o, parse_json (ser v) = POk (JObj o) [] /\ same_tool t (parse_tool o).
Proof.
  intros t v T F H. destruct (tool_back t v T H) as (o & -> & S). exists o. split; [|exact S].
  exact (wire_same _ _ (ok_tool_json t F) H).
Qed.

Theorem C59_resource_wire_partial : forall r v, themed (rs_icons r) -> resource_fits r -> same (resource_json r) v ->
  exists o, parse_json (ser v) = POk (JObj o) [] /\ same_resource r (parse_resource o).
Proof.
  intros t v T F H. destruct (resource_back t v T H) as (o & -> & S). exists o. split; [|exact S].
  exact (wire_same _ _ (ok_resource_json t F) H).
Qed.

Theorem C59_template_wire_partial : forall t v, themed (tp_icons t) -> template_fits t -> same (template_json t) v ->
  exists o, parse_json (ser v) = POk (JObj o) [] /\ same_template t (parse_template o).
Proof.
  intros t v T F H. destruct (template_back t v T H) as (o & -> & S). exists o. split; [|exact S].
  exact (wire_same _ _ (ok_template_json t F) H).
Qed.

Theorem C59_prompt_wire_partial : forall p v, themed (pr_icons p) -> prompt_fits p -> same (prompt_json p) v ->
  exists o, parse_json (ser v) = POk (JObj o) [] /\ same_prompt p (parse_prompt o).
Proof.
  intros t v T F H. destruct (prompt_back t v T H) as (o & -> & S). exists o. split; [|exact S].
  exact (wire_same _ _ (ok_prompt_json t F) H).
Qed.

(** Without that proviso the claim is false: one icon with another theme, and the client drops
    every icon of the description. *)
Theorem C59_roundtrip_refuted : exists t o, tool_json t = JObj o /\ tool_fits t /\
  tl_icons t <> None /\ tl_icons (parse_tool o) = None.
Proof.
  exists {| tl_name := bs "a"; tl_title := None; tl_desc := []; tl_input := JObj [];
            tl_icons := Some [{| ic_src := bs "x"; ic_mime := None; ic_sizes := None; ic_theme := None |};
                              {| ic_src := bs "y"; ic_mime := None; ic_sizes := None; ic_theme := Some (bs "sepia") |}];
            tl_output := None; tl_annot := None; tl_exec := None; tl_meta := None |}.
  eexists. split; [reflexivity|]. split; [|split; [discriminate|vm_compute; reflexivity]].
  split; [constructor; constructor|]. repeat split; intros x E; discriminate E.
Qed.

Definition tool_ex : tool :=
  {| tl_name := bs "echo"; tl_title := Some (bs "Echo"); tl_desc := bs "says ""it"" back";
     tl_icons := Some [{| ic_src := bs "i.png"; ic_mime := Some (bs "image/png"); ic_sizes := Some [bs "16x16"; bs "32x32"]; ic_theme := Some (bs "dark") |}];
     tl_input := JObj [(bs "type", JStr (bs "object")); (bs "n", JInt 3)]; tl_output := Some JNull; tl_annot := None;
     tl_exec := Some (JObj [(bs "taskSupport", JStr (bs "optional"))]); tl_meta := Some (JArr [JBool true]) |}.

Example C59_ex : themed (tl_icons tool_ex) /\ tool_fits tool_ex /\
  exists o, parse_json (ser (tool_json tool_ex)) = POk (JObj o) [] /\ parse_tool o = tool_ex.
Proof.
  split; [|split].
  - intros ics i s E Hi Hs. injection E as <-. destruct Hi as [<- |[]]. injection Hs as <-. now right.
  - assert (forall v, ok v -> ok_opt (Some v)) as K by (intros v V x E; injection E as <-; exact V).
    split; [|split; [|split; [|split]]].
    + apply okb_ok. vm_compute. reflexivity.
    + apply K. constructor.
    + intros x E. discriminate E.
    + apply K, okb_ok. vm_compute. reflexivity.
    + apply K. apply okb_ok. vm_compute. reflexivity.
  - eexists. split; vm_compute; reflexivity.
Qed.

Print Assumptions C59_tool_partial.
Print Assumptions C59_resource_partial.
Print Assumptions C59_template_partial.
Print Assumptions C59_prompt_partial.
Print Assumptions C59_tool_wire_partial.
Print Assumptions C59_resource_wire_partial.
Print Assumptions C59_template_wire_partial.
Print Assumptions C59_prompt_wire_partial.
Print Assumptions C59_roundtrip_refuted.
