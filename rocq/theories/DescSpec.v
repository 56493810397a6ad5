(** When two descriptions say the same: equal in every field, where JSON-valued fields are
    compared as data (the order of object members does not count). *)
From Coq Require Import Ascii String List Permutation Arith NArith ZArith Bool.
From Verif Require Import StrModel DoubleModel JsonModel JsonSpec ObjSpec MapModel TaskModel TaskSpec DescModel.
Import ListNotations.
Local Open Scope nat_scope.

Inductive same_opt : option json -> option json -> Prop :=
| so_none : same_opt None None
| so_some v v' : same v v' -> same_opt (Some v) (Some v').

Definition same_tool (t t' : tool) : Prop :=
  tl_name t' = tl_name t /\ tl_title t' = tl_title t /\ tl_desc t' = tl_desc t /\ tl_icons t' = tl_icons t /\
  same (tl_input t) (tl_input t') /\ same_opt (tl_output t) (tl_output t') /\
  same_opt (tl_annot t) (tl_annot t') /\ same_opt (tl_exec t) (tl_exec t') /\ same_opt (tl_meta t) (tl_meta t').

Definition same_resource (r r' : resource) : Prop :=
  rs_uri r' = rs_uri r /\ rs_name r' = rs_name r /\ rs_title r' = rs_title r /\ rs_desc r' = rs_desc r /\
  rs_mime r' = rs_mime r /\ rs_size r' = rs_size r /\ rs_icons r' = rs_icons r /\
  same_opt (rs_annot r) (rs_annot r') /\ same_opt (rs_meta r) (rs_meta r').

Definition same_template (t t' : template) : Prop :=
  tp_uri t' = tp_uri t /\ tp_name t' = tp_name t /\ tp_title t' = tp_title t /\ tp_desc t' = tp_desc t /\
  tp_mime t' = tp_mime t /\ tp_icons t' = tp_icons t /\
  same_opt (tp_annot t) (tp_annot t') /\ same_opt (tp_meta t) (tp_meta t').

Definition same_prompt (p p' : prompt) : Prop :=
  pr_name p' = pr_name p /\ pr_title p' = pr_title p /\ pr_desc p' = pr_desc p /\ pr_icons p' = pr_icons p /\
  same_opt (pr_args p) (pr_args p') /\ same_opt (pr_meta p) (pr_meta p').

(** Every icon's theme, if it has one, is light or dark. *)
Definition themed (l : option (list icon)) : Prop :=
  forall ics i s, l = Some ics -> In i ics -> ic_theme i = Some s -> s = bs "light" \/ s = bs "dark".

(** What a description must satisfy to be written as JSON text and read back: its embedded
    values are representable, and its size is a 64-bit integer. *)
Definition ok_opt (v : option json) : Prop := forall x, v = Some x -> ok x.
Definition tool_fits (t : tool) : Prop :=
  ok (tl_input t) /\ ok_opt (tl_output t) /\ ok_opt (tl_annot t) /\ ok_opt (tl_exec t) /\ ok_opt (tl_meta t).
Definition resource_fits (r : resource) : Prop := fits (rs_size r) /\ ok_opt (rs_annot r) /\ ok_opt (rs_meta r).
Definition template_fits (t : template) : Prop := ok_opt (tp_annot t) /\ ok_opt (tp_meta t).
Definition prompt_fits (p : prompt) : Prop := ok_opt (pr_args p) /\ ok_opt (pr_meta p).
