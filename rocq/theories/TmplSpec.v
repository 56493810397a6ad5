(** URI templates as texts with holes. *)
From Coq Require Import Ascii String List Permutation Arith NArith ZArith Bool.
From Verif Require Import StrModel DoubleModel JsonModel MapModel TaskModel DescModel RegModel RegSpec TmplModel.
Import ListNotations.
Local Open Scope nat_scope.

(** The text of a template: literal text as it is, a variable as its name in braces. *)
Fixpoint written (ts : list token) : bstr :=
  match ts with
  | [] => []
  | TLit s :: r => s ++ written r
  | TVar n :: r => bs "{" ++ n ++ bs "}" ++ written r
  end.

(** Literal text has no opening brace; a variable name is not empty and has no closing brace. *)
Definition well_formed (ts : list token) : Prop :=
  Forall (fun t => match t with TLit s => ~ In "{"%char s | TVar n => n <> [] /\ ~ In "}"%char n end) ts.

(** The template with its variables replaced. *)
Fixpoint replaced (value : bstr -> bstr) (ts : list token) : bstr :=
  match ts with
  | [] => []
  | TLit s :: r => s ++ replaced value r
  | TVar n :: r => value n ++ replaced value r
  end.

Definition names (ts : list token) : list bstr := flat_map (fun t => match t with TLit _ => [] | TVar n => [n] end) ts.

(** The same, each occurrence of a variable having its own value. *)
Inductive filled : list token -> bstr -> Prop :=
| filled_nil : filled [] []
| filled_lit s r u : filled r u -> filled (TLit s :: r) (s ++ u)
| filled_var n v r u : filled r u -> filled (TVar n :: r) (v ++ u).

(** A URI is an instance of a template, each occurrence of a variable being free. *)
Definition instance (t u : bstr) : Prop := exists ts, written ts = t /\ well_formed ts /\ filled ts u.

(** The value of a variable among the returned ones. *)
Definition value_in (vs : vars) (n : bstr) : bstr := match aget n vs with Some v => v | None => [] end.

(** A template with a handler that serves a URI, among those registered. *)
Definition serves (ops : list reg_op) (u : bstr) (t : template) (h : nat) : Prop :=
  template_now (tp_uri t) (rev ops) = Some (t, Some h) /\ instance (tp_uri t) u.
