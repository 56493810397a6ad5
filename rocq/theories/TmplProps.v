From Coq Require Import Ascii String List Permutation Arith NArith ZArith Bool.
From Verif Require Import StrModel DoubleModel JsonModel MapModel TaskModel DescModel RegModel RegSpec TmplModel TmplSpec TmplProofs.
Import ListNotations.
Local Open Scope nat_scope.

(** C31: a template that matches is well formed; the variables returned are its variables, and if
    no name is repeated, putting their values in gives back the URI. *)
Theorem C31_sound : forall (t u : bstr) (vs : vars), match_template t u = Some vs ->
  exists ts, written ts = t /\ well_formed ts /\ (forall k, aget k vs <> None <-> In k (names ts)) /\
    (NoDup (names ts) -> replaced (value_in vs) ts = u).
Proof.
  intros t u vs H. destruct (match_sound t u vs H) as (ts & H1 & H2 & _ & H4 & H5). exists ts.
  split; [exact H1|]. split; [exact H2|]. split; [exact H4|]. intro N. symmetry. now apply H5.
Qed.
Print Assumptions C31_sound.

(** C31: with a repeated name the values need not give back the URI. *)
Theorem C31_repeated_refuted : exists t u vs ts, match_template t u = Some vs /\ written ts = t /\ well_formed ts /\
  replaced (value_in vs) ts <> u.
Proof.
  exists (bs "{a}-{a}"), (bs "x-y"), [(bs "a", bs "y")], [TVar (bs "a"); TLit (bs "-"); TVar (bs "a")].
  split; [reflexivity|]. split; [reflexivity|]. split; [|discriminate].
  repeat constructor; try discriminate; cbn; intuition discriminate.
Qed.
Print Assumptions C31_repeated_refuted.

(** C68: values may be empty. *)
Theorem C68_nonempty_refuted : exists t u vs n, match_template t u = Some vs /\ aget n vs = Some [].
Proof. now exists (bs "file:///{path}"), (bs "file:///"), [(bs "path", [])], (bs "path"). Qed.
Print Assumptions C68_nonempty_refuted.

(** C32: every URI that the template describes is accepted, whatever the values (also empty ones),
    and nothing else is. *)
Theorem C32_complete : forall (ts : list token) (value : bstr -> bstr), well_formed ts ->
  match_template (written ts) (replaced value ts) <> None.
Proof. intros ts v W. apply match_some. exists ts. split; [reflexivity|]. split; [exact W|apply replaced_filled]. Qed.
Print Assumptions C32_complete.

Theorem C32_exact : forall t u : bstr, match_template t u <> None <-> instance t u.
Proof. exact match_some. Qed.
Print Assumptions C32_exact.

Example C32_ex :
  match_template (bs "db://{table}/rows/{id}") (bs "db://a/rows/b/rows/7") = Some [(bs "table", bs "a"); (bs "id", bs "b/rows/7")] /\
  match_template (bs "db://{table}/rows/{id}") (bs "db://a/row/7") = None /\
  match_template (bs "db://{table/rows") (bs "db://{table/rows") = None /\
  match_template (bs "x{}") (bs "x{}") = None /\
  well_formed [TLit (bs "db://"); TVar (bs "table"); TLit (bs "/rows/"); TVar (bs "id")] /\
  written [TLit (bs "db://"); TVar (bs "table"); TLit (bs "/rows/"); TVar (bs "id")] = bs "db://{table}/rows/{id}".
Proof.
  split; [reflexivity|]. split; [reflexivity|]. split; [reflexivity|]. split; [reflexivity|]. split; [|reflexivity].
  repeat constructor; try discriminate; cbn; intuition discriminate.
Qed.

(** C33: a resource registered under the URI is used whatever templates there are. *)
Theorem C33_direct : forall (ops : list reg_op) (u : bstr) (r : resource) (h : callable),
  resource_now u (rev ops) = Some (r, h) -> resolve (reg_run ops) u = RDirect h.
Proof.
  intros ops u r h H. pose proof (resolve_spec ops u) as S. destruct (resolve (reg_run ops) u) as [h'|h' vs| |].
  - destruct S as (r' & S). congruence.
  - destruct S as [S _]. congruence.
  - destruct S as [S _]. congruence.
  - destruct S as [S _]. congruence.
Qed.
Print Assumptions C33_direct.

(** C33: otherwise, the one template that describes the URI is used, with values that give the
    URI back. *)
Theorem C33_one_template : forall (ops : list reg_op) (u : bstr) (t : template) (h : nat), resource_now u (rev ops) = None ->
  serves ops u t h -> (forall t' h', serves ops u t' h' -> t' = t) ->
  exists vs ts, resolve (reg_run ops) u = RTemplate h vs /\ written ts = tp_uri t /\ well_formed ts /\
    (forall k, aget k vs <> None <-> In k (names ts)) /\ (NoDup (names ts) -> replaced (value_in vs) ts = u).
Proof.
  intros ops u t h H0 H1 H2. pose proof (resolve_spec ops u) as S. destruct (resolve (reg_run ops) u) as [h'|h' vs| |].
  - destruct S as (r' & S). congruence.
  - destruct S as (_ & t' & S1 & S2 & ts & S3 & S4 & S5 & S6). pose proof (H2 _ _ S1) as ->. exists vs, ts.
    assert (h' = h) as -> by (destruct S1 as [S1 _], H1 as [H1 _]; congruence). split; [reflexivity|]. split; [exact S3|].
    split; [exact S4|]. split; [exact S5|]. intro N. symmetry. now apply S6.
  - destruct S as (_ & t1 & h1 & t2 & h2 & N & S1 & S2). exfalso. apply N. now rewrite (H2 _ _ S1), (H2 _ _ S2).
  - destruct S as (_ & S). now apply S in H1.
Qed.
Print Assumptions C33_one_template.

(** C33: two templates that describe it are ambiguous; none is not found. *)
Theorem C33_ambiguous : forall (ops : list reg_op) (u : bstr) (t1 t2 : template) (h1 h2 : nat), resource_now u (rev ops) = None ->
  serves ops u t1 h1 -> serves ops u t2 h2 -> tp_uri t1 <> tp_uri t2 -> resolve (reg_run ops) u = RAmbiguous.
Proof.
  intros ops u t1 t2 h1 h2 H0 H1 H2 N. pose proof (resolve_spec ops u) as S. destruct (resolve (reg_run ops) u) as [h'|h' vs| |].
  - destruct S as (r' & S). congruence.
  - destruct S as (_ & t' & _ & S2 & _). exfalso. apply N. now rewrite (S2 _ _ H1), (S2 _ _ H2).
  - reflexivity.
  - destruct S as (_ & S). now apply S in H1.
Qed.
Print Assumptions C33_ambiguous.

Theorem C33_none : forall (ops : list reg_op) (u : bstr), resource_now u (rev ops) = None ->
  (forall t h, ~ serves ops u t h) -> resolve (reg_run ops) u = RNone.
Proof.
  intros ops u H0 H. pose proof (resolve_spec ops u) as S. destruct (resolve (reg_run ops) u) as [h'|h' vs| |].
  - destruct S as (r' & S). congruence.
  - destruct S as (_ & t' & S1 & _). now apply H in S1.
  - destruct S as (_ & t1 & h1 & _ & _ & _ & S1 & _). now apply H in S1.
  - reflexivity.
Qed.
Print Assumptions C33_none.

Definition tmpl (u : string) : template :=
  {| tp_uri := bs u; tp_name := bs "n"; tp_title := None; tp_desc := None; tp_mime := None; tp_annot := None; tp_meta := None; tp_icons := None |}.

Example C33_ex :
  let ops := [RegTemplate (tmpl "a/{x}") (Some 1); RegTemplate (tmpl "{y}/b") (Some 2); RegTemplate (tmpl "c/{z}") None;
              RegResourceUri (bs "a/c") (Some 3)] in
  resolve (reg_run ops) (bs "a/c") = RDirect (Some 3) /\
  resolve (reg_run ops) (bs "a/d") = RTemplate 1 [(bs "x", bs "d")] /\
  resolve (reg_run ops) (bs "a/b") = RAmbiguous /\
  resolve (reg_run ops) (bs "c/c") = RNone.
Proof. repeat split. Qed.
