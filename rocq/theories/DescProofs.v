From Coq Require Import Ascii String List Permutation Arith NArith ZArith Bool Lia ZifyBool ZifyNat ZifyN.
From Verif Require Import StrModel StrProofs DoubleModel JsonModel JsonSpec JsonProofs ObjSpec ObjProofs MapModel MapProofs TaskModel TaskSpec TaskProofs DescModel DescSpec.
Import ListNotations.
Local Open Scope nat_scope.

Lemma get_opt_set : forall A k k' (f : A -> json) v o,
  obj_get k (opt_set k' f v o) = if beq k k' then match v with Some x => Some (f x) | None => obj_get k o end else obj_get k o.
Proof. intros A k k' f [x|] o; cbn [opt_set]; [apply get_set|now destruct (beq k k')]. Qed.

Lemma get_nonempty : forall k k' s o, obj_get k (set_nonempty k' s o) =
  if beq k k' then match s with [] => obj_get k o | _ :: _ => Some (JStr s) end else obj_get k o.
Proof. intros k k' [|c s] o; cbn [set_nonempty]; [now destruct (beq k k')|apply get_set]. Qed.

Ltac obj1 := match goal with
  | |- context [obj_get ?k (obj_set ?k' ?v ?o)] => rewrite (get_set k k' v o)
  | |- context [obj_get ?k (opt_set ?k' ?f ?v ?o)] => rewrite (get_opt_set _ k k' f v o)
  | |- context [obj_get ?k (set_nonempty ?k' ?s ?o)] => rewrite (get_nonempty k k' s o)
  end;
  match goal with |- context [if beq ?a ?b then _ else _] =>
    let r := eval vm_compute in (beq a b) in change (beq a b) with r; cbv iota end.
Ltac objs := unfold set_icons, META; repeat obj1; cbn [obj_get].

Lemma nodup_nonempty : forall k s o, NoDup (map fst o) -> NoDup (map fst (set_nonempty k s o)).
Proof. intros k [|c s] o H; [exact H|now apply nodup_set]. Qed.

Ltac nodups := repeat (apply nodup_opt_set || apply nodup_set || apply nodup_nonempty || apply NoDup_nil).

Lemma same_opt_get : forall k o o', NoDup (map fst o) -> same (JObj o) (JObj o') -> same_opt (obj_get k o) (obj_get k o').
Proof.
  intros k o o' N H. pose proof (same_get k o o' N H) as G.
  destruct (obj_get k o), (obj_get k o'); try easy; now constructor.
Qed.

Lemma same_opt_none : forall v, same_opt None v -> v = None.
Proof. intros v H. now inversion H. Qed.
Lemma same_opt_some : forall x v, same_opt (Some x) v -> exists y, v = Some y /\ same x y.
Proof. intros x v H. inversion H; subst. eauto. Qed.

Lemma same_strs : forall l v, same (JArr (map JStr l)) v -> v = JArr (map JStr l).
Proof.
  intros l v H. inversion H as [| | | | |a b F|]; subst. f_equal. clear H. revert b F.
  induction l as [|s l IH]; intros b F; inversion F as [|x y r r' S F']; subst; [reflexivity|].
  inversion S; subst. cbn. f_equal. auto.
Qed.

Lemma all_strs_map : forall l, all_strs (map JStr l) = Some l.
Proof. induction l as [|s l IH]; [reflexivity|]. cbn. now rewrite IH. Qed.

Lemma same_opt_str : forall (x : option bstr) v, same_opt (match x with Some s => Some (JStr s) | None => None end) v -> v = match x with Some s => Some (JStr s) | None => None end.
Proof. intros [s|] v H; inversion H as [|a b S]; subst; [inversion S; subst|]; reflexivity. Qed.

Lemma theme_known_spec : forall s, theme_known s = true <-> s = bs "light" \/ s = bs "dark".
Proof.
  intro s. unfold theme_known. rewrite orb_true_iff. split; (intros [H|H]; [left|right]);
  (now apply beq_eq) || (subst; apply beq_refl).
Qed.

Lemma parse_icon_json : forall i v, (forall s, ic_theme i = Some s -> s = bs "light" \/ s = bs "dark") ->
  same (icon_json i) v -> exists o, v = JObj o /\ parse_icon o = Some i.
Proof.
  intros i v T H. unfold icon_json in H. destruct (same_obj_inv _ _ H) as (o1 & o' & -> & _). exists o'. split; [reflexivity|].
  assert (NoDup (map fst (opt_set (bs "theme") JStr (ic_theme i) (opt_set (bs "sizes") (fun l => JArr (map JStr l)) (ic_sizes i)
          (opt_set (bs "mimeType") JStr (ic_mime i) (obj_set (bs "src") (JStr (ic_src i)) [])))))) as N by nodups.
  pose proof (same_opt_get (bs "src") _ _ N H) as G1. pose proof (same_opt_get (bs "mimeType") _ _ N H) as G2.
  pose proof (same_opt_get (bs "sizes") _ _ N H) as G3. pose proof (same_opt_get (bs "theme") _ _ N H) as G4.
  clear H N. revert G1 G2 G3 G4. objs. intros G1 G2 G3 G4. unfold parse_icon.
  apply (same_opt_str (Some (ic_src i))) in G1. apply same_opt_str in G2. apply same_opt_str in G4. rewrite G1, G2, G4. clear G1 G2 G4.
  destruct i as [src mime sizes theme]; cbn [ic_src ic_mime ic_sizes ic_theme] in *.
  assert (match theme with Some s => if theme_known s then Some (Some s) else None | None => Some None end = Some theme) as ET.
  { destruct theme as [s|]; [|reflexivity]. destruct (theme_known_spec s) as [_ K]. now rewrite (K (T s eq_refl)). }
  assert (match obj_get (bs "sizes") o' with None => Some None | Some (JArr l) => match all_strs l with Some x => Some (Some x) | None => None end
          | Some _ => None end = Some sizes) as ES.
  { destruct sizes as [l|]; [|now rewrite (same_opt_none _ G3)]. destruct (same_opt_some _ _ G3) as (b & -> & S).
    apply same_strs in S. subst b. now rewrite all_strs_map. }
  destruct mime; rewrite ES; destruct theme; cbv beta iota in *; rewrite ?ET; reflexivity.
Qed.

Lemma parse_icon_list_json : forall l b, (forall i s, In i l -> ic_theme i = Some s -> s = bs "light" \/ s = bs "dark") ->
  Forall2 same (map icon_json l) b -> parse_icon_list b = Some l.
Proof.
  induction l as [|i l IH]; intros b T F; inversion F as [|x y r r' S F']; subst; [reflexivity|].
  destruct (parse_icon_json i y) as (o & -> & E); [intros s; now apply T; left|exact S|]. cbn. rewrite E.
  rewrite (IH r'); [reflexivity|intros j s Hj; apply T; now right|exact F'].
Qed.

Lemma get_icons_json : forall o l, themed l ->
  same_opt (match l with Some x => Some (icons_json x) | None => None end) (obj_get (bs "icons") o) -> get_icons o = l.
Proof.
  intros o l T H. unfold get_icons. destruct l as [l|]; [|now rewrite (same_opt_none _ H)]. destruct (same_opt_some _ _ H) as (b & -> & S).
  inversion S as [| | | | |x y F|]; subst. apply parse_icon_list_json; [|exact F]. intros i s. now apply T.
Qed.

Lemma str_back : forall k o o' s, NoDup (map fst o) -> same (JObj o) (JObj o') -> get_str k o = s -> get_str k o' = s.
Proof. intros k o o' s N H <-. now apply get_str_same. Qed.

Lemma tool_back : forall t v, themed (tl_icons t) -> same (tool_json t) v -> exists o, v = JObj o /\ same_tool t (parse_tool o).
Proof.
  intros t v T H. unfold tool_json in H. destruct (same_obj_inv _ _ H) as (o1 & o' & -> & _). exists o'. split; [reflexivity|].
  match type of H with same (JObj ?x) _ => set (O := x) in * end.
  assert (NoDup (map fst O)) as N by (subst O; unfold set_icons; nodups).
  unfold same_tool, parse_tool. cbn [tl_name tl_title tl_desc tl_icons tl_input tl_output tl_annot tl_exec tl_meta].
  rewrite !(get_str_same _ _ _ N H).
  split; [|split; [|split; [|split; [|split; [|split; [|split; [|split]]]]]]].
  - unfold get_str, O. objs. reflexivity.
  - unfold get_str, O. objs. now destruct (tl_title t).
  - unfold get_str, O. objs. now destruct (tl_desc t).
  - apply get_icons_json; [exact T|]. pose proof (same_opt_get (bs "icons") _ _ N H) as G. revert G. unfold O at 1. objs. trivial.
  - pose proof (same_opt_get (bs "inputSchema") _ _ N H) as G. revert G. unfold O at 1. objs. intro G.
    destruct (same_opt_some _ _ G) as (b & -> & S). exact S.
  - pose proof (same_opt_get (bs "outputSchema") _ _ N H) as G. revert G. unfold O at 1. objs. destruct (tl_output t); trivial.
  - pose proof (same_opt_get (bs "annotations") _ _ N H) as G. revert G. unfold O at 1. objs. destruct (tl_annot t); trivial.
  - pose proof (same_opt_get (bs "execution") _ _ N H) as G. revert G. unfold O at 1. objs. destruct (tl_exec t); trivial.
  - pose proof (same_opt_get META _ _ N H) as G. revert G. unfold O at 1. objs. destruct (tl_meta t); trivial.
Qed.

Lemma resource_back : forall r v, themed (rs_icons r) -> same (resource_json r) v -> exists o, v = JObj o /\ same_resource r (parse_resource o).
Proof.
  intros t v T H. unfold resource_json in H. destruct (same_obj_inv _ _ H) as (o1 & o' & -> & _). exists o'. split; [reflexivity|].
  match type of H with same (JObj ?x) _ => set (O := x) in * end.
  assert (NoDup (map fst O)) as N by (subst O; unfold set_icons; nodups).
  unfold same_resource, parse_resource. cbn [rs_uri rs_name rs_title rs_desc rs_mime rs_size rs_annot rs_meta rs_icons].
  rewrite !(get_str_same _ _ _ N H), !(get_int_same _ _ _ N H).
  split; [|split; [|split; [|split; [|split; [|split; [|split; [|split]]]]]]].
  - unfold get_str, O. objs. reflexivity.
  - unfold get_str, O. objs. reflexivity.
  - unfold get_str, O. objs. now destruct (rs_title t).
  - unfold get_str, O. objs. now destruct (rs_desc t).
  - unfold get_str, O. objs. now destruct (rs_mime t).
  - unfold get_int, O. objs. now destruct (rs_size t).
  - apply get_icons_json; [exact T|]. pose proof (same_opt_get (bs "icons") _ _ N H) as G. revert G. unfold O at 1. objs. trivial.
  - pose proof (same_opt_get (bs "annotations") _ _ N H) as G. revert G. unfold O at 1. objs. destruct (rs_annot t); trivial.
  - pose proof (same_opt_get META _ _ N H) as G. revert G. unfold O at 1. objs. destruct (rs_meta t); trivial.
Qed.

Lemma template_back : forall t v, themed (tp_icons t) -> same (template_json t) v -> exists o, v = JObj o /\ same_template t (parse_template o).
Proof.
  intros t v T H. unfold template_json in H. destruct (same_obj_inv _ _ H) as (o1 & o' & -> & _). exists o'. split; [reflexivity|].
  match type of H with same (JObj ?x) _ => set (O := x) in * end.
  assert (NoDup (map fst O)) as N by (subst O; unfold set_icons; nodups).
  unfold same_template, parse_template. cbn [tp_uri tp_name tp_title tp_desc tp_mime tp_annot tp_meta tp_icons].
  rewrite !(get_str_same _ _ _ N H).
  split; [|split; [|split; [|split; [|split; [|split; [|split]]]]]].
  - unfold get_str, O. objs. reflexivity.
  - unfold get_str, O. objs. reflexivity.
  - unfold get_str, O. objs. now destruct (tp_title t).
  - unfold get_str, O. objs. now destruct (tp_desc t).
  - unfold get_str, O. objs. now destruct (tp_mime t).
  - apply get_icons_json; [exact T|]. pose proof (same_opt_get (bs "icons") _ _ N H) as G. revert G. unfold O at 1. objs. trivial.
  - pose proof (same_opt_get (bs "annotations") _ _ N H) as G. revert G. unfold O at 1. objs. destruct (tp_annot t); trivial.
  - pose proof (same_opt_get META _ _ N H) as G. revert G. unfold O at 1. objs. destruct (tp_meta t); trivial.
Qed.

Lemma prompt_back : forall p v, themed (pr_icons p) -> same (prompt_json p) v -> exists o, v = JObj o /\ same_prompt p (parse_prompt o).
Proof.
  intros t v T H. unfold prompt_json in H. destruct (same_obj_inv _ _ H) as (o1 & o' & -> & _). exists o'. split; [reflexivity|].
  match type of H with same (JObj ?x) _ => set (O := x) in * end.
  assert (NoDup (map fst O)) as N by (subst O; unfold set_icons; nodups).
  unfold same_prompt, parse_prompt. cbn [pr_name pr_title pr_desc pr_args pr_meta pr_icons].
  rewrite !(get_str_same _ _ _ N H).
  split; [|split; [|split; [|split; [|split]]]].
  - unfold get_str, O. objs. reflexivity.
  - unfold get_str, O. objs. now destruct (pr_title t).
  - unfold get_str, O. objs. now destruct (pr_desc t).
  - apply get_icons_json; [exact T|]. pose proof (same_opt_get (bs "icons") _ _ N H) as G. revert G. unfold O at 1. objs. trivial.
  - pose proof (same_opt_get (bs "arguments") _ _ N H) as G. revert G. unfold O at 1. objs. destruct (pr_args t); trivial.
  - pose proof (same_opt_get META _ _ N H) as G. revert G. unfold O at 1. objs. destruct (pr_meta t); trivial.
Qed.

(** On the wire. *)
Lemma ok_icon_json : forall i, ok (icon_json i).
Proof.
  intro i. unfold icon_json. apply ok_opt_set; [now apply plain_bs|intros; constructor|].
  apply ok_opt_set; [now apply plain_bs| |].
  - intros l _. constructor. apply Forall_forall. intros x Hx. apply in_map_iff in Hx. destruct Hx as (s & <- & _). constructor.
  - apply ok_opt_set; [now apply plain_bs|intros; constructor|]. apply ok_set; [now apply plain_bs|constructor|apply ok_nil].
Qed.

Lemma ok_icons : forall l o, ok (JObj o) -> ok (JObj (set_icons l o)).
Proof.
  intros l o H. unfold set_icons. apply ok_opt_set; [now apply plain_bs| |exact H]. intros x _. constructor. apply Forall_forall.
  intros y Hy. apply in_map_iff in Hy. destruct Hy as (i & <- & _). apply ok_icon_json.
Qed.

Lemma ok_nonempty : forall k s o, plain k -> ok (JObj o) -> ok (JObj (set_nonempty k s o)).
Proof. intros k [|c s] o K H; [exact H|apply ok_set; [exact K|constructor|exact H]]. Qed.

Ltac oks := repeat first
  [ apply ok_nil | apply ok_icons
  | apply ok_nonempty; [now apply plain_bs|]
  | apply ok_opt_set; [now apply plain_bs|first [intros ? ?; solve [constructor] | assumption]|]
  | apply ok_set; [now apply plain_bs|first [assumption|solve [constructor]]|] ].

Lemma ok_tool_json : forall t, tool_fits t -> ok (tool_json t).
Proof. intros t (H1 & H2 & H3 & H4 & H5). unfold tool_json. oks. Qed.

Lemma ok_resource_json : forall r, resource_fits r -> ok (resource_json r).
Proof.
  intros r (H1 & H2 & H3). unfold resource_json. oks.
  apply ok_opt_set; [now apply plain_bs| |oks]. intros x E. rewrite E in H1. now constructor.
Qed.

Lemma ok_template_json : forall t, template_fits t -> ok (template_json t).
Proof. intros t (H1 & H2). unfold template_json. oks. Qed.

Lemma ok_prompt_json : forall p, prompt_fits p -> ok (prompt_json p).
Proof. intros p (H1 & H2). unfold prompt_json. oks. Qed.
