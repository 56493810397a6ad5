From Coq Require Import Ascii String List Permutation Arith NArith ZArith Bool Lia.
From Verif Require Import StrModel StrProofs DoubleModel JsonModel JsonSpec JsonProofs ObjSpec ObjProofs MapModel MapProofs RpcModel TaskModel TaskSpec TaskProofs DescModel DescSpec DescProofs RegModel RegSpec RegProofs ValModel ValSpec ValProofs ReadModel SubModel LogModel ServModel ServSpec ServProofs CallProofs.
Import ListNotations.
Local Open Scope nat_scope.

Lemma nodup_one : forall k v, NoDup (map fst (obj_set k v [])).
Proof. intros k v. apply nodup_set, NoDup_nil. Qed.

Lemma get_flag : forall k k' b o, obj_get k (flag_set k' b o) = if beq k k' then (if b then Some (JObj []) else obj_get k o) else obj_get k o.
Proof. intros k k' [] o; unfold flag_set; [apply get_set|now destruct (beq k k')]. Qed.
Lemma nodup_flag : forall k b o, NoDup (map fst o) -> NoDup (map fst (flag_set k b o)).
Proof. intros k [] o H; [now apply nodup_set|exact H]. Qed.

(** experimental, written only when not empty. *)
Definition exp_set (e : obj) : obj := match e with [] => @nil (bstr * json) | e => obj_set (bs "experimental") (JObj e) [] end.
Lemma get_exp : forall k e, obj_get k (exp_set e) = if beq k (bs "experimental") then match e with [] => None | _ => Some (JObj e) end else None.
Proof. intros k [|x e]; unfold exp_set; [now destruct (beq k _)|]. now rewrite get_set. Qed.
Lemma nodup_exp : forall e, NoDup (map fst (exp_set e)).
Proof. intros [|x e]; [constructor|]. unfold exp_set. nodups. Qed.

(** requests, likewise. *)
Definition req_set (r o : obj) : obj := match r with [] => o | _ => obj_set (bs "requests") (JObj r) o end.
Lemma get_req : forall k r o, obj_get k (req_set r o) = if beq k (bs "requests") then match r with [] => obj_get k o | _ => Some (JObj r) end else obj_get k o.
Proof. intros k [|x r] o; unfold req_set; [now destruct (beq k _)|]. now rewrite get_set. Qed.
Lemma nodup_req : forall r o, NoDup (map fst o) -> NoDup (map fst (req_set r o)).
Proof. intros [|x r] o H; [exact H|]. now apply nodup_set. Qed.

Ltac cap1 := match goal with
  | |- context [obj_get ?k (obj_set ?k' ?v ?o)] => rewrite (get_set k k' v o)
  | |- context [obj_get ?k (opt_set ?k' ?f ?v ?o)] => rewrite (get_opt_set _ k k' f v o)
  | |- context [obj_get ?k (flag_set ?k' ?b ?o)] => rewrite (get_flag k k' b o)
  | |- context [obj_get ?k (exp_set ?e)] => rewrite (get_exp k e)
  | |- context [obj_get ?k (req_set ?r ?o)] => rewrite (get_req k r o)
  end;
  match goal with |- context [if beq ?a ?b then _ else _] =>
    let r := eval vm_compute in (beq a b) in change (beq a b) with r; cbv iota end.
Ltac caps := repeat cap1; cbn [obj_get].
Ltac capdups := repeat (apply nodup_opt_set || apply nodup_flag || apply nodup_req || apply nodup_set || apply nodup_exp || apply NoDup_nil).

Lemma same_has : forall k o o', NoDup (map fst o) -> same (JObj o) (JObj o') -> has k o' = has k o.
Proof.
  intros k o o' N H. pose proof (same_opt_get k o o' N H) as K. unfold has. inversion K; reflexivity.
Qed.

Lemma same_obj_at : forall k o o' x, NoDup (map fst o) -> same (JObj o) (JObj o') -> obj_get k o = Some (JObj x) ->
  exists x', obj_get k o' = Some (JObj x') /\ same (JObj x) (JObj x').
Proof.
  intros k o o' x N H G. destruct (same_get_some _ _ _ _ N H G) as (v & A & B).
  assert (exists x', v = JObj x') as [x' ->] by (apply same_obj_inv in B as (? & ? & -> & _); eauto). eauto.
Qed.

(** a boolean two objects down *)
Definition within2 (a b : bstr) (o : obj) : bool :=
  match as_obj (obj_get (bs "requests") o) with
  | None => false
  | Some x => match as_obj (obj_get a x) with Some y => has b y | None => false end
  end.

Lemma as_obj_obj : forall o, as_obj (Some (JObj o)) = Some o. Proof. reflexivity. Qed.

Definition stask_obj (x : bool * bool * bool) : obj :=
  let '(l, k, t) := x in
  req_set (if t then obj_set (bs "tools") (JObj (obj_set (bs "call") (JObj []) [])) [] else []) (flag_set (bs "cancel") k (flag_set (bs "list") l [])).
Definition ctask_obj (x : bool * bool * bool * bool) : obj :=
  let '(l, k, m, e) := x in
  let r := if m then obj_set (bs "sampling") (JObj (obj_set (bs "createMessage") (JObj []) [])) [] else [] in
  let r := if e then obj_set (bs "elicitation") (JObj (obj_set (bs "create") (JObj []) [])) r else r in
  req_set r (flag_set (bs "cancel") k (flag_set (bs "list") l [])).

Lemma stask_back : forall x o', same (JObj (stask_obj x)) (JObj o') ->
  (has (bs "list") o', has (bs "cancel") o', within2 (bs "tools") (bs "call") o') = x.
Proof.
  intros [[l k] t] o' H.
  assert (NoDup (map fst (stask_obj (l, k, t)))) as N by (unfold stask_obj; capdups).
  rewrite !(same_has _ _ _ N H).
  assert (has (bs "list") (stask_obj (l, k, t)) = l) as -> by (unfold has, stask_obj; caps; now destruct l).
  assert (has (bs "cancel") (stask_obj (l, k, t)) = k) as -> by (unfold has, stask_obj; caps; now destruct k).
  f_equal. unfold within2. destruct t.
  - assert (obj_get (bs "requests") (stask_obj (l, k, true)) = Some (JObj (obj_set (bs "tools") (JObj (obj_set (bs "call") (JObj []) [])) []))) as G
      by (unfold stask_obj; caps; reflexivity).
    destruct (same_obj_at _ _ _ _ N H G) as (x & -> & S). cbn [as_obj].
    destruct (same_obj_at (bs "tools") _ _ (obj_set (bs "call") (JObj []) []) (nodup_one _ _) S) as (y & -> & S'); [caps; reflexivity|].
    cbn [as_obj]. rewrite (same_has _ _ _ (nodup_one _ _) S'). reflexivity.
  - assert (obj_get (bs "requests") (stask_obj (l, k, false)) = None) as G by (unfold stask_obj; caps; reflexivity).
    now rewrite (same_get_none _ _ _ N H G).
Qed.

Lemma ctask_back : forall x o', same (JObj (ctask_obj x)) (JObj o') ->
  (has (bs "list") o', has (bs "cancel") o', within2 (bs "sampling") (bs "createMessage") o', within2 (bs "elicitation") (bs "create") o') = x.
Proof.
  intros [[[l k] m] e] o' H.
  assert (NoDup (map fst (ctask_obj (l, k, m, e)))) as N by (unfold ctask_obj; capdups).
  rewrite !(same_has _ _ _ N H).
  assert (has (bs "list") (ctask_obj (l, k, m, e)) = l) as -> by (unfold has, ctask_obj; caps; now destruct l).
  assert (has (bs "cancel") (ctask_obj (l, k, m, e)) = k) as -> by (unfold has, ctask_obj; caps; now destruct k).
  unfold within2.
  destruct (orb m e) eqn:O.
  - set (r := if e then obj_set (bs "elicitation") (JObj (obj_set (bs "create") (JObj []) [])) (if m then obj_set (bs "sampling") (JObj (obj_set (bs "createMessage") (JObj []) [])) [] else [])
              else (if m then obj_set (bs "sampling") (JObj (obj_set (bs "createMessage") (JObj []) [])) [] else [])) in *.
    assert (NoDup (map fst r)) as Nr by (unfold r; destruct e, m; capdups).
    assert (obj_get (bs "requests") (ctask_obj (l, k, m, e)) = Some (JObj r)) as G
      by (unfold ctask_obj; fold r; caps; destruct m, e; try discriminate; reflexivity).
    destruct (same_obj_at _ _ _ _ N H G) as (x & -> & S). cbn [as_obj]. f_equal; [f_equal|].
    + destruct m.
      * destruct (same_obj_at (bs "sampling") _ _ (obj_set (bs "createMessage") (JObj []) []) Nr S) as (y & -> & S'); [unfold r; destruct e; caps; reflexivity|].
        cbn [as_obj]. rewrite (same_has _ _ _ (nodup_one _ _) S'). reflexivity.
      * assert (obj_get (bs "sampling") r = None) as G' by (unfold r; destruct e; caps; reflexivity).
        now rewrite (same_get_none _ _ _ Nr S G').
    + destruct e.
      * destruct (same_obj_at (bs "elicitation") _ _ (obj_set (bs "create") (JObj []) []) Nr S) as (y & -> & S'); [unfold r; caps; reflexivity|].
        cbn [as_obj]. rewrite (same_has _ _ _ (nodup_one _ _) S'). reflexivity.
      * assert (obj_get (bs "elicitation") r = None) as G' by (unfold r; destruct m; caps; reflexivity).
        now rewrite (same_get_none _ _ _ Nr S G').
  - apply orb_false_iff in O as [-> ->].
    assert (obj_get (bs "requests") (ctask_obj (l, k, false, false)) = None) as G by (unfold ctask_obj; caps; reflexivity).
    now rewrite (same_get_none _ _ _ N H G).
Qed.

Definition scaps_obj (c : scaps) : obj :=
  flag_set (bs "logging") (sc_logging c) (flag_set (bs "completions") (sc_completions c) (flag_set (bs "sampling") (sc_sampling c)
    (opt_set (bs "tasks") (fun x => JObj (stask_obj x)) (sc_tasks c)
    (opt_set (bs "tools") (fun l => JObj [(bs "listChanged", JBool l)]) (sc_tools c)
    (opt_set (bs "resources") (fun x => JObj (obj_set (bs "listChanged") (JBool (snd x)) (obj_set (bs "subscribe") (JBool (fst x)) []))) (sc_resources c)
    (opt_set (bs "prompts") (fun l => JObj [(bs "listChanged", JBool l)]) (sc_prompts c) (exp_set (sc_exp c)))))))).
Lemma scaps_json_obj : forall c, scaps_json c = JObj (scaps_obj c).
Proof. intros c. unfold scaps_json, scaps_obj, exp_set, stask_obj, req_set. destruct (sc_tasks c) as [[[l k] []]|], (sc_exp c); reflexivity. Qed.

Definition ccaps_obj (c : ccaps) : obj :=
  opt_set (bs "roots") (fun l => JObj (obj_set (bs "listChanged") (JBool l) [])) (cc_roots c)
    (opt_set (bs "tasks") (fun x => JObj (ctask_obj x)) (cc_tasks c)
    (opt_set (bs "elicitation") (fun l => JObj (match l with [] => [] | _ => obj_set (bs "modes") (JArr (map JStr l)) [] end)) (cc_elicit c)
    (flag_set (bs "sampling") (cc_sampling c) (exp_set (cc_exp c))))).
Lemma ccaps_json_obj : forall c, ccaps_json c = JObj (ccaps_obj c).
Proof. intros c. unfold ccaps_json, ccaps_obj, exp_set, ctask_obj, req_set. destruct (cc_tasks c) as [[[[l k] []] []]|], (cc_exp c); reflexivity. Qed.

(** What the client learns about the server. *)
Lemma server_caps_back : forall s known v, same (init_result s) v ->
  let c := sv_caps s in
  let c' := init_reply known {| rs_id := IdNull; rs_result := Some v; rs_error := None |} in
  same (JObj (sc_exp c)) (JObj (sc_exp c')) /\ same_presence (sc_prompts c) (sc_prompts c') /\ same_presence (sc_resources c) (sc_resources c') /\
  same_presence (sc_tools c) (sc_tools c') /\ sc_tasks c' = sc_tasks c /\ sc_sampling c' = sc_sampling c /\
  sc_completions c' = sc_completions c /\ sc_logging c' = sc_logging c.
Proof.
  intros s known v H c c'. unfold init_result in H. set (o := obj_set (bs "serverInfo") _ _) in H.
  assert (NoDup (map fst o)) as N by (unfold o; nodups).
  assert (exists o', v = JObj o') as [o' ->] by (apply same_obj_inv in H as (? & ? & -> & _); eauto).
  assert (obj_get (bs "capabilities") o = Some (JObj (scaps_obj c))) as G by (unfold o; objs; now rewrite scaps_json_obj).
  destruct (same_obj_at _ _ _ _ N H G) as (b & Gb & S).
  assert (NoDup (map fst (scaps_obj c))) as Nb by (unfold scaps_obj; capdups).
  assert (c' = {| sc_exp := match as_obj (obj_get (bs "experimental") b) with Some e => e | None => [] end;
                  sc_prompts := if has (bs "prompts") b then Some true else None;
                  sc_resources := if has (bs "resources") b then Some (true, true) else None;
                  sc_tools := if has (bs "tools") b then Some true else None;
                  sc_sampling := has (bs "sampling") b;
                  sc_completions := has (bs "completions") b;
                  sc_tasks := match as_obj (obj_get (bs "tasks") b) with
                              | None => None
                              | Some t => Some (has (bs "list") t, has (bs "cancel") t, within2 (bs "tools") (bs "call") t)
                              end;
                  sc_logging := has (bs "logging") b |}) as ->.
  { unfold c', init_reply. cbn [rs_error rs_result]. unfold read_scaps. cbn [as_obj]. rewrite Gb. reflexivity. }
  cbn [sc_exp sc_prompts sc_resources sc_tools sc_tasks sc_sampling sc_completions sc_logging].
  rewrite !(same_has _ _ _ Nb S).
  assert (forall A (x : option A) (k : bstr) (f : A -> json), obj_get k (scaps_obj c) = option_map f x -> has k (scaps_obj c) = match x with Some _ => true | None => false end) as K.
  { intros A x k f E. unfold has. rewrite E. now destruct x. }
  split.
  { assert (obj_get (bs "experimental") (scaps_obj c) = match sc_exp c with [] => None | e => Some (JObj e) end) as E by (unfold scaps_obj; caps; now destruct (sc_exp c)).
    destruct (sc_exp c) as [|x e].
    - rewrite (same_get_none _ _ _ Nb S E). apply same_refl.
    - destruct (same_obj_at _ _ _ _ Nb S E) as (e' & -> & Se). exact Se. }
  split. { rewrite (K _ (sc_prompts c) (bs "prompts") (fun l => JObj [(bs "listChanged", JBool l)])); [unfold same_presence; destruct (sc_prompts c); easy|unfold scaps_obj; caps; now destruct (sc_prompts c)]. }
  split. { rewrite (K _ (sc_resources c) (bs "resources") (fun x => JObj (obj_set (bs "listChanged") (JBool (snd x)) (obj_set (bs "subscribe") (JBool (fst x)) [])))); [unfold same_presence; destruct (sc_resources c); easy|unfold scaps_obj; caps; now destruct (sc_resources c)]. }
  split. { rewrite (K _ (sc_tools c) (bs "tools") (fun l => JObj [(bs "listChanged", JBool l)])); [unfold same_presence; destruct (sc_tools c); easy|unfold scaps_obj; caps; now destruct (sc_tools c)]. }
  split.
  { assert (obj_get (bs "tasks") (scaps_obj c) = option_map (fun x => JObj (stask_obj x)) (sc_tasks c)) as E by (unfold scaps_obj; caps; now destruct (sc_tasks c)).
    destruct (sc_tasks c) as [x|]; cbn [option_map] in E.
    - destruct (same_obj_at _ _ _ _ Nb S E) as (t & -> & St). cbn [as_obj]. now rewrite (stask_back _ _ St).
    - now rewrite (same_get_none _ _ _ Nb S E). }
  split; [unfold has, scaps_obj; caps; now destruct (sc_sampling c)|].
  split; unfold has, scaps_obj; caps; [now destruct (sc_completions c)|now destruct (sc_logging c)].
Qed.

(** What the server learns about the client. *)
Lemma client_caps_back : forall n v c p, same (init_params n v c) p ->
  read_ccaps (Some p) = Some {| cc_roots := cc_roots c; cc_sampling := cc_sampling c; cc_elicit := cc_elicit c; cc_tasks := cc_tasks c; cc_exp := []; cc_ext := [] |}.
Proof.
  intros n v c p H. unfold init_params in H. set (o := obj_set (bs "clientInfo") _ _) in H.
  assert (NoDup (map fst o)) as N by (unfold o; nodups).
  assert (exists o', p = JObj o') as [o' ->] by (apply same_obj_inv in H as (? & ? & -> & _); eauto).
  assert (obj_get (bs "capabilities") o = Some (JObj (ccaps_obj c))) as G by (unfold o; objs; now rewrite ccaps_json_obj).
  destruct (same_obj_at _ _ _ _ N H G) as (b & Gb & S).
  assert (NoDup (map fst (ccaps_obj c))) as Nb by (unfold ccaps_obj; capdups).
  unfold read_ccaps. cbn [as_obj]. rewrite Gb. cbn [as_obj]. f_equal.
  assert (has (bs "sampling") b = cc_sampling c) as E1.
  { rewrite (same_has _ _ _ Nb S). unfold has, ccaps_obj; caps; now destruct (cc_sampling c). }
  assert (obj_get (bs "roots") (ccaps_obj c) = option_map (fun l => JObj (obj_set (bs "listChanged") (JBool l) [])) (cc_roots c)) as G2
    by (unfold ccaps_obj; caps; now destruct (cc_roots c)).
  assert (match obj_get (bs "roots") b with
          | None => None
          | Some v => Some (match v with JObj r => match obj_get (bs "listChanged") r with Some (JBool b) => b | _ => false end | _ => false end)
          end = cc_roots c) as E2.
  { destruct (cc_roots c) as [l|]; cbn [option_map] in G2.
    - destruct (same_obj_at _ _ _ _ Nb S G2) as (x & -> & Sx). f_equal.
      rewrite (same_get_bool (bs "listChanged") _ _ l (nodup_one _ _) Sx); [reflexivity|caps; reflexivity].
    - now rewrite (same_get_none _ _ _ Nb S G2). }
  assert (obj_get (bs "elicitation") (ccaps_obj c) = option_map (fun l => JObj (match l with [] => [] | _ => obj_set (bs "modes") (JArr (map JStr l)) [] end)) (cc_elicit c)) as G3
    by (unfold ccaps_obj; caps; now destruct (cc_elicit c)).
  assert (match obj_get (bs "elicitation") b with
          | None => None
          | Some v => Some (match v with JObj e => match obj_get (bs "modes") e with Some (JArr l) => str_items l | _ => [] end | _ => [] end)
          end = cc_elicit c) as E3.
  { destruct (cc_elicit c) as [l|]; cbn [option_map] in G3.
    - destruct (same_obj_at _ _ _ _ Nb S G3) as (x & -> & Sx). f_equal. destruct l as [|m l].
      + assert (obj_get (bs "modes") x = None) as -> by (refine (same_get_none _ [] x _ Sx _); [constructor|reflexivity]). reflexivity.
      + destruct (same_get_some (bs "modes") _ _ (JArr (map JStr (m :: l))) (nodup_one _ _) Sx) as (y & -> & Sy); [caps; reflexivity|].
        rewrite (same_strs _ _ Sy). apply str_items_map.
    - now rewrite (same_get_none _ _ _ Nb S G3). }
  assert (obj_get (bs "tasks") (ccaps_obj c) = option_map (fun x => JObj (ctask_obj x)) (cc_tasks c)) as G4 by (unfold ccaps_obj; caps; now destruct (cc_tasks c)).
  assert (match as_obj (obj_get (bs "tasks") b) with
          | None => None
          | Some t => Some (has (bs "list") t, has (bs "cancel") t, within2 (bs "sampling") (bs "createMessage") t, within2 (bs "elicitation") (bs "create") t)
          end = cc_tasks c) as E4.
  { destruct (cc_tasks c) as [x|]; cbn [option_map] in G4.
    - destruct (same_obj_at _ _ _ _ Nb S G4) as (t & -> & St). cbn [as_obj]. now rewrite (ctask_back _ _ St).
    - now rewrite (same_get_none _ _ _ Nb S G4). }
  assert (obj_get (bs "extensions") b = None) as E5 by (apply (same_get_none _ _ _ Nb S); unfold ccaps_obj; caps; reflexivity).
  rewrite E1, E2, E3, E5. cbn [as_obj].
  transitivity {| cc_roots := cc_roots c; cc_sampling := cc_sampling c; cc_elicit := cc_elicit c;
    cc_tasks := match as_obj (obj_get (bs "tasks") b) with
          | None => None
          | Some t => Some (has (bs "list") t, has (bs "cancel") t, within2 (bs "sampling") (bs "createMessage") t, within2 (bs "elicitation") (bs "create") t)
          end; cc_exp := []; cc_ext := [] |}; [reflexivity|now rewrite E4].
Qed.
