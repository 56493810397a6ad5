(** Proofs about walks through the pages of a list. *)
From Coq Require Import Ascii String List Arith NArith ZArith Bool Lia.
From Verif Require Import StrModel StrProofs DoubleModel JsonModel MapModel RpcModel TaskModel DescModel RegModel ValModel CacheModel CacheSpec WalkModel WalkSpec.
Import ListNotations.
Local Open Scope nat_scope.

Lemma get_here : forall m a (x : json) o, obj_get m ((a, x) :: o) = if beq m a then Some x else obj_get m o.
Proof. intros. cbn [obj_get]. destruct (beq m a); reflexivity. Qed.

Lemma page_params_asked : forall c l, asked_for c l (page_params c l).
Proof.
  intros c l. unfold asked_for, wanted.
  assert (page_params c l = match c, (match l with Some n => if Z.ltb 0 n then Some (JInt n) else None | None => None end) with
    | None, None => None
    | Some c, None => Some (JObj [(bs "cursor", JStr c)])
    | None, Some v => Some (JObj [(bs "limit", v)])
    | Some c, Some v => Some (JObj [(bs "cursor", JStr c); (bs "limit", v)]) end) as E.
  { unfold page_params. destruct c, l as [n|]; try destruct (Z.ltb 0 n); reflexivity. }
  rewrite E. clear E. destruct c as [c|]; destruct (match l with Some n => _ | None => None end) as [v|].
  - right. eexists. split; [reflexivity|]. split; [reflexivity|]. split; [reflexivity|]. intros m A B. rewrite !get_here, (proj2 (beq_neq _ _) A), (proj2 (beq_neq _ _) B). reflexivity.
  - right. eexists. split; [reflexivity|]. split; [reflexivity|]. split; [reflexivity|]. intros m A B. rewrite !get_here, (proj2 (beq_neq _ _) A). reflexivity.
  - right. eexists. split; [reflexivity|]. split; [reflexivity|]. split; [reflexivity|]. intros m A B. rewrite !get_here, (proj2 (beq_neq _ _) B). reflexivity.
  - left. repeat split; reflexivity.
Qed.

(** What a page call makes of a reply. *)
Lemma objects_read : forall k os, flat_map (fun x => match x with JObj i => [item k i] | _ => [] end) (map JObj os) = map (item k) os.
Proof. induction os as [|o os IH]; [reflexivity|]. cbn [map flat_map]. rewrite IH. reflexivity. Qed.

Lemma paged_shows : forall strict k r os next l c, shows k r os next -> paged_reply strict k r = Some (l, c) -> l = map (item k) os /\ c = next.
Proof.
  intros strict k r os next l c (o & (q & -> & E & R) & G & C) P. unfold paged_reply in P. rewrite E, R in P.
  destruct (strict && _)%bool; [discriminate P|]. unfold parse_page in P. rewrite G, objects_read in P.
  destruct next as [x|]; cbn [cursor_in] in C; [destruct C as [C | (z & C & ->)]|]; rewrite C in P; injection P as <- <-; split; reflexivity.
Qed.

(** A result that passes the validator is a page. *)
Lemma all_objects : forall p l, forallb (of_obj p) l = true -> exists os, l = map JObj os.
Proof.
  induction l as [|v l IH]; intro H; [exists []; reflexivity|]. cbn [forallb] in H. apply andb_prop in H as [H1 H2].
  destruct (IH H2) as (os & ->). destruct v; try discriminate H1. eexists (_ :: os). reflexivity.
Qed.
Lemma valid_shows : forall k v, CacheModel.valid_list k v = true -> forall r, is_result r v -> exists os next, shows k r os next.
Proof.
  intros k v H r R.
  assert (exists p o, v = JObj o /\ arr_field (of_obj p) o (list_key k) = true /\ cursor_ok o = true) as (p & o & -> & A & C).
  { destruct k; cbn [CacheModel.valid_list list_key] in *; unfold valid_tools, valid_resources, valid_templates, valid_prompts in H;
      destruct v; try discriminate H; apply andb_prop in H as [A C]; eexists; eexists; (split; [reflexivity|]); split; eassumption. }
  unfold arr_field in A. destruct (obj_get (list_key k) o) as [[]|] eqn:G; try discriminate A.
  destruct (all_objects _ _ A) as (os & ->). exists os. unfold cursor_ok, opt_field in C.
  destruct (obj_get (bs "nextCursor") o) as [c|] eqn:N.
  - destruct c; try discriminate C.
    + eexists (Some _). exists o. split; [exact R|]. split; [exact G|]. right. eexists. split; [exact N|reflexivity].
    + eexists (Some _). exists o. split; [exact R|]. split; [exact G|]. left. exact N.
  - exists None. exists o. split; [exact R|]. split; [exact G|]. exact N.
Qed.

(** Every reply is an exception, a refusal or a result. *)
Lemma reply_cases : forall r, r = RException \/ refuses r \/ exists v, is_result r v.
Proof.
  intros [[q|]|].
  - destruct (rs_error q) as [e|] eqn:E; [|destruct (rs_result q) as [v|] eqn:R].
    + right; left. split; [eexists; reflexivity|]. intros v (p & P & E' & _). injection P as <-. congruence.
    + right; right. exists v, q. repeat split; assumption.
    + right; left. split; [eexists; reflexivity|]. intros v (p & P & _ & R'). injection P as <-. congruence.
  - right; left. split; [eexists; reflexivity|]. intros v (p & P & _). discriminate P.
  - left. reflexivity.
Qed.

Definition sound (strict : bool) (k : lkind) (r : reply) : Prop := (exists os next, shows k r os next) \/ (strict = true /\ ~ refuses r).

Lemma sound_shows : forall strict k r l c, sound strict k r -> paged_reply strict k r = Some (l, c) -> exists os next, shows k r os next.
Proof.
  intros strict k r l c [H | (-> & H)] P; [exact H|]. destruct (reply_cases r) as [-> | [N | (v & R)]]; [discriminate P|contradiction|].
  destruct (CacheModel.valid_list k v) eqn:V; [exact (valid_shows k v V r R)|]. destruct R as (q & -> & E & R). cbn in P. rewrite E, R, V in P. discriminate P.
Qed.

Lemma walk_asked : forall strict k srv limit n cur asked all w as', walk strict k srv limit n cur asked all = (w, as') -> exists more, as' = asked ++ more.
Proof.
  induction n as [|n IH]; intros cur asked all w as' H; cbn [walk] in H; [injection H as _ <-; exists []; symmetry; apply app_nil_r|].
  destruct (paged_reply _ _ _) as [(l & [c|])|].
  - apply IH in H as (more & ->). rewrite <- app_assoc. eexists. reflexivity.
  - injection H as _ <-. eexists. reflexivity.
  - injection H as _ <-. eexists. reflexivity.
Qed.

(** The requests made after some. *)
Lemma walk_whole : forall strict k srv limit n cur before all0 l all,
  walk strict k srv limit n cur before all0 = (WDone l, all) ->
  (forall b p more, all = b ++ p :: more -> length before <= length b -> sound strict k (srv b p)) ->
  exists l', l = all0 ++ l' /\ whole srv k limit before cur all l'.
Proof.
  induction n as [|n IH]; intros cur before all0 l all H F; cbn [walk] in H; [discriminate H|].
  destruct (paged_reply _ _ _) as [(x & [c|])|] eqn:P; [| |discriminate H].
  - destruct (walk_asked _ _ _ _ _ _ _ _ _ _ H) as (more & E).
    destruct (sound_shows _ _ _ _ _ (F before (page_params cur limit) more ltac:(rewrite E, <- app_assoc; reflexivity) (le_n _)) P) as (os & next & Sh).
    destruct (paged_shows _ _ _ _ _ _ _ Sh P) as (-> & <-).
    destruct (IH _ _ _ _ _ H) as (l' & -> & W).
    { intros b p m Eb L. apply (F b p m Eb). rewrite app_length in L. lia. }
    exists (map (item k) os ++ l'). split; [symmetry; apply app_assoc|]. eapply whole_more; [apply page_params_asked|exact Sh|exact W].
  - injection H as <- <-. 
    destruct (sound_shows _ _ _ _ _ (F before (page_params cur limit) [] eq_refl (le_n _)) P) as (os & next & Sh).
    destruct (paged_shows _ _ _ _ _ _ _ Sh P) as (-> & <-). eexists. split; [reflexivity|]. eapply whole_last; [apply page_params_asked|exact Sh].
Qed.

Lemma walk_good : forall strict k srv limit n l all, list_everything strict k srv limit n = (WDone l, all) ->
  (forall r, given srv all r -> sound strict k r) -> whole srv k limit [] None all l.
Proof.
  intros strict k srv limit n l all H F. destruct (walk_whole _ _ _ _ _ _ _ _ _ _ H) as (l' & -> & W); [|exact W].
  intros b p m E _. apply F. exists b, p, m. split; [exact E|reflexivity].
Qed.

(** What a list that is returned says of the replies. *)
Lemma walk_no_throw : forall strict k srv limit n cur before all0 l all,
  walk strict k srv limit n cur before all0 = (WDone l, all) ->
  forall b p more, all = b ++ p :: more -> length before <= length b -> exists x, paged_reply strict k (srv b p) = Some x.
Proof.
  induction n as [|n IH]; intros cur before all0 l all H b p more E L; cbn [walk] in H; [discriminate H|].
  destruct (paged_reply strict k (srv before (page_params cur limit))) as [(x & [c|])|] eqn:P; [| |discriminate H].
  - destruct (Nat.eq_dec (length b) (length before)) as [D|D].
    + destruct (walk_asked _ _ _ _ _ _ _ _ _ _ H) as (m & E'). rewrite E', <- app_assoc in E.
      apply (f_equal (firstn (S (length b)))) in E. rewrite D in E at 1. 
      assert (forall (u : list (option json)) y t, firstn (S (length u)) (u ++ y :: t) = u ++ [y]) as FN.
      { induction u as [|a u IHu]; intros y t; [reflexivity|]. cbn [length app firstn]. f_equal. apply IHu. }
      cbn [app] in E. rewrite !FN in E. apply app_inj_tail in E as (<- & <-). rewrite P. eexists. reflexivity.
    + apply (IH _ _ _ _ _ H b p more E). rewrite app_length. cbn [length]. lia.
  - injection H as _ <-. assert (length b = length before /\ more = []) as (Lb & ->).
    { apply (f_equal (@length _)) in E. rewrite !app_length in E. cbn [length] in E. destruct more; cbn [length] in E; [split; [lia|reflexivity]|lia]. }
    apply app_inj_tail in E as (<- & <-). rewrite P. eexists. reflexivity.
Qed.

(** What an exception says of them: the last reply is to blame. *)
Lemma walk_threw : forall strict k srv limit n cur before all0 all, walk strict k srv limit n cur before all0 = (WThrew, all) ->
  exists b p, all = b ++ [p] /\ paged_reply strict k (srv b p) = None.
Proof.
  induction n as [|n IH]; intros cur before all0 all H; cbn [walk] in H; [discriminate H|].
  destruct (paged_reply _ _ _) as [(x & [c|])|] eqn:P; [exact (IH _ _ _ _ H)|discriminate H|]. injection H as <-. eexists; eexists; split; [reflexivity|exact P].
Qed.
Lemma paged_none : forall strict k r, paged_reply strict k r = None <-> r = RException \/ (strict = true /\ exists v, is_result r v /\ CacheModel.valid_list k v = false).
Proof.
  intros strict k r. split.
  - destruct r as [[q|]|]; cbn [paged_reply]; [|discriminate|left; reflexivity].
    destruct (rs_error q) eqn:E; [discriminate|]. destruct (rs_result q) as [v|] eqn:R; [|discriminate].
    destruct strict; [|discriminate]. destruct (CacheModel.valid_list k v) eqn:V; [discriminate|]. intros _. right. split; [reflexivity|]. exists v. split; [|exact V]. exists q. repeat split; assumption.
  - intros [-> | (-> & v & (q & -> & E & R) & V)]; [reflexivity|]. cbn [paged_reply]. rewrite E, R, V. reflexivity.
Qed.

(** It ends once the pages do. *)
Lemma walk_ends : forall strict k srv limit n, (forall before p os c, n <= length before -> ~ shows k (srv before p) os (Some c)) ->
  forall m cur before all0, (forall b p, exists os next, shows k (srv b p) os next) -> S n - length before <= m -> 0 < m ->
  fst (walk strict k srv limit m cur before all0) <> WAsking.
Proof.
  intros strict k srv limit n B m. induction m as [|m IH]; intros cur before all0 A L P; [lia|]. cbn [walk].
  destruct (paged_reply _ _ _) as [(x & [c|])|] eqn:Q; [|discriminate|discriminate].
  destruct (A before (page_params cur limit)) as (os & next & Sh). destruct (paged_shows _ _ _ _ _ _ _ Sh Q) as (-> & <-).
  destruct (le_lt_dec n (length before)) as [G|G]; [destruct (B _ _ _ _ G Sh)|].
  apply IH; [exact A| |]; rewrite ?app_length; cbn [length]; lia.
Qed.

(** A server that always has one more page. *)
Lemma walk_endless : forall strict k srv limit, (forall before p, exists c, paged_reply strict k (srv before p) = Some c /\ snd c <> None) ->
  forall m cur before all0, fst (walk strict k srv limit m cur before all0) = WAsking.
Proof.
  intros strict k srv limit A. induction m as [|m IH]; intros cur before all0; [reflexivity|]. cbn [walk].
  destruct (A before (page_params cur limit)) as ((l & [c|]) & -> & N); [apply IH|now elim N].
Qed.

(** The calls that ask for no page. *)
Lemma items_read : forall k os, flat_map (read_item k) (map JObj os) = map (item k) os.
Proof. induction os as [|o os IH]; [reflexivity|]. cbn [map flat_map]. rewrite IH. destruct k; reflexivity. Qed.
Lemma list_first : forall strict k r os next l, shows k r os next -> list_reply strict k r = Got l -> l = map (item k) os.
Proof.
  intros strict k r os next l (o & (q & -> & E & R) & G & C) P. unfold list_reply in P. rewrite E, R in P.
  destruct (strict && _)%bool; [discriminate P|]. injection P as <-. unfold read_list. rewrite G. apply items_read.
Qed.
