(** C208: a list that is walked through is whole, or the call fails. *)
From Coq Require Import Ascii String List Arith NArith ZArith Bool Lia.
From Verif Require Import StrModel StrProofs DoubleModel JsonModel MapModel RpcModel TaskModel DescModel RegModel ValModel CacheModel CacheSpec WalkModel WalkSpec WalkProofs.
Import ListNotations.
Local Open Scope nat_scope.

(** The part that holds: the list is whole if every reply was a page, or if the client checks
    strictly and no reply was an error. Missing: errors, and without strict checking malformed
    results, end the list. *)
Theorem C208_whole_partial : forall strict k srv limit pages l asked, list_everything strict k srv limit pages = (WDone l, asked) ->
  (forall r, given srv asked r -> (exists os next, shows k r os next) \/ (strict = true /\ ~ refuses r)) ->
  whole srv k limit [] None asked l.
Proof. exact walk_good. Qed.
Print Assumptions C208_whole_partial.

(** Exceptions of the transport, and with strict checking results of the wrong shape, are never
    swallowed: when a list is returned there was none, and when the helper throws the last reply
    was one, and nothing was asked after it. *)
Theorem C208_fails : forall strict k srv limit pages,
  (forall l asked r, list_everything strict k srv limit pages = (WDone l, asked) -> given srv asked r ->
    r <> RException /\ (strict = true -> forall v, is_result r v -> CacheModel.valid_list k v = true)) /\
  (forall asked, list_everything strict k srv limit pages = (WThrew, asked) ->
    exists before p, asked = before ++ [p] /\
      (srv before p = RException \/ (strict = true /\ exists v, is_result (srv before p) v /\ CacheModel.valid_list k v = false))).
Proof.
  intros strict k srv limit pages. split.
  - intros l asked r H (b & p & more & E & ->). destruct (walk_no_throw _ _ _ _ _ _ _ _ _ _ H b p more E (Nat.le_0_l _)) as (x & P).
    assert (~ (srv b p = RException \/ (strict = true /\ exists v, is_result (srv b p) v /\ CacheModel.valid_list k v = false))) as N.
    { intro Q. apply paged_none in Q. congruence. }
    split; [intro Q; apply N; left; exact Q|]. intros S1 v R. destruct (CacheModel.valid_list k v) eqn:V; [reflexivity|]. elim N. right. split; [exact S1|]. exists v. split; assumption.
  - intros asked H. destruct (walk_threw _ _ _ _ _ _ _ _ _ H) as (b & p & E & P). exists b, p. split; [exact E|]. apply paged_none. exact P.
Qed.
Print Assumptions C208_fails.

(** It comes back if the server's pages come to an end: after n requests there is no cursor. *)
Theorem C208_ends_partial : forall strict k srv limit n, (forall before p, exists os next, shows k (srv before p) os next) ->
  (forall before p os c, n <= length before -> ~ shows k (srv before p) os (Some c)) ->
  fst (list_everything strict k srv limit (S n)) <> WAsking.
Proof. intros strict k srv limit n A B. apply (walk_ends strict k srv limit n B (S n)); [exact A|cbn [length]; lia|lia]. Qed.
Print Assumptions C208_ends_partial.

(** ListTools and its siblings look only at the first page, whatever cursor it has. *)
Theorem C208_first_only : forall strict k r os next l, shows k r os next -> list_reply strict k r = Got l -> l = map (item k) os.
Proof. exact list_first. Qed.
Print Assumptions C208_first_only.

(** Servers for the examples: a page of one tool, then what is given. *)
Definition tool_named (x : string) : obj := [(bs "name", JStr (bs x))].
Definition page_reply (os : list obj) (next : option json) : reply :=
  RResponse (Some {| rs_id := IdStr (bs "1"); rs_result := Some (JObj ((bs "tools", JArr (map JObj os)) :: match next with Some c => [(bs "nextCursor", c)] | None => [] end)); rs_error := None |}).
Definition error_reply : reply := RResponse (Some {| rs_id := IdStr (bs "1"); rs_result := None; rs_error := Some (JObj [(bs "code", JInt (-32603)); (bs "message", JStr (bs "no"))]) |}).
Definition then_reply (r : reply) : pager := fun before _ => match before with [] => page_reply [tool_named "a"] (Some (JInt 1)) | _ => r end.

(** A second page that is refused: the first is returned as if it were all, strict or not. *)
Theorem C208_cut_refuted : forall strict, list_everything strict KTools (then_reply error_reply) None 2
  = (WDone [item KTools (tool_named "a")], [None; Some (JObj [(bs "cursor", JStr (bs "1"))])]).
Proof. intros []; vm_compute; reflexivity. Qed.
Print Assumptions C208_cut_refuted.

(** And a list that cannot be had at all is empty. *)
Theorem C208_none_refuted : forall strict k limit, fst (list_everything strict k (fun _ _ => error_reply) limit 1) = WDone [].
Proof. intros [] k limit; reflexivity. Qed.
Print Assumptions C208_none_refuted.

Lemma error_shows_nothing : forall k os next, ~ shows k error_reply os next.
Proof. intros k os next (o & (q & E & _ & R) & _). injection E as <-. discriminate R. Qed.

Theorem C208_refuted : ~ whole_or_fails.
Proof.
  intro H. specialize (H _ _ _ _ _ _ _ (C208_cut_refuted true)). inversion H; subst; try discriminate.
  match goal with W : whole _ _ _ ([] ++ [_]) _ _ _ |- _ => inversion W; subst end;
    match goal with Q : shows _ (then_reply error_reply ([] ++ [_]) _) _ _ |- _ => exact (error_shows_nothing _ _ _ Q) end.
Qed.
Print Assumptions C208_refuted.

(** A server that always has one more page is asked for ever. *)
Theorem C208_endless_refuted : ~ comes_back.
Proof.
  intro H. destruct (H true (fun _ _ => page_reply [tool_named "a"] (Some (JStr (bs "x")))) KTools None) as (n & N). apply N.
  apply walk_endless. intros before p. eexists. split; [vm_compute; reflexivity|discriminate].
Qed.
Print Assumptions C208_endless_refuted.

(** Two pages, the first with an integer for a cursor, with a limit. *)
Example C208_two_pages :
  let srv := then_reply (page_reply [tool_named "b"; tool_named "c"] None) in
  let asked := [Some (JObj [(bs "limit", JInt 2)]); Some (JObj [(bs "cursor", JStr (bs "1")); (bs "limit", JInt 2)])] in
  list_everything true KTools srv (Some 2%Z) 5 = (WDone (map (item KTools) [tool_named "a"; tool_named "b"; tool_named "c"]), asked) /\
  (forall r, given srv asked r -> exists os next, shows KTools r os next) /\
  (forall before p os c, 1 <= length before -> ~ shows KTools (srv before p) os (Some c)).
Proof.
  cbv zeta. split; [vm_compute; reflexivity|]. split.
  - intros r (b & p & more & _ & ->). destruct b as [|x b]; [exists [tool_named "a"], (Some (bs "1"))|exists [tool_named "b"; tool_named "c"], None];
      (eexists; split; [eexists; split; [reflexivity|split; reflexivity]|split; [vm_compute; reflexivity|]]); [right; exists 1%Z; split; vm_compute; reflexivity|vm_compute; reflexivity].
  - intros [|x b] p os c L; [inversion L|]. intros (o & (q & E & _ & R) & _ & C). injection E as <-. injection R as <-. destruct C as [C | (z & C & _)]; vm_compute in C; discriminate C.
Qed.
(** A failure on the way. *)
Example C208_thrown : fst (list_everything false KTools (then_reply RException) None 5) = WThrew.
Proof. vm_compute. reflexivity. Qed.
