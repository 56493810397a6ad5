(** C207: arguments and messages of prompts put together with the helpers. *)
From Coq Require Import Ascii String List Permutation Arith NArith ZArith Bool Lia.
From Verif Require Import StrModel StrProofs DoubleModel JsonModel JsonSpec ObjSpec ObjProofs MapModel RpcModel TaskModel DescModel RegModel RegSpec ValModel ValSpec ValProofs ServModel ServSpec CallProofs ArgsModel ArgsSpec ArgsProofs.
Import ListNotations.
Local Open Scope nat_scope.

(** The arguments are an object with the value given last to each name, and no other names. *)
Theorem C207_built : forall cs, exists o, args_build cs = JObj o /\ NoDup (map fst o) /\
  (forall k v, given_last cs k v -> obj_get k o = Some v) /\ (forall k, never_given cs k -> obj_get k o = None).
Proof.
  intro cs. exists (fold_left args_step cs []). split; [reflexivity|]. split; [apply args_nodup; constructor|]. split; [apply args_last|apply args_never].
Qed.
Print Assumptions C207_built.

(** Every name is one or the other. *)
Theorem C207_either : forall cs k, (exists v, given_last cs k v) \/ never_given cs k.
Proof. exact given_or_not. Qed.
Print Assumptions C207_either.

(** The prompt's handler is called with them, and when it answers with texts the client is told exactly
    these, with strict checking or without. *)
Theorem C207_prompt : forall ops w q s n cs d h, sv_reg s = reg_run ops -> prompt_now n (rev ops) = Some (d, Some h) ->
  requests q (bs "prompts/get") (call_params n (args_build cs)) ->
  exists o, (forall k v, given_last cs k v -> exists v', obj_get k o = Some v' /\ same v v') /\
    (forall k, never_given cs k -> obj_get k o = None) /\
    forall x ts, w_prompt w h (JObj o) = Ret (text_prompt x ts) ->
      exists r v, dispatch w false false false q s = (Reply r, s) /\ succeeds r v /\ tells_prompt v x (text_messages ts).
Proof.
  intros ops w q s n cs d h Hr Hp Hq. destruct (prompt_runs ops w q s n _ Hr d h Hp Hq) as (a' & S & R & _).
  destruct (args_arrive cs a' S) as (o & -> & G1 & G2). exists o. split; [exact G1|]. split; [exact G2|]. intros x ts W.
  apply R; [rewrite <- text_prompt_spec; exact W|]. intros _. apply Forall_forall. intros y I. apply in_map_iff in I. destruct I as (t & <- & _).
  apply message_iff. vm_compute. reflexivity.
Qed.
Print Assumptions C207_prompt.

(** The texts of messages made of texts. *)
Theorem C207_texts : forall d ts, fst (text_prompt d ts) = d /\ snd (text_prompt d ts) = text_messages ts /\ collect_text (text_messages ts) = ts.
Proof. intros d ts. rewrite text_prompt_spec. split; [reflexivity|]. split; [reflexivity|]. exact (collect_made ts). Qed.
Print Assumptions C207_texts.

(** A name given twice, one given once and one not given. *)
Definition some_calls : list args_call := [GString (bs "topic") (bs "x"); GInt (bs "depth") 3; GString (bs "topic") (bs "y")].
Example C207_calls : given_last some_calls (bs "topic") (JStr (bs "y")) /\ given_last some_calls (bs "depth") (JInt 3) /\ never_given some_calls (bs "z").
Proof.
  split; [|split].
  - exists [GString (bs "topic") (bs "x"); GInt (bs "depth") 3], (GString (bs "topic") (bs "y")), []. split; [reflexivity|]. split; [right; left; now eexists|]. intros d w [].
  - exists [GString (bs "topic") (bs "x")], (GInt (bs "depth") 3), [GString (bs "topic") (bs "y")]. split; [reflexivity|]. split; [right; right; left; now eexists|].
    intros d w [<- | []] [E | [(t & E & _) | [(t & E & _) | (t & E & _)]]]; discriminate.
  - intros c v [<- | [<- | [<- | []]]] [E | [(t & E & _) | [(t & E & _) | (t & E & _)]]]; discriminate.
Qed.
Example C207_value : args_build some_calls = JObj [(bs "topic", JStr (bs "y")); (bs "depth", JInt 3)].
Proof. reflexivity. Qed.
