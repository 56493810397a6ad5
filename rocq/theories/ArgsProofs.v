(** Proofs about the helpers for prompts. *)
From Coq Require Import Ascii String List Permutation Arith NArith ZArith Bool Lia.
From Verif Require Import StrModel StrProofs DoubleModel JsonModel JsonSpec ObjSpec ObjProofs MapModel TaskModel DescModel DescProofs ValModel ValSpec ValProofs ArgsModel ArgsSpec.
Import ListNotations.
Local Open Scope nat_scope.

Lemma gives_step : forall c k v o, gives c k v -> obj_get k (args_step o c) = Some v.
Proof. intros c k v o [-> | [(s & -> & ->) | [(n & -> & ->) | (b & -> & ->)]]]; cbn [args_step]; apply get_set_same. Qed.
Lemma not_gives_step : forall c k o, (forall v, ~ gives c k v) -> obj_get k (args_step o c) = obj_get k o.
Proof.
  intros c k o H. destruct c as [k' v|k' v|k' n|k' b]; cbn [args_step]; apply get_set_other; intros ->.
  - apply (H v). now left.
  - apply (H (JStr v)). right. left. now exists v.
  - apply (H (JInt n)). right. right. left. now exists n.
  - apply (H (JBool b)). right. right. right. now exists b.
Qed.
Lemma args_nodup : forall cs o, NoDup (map fst o) -> NoDup (map fst (fold_left args_step cs o)).
Proof. intros cs. induction cs as [|c cs IH]; intros o H; [exact H|]. cbn [fold_left]. apply IH. destruct c; now apply nodup_set. Qed.
Lemma args_rest : forall k after o, (forall d w, In d after -> ~ gives d k w) -> obj_get k (fold_left args_step after o) = obj_get k o.
Proof.
  intros k after. induction after as [|d after IH]; intros o H; [reflexivity|]. cbn [fold_left]. rewrite IH.
  - apply not_gives_step. intros v. apply (H d v). now left.
  - intros e w I. apply H. now right.
Qed.
Lemma args_last : forall cs k v, given_last cs k v -> obj_get k (fold_left args_step cs []) = Some v.
Proof.
  intros cs k v (b & c & a & -> & G & N). rewrite fold_left_app. cbn [fold_left]. rewrite args_rest by exact N. now apply gives_step.
Qed.
Lemma args_never : forall cs k, never_given cs k -> obj_get k (fold_left args_step cs []) = None.
Proof. intros cs k H. rewrite args_rest; [reflexivity|exact H]. Qed.

(** Every name is given last, or never. *)
Lemma given_or_not : forall cs k, (exists v, given_last cs k v) \/ never_given cs k.
Proof.
  assert (forall c k, (exists v, gives c k v) \/ (forall v, ~ gives c k v)) as K.
  { intros c k. assert (forall k', k' = k \/ k' <> k) as DEC by (intro k'; destruct (beq k' k) eqn:B; [left; now apply beq_eq|right; now apply beq_neq]).
    destruct c as [k' v|k' v|k' n|k' b]; destruct (DEC k') as [-> | N];
      try (right; intros w [E | [(x & E & _) | [(x & E & _) | (x & E & _)]]]; congruence); left.
    - exists v. now left.
    - exists (JStr v). right. left. now exists v.
    - exists (JInt n). right. right. left. now exists n.
    - exists (JBool b). right. right. right. now exists b. }
  intros cs k. induction cs as [|c cs IH]; [right; intros c v []|]. destruct IH as [(v & b & d & a & -> & G & N) | N].
  - left. exists v, (c :: b), d, a. now repeat split.
  - destruct (K c k) as [(v & G) | Q]; [left; exists v, [], c, cs; now repeat split|]. right. intros d w [<- | I]; [apply Q|now apply N].
Qed.

(** The object that arrives. *)
Lemma args_arrive : forall cs a', same (args_build cs) a' -> exists o', a' = JObj o' /\
  (forall k v, given_last cs k v -> exists v', obj_get k o' = Some v' /\ same v v') /\ (forall k, never_given cs k -> obj_get k o' = None).
Proof.
  intros cs a' S. unfold args_build in S. pose proof (same_obj_inv _ _ S) as (o1 & o' & -> & _). exists o'. split; [reflexivity|].
  pose proof (args_nodup cs [] (NoDup_nil _)) as N. split.
  - intros k v G. exact (same_get_some k _ _ v N S (args_last cs k v G)).
  - intros k G. exact (same_get_none k _ _ N S (args_never cs k G)).
Qed.

Lemma texts_of_calls : forall ts, prompt_texts (map PText ts) = ts.
Proof. induction ts as [|t ts IH]; [reflexivity|]. cbn. now rewrite <- IH at 2. Qed.
Lemma text_prompt_spec : forall d ts, text_prompt d ts = (d, text_messages ts).
Proof.
  intros d ts. unfold text_prompt, prompt_build. cbn [fold_left fst snd].
  assert (forall ts ms, fold_left (fun st c => match c with PDescribe d => (d, snd st) | PText t => (fst st, snd st ++ [make_text t]) end) (map PText ts) (d, ms) =
    (d, ms ++ text_messages ts)) as K.
  { clear. induction ts as [|t ts IH]; intro ms; [now rewrite app_nil_r|]. cbn [map fold_left fst snd]. rewrite IH. unfold text_messages. cbn [map]. now rewrite <- app_assoc. }
  apply K.
Qed.
