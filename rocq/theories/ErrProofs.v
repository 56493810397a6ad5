From Coq Require Import Ascii String List Permutation Arith NArith ZArith Bool Lia ZifyBool.
From Verif Require Import StrModel StrProofs DoubleModel JsonModel JsonSpec JsonProofs ObjSpec ObjProofs MapModel TaskModel TaskSpec TaskProofs DescModel DescSpec DescProofs RpcModel RpcSpec RpcProofs ErrModel ErrSpec.
Import ListNotations.
Local Open Scope nat_scope.

Lemma to_int_id : forall z, int32 z -> to_int z = z.
Proof.
  intros z [A B]. unfold to_int. destruct (Z.ltb_spec z 0).
  - replace (z mod 2 ^ 32)%Z with (z + 2 ^ 32)%Z.
    + destruct (Z.ltb_spec (z + 2 ^ 32) (2 ^ 31)); lia.
    + symmetry. rewrite <- (Z_mod_plus_full z 1). apply Z.mod_small. lia.
  - rewrite Z.mod_small by lia. destruct (Z.ltb_spec z (2 ^ 31)); lia.
Qed.

Lemma to_int_int32 : forall z, int32 (to_int z).
Proof.
  intros z. unfold to_int, int32. pose proof (Z.mod_pos_bound z (2 ^ 32) ltac:(lia)).
  destruct (Z.ltb_spec (z mod 2 ^ 32) (2 ^ 31)); lia.
Qed.

Lemma category_cases : forall code, In (code, category_of code) known_codes \/ category_of code = CatUnknown.
Proof.
  intros code.
  destruct (in_dec Z.eq_dec code (map fst known_codes)) as [I|I].
  - left. cbn in I. repeat destruct I as [<- |I]; cbn; tauto.
  - right. unfold category_of.
    destruct code as [|p|p]; try reflexivity.
    do 15 (try (destruct p as [p|p|]; try reflexivity)).
    all: try (exfalso; apply I; cbn; tauto).
    all: destruct p; reflexivity.
Qed.

Lemma category_belongs : forall code, belongs code (category_of code).
Proof.
  intros code. destruct (in_dec Z.eq_dec code (map fst known_codes)) as [I|I].
  - left. cbn in I. repeat destruct I as [<- |I]; cbn; tauto.
  - right. destruct (category_cases code) as [C|C]; [|now split].
    exfalso. apply I. now apply (in_map fst) in C.
Qed.

Lemma belongs_unique : forall code c c', belongs code c -> belongs code c' -> c = c'.
Proof.
  intros code c c' [A|[-> A]] [B|[-> B]].
  - cbn in A, B. repeat destruct A as [[= <- <-]|A]; repeat destruct B as [[=]|B]; congruence || contradiction.
  - exfalso. apply B. now apply (in_map fst) in A.
  - exfalso. apply A. now apply (in_map fst) in B.
  - reflexivity.
Qed.

Lemma read_back : forall e v, int32 (er_code e) -> belongs (er_code e) (er_category e) -> same (error_value e) v ->
  exists e', read_error v = Some e' /\ same_error e e'.
Proof.
  intros e v I B H. unfold error_value in H.
  set (o := opt_set (bs "data") (fun v => v) (er_data e) (obj_set (bs "message") (JStr (er_message e)) (obj_set (bs "code") (JInt (er_code e)) []))) in *.
  assert (NoDup (map fst o)) as N by (unfold o; nodups).
  assert (exists o', v = JObj o') as [o' ->] by (apply same_obj_inv in H as (? & ? & -> & _); eauto).
  assert (obj_get (bs "code") o = Some (JInt (er_code e))) as G1 by (unfold o; objs; reflexivity).
  assert (obj_get (bs "message") o = Some (JStr (er_message e))) as G2 by (unfold o; objs; reflexivity).
  assert (obj_get (bs "data") o = er_data e) as G3 by (unfold o; objs; destruct (er_data e); reflexivity).
  pose proof (same_opt_get (bs "data") _ _ N H) as D. rewrite G3 in D.
  unfold read_error.
  rewrite (same_get_int _ _ _ _ N H G1), (same_get_str _ _ _ _ N H G2), (to_int_id _ I).
  eexists; split; [reflexivity|]. repeat split; cbn; try easy.
  exact (belongs_unique _ _ _ (category_belongs _) B).
Qed.

Lemma read_iff : forall v e, read_error v = Some e <->
  exists o c, v = JObj o /\ obj_get (bs "code") o = Some (JInt c) /\ obj_get (bs "message") o = Some (JStr (er_message e)) /\
    er_code e = to_int c /\ er_data e = obj_get (bs "data") o /\ er_category e = category_of (to_int c).
Proof.
  intros v e. split.
  - intros H. unfold read_error in H. destruct v as [| | | | | |o]; try discriminate.
    destruct (obj_get (bs "code") o) as [[| |c| | | |]|] eqn:C; try discriminate.
    destruct (obj_get (bs "message") o) as [[| | | |m| |]|] eqn:M; try discriminate.
    injection H as <-. exists o, c. repeat split; assumption.
  - intros (o & c & -> & C & M & E1 & E2 & E3). unfold read_error. rewrite C, M. destruct e; cbn in *. now subst.
Qed.

Lemma make_error_value : forall i e v, rs_error (make_error i e) = Some v -> same (error_value e) v.
Proof.
  intros i e v H. unfold make_error, error_response in H. cbn in H. injection H as <-.
  unfold error_value, error_object. destruct (er_data e); apply same_refl.
Qed.

Lemma response_back : forall i e, int32 (er_code e) -> belongs (er_code e) (er_category e) ->
  rs_id (make_error i e) = i /\ rs_result (make_error i e) = None /\
  exists e', response_error (make_error i e) = Some e' /\ same_error e e'.
Proof.
  intros i e I B. split; [reflexivity|]. split; [reflexivity|].
  unfold response_error. destruct (rs_error (make_error i e)) as [v|] eqn:E; [|discriminate].
  exact (read_back e v I B (make_error_value i e v E)).
Qed.
