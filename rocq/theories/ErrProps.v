From Coq Require Import Ascii String List Permutation Arith NArith ZArith Bool Lia.
From Verif Require Import StrModel DoubleModel JsonModel JsonSpec JsonProofs ObjSpec ObjProofs MapModel TaskModel DescSpec RpcModel RpcSpec RpcProofs ErrModel ErrSpec ErrProofs.
Import ListNotations.
Local Open Scope nat_scope.

(** C58. An error whose category is the one of its code, made into an error value that travels in
    whatever member order, is read back as the same error. *)
Theorem C58_value : forall e v, int32 (er_code e) -> belongs (er_code e) (er_category e) -> same (error_value e) v ->
  exists e', read_error v = Some e' /\ same_error e e'.
Proof. exact read_back. Qed.
Print Assumptions C58_value.

(** The same for an error response. *)
Theorem C58_response : forall i e, int32 (er_code e) -> belongs (er_code e) (er_category e) ->
  rs_id (make_error i e) = i /\ rs_result (make_error i e) = None /\
  exists e', response_error (make_error i e) = Some e' /\ same_error e e'.
Proof. exact response_back. Qed.
Print Assumptions C58_response.

(** Every error read has the category that belongs to its code, and a code of 32 bits. *)
Theorem C58_category : forall v e, read_error v = Some e -> int32 (er_code e) /\ belongs (er_code e) (er_category e).
Proof.
  intros v e H. apply read_iff in H as (o & c & _ & _ & _ & -> & _ & ->).
  split; [apply to_int_int32|apply category_belongs].
Qed.
Print Assumptions C58_category.

(** Exactly the objects with an integer code and a string message are read as errors. *)
Theorem C58_exactly : forall v, read_error v <> None <->
  exists o c m, v = JObj o /\ obj_get (bs "code") o = Some (JInt c) /\ obj_get (bs "message") o = Some (JStr m).
Proof.
  intros v. split.
  - intros H. destruct (read_error v) as [e|] eqn:E; [|easy].
    apply read_iff in E as (o & c & A & B & C & _). eauto 6.
  - intros (o & c & m & -> & A & B). unfold read_error. rewrite A, B. discriminate.
Qed.
Print Assumptions C58_exactly.

(** The category is not sent: a typed error whose category was left at its default, Unknown, or does
    not belong to its code, is read back with another. *)
Theorem C58_category_refuted : exists e e', int32 (er_code e) /\ read_error (error_value e) = Some e' /\ er_category e <> er_category e'.
Proof.
  exists {| er_code := (-32602)%Z; er_message := bs "bad"; er_data := None; er_category := CatUnknown |}.
  eexists. split; [now split|]. split; [vm_compute; reflexivity|discriminate].
Qed.
Print Assumptions C58_category_refuted.

(** A peer's code is cut to 32 bits: the code 4294934695 is read as -32601. *)
Theorem C58_code_cut_refuted : exists o e, obj_get (bs "code") o = Some (JInt 4294934695) /\
  read_error (JObj o) = Some e /\ er_code e = (-32601)%Z /\ er_category e = CatMethodNotFound.
Proof.
  exists [(bs "code", JInt 4294934695); (bs "message", JStr (bs "x"))]. eexists.
  repeat split; vm_compute; reflexivity.
Qed.
Print Assumptions C58_code_cut_refuted.

Example C58_ex : let e := {| er_code := (-32003)%Z; er_message := bs "Tool not found"; er_data := Some (JArr [JInt 1]); er_category := CatToolNotFound |} in
  int32 (er_code e) /\ belongs (er_code e) (er_category e) /\ read_error (error_value e) = Some e.
Proof. cbn. split; [now split|]. split; [left; cbn; tauto|vm_compute; reflexivity]. Qed.
