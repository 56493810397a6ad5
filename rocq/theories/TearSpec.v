(** What a client may expect when it reads a changing resource in pieces. *)
From Coq Require Import Ascii String List Arith NArith ZArith Bool.
From Verif Require Import StrModel DoubleModel JsonModel ObjSpec MapModel TaskModel DescModel RegModel TmplModel ReadModel ReadSpec TearModel.
Import ListNotations.
Local Open Scope nat_scope.

(** A server and its resource u at successive moments, one for each request: what is registered,
    what the handlers do, and the text that results. *)
Record history := { hi_reg : nat -> registry; hi_read : nat -> readers; hi_text : nat -> bstr }.
Definition follows (h : history) (u : bstr) : Prop := forall i,
  (N.of_nat (length (hi_text h i)) < 2 ^ 63)%N /\ exists contents, yields (hi_reg h i) (hi_read h i) u contents /\ text_of contents (hi_text h i).
Definition asked_at (net : json -> json) (c : read_cfg) (h : history) : nat -> json -> json := fun i => read_call net c (hi_reg h i) (hi_read h i).

(** Pieces of the texts of successive moments, each beginning where the ones before end. *)
Definition pieced (texts : nat -> bstr) (ts : list bstr) : Prop :=
  forall before t after, ts = before ++ t :: after ->
    t <> [] /\ exists rest, skipn (length (concat before)) (texts (length before)) = t ++ rest.

(** Text is only ever added at the end. *)
Definition grows (texts : nat -> bstr) : Prop := forall i, exists more, texts (S i) = texts i ++ more.

(** The full property: the text returned is the text of some moment of the read. *)
Definition untorn : Prop := forall net strict c h u chunk fuel items n, (forall v, same v (net v)) -> u <> [] -> follows h u ->
  (0 < chunk < 2 ^ 63)%N -> read_all_at strict (asked_at net c h) u chunk fuel = (CDone items, n) ->
  exists i, i < n /\ text_of items (hi_text h i).
