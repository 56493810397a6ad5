(** Cancellation: C40, C41. *)
From Coq Require Import Ascii String List Permutation Arith NArith ZArith Bool Lia.
From Verif Require Import StrModel StrProofs DoubleModel JsonModel MapModel MapProofs RpcModel TaskModel CancelModel CancelSpec CancelProofs.
Import ListNotations.
Local Open Scope nat_scope.

(** C40: a request that is in flight when a cancellation naming its id arrives is cancelled, and
    stays so until it ends; while its handler runs, the handler's stop token says so too. *)
Theorem C40_cancelled : forall (h : list cev) (p : option json) (later : list cev) (q : req),
  let all := h ++ CCancel p :: later in
  history all -> distinct_ids all -> In (CBegin q) h -> in_flight all q -> names p (snd q) -> id_text (snd q) <> [] ->
  is_cancelled q (cancel_run all) = true /\ (watching all q -> is_stopped q (cancel_run all) = true).
Proof.
  intros h p later q all H D B F N T. assert (is_cancelled q (cancel_run all) = true) as C.
  { apply cancelled_iff; [exact H|exact D|exact F|]. apply stays_pending; [exact H|exact D|exact B|exact F|now apply names_text|exact T]. }
  split; [exact C|]. intro W. rewrite (proj1 (followed_run all H D q W)). exact C.
Qed.
Print Assumptions C40_cancelled.

(** C40: a cancellation never affects a request whose id has another text. *)
Theorem C40_others : forall (h : list cev) (p : option json) (i : rpcid) (q : req),
  history h -> in_flight h q -> names p i -> id_text i <> id_text (snd q) ->
  is_cancelled q (cancel_run (h ++ [CCancel p])) = is_cancelled q (cancel_run h) /\
  (watching h q -> is_stopped q (cancel_run (h ++ [CCancel p])) = is_stopped q (cancel_run h)).
Proof. intros h p i q H F N T. apply cancel_other; [exact H|exact F|]. now rewrite (names_text p i N). Qed.
Print Assumptions C40_others.

(** C40: exactly which requests are cancelled. *)
Theorem C40_exactly : forall (h : list cev) (q : req), history h -> distinct_ids h -> in_flight h q ->
  (is_cancelled q (cancel_run h) = true <-> pending h (id_text (snd q))) /\
  (watching h q -> is_stopped q (cancel_run h) = is_cancelled q (cancel_run h)).
Proof. intros h q H D F. split; [now apply cancelled_iff|]. intro W. exact (proj1 (followed_run h H D q W)). Qed.
Print Assumptions C40_exactly.

(** C40: a request with no id is never cancelled, and neither is one whose id no cancellation
    ever named. *)
Theorem C40_no_id : forall (h : list cev) (q : req), history h -> distinct_ids h -> in_flight h q -> snd q = IdNull ->
  is_cancelled q (cancel_run h) = false /\ (watching h q -> is_stopped q (cancel_run h) = false).
Proof.
  intros h q H D F E. assert (is_cancelled q (cancel_run h) = false) as C.
  { destruct (is_cancelled q (cancel_run h)) eqn:K; [|reflexivity]. apply (proj1 (C40_exactly h q H D F)) in K.
    destruct K as [K _]. rewrite E in K. now destruct K. }
  split; [exact C|]. intro W. now rewrite (proj2 (C40_exactly h q H D F) W).
Qed.
Print Assumptions C40_no_id.

Definition cancel_of (v : json) : option json := Some (JObj [(bs "id", v)]).
Definition q1 : req := (1, IdInt 1).
Definition q2 : req := (2, IdStr (bs "1")).

(** C40: but the ids 1 and "1" are mixed up. Cancelling one cancels both; and when one of them
    ends, the other can no longer be cancelled. *)
Theorem C40_same_text_refuted :
  (exists h p q, history h /\ in_flight h q /\ names p (IdInt 1) /\ snd q <> IdInt 1 /\
     is_cancelled q (cancel_run h) = false /\ is_cancelled q (cancel_run (h ++ [CCancel p])) = true) /\
  (exists h p q, history h /\ in_flight h q /\ names p (snd q) /\ id_text (snd q) <> [] /\
     is_cancelled q (cancel_run (h ++ [CCancel p])) = false).
Proof.
  assert (history [CBegin q1]) as H1 by (apply (history_begin []); [constructor|intros i []]).
  assert (history [CBegin q1; CBegin q2]) as H2 by (apply (history_begin [CBegin q1]); [exact H1|intros i [E|[]]; discriminate]).
  split.
  - exists [CBegin q1; CBegin q2], (cancel_of (JInt 1)), q2. split; [exact H2|].
    split; [split; [right; now left|intros [E|[E|[]]]; discriminate]|]. split; [eexists; split; [reflexivity|reflexivity]|]. split; [discriminate|]. split; reflexivity.
  - exists [CBegin q1; CBegin q2; CEnd q1], (cancel_of (JStr (bs "1"))), q2.
    split; [apply (history_end [CBegin q1; CBegin q2]); [exact H2|split; [now left|intros [E|[E|[]]]; discriminate]|intros [[E|[E|[]]] _]; discriminate]|].
    split; [split; [right; now left|intros [E|[E|[E|[]]]]; discriminate]|]. split; [eexists; split; [reflexivity|reflexivity]|]. split; [discriminate|]. reflexivity.
Qed.
Print Assumptions C40_same_text_refuted.

Example C40_ex :
  let a := (1, IdStr (bs "a")) in let b := (2, IdInt 7) in
  let h := [CBegin a; CBegin b; CWatch b] in
  history h /\ distinct_ids h /\ in_flight h b /\ watching h b /\
  is_cancelled b (cancel_run (h ++ [CCancel (cancel_of (JInt 7))])) = true /\ is_stopped b (cancel_run (h ++ [CCancel (cancel_of (JInt 7))])) = true /\
  is_cancelled a (cancel_run (h ++ [CCancel (cancel_of (JInt 7))])) = false.
Proof.
  cbv zeta. split; [|split; [|split; [|split; [|split; [|split]]]]]; try reflexivity.
  - apply (history_watch [CBegin (1, IdStr (bs "a")); CBegin (2, IdInt 7)]).
    + apply (history_begin [CBegin (1, IdStr (bs "a"))]); [apply (history_begin []); [constructor|intros i []]|intros i [E|[]]; discriminate].
    + split; [right; now left|intros [E|[E|[]]]; discriminate].
    + intros [E|[E|[]]]; discriminate.
  - intros a b q r E [Q _] [R _] T _.
    assert (In (CBegin q) ([CBegin (1, IdStr (bs "a")); CBegin (2, IdInt 7); CWatch (2, IdInt 7)])) as Q' by (rewrite E; apply in_or_app; now left).
    assert (In (CBegin r) ([CBegin (1, IdStr (bs "a")); CBegin (2, IdInt 7); CWatch (2, IdInt 7)])) as R' by (rewrite E; apply in_or_app; now left).
    destruct Q' as [Q'|[Q'|[Q'|[]]]]; try discriminate Q'; injection Q' as <-; destruct R' as [R'|[R'|[R'|[]]]]; try discriminate R'; injection R' as <-; try reflexivity; vm_compute in T; discriminate.
  - split; [right; now left|intros [E|[E|[E|[]]]]; discriminate].
  - split; [right; right; now left|intros [E|[E|[E|[]]]]; discriminate].
Qed.

(** C41: once a request with that id has ended after the cancellation, the cancellation has no
    more effect. Missing: the first request that reuses the id. *)
Theorem C41_forgotten_partial : forall (h : list cev) (r : req) (later : list cev) (q : req),
  let all := h ++ CEnd r :: later in
  history all -> distinct_ids all -> in_flight all q -> id_text (snd r) = id_text (snd q) ->
  (forall p, In (CCancel p) later -> cancel_text p <> id_text (snd q)) ->
  is_cancelled q (cancel_run all) = false.
Proof.
  intros h r later q all H D F E C. destruct (is_cancelled q (cancel_run all)) eqn:X; [|reflexivity]. exfalso.
  apply cancelled_iff in X; [|exact H|exact D|exact F]. exact (not_pending_since h r later _ E C X).
Qed.
Print Assumptions C41_forgotten_partial.

(** C41: requests with other ids are not affected, by C40_others. The first request that reuses
    the id is cancelled by a cancellation that came too late for the request it was meant for. *)
Theorem C41_late_refuted : exists (h : list cev) (p : option json) (q r : req),
  history (h ++ [CEnd q; CCancel p; CBegin r]) /\ In (CBegin q) h /\ names p (snd q) /\ q <> r /\ ~ In (CBegin r) h /\
  is_cancelled r (cancel_run (h ++ [CEnd q; CCancel p; CBegin r])) = true.
Proof.
  exists [CBegin (1, IdInt 5)], (cancel_of (JInt 5)), (1, IdInt 5), (2, IdInt 5). split; [|split; [now left|split; [eexists; split; [reflexivity|reflexivity]|split; [discriminate|split; [intros [E|[]]; discriminate|reflexivity]]]]].
  apply (history_begin [CBegin (1, IdInt 5); CEnd (1, IdInt 5); CCancel (cancel_of (JInt 5))]); [|intros i [E|[E|[E|[]]]]; discriminate].
  apply (history_cancel [CBegin (1, IdInt 5); CEnd (1, IdInt 5)]). apply (history_end [CBegin (1, IdInt 5)]).
  - apply (history_begin []); [constructor|intros i []].
  - split; [now left|intros [E|[]]; discriminate].
  - intros [[E|[]] _]; discriminate.
Qed.
Print Assumptions C41_late_refuted.

(** C41: and a cancellation for an id that was never used stays in the table for good. *)
Theorem C41_table_grows_refuted : forall n : nat, exists h : list cev, history h /\ (forall q, ~ In (CBegin q) h) /\ length (cn_map (cancel_run h)) = n.
Proof. exact grow_run. Qed.
Print Assumptions C41_table_grows_refuted.
