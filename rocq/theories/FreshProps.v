(** C202: how fresh the lists are that a client gets from a server whose lists change. *)
From Coq Require Import List Arith Bool Lia.
From Verif Require Import FreshModel FreshSpec FreshProofs.
Import ListNotations.
Local Open Scope nat_scope.

(** A call that asked the server returned the list as it was at some moment between its beginning and its return. *)
Theorem C202_asked : forall h h' j v,
  length (fr_calls (frun fresh0 h)) <= j -> asked (frun fresh0 (h ++ h')) j v ->
  fr_made (frun fresh0 h) <= v <= fr_made (frun fresh0 (h ++ h')).
Proof. exact asked_between. Qed.
Print Assumptions C202_asked.

(** So a later such call never returns an older list. *)
Theorem C202_forward : forall h h' i v j w,
  asked (frun fresh0 h) i v -> length (fr_calls (frun fresh0 h)) <= j -> asked (frun fresh0 (h ++ h')) j w -> v <= w.
Proof.
  intros h h' i v j w A L B. pose proof (given_made h i v (or_introl A)). pose proof (asked_between h h' j w L B). lia.
Qed.
Print Assumptions C202_forward.

(** No list is from the future; as long as no time to live is set, all of this holds of every list call. *)
Theorem C202_plain : forall h h' j v, ~ In (CTtl true) (h ++ h') ->
  length (fr_calls (frun fresh0 h)) <= j -> gave (frun fresh0 (h ++ h')) j v ->
  fr_made (frun fresh0 h) <= v <= fr_made (frun fresh0 (h ++ h')).
Proof. exact plain_between. Qed.
Print Assumptions C202_plain.

(** A client has never handled more notifications than there were changes; when none is owed or on its way it has handled one for each. *)
Theorem C202_told : forall h, let s := frun fresh0 h in fr_heard s <= fr_made s /\ (settled s -> fr_heard s = fr_made s).
Proof. exact heard_count. Qed.
Print Assumptions C202_told.

(** With the cache: a call that begins after n notifications were handled returns a list with at least those n changes — provided no
    notification is handled while a call is under way. *)
Theorem C202_heard_partial : forall h h' j v, apart fresh0 (h ++ h') ->
  length (fr_calls (frun fresh0 h)) <= j -> gave (frun fresh0 (h ++ h')) j v ->
  fr_heard (frun fresh0 h) <= v <= fr_made (frun fresh0 (h ++ h')).
Proof. intros h h' j v A L G. split; [exact (apart_heard h h' j v A L G)|exact (given_made _ j v G)]. Qed.
Print Assumptions C202_heard_partial.

(** Without that proviso it is false: the list was read, then changed and the change was told, and only then the answer was sent. The client
    handles the notification, then caches the answer; what it lists from then on lacks the change it was told of. *)
Definition told_first : list ev := [CTtl true; CBegin true; SRead 0; SChange; SNotify; SReply 0; CHear; CHear; CStore 0].
Theorem C202_told_refuted : let s := frun fresh0 told_first in
  settled s /\ fr_heard s = 1 /\ fr_made s = 1 /\
  forall n, exists j, length (fr_calls s) + n = j /\ gave (frun fresh0 (told_first ++ repeat (CBegin true) (S n))) j 0.
Proof.
  intro s0. refine (conj (conj eq_refl _) (conj eq_refl (conj eq_refl _))).
  - intros [].
  - intro n. exists (1 + n). split; [reflexivity|]. right. rewrite frun_app.
    set (s := frun fresh0 told_first).
    assert (Q : forall m (t : fresh), fr_on t = true -> fr_cache t = Some 0 ->
      fr_calls (frun t (repeat (CBegin true) m)) = fr_calls t ++ repeat (CHit 0) m).
    { induction m as [|m IH]; intros t F C; cbn; [now rewrite app_nil_r|]. unfold frun in IH. rewrite F, C. cbn. rewrite IH; cbn; [|first [exact F|reflexivity]|first [exact C|reflexivity]].
      now rewrite <- app_assoc. }
    rewrite Q by reflexivity. change (fr_calls s) with [CDone 0]. cbn [List.app]. cbn [nth_error Nat.add].
    clear. induction n as [|n IH]; [reflexivity|]. exact IH.
Qed.
Print Assumptions C202_told_refuted.

(** The same when the answer was read from the wire before the notification but is stored after it. *)
Theorem C202_stored_refuted :
  let h := [CTtl true; CBegin true; SRead 0; SReply 0; SChange; SNotify; CHear; CHear; CStore 0] in
  let s := frun fresh0 h in settled s /\ fr_heard s = 1 /\ gave (frun fresh0 (h ++ [CBegin true])) (length (fr_calls s)) 0.
Proof. vm_compute. repeat split; [intros []|]. right. reflexivity. Qed.
Print Assumptions C202_stored_refuted.

(** And lists go back: one call returned the list with the change, and the next one the list without it. (The server answers in order.) *)
Theorem C202_back_refuted :
  let h := [CTtl true; CBegin true; SRead 0; SReply 0; SChange; SNotify; CHear; CHear; CBegin true; SRead 0; SReply 0; CHear; CStore 1] in
  let g := [CStore 0; CBegin true] in
  gave (frun fresh0 h) 1 1 /\ length (fr_calls (frun fresh0 h)) <= 2 /\ gave (frun fresh0 (h ++ g)) 2 0.
Proof. vm_compute. repeat split; auto. Qed.
Print Assumptions C202_back_refuted.

(** Cases that meet the hypotheses: three changes around two calls; and calls with the cache on between which changes are told. *)
Example some_asked :
  let h := [SChange; CBegin true; SNotify] in let h' := [SChange; CBegin true; SRead 1; SChange; SRead 0; SReply 1; SReply 0; CHear; CHear; CStore 0; CHear; CStore 1] in
  length (fr_calls (frun fresh0 h)) = 1 /\ asked (frun fresh0 (h ++ h')) 1 2 /\ asked (frun fresh0 (h ++ h')) 0 3 /\ fr_made (frun fresh0 h) = 1.
Proof. vm_compute. repeat split. Qed.
Example some_apart :
  let h := [CTtl true; CBegin true; SRead 0; SReply 0; CHear; CStore 0; CBegin true; SChange; SNotify; CHear] in
  let h' := [CBegin true; SRead 0; SReply 0; CHear; CStore 2; CBegin true] in
  apart fresh0 (h ++ h') /\ fr_heard (frun fresh0 h) = 1 /\ gave (frun fresh0 (h ++ h')) 1 0 /\ gave (frun fresh0 (h ++ h')) 3 1 /\ settled (frun fresh0 (h ++ h')).
Proof.
  cbn zeta. split; [apply apartb_apart; reflexivity|]. vm_compute. repeat split; [right; reflexivity|right; reflexivity|intros []].
Qed.
