(* Properties of calls of a client from many threads and from within its callbacks. *)
From Coq Require Import List Arith Bool.
From Verif Require Import LatchModel LatchSpec LatchProofs.
Import ListNotations.
Local Open Scope nat_scope.

(* C196.  Any number of threads make any calls, the server sends anything, and the callbacks call
   what they may: whatever a thread waits for comes down to a thread that does not wait for a lock.
   Partial: the error handler may not call what sends (C197_error_refuted). *)
Theorem C196_progress_partial : forall W progs s t i,
  polite W -> starts progs s -> leads W s t -> unfinished t i ->
  exists k, behind t i k /\ going t k.
Proof.
  intros W progs s t i PW ST LD U. exact (any_chain t i (reach_ord W progs s t PW ST LD) U).
Qed.
Print Assumptions C196_progress_partial.

(* C196.  A schedule that cannot be continued has run every call to its end. *)
Theorem C196_finish_partial : forall W progs s t,
  polite W -> returns W -> starts progs s -> leads W s t ->
  (forall i u, ~ lstep W t i u) -> forall i, ~ unfinished t i.
Proof. exact all_finished. Qed.
Print Assumptions C196_finish_partial.

(* C196.  And when callbacks call nothing, no schedule goes on for ever. *)
Theorem C196_ends : forall W s, calls_nothing W ->
  exists bound, forall n t, leads_in W n s t -> n <= bound.
Proof. exact ends. Qed.
Print Assumptions C196_ends.

(* C197.  Every callback but the error handler may call every method of the client, and the error
   handler every method that sends nothing, also while the others do so: the calls return. *)
Theorem C197_handlers_partial : forall (W : world) progs s t,
  (forall c ms m, W c ms -> In m ms -> of_client m = true /\ (c = CError -> quiet m = true)) ->
  returns W -> starts progs s -> leads W s t ->
  (forall i u, ~ lstep W t i u) -> forall i, ~ unfinished t i.
Proof.
  intros W progs s t H. apply (all_finished W progs s t). intros c ms Wc. apply Forall_forall. intros m I.
  destruct (H c ms m Wc I) as [A B]. destruct c; cbn [may_call]; first [exact A|exact (B eq_refl)].
Qed.
Print Assumptions C197_handlers_partial.

(* C197.  An error handler that calls any method that sends, when it is told that the write queue
   is full, never returns. *)
Theorem C197_error_refuted : forall m, of_client m = true -> quiet m = false ->
  exists s t, starts [[CallTool]] s /\ leads (calling CError [m]) s t /\
    stuck (calling CError [m]) t 0.
Proof. exact error_stuck. Qed.
Print Assumptions C197_error_refuted.

(* C198.  Callbacks other than the error handler and stop callbacks that never return keep nobody
   else from finishing. *)
Theorem C198_others_finish_partial : forall W progs s t (hung : nat -> bool),
  polite W -> returns W -> starts progs s -> leads W s t ->
  (forall i, hung i = true -> exists c, in_callback t i c /\ under_lock c = false) ->
  (forall i u, hung i = false -> ~ lstep W t i u) ->
  forall i, hung i = false -> ~ unfinished t i.
Proof. exact others_finish. Qed.
Print Assumptions C198_others_finish_partial.

(* C198.  While the error handler hangs, no thread can send. *)
Theorem C198_error_refuted : forall W m, of_client m = true -> quiet m = false ->
  exists s t, starts [[CallTool]; [m]] s /\ leads W s t /\
    in_callback t 0 CError /\ unfinished t 1 /\
    forall u, leads_without W 0 t u -> nth_error (threads u) 1 = nth_error (threads t) 1.
Proof. exact error_hangs. Qed.
Print Assumptions C198_error_refuted.

(* C198.  While a stop callback hangs, no sampling request is served. *)
Theorem C198_stop_refuted : forall W,
  exists s t, starts [[NCancelled]; [QSample]] s /\ leads W s t /\
    in_callback t 0 CStop /\ unfinished t 1 /\
    forall u, leads_without W 0 t u -> nth_error (threads u) 1 = nth_error (threads t) 1.
Proof. exact stop_hangs. Qed.
Print Assumptions C198_stop_refuted.

(* C199.  Whatever the threads and the callbacks do, no two of them touch one of these members at
   once with one writing. *)
Theorem C199_guarded_partial : forall W progs s t x,
  starts progs s -> leads W s t -> always_guarded x = true -> ~ race t x.
Proof. exact guarded_no_race. Qed.
Print Assumptions C199_guarded_partial.

(* C199.  And there is no race on any other member as long as nobody calls what sets it. *)
Theorem C199_set_up_partial : forall W progs s t x,
  left_alone x W progs -> starts progs s -> leads W s t -> ~ race t x.
Proof. exact alone_no_race. Qed.
Print Assumptions C199_set_up_partial.

(* C199.  These pairs of calls race on these members. *)
Theorem C199_race_refuted : forall W x m n,
  In (x, m, n) [(VNotes, SetNotificationHandler, NOther); (VNotes, RemoveNotificationHandler, NOther);
                (VProgress, SetProgressHandler, NProgress); (VStatus, SetTaskStatusHandler, NTaskStatus);
                (VError, SetErrorHandler, ReaderError); (VRoots, SetRootsHandler, QRoots);
                (VSampling, SetSamplingHandler, QSample); (VElicit, SetElicitationHandler, QElicit);
                (VTtl, SetCacheTtl, ListTools); (VMode, SetValidationMode, QTaskList);
                (VCaps, Initialize, QTaskGet); (VTransport, Connect, IsConnected)] ->
  exists s t, starts [[m]; [n]] s /\ leads W s t /\ race t x.
Proof. exact races. Qed.
Print Assumptions C199_race_refuted.

(* C200.  A handler that nobody replaces is not destroyed while it runs, whatever else is called. *)
Theorem C200_kept_partial : forall W progs s t c x,
  slot c = Some x -> left_alone x W progs -> starts progs s -> leads W s t -> ~ torn t c.
Proof. exact alone_not_torn. Qed.
Print Assumptions C200_kept_partial.

(* C200.  But each kind of handler that replaces itself destroys itself while it runs. *)
Theorem C200_itself_refuted : forall c q m,
  In (c, q, m) [(CNote, NOther, SetNotificationHandler); (CNote, NOther, RemoveNotificationHandler);
                (CProgress, NProgress, SetProgressHandler); (CStatus, NTaskStatus, SetTaskStatusHandler);
                (CError, ReaderError, SetErrorHandler); (CRoots, QRoots, SetRootsHandler);
                (CSample, QSample, SetSamplingHandler); (CElicit, QElicit, SetElicitationHandler)] ->
  exists s t, starts [[q]] s /\ leads (calling c [m]) s t /\ torn t c.
Proof. exact tears. Qed.
Print Assumptions C200_itself_refuted.

(* ---- the hypotheses are met ---- *)

(* User code: a handler of notifications lists the tools and replaces the progress handler; a sampling
   handler calls a tool; a stop callback tells the server that the roots changed; the error handler
   disconnects. *)
Definition some_code : world := fun c ms =>
  match c with
  | CNote => ms = [ListTools; SetProgressHandler]
  | CSample => ms = [CallTool]
  | CStop => ms = [NotifyRootsChanged]
  | CError => ms = [Disconnect]
  | _ => ms = []
  end.

Example some_code_polite : polite some_code.
Proof. intros c ms H. destruct c; cbn in H; subst; repeat constructor. Qed.

Lemma code_inhabited : forall m, exists p, In p (code m).
Proof. intro m. destruct m; eexists; left; reflexivity. Qed.

Lemma expands_some : forall ms, exists a, expands ms a.
Proof.
  induction ms as [|m ms [a E]]; [exists []; constructor|].
  destruct (code_inhabited m) as (p & I). exists (p ++ a). constructor; assumption.
Qed.

Example some_code_returns : returns some_code.
Proof.
  intro c.
  assert (H : exists ms, some_code c ms) by (destruct c; eexists; reflexivity).
  destruct H as (ms & H). destruct (expands_some ms) as (a & E). exists ms, a. split; assumption.
Qed.

(* Two threads; the second waits for the cache the first holds. *)
Example some_wait : exists s t,
  starts [[ListTools]; [NListChanged]] s /\ leads some_code s t /\ waits t 1 0 /\ unfinished t 1.
Proof.
  eexists. eexists. split; [apply (starts_two _ _
    [Rd VTtl; Take LCache; Rd VCache; Rd VTtl; Take LLog; Wr VLogFile; Give LLog; Give LCache]
    [Take LCache; Wr VCache; Give LCache; Rd VNotes; Call CNote]); apply in_code; vm_compute; reflexivity|]. split.
  - do 2 go 0. apply LdHere.
  - split; [|eexists; eexists; reflexivity]. eexists. eexists. split; reflexivity.
Qed.

(* A sampling handler hangs while the other thread has finished. *)
Example some_hang : exists s t,
  starts [[SampleWorker]; [NListChanged]] s /\ leads some_code s t /\
  in_callback t 0 CSample /\ under_lock CSample = false /\ ~ unfinished t 1.
Proof.
  eexists. eexists. split; [apply (starts_two _ _
    [Rd VSampling; Call CSample; Take LTasks; Rd VTasks; Give LTasks]
    [Take LCache; Wr VCache; Give LCache; Rd VNotes]); apply in_code; vm_compute; reflexivity|]. split.
  - go 0. do 4 go 1. apply LdHere.
  - split; [eexists; reflexivity|]. split; [reflexivity|].
    intros (a & r & E). cbn in E. discriminate.
Qed.

(* The handler of notifications runs, calls the client, and is left alone. *)
Example some_alone : left_alone VNotes some_code [[NListChanged; QSample]; [ListTools]] /\
  slot CNote = Some VNotes /\
  exists s t, starts [[NListChanged]] s /\ leads some_code s t /\ running t 0 CNote.
Proof.
  split; [|split; [reflexivity|]].
  - split.
    + intros c ms m H I. destruct c; cbn in H; subst; cbn in I;
        repeat (destruct I as [<-|I]; [reflexivity|]); destruct I.
    + intros ms m I J. cbn in I. destruct I as [<-|[<-|[]]]; cbn in J;
        repeat (destruct J as [<-|J]; [reflexivity|]); destruct J.
  - destruct (expands_some [ListTools; SetProgressHandler]) as (b & B).
    eexists. eexists. split; [apply (starts_one _ [Take LCache; Wr VCache; Give LCache; Rd VNotes; Call CNote]);
      apply in_code; vm_compute; reflexivity|]. split.
    + do 4 go 0. eapply LdStep; [eapply (StCall _ _ 0 CNote _ [ListTools; SetProgressHandler]);
        [reflexivity|reflexivity|exact B]|]. apply LdHere.
    + cbn [threads owner put_nth]. eexists. split; [reflexivity|]. apply in_or_app. right. left. reflexivity.
Qed.

Example nothing_called : calls_nothing (fun _ ms => ms = []).
Proof. intros c ms H. exact H. Qed.
