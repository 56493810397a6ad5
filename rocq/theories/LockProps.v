(* Properties of calls from many threads and of calls made from within callbacks. *)
From Coq Require Import List Arith Bool.
From Verif Require Import StrModel LockModel LockSpec LockProofs.
Import ListNotations.
Local Open Scope nat_scope.

(* C145.  Any number of threads make any calls, the peer sends anything, and the handlers call what
   they may: whatever a thread waits for comes down to a thread that does not wait for a lock.
   Partial: prompt handlers, stop callbacks and the error handler may call only what may_call lists
   for them. *)
Theorem C145_progress_partial : forall W progs s t i,
  polite W -> starts progs s -> leads W s t -> unfinished t i ->
  exists k, behind t i k /\ going t k.
Proof.
  intros W progs s t i PW ST LD U. exact (any_chain t i (reach_ord W progs s t PW ST LD) U).
Qed.
Print Assumptions C145_progress_partial.

(* C145.  A schedule that cannot be continued has run every call to its end. *)
Theorem C145_finish_partial : forall W progs s t,
  polite W -> returns W -> starts progs s -> leads W s t ->
  (forall i u, ~ lstep W t i u) -> forall i, ~ unfinished t i.
Proof. exact all_finished. Qed.
Print Assumptions C145_finish_partial.

(* C145.  And when callbacks call nothing, no schedule goes on for ever. *)
Theorem C145_ends : forall W s, calls_nothing W ->
  exists bound, forall n t, leads_in W n s t -> n <= bound.
Proof. exact ends. Qed.
Print Assumptions C145_ends.

(* C146.  The handlers of tools, resources, completions, sampling and task status may call any
   method of the server.  Partial: this supposes that the other three kinds call nothing. *)
Theorem C146_handlers_partial : forall (W : world) progs s t,
  (forall c ms, under_lock c = true -> W c ms -> ms = []) -> returns W ->
  starts progs s -> leads W s t ->
  (forall i u, ~ lstep W t i u) -> forall i, ~ unfinished t i.
Proof.
  intros W progs s t H. exact (all_finished W progs s t (modest_polite W H)).
Qed.
Print Assumptions C146_handlers_partial.

(* C146.  A prompt handler that calls any of these never returns. *)
Theorem C146_prompt_refuted : forall q m,
  In q [QPromptsGet; GetPrompt] ->
  In m [RegisterTool; UnregisterTool; RegisterResource; UnregisterResource; RegisterPrompt;
        UnregisterPrompt; RegisterTemplate; UnregisterTemplate; ListTools; ListResources;
        ListPrompts; ListTemplates; CallTool; ReadResource; GetPrompt; NotifyResourceUpdated;
        QToolsList; QResourcesList; QTemplatesList; QPromptsList; QToolsCall; QResourcesRead;
        QPromptsGet; QSubscribe; QUnsubscribe] ->
  exists s t, starts [[q]] s /\ leads (calling CPrompt [m]) s t /\ stuck (calling CPrompt [m]) t 0.
Proof. intros q m Q M. exact (prompt_stuck q m Q (registry_methods m M)). Qed.
Print Assumptions C146_prompt_refuted.

(* C146.  A stop callback that hands the server a request never returns, when it is the
   cancellation of a request that runs it. *)
Theorem C146_stop_refuted : forall m,
  In m [QPing; QInitialize; QSetLevel; QToolsList; QTaskGet; QTaskList; QTaskResult; QTaskCancel;
        QToolsCall; QToolsCallTask; QComplete; QResourcesList; QTemplatesList; QSubscribe;
        QUnsubscribe; QCreateMessage; QResourcesRead; QPromptsList; QPromptsGet; QUnknown] ->
  exists s t, starts [[NCancelled]] s /\ leads (calling CStop [m]) s t /\
    stuck (calling CStop [m]) t 0.
Proof. intros m M. exact (stop_stuck m (dispatch_methods m M)). Qed.
Print Assumptions C146_stop_refuted.

(* C146.  An error handler that sends a notification when it is told the write queue is full never
   returns. *)
Theorem C146_error_refuted : forall m,
  In m [SendNotification; SendProgress; NotifyToolsChanged] ->
  exists s t, starts [[SendNotification]] s /\ leads (calling CError [m]) s t /\
    stuck (calling CError [m]) t 0.
Proof. exact error_stuck. Qed.
Print Assumptions C146_error_refuted.

(* C147.  Handlers of tools, resources, completions, sampling and task status that never return
   keep nobody else from finishing.  Partial: not so for prompt handlers (C147_prompt_refuted). *)
Theorem C147_others_finish_partial : forall W progs s t (hung : nat -> bool),
  polite W -> returns W -> starts progs s -> leads W s t ->
  (forall i, hung i = true -> exists c, in_callback t i c /\ under_lock c = false) ->
  (forall i u, hung i = false -> ~ lstep W t i u) ->
  forall i, hung i = false -> ~ unfinished t i.
Proof. exact others_finish. Qed.
Print Assumptions C147_others_finish_partial.

(* C147.  While a prompt handler hangs, a thread that needs the registry makes no step. *)
Theorem C147_prompt_refuted : forall W m,
  In m [RegisterTool; UnregisterTool; RegisterResource; UnregisterResource; RegisterPrompt;
        UnregisterPrompt; RegisterTemplate; UnregisterTemplate; ListTools; ListResources;
        ListPrompts; ListTemplates; CallTool; ReadResource; GetPrompt; NotifyResourceUpdated;
        QToolsList; QResourcesList; QTemplatesList; QPromptsList; QToolsCall; QResourcesRead;
        QPromptsGet; QSubscribe; QUnsubscribe] ->
  exists s t, starts [[QPromptsGet]; [m]] s /\ leads W s t /\
    in_callback t 0 CPrompt /\ unfinished t 1 /\
    forall u, leads_without W 0 t u -> nth_error (threads u) 1 = nth_error (threads t) 1.
Proof. intros W m M. exact (prompt_hangs W m (registry_methods m M)). Qed.
Print Assumptions C147_prompt_refuted.

(* C148.  Whatever the threads and the callbacks do, no two of them touch one of these members at
   once with one writing.  Partial: the members always_guarded leaves out. *)
Theorem C148_guarded_partial : forall W progs s t x,
  starts progs s -> leads W s t -> always_guarded x = true -> ~ race t x.
Proof. exact guarded_no_race. Qed.
Print Assumptions C148_guarded_partial.

(* C148.  While a server that is set up serves, there is no race on any member. *)
Theorem C148_serving_partial : forall W progs s t x,
  only_serves W -> Forall (Forall (fun m => serving m = true)) progs ->
  starts progs s -> leads W s t -> ~ race t x.
Proof. exact serving_no_race. Qed.
Print Assumptions C148_serving_partial.

(* C148.  These pairs of calls race on these members. *)
Theorem C148_race_refuted : forall W x m n,
  In (x, m, n) [(VSubs, QUnsubscribe, QSubscribe); (VClientCaps, QInitialize, ListResources);
                (VCaps, SetRateLimit, QInitialize); (VError, SetErrorHandler, ReaderError);
                (VStatus, SetTaskStatusHandler, NTaskStatus);
                (VSampling, SetSamplingHandler, QCreateMessage);
                (VCompletion, SetCompletionHandler, QComplete);
                (VMode, SetValidationMode, QToolsList)] ->
  exists s t, starts [[m]; [n]] s /\ leads W s t /\ race t x.
Proof. exact races. Qed.
Print Assumptions C148_race_refuted.

(* C201.  Whatever the threads and the callbacks do, no thread changes the prompts while a prompt
   handler runs: a running prompt handler is not destroyed. *)
Theorem C201_prompts_partial : forall W progs s t,
  starts progs s -> leads W s t -> ~ torn t CPrompt.
Proof. exact prompts_not_torn. Qed.
Print Assumptions C201_prompts_partial.

(* C201.  A handler that nobody replaces is not destroyed while it runs, whatever else is called. *)
Theorem C201_kept_partial : forall W progs s t c x,
  slot c = Some x -> left_alone x W progs -> starts progs s -> leads W s t -> ~ torn t c.
Proof. exact alone_not_torn. Qed.
Print Assumptions C201_kept_partial.

(* C201.  But each of the other kinds of handler that replaces itself destroys itself while it
   runs. *)
Theorem C201_itself_refuted : forall c q m,
  In (c, q, m) [(CComplete, QComplete, SetCompletionHandler); (CSample, QCreateMessage, SetSamplingHandler);
                (CStatus, NTaskStatus, SetTaskStatusHandler); (CError, ReaderError, SetErrorHandler)] ->
  exists s t, starts [[q]] s /\ leads (calling c [m]) s t /\ torn t c.
Proof. exact tears. Qed.
Print Assumptions C201_itself_refuted.

(* ---- the hypotheses are met ---- *)

(* User code: tool handlers register a tool, read a prompt and send progress; prompt handlers ask
   the client for its roots; the error handler replaces itself. *)
Definition some_code : world := fun c ms =>
  match c with
  | CTool => ms = [RegisterTool; GetPrompt; SendProgress]
  | CPrompt => ms = [RequestRootsList]
  | CError => ms = [SetErrorHandler]
  | _ => ms = []
  end.

Example some_code_polite : polite some_code.
Proof.
  intros c ms H. destruct c; cbn in H; subst; repeat constructor.
Qed.

Lemma code_inhabited : forall m, exists p, In p (code m).
Proof. intro m. destruct m; eexists; left; reflexivity. Qed.

Lemma expands_some : forall ms, exists a, expands ms a.
Proof.
  induction ms as [|m ms [a E]]; [exists []; constructor|].
  destruct (code_inhabited m) as (p & I). exists (p ++ a). constructor; assumption.
Qed.

Example some_code_returns : returns some_code.
Proof.
  intro c.
  assert (H : exists ms, some_code c ms) by (destruct c; eexists; reflexivity).
  destruct H as (ms & H). destruct (expands_some ms) as (a & E). exists ms, a. split; assumption.
Qed.

(* Two threads; the second waits for the registry the first holds. *)
Example some_wait : exists s t,
  starts [[QPromptsGet]; [ListTools]] s /\ leads some_code s t /\ waits t 1 0 /\ unfinished t 1.
Proof.
  eexists. eexists. split; [apply (starts_two _ _
    [Take LRegistry; Rd VPrompts; Call CPrompt; Rd VMode; Give LRegistry]
    [Take LRegistry; Rd VTools; Give LRegistry]); apply in_code; vm_compute; reflexivity|]. split.
  - eapply LdStep; [apply (StTake _ _ 0 LRegistry); reflexivity|]. apply LdHere.
  - split; [|eexists; eexists; reflexivity]. eexists. eexists. split; reflexivity.
Qed.

(* A tool handler hangs while the other thread has finished. *)
Example some_hang : exists s t,
  starts [[CallTool]; [ListTools]] s /\ leads some_code s t /\
  in_callback t 0 CTool /\ under_lock CTool = false /\ ~ unfinished t 1.
Proof.
  eexists. eexists. split; [apply (starts_two _ _
    [Take LRegistry; Rd VTools; Give LRegistry; Call CTool]
    [Take LRegistry; Rd VTools; Give LRegistry]); apply in_code; vm_compute; reflexivity|]. split.
  - eapply LdStep; [apply (StTake _ _ 0 LRegistry); reflexivity|cbn [threads owner put_nth app]].
    eapply LdStep; [apply (StRd _ _ 0 VTools); reflexivity|cbn [threads owner put_nth app]].
    eapply LdStep; [apply (StGive _ _ 0 LRegistry); reflexivity|cbn [threads owner put_nth app]].
    eapply LdStep; [apply (StTake _ _ 1 LRegistry); reflexivity|cbn [threads owner put_nth app]].
    eapply LdStep; [apply (StRd _ _ 1 VTools); reflexivity|cbn [threads owner put_nth app]].
    eapply LdStep; [apply (StGive _ _ 1 LRegistry); reflexivity|cbn [threads owner put_nth app]].
    apply LdHere.
  - split; [eexists; reflexivity|]. split; [reflexivity|].
    intros (a & r & E). cbn in E. discriminate.
Qed.

(* Threads that serve: a tool that registers tools while lists are read. *)
Example some_serving :
  only_serves (calling CTool [RegisterTool; SendProgress]) /\
  Forall (Forall (fun m => serving m = true)) [[QToolsCall; QToolsList]; [RegisterTool]; [QSubscribe]] /\
  exists s, starts [[QToolsCall; QToolsList]; [RegisterTool]; [QSubscribe]] s.
Proof.
  split; [|split].
  - intros c ms [[_ ->] | [_ ->]]; repeat constructor.
  - repeat constructor.
  - destruct (expands_some [QToolsCall; QToolsList]) as (a & A).
    destruct (expands_some [RegisterTool]) as (b & B).
    destruct (expands_some [QSubscribe]) as (c & C).
    exists (LSys [a; b; c] (fun _ => None)). split; [|reflexivity].
    repeat constructor; assumption.
Qed.

Example nothing_called : calls_nothing (fun _ ms => ms = []).
Proof. intros c ms H. exact H. Qed.

(* A prompt handler runs while another thread wants to register a prompt. *)
Example some_prompt_runs : exists s t,
  starts [[QPromptsGet]; [RegisterPrompt]] s /\ leads some_code s t /\ running t 0 CPrompt /\ waits t 1 0.
Proof.
  eexists. eexists. split; [apply (starts_two _ _
    [Take LRegistry; Rd VPrompts; Call CPrompt; Rd VMode; Give LRegistry]
    [Take LRegistry; Wr VPrompts; Rd VTransport; Give LRegistry]); apply in_code; vm_compute; reflexivity|]. split.
  - do 2 go 0.
    eapply LdStep; [eapply (StCall _ _ 0 CPrompt _ [RequestRootsList] [Rd VTransport; Rd VClientCaps]);
      [reflexivity|reflexivity|apply expands_single; apply in_code; vm_compute; reflexivity]|
      cbn [threads owner put_nth List.app]].
    apply LdHere.
  - split; [eexists; split; [reflexivity|]; cbn; tauto|]. eexists. eexists. split; reflexivity.
Qed.

(* The error handler of some_code is the only one that is replaced. *)
Example some_left_alone : left_alone VSampling some_code [[QCreateMessage]; [RegisterTool; LogToClient]].
Proof.
  split.
  - intros c ms m H I. destruct c; cbn in H; subst ms; cbn in I;
      repeat (destruct I as [<-|I]; [reflexivity|]); destruct I.
  - intros ms m I J. cbn in I. destruct I as [<-|[<-|[]]]; cbn in J;
      repeat (destruct J as [<-|J]; [reflexivity|]); destruct J.
Qed.
