(** C149 to C151: asynchronous calls, their arguments, their futures and their object. *)
From Coq Require Import List Arith Bool Lia.
From Verif Require Import CoroModel CoroSpec CoroProofs.
Import ListNotations.
Local Open Scope nat_scope.

(** C149. The arguments of a call are not used once they may be gone, that is after the call has returned its future.
    Partial: the two calls that fetch the result of a task are left out. *)
Theorem C149_arguments_partial : forall h s i m, after_history h s -> touched_dead s i m Args -> fetches_result m.
Proof. exact args_dead. Qed.
Print Assumptions C149_arguments_partial.

(** For those two, and for any other: safe if the arguments are kept until the future is ready. *)
Theorem C149_kept_partial : forall h s i m, after_history h s -> kept h i -> ~ touched_dead s i m Args.
Proof. exact kept_alive. Qed.
Print Assumptions C149_kept_partial.

(** The result of a task asked for with a temporary string: the string is read when it is gone. The object is there all the time. *)
Theorem C149_arguments_refuted : forall m, fetches_result m ->
  exists h s, after_history h s /\ ~ In Destroy h /\ touched_dead s 0 m Args.
Proof.
  intros m [-> | ->].
  - exists [Call SGetTaskResult None; Gone 0; Answer 0 Good; Resume 0]. eexists. split; [vm_compute; reflexivity|]. split.
    + intros [H|[H|[H|[H|[]]]]]; discriminate H.
    + eexists. split; [reflexivity|]. split; [reflexivity|]. vm_compute. auto 12.
  - exists [Call CGetTaskResult None; Gone 0; Answer 0 Good; Resume 0]. eexists. split; [vm_compute; reflexivity|]. split.
    + intros [H|[H|[H|[H|[]]]]]; discriminate H.
    + eexists. split; [reflexivity|]. split; [reflexivity|]. vm_compute. auto 12.
Qed.
Print Assumptions C149_arguments_refuted.

(** The hypotheses can be met: a call whose arguments go at once, and that goes on after they have gone. *)
Example C149_ex : exists s, after_history [Call CCallToolTask None; Gone 0; Answer 0 Good; Resume 0] s /\
  settled s 0 /\ length (co_acc s) = 4 /\ forall u, ~ touched_dead s 0 CCallToolTask u.
Proof.
  eexists. split; [vm_compute; reflexivity|]. split; [left; reflexivity|]. split; [reflexivity|].
  intros u (c & _ & _ & I). destruct u; vm_compute in I;
    repeat (destruct I as [I|I]; [discriminate I|]); exact I.
Qed.
Example C149_kept_ex : kept [Call CGetTaskResult None; Answer 0 Good; Resume 0; Gone 0] 0.
Proof.
  intros h1 h2 H. destruct h1 as [|e1 [|e2 [|e3 [|e4 h1]]]]; try discriminate H.
  - injection H as <- <- <- _. eexists. split; [vm_compute; reflexivity|]. left. reflexivity.
  - injection H as _ _ _ _ H. destruct h1; discriminate H.
Qed.

(** C150. The promise of a call is set at most once, and only when the answer has come. *)
Theorem C150_once : forall h s, after_history h s ->
  NoDup (co_sets s) /\ forall i, settled s i -> made s i /\ exists a, answered s i a.
Proof.
  intros h s H. destruct (settled_once h s H) as (A & B & _). split; [exact A|]. intros i S.
  destruct (B i S) as (a & c & N & P). split; [|exists a, c; auto]. unfold made. apply nth_error_Some. rewrite N. discriminate.
Qed.
Print Assumptions C150_once.

(** Once the answer has come the future becomes ready by a step of the call's own thread, whatever the other calls do, and that
    step leaves them alone. *)
Theorem C150_settles : forall h s i a, after_history h s -> answered s i a -> ~ settled s i ->
  exists s', costep s (Resume i) = Some s' /\ settled s' i /\
             (forall j, j <> i -> nth_error (co_calls s') j = nth_error (co_calls s) j).
Proof. exact can_settle. Qed.
Print Assumptions C150_settles.

(** When the threads have done all they can, every call whose answer has come has its future ready. *)
Theorem C150_quiet : forall h s, after_history h s -> (forall i, costep s (Resume i) = None) ->
  forall i a, answered s i a -> settled s i.
Proof.
  intros h s H Q i a A. destruct (in_dec Nat.eq_dec i (co_sets s)) as [I|N]; [exact I|].
  destruct (can_settle h s i a H A N) as (s' & E & _). rewrite Q in E. discriminate E.
Qed.
Print Assumptions C150_quiet.

(** A call is always in one of the two: its answer can still come, or has come. *)
Theorem C150_waits : forall h s i, after_history h s -> made s i ->
  (exists a, answered s i a) \/ (forall a, exists s', costep s (Answer i a) = Some s' /\ answered s' i a).
Proof.
  intros h s i H M. destruct (settled_once h s H) as (_ & B & C & _). destruct (C i M) as [S|[U|A]].
  - left. exact (B i S).
  - right. intro a. exact (can_answer s i a U).
  - left. exact A.
Qed.
Print Assumptions C150_waits.

(** The calls that wait for nothing, HandleInitialize and GetPrompt of the server, have set their promise when they return. *)
Theorem C150_at_once : forall h s i c, after_history h s -> nth_error (co_calls s) i = Some c ->
  cl_meth c = SHandleInitialize \/ cl_meth c = SGetPrompt -> exists a, cl_phase c = Ended a.
Proof. exact at_once. Qed.
Print Assumptions C150_at_once.

(** A ready future stays ready, and the coroutine does not run again. *)
Theorem C150_stays : forall h s i e s', after_history h s -> settled s i -> costep s e = Some s' -> settled s' i /\ e <> Resume i.
Proof.
  intros h s i e s' H S E. destruct (settle_answer_unique h s i e s' H S E) as (A & B). split; [exact A|]. intros ->.
  apply B. left. reflexivity.
Qed.
Print Assumptions C150_stays.

(** Every call that is not finished holds a thread, and no other thread is held. *)
Theorem C150_threads : forall h s, after_history h s ->
  co_threads s = length (filter (fun c => match cl_phase c with Ended _ => false | _ => true end) (co_calls s)).
Proof. intros h s H. rewrite (proj2 (proj2 (proj2 (settled_once h s H)))). apply lives_count. Qed.
Print Assumptions C150_threads.

(** So calls that are not answered hold any number of threads. *)
Theorem C150_threads_grow : forall n, exists h s, after_history h s /\ co_threads s = n.
Proof.
  intro n. destruct (blocked_threads n costart eq_refl) as (s & R & T). exists (blocked n), s. split; [exact R|]. rewrite T. cbn. lia.
Qed.
Print Assumptions C150_threads_grow.

Example C150_ex : exists s, after_history [Call CPing None; Call CListTools None; Call CCallTool (Some Good); Answer 1 Good; Resume 1] s /\
  settled s 1 /\ settled s 2 /\ ~ settled s 0 /\ unanswered s 0 /\ co_threads s = 1.
Proof.
  eexists. split; [vm_compute; reflexivity|]. split; [vm_compute; auto|]. split; [vm_compute; auto|]. split.
  - intro I. vm_compute in I. destruct I as [I|[I|[]]]; discriminate I.
  - split; [|reflexivity]. eexists. split; reflexivity.
Qed.

(** C151. An object may be destroyed while calls are pending. Partial: it may once the futures of all its calls are ready. *)
Theorem C151_outlives_partial : forall h s i m, after_history h s -> outlives h -> ~ touched_dead s i m Object.
Proof. exact outlives_alive. Qed.
Print Assumptions C151_outlives_partial.

(** And whenever: a call of the kinds that touch nothing is safe; if its request failed only some touch the object, if its future
    threw only three. *)
Theorem C151_kinds_partial : forall h s i m, after_history h s -> touched_dead s i m Object ->
  ~ detached m /\ exists a, answered s i a /\ (a = Failed -> touches_after_failure m) /\ (a = Broken -> touches_after_exception m).
Proof. exact object_dead. Qed.
Print Assumptions C151_kinds_partial.

(** A list asked for, the client destroyed, the request failed by the end of the transport: the object is touched when it is gone. *)
Theorem C151_closing_refuted : exists h s, after_history h s /\ touched_dead s 0 CListTools Object.
Proof.
  exists [Call CListTools None; Destroy; Answer 0 Failed; Resume 0]. eexists. split; [vm_compute; reflexivity|].
  eexists. split; [reflexivity|]. split; [reflexivity|]. vm_compute. auto 12.
Qed.
Print Assumptions C151_closing_refuted.

(** The answer has come, but the future of the call is not ready yet. *)
Theorem C151_answered_refuted : forall m, In m [CPing; SPing; CCallToolTask; CInitialize; SRootsList; SElicit] ->
  exists h s, after_history h s /\ touched_dead s 0 m Object.
Proof.
  intros m M. exists [Call m None; Answer 0 Good; Destroy; Resume 0].
  cbn in M. repeat (destruct M as [<- |M]; [eexists; split; [vm_compute; reflexivity|]; eexists;
    split; [reflexivity|]; split; [reflexivity|]; vm_compute; auto 12|]). contradiction.
Qed.
Print Assumptions C151_answered_refuted.

Example C151_ex : exists s, after_history [Call CPing None; Answer 0 Good; Resume 0; Destroy] s /\ co_object s = false /\
  forall m, ~ touched_dead s 0 m Object.
Proof.
  eexists. split; [vm_compute; reflexivity|]. split; [reflexivity|]. intros m (c & _ & _ & I). vm_compute in I.
  repeat (destruct I as [I|I]; [discriminate I|]). exact I.
Qed.
Example C151_outlives_ex : outlives [Call CPing None; Answer 0 Good; Resume 0; Destroy].
Proof.
  intros h1 h2 H. destruct h1 as [|e1 [|e2 [|e3 [|e4 h1]]]]; try discriminate H.
  - injection H as <- <- <- _. eexists. split; [vm_compute; reflexivity|]. intros i M. unfold made in M. cbn in M.
    destruct i; [left; reflexivity|lia].
  - injection H as _ _ _ _ H. destruct h1; discriminate H.
Qed.
