(** What the statements on asynchronous calls mean. *)
From Coq Require Import List Arith Bool.
From Verif Require Import CoroModel.
Import ListNotations.
Local Open Scope nat_scope.

(** A history from a new object leads to the state. *)
Definition after_history (h : list coev) (s : costate) : Prop := coruns costart h = Some s.

(** Call i, to method m, touched something that no longer existed. *)
Definition touched_dead (s : costate) (i : nat) (m : amethod) (u : use) : Prop :=
  exists c, nth_error (co_calls s) i = Some c /\ cl_meth c = m /\
            In {| ac_call := i; ac_what := u; ac_live := false |} (co_acc s).

(** The calls that fetch the result of a task. *)
Definition fetches_result (m : amethod) : Prop := m = SGetTaskResult \/ m = CGetTaskResult.

(** The future of call i is ready. *)
Definition settled (s : costate) (i : nat) : Prop := In i (co_sets s).

(** Call i was made. *)
Definition made (s : costate) (i : nat) : Prop := i < length (co_calls s).

(** The future call i waits for has become ready, or was so at once. *)
Definition answered (s : costate) (i : nat) (a : answer) : Prop :=
  exists c, nth_error (co_calls s) i = Some c /\ (cl_phase c = Woken a \/ cl_phase c = Ended a).

(** Call i was made, and its answer has not come. *)
Definition unanswered (s : costate) (i : nat) : Prop := exists c, nth_error (co_calls s) i = Some c /\ cl_phase c = Waiting.

(** The arguments of call i exist until its future is ready. *)
Definition kept (h : list coev) (i : nat) : Prop :=
  forall h1 h2, h = h1 ++ Gone i :: h2 -> exists s, after_history h1 s /\ settled s i.

(** The object exists until the futures of all its calls are ready. *)
Definition outlives (h : list coev) : Prop :=
  forall h1 h2, h = h1 ++ Destroy :: h2 -> exists s, after_history h1 s /\ forall i, made s i -> settled s i.

(** The calls that touch the object when their request has failed; that touch it when their future threw. *)
Definition touches_after_failure (m : amethod) : Prop :=
  In m [SStop; CConnect; CDisconnect; CListTools; CListResources; CListTemplates; CListPrompts].
Definition touches_after_exception (m : amethod) : Prop := In m [SStop; CConnect; CDisconnect].

(** The calls that touch nothing of the object after the wait. *)
Definition detached (m : amethod) : Prop :=
  In m [SStart; SHandleInitialize; SCallTool; SGetPrompt; SSendNotification; SNotifyResources; SNotifyTools; SNotifyPrompts;
        SNotifyUpdated; SSendProgress; SLogToClient; SCreateMessage; SCreateMessageWithId; CCallTool; CSubscribe; CUnsubscribe;
        CNotifyRoots; CReadResource; CReadResourceRange; CGetPrompt].
