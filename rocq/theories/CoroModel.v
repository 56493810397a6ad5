(** The asynchronous calls of Server and Client: coroutines that start at once, wait for one future in a thread of their own, and
    go on in that thread. What they touch after the wait: the arguments they were given by reference, and the object. *)
From Coq Require Import List Arith Bool.
Import ListNotations.
Local Open Scope nat_scope.

(** The coroutines of Server (Server.cpp:1504-2731) and of Client (Client.cpp:1075-2079), one constructor each. *)
Inductive amethod :=
| SStart | SStop | SHandleInitialize | SCallTool | SCallToolTask | SGetTask | SListTasks | SListTasksPaged | SGetTaskResult
| SCancelTask | SReadResource | SGetPrompt | SSendNotification | SNotifyResources | SNotifyTools | SNotifyPrompts
| SNotifyUpdated | SSendProgress | SLogToClient | SRootsList | SCreateMessage | SCreateMessageTask | SCreateMessageWithId
| SElicit | SElicitTask | SPing
| CConnect | CDisconnect | CInitialize | CComplete | CPing | CCallToolTask | CGetTask | CListTasks | CListTasksPaged
| CGetTaskResult | CCancelTask | CCallTool | CSubscribe | CUnsubscribe | CNotifyRoots | CListTools | CListToolsPaged
| CListResources | CListResourcesPaged | CListTemplates | CListTemplatesPaged | CListPrompts | CListPromptsPaged
| CReadResource | CReadResourceRange | CGetPrompt.

(** What the awaited future gives: a value that is a result (for a request: a response with a result); a response that is an error,
    or none, or without a result; an exception. *)
Inductive answer := Good | Failed | Broken.

(** What a coroutine touches that it does not own. *)
Inductive use := Args | Object.

(** Whether the coroutine has a co_await: coHandleInitialize (Server.cpp:1942-1948) and coGetPrompt (2140-2156) have none. *)
Definition awaits (m : amethod) : bool :=
  match m with SHandleInitialize | SGetPrompt => false | _ => true end.

(** Before the wait every coroutine reads its arguments, if it has any, and the object. *)
Definition before (m : amethod) : list use :=
  match m with
  | SStart | SStop | SListTasks | SNotifyResources | SNotifyTools | SNotifyPrompts | SRootsList | SPing
  | CConnect | CDisconnect | CPing | CListTasks | CNotifyRoots | CListTools | CListResources | CListTemplates | CListPrompts => [Object]
  | _ => [Args; Object]
  end.

(** After the wait, in the order of the code. Simplified: a path that may touch the object is taken to touch it (the validation
    mode is always read; _meta of a resource is taken to be there); coListTasks touches what the coListTasksPaged it awaits does.
    - Server::coStop, 1934-1938: taskWorkers, on every path. Client::coConnect, 1090-1095 and coDisconnect, 1104-1110, likewise.
    - Server 1985-2001, 2010-2024, 2041-2062, 2103-2116, 2340-2395, 2500-2517, 2590-2653, 2690-2705, 2715-2730 and Client
      1213-1228, 1240-1256, 1265-1279, 1296-1317, 1357-1371: an error throws or returns before the object is read; a result is checked
      against validationMode, and a created task is remembered.
    - Server::coReadResource, 2128-2135: buildReadResourceResultJson reads clientCapabilities, 430-434.
    - coGetTaskResult, Server.cpp:2073-2093 and Client.cpp:1328-1348: outboundTaskKindFor(taskId), taskId being a reference.
    - Client::coInitialize, 1130-1146: parseServerCapabilities. coComplete, 1166-1207: validationMode.
    - Client::coListTools, 1472-1518, and the three other lists, 1608-1654, 1744-1790, 1883-1932: the cache is filled also after
      an error, not after an exception. The paged ones, 1535-1586, 1671-1722, 1807-1861, 1949-2000: only after a result.
    - The others touch nothing: Server 1504-1546, 1950-1974, 2158-2292, 2398-2457, 2520-2580; Client 1374-1450, 2003-2079. *)
Definition after (m : amethod) (a : answer) : list use :=
  match m, a with
  | SStop, _ | CConnect, _ | CDisconnect, _ => [Object]
  | SCallToolTask, Good | SCreateMessageTask, Good | SElicitTask, Good | CCallToolTask, Good => [Object; Object]
  | SGetTask, Good | SListTasks, Good | SListTasksPaged, Good | SCancelTask, Good | SReadResource, Good | SRootsList, Good
  | SElicit, Good | SPing, Good => [Object]
  | SGetTaskResult, Good | CGetTaskResult, Good => [Object; Args; Object]
  | CInitialize, Good | CComplete, Good | CPing, Good | CGetTask, Good | CListTasks, Good | CListTasksPaged, Good
  | CCancelTask, Good | CListToolsPaged, Good | CListResourcesPaged, Good | CListTemplatesPaged, Good | CListPromptsPaged, Good => [Object]
  | CListTools, Good | CListResources, Good | CListTemplates, Good | CListPrompts, Good => [Object; Object]
  | CListTools, Failed | CListResources, Failed | CListTemplates, Failed | CListPrompts, Failed => [Object]
  | _, _ => []
  end.

(** A coroutine frame. Waiting: suspended, its thread in fut.wait(), FutureAwaitable.h:39-47. Woken: the future is ready, the
    thread not yet in h.resume(), 46. Ended: the frame is gone, final_suspend being suspend_never, Task.h:33. *)
Inductive phase := Waiting | Woken (a : answer) | Ended (a : answer).

(** cl_args: whether what the references of the call refer to still exists. *)
Record acall := { cl_meth : amethod; cl_args : bool; cl_phase : phase }.

(** ac_call: which call touched it. ac_live: whether it still existed. *)
Record access := { ac_call : nat; ac_what : use; ac_live : bool }.

(** co_sets: the calls whose promise was set (Task.h:34-38), in order. co_threads: how many threads were started by await_suspend
    and have not ended. *)
Record costate := { co_calls : list acall; co_object : bool; co_acc : list access; co_sets : list nat; co_threads : nat }.

Definition costart : costate := {| co_calls := []; co_object := true; co_acc := []; co_sets := []; co_threads := 0 |}.

(** What can happen. Call m None: the method is called and its future is not ready at the co_await; Call m (Some a): it is ready
    with a. Gone i: the arguments of call i cease to exist. Answer i a: the future call i waits for becomes ready. Resume i: the
    thread of call i goes on. Destroy: the object ceases to exist. *)
Inductive coev := Call (m : amethod) (r : option answer) | Gone (i : nat) | Answer (i : nat) (a : answer) | Resume (i : nat) | Destroy.

(** The accesses of a piece of code. *)
Definition touch (i : nat) (args object : bool) (us : list use) : list access :=
  map (fun u => {| ac_call := i; ac_what := u; ac_live := match u with Args => args | Object => object end |}) us.

(** Replaces an element. *)
Fixpoint put (l : list acall) (i : nat) (c : acall) : list acall :=
  match l, i with
  | [], _ => []
  | _ :: r, 0 => c :: r
  | x :: r, S j => x :: put r j c
  end.

(** One event; None: it cannot happen. A call is not made on an object that is gone. *)
Definition costep (s : costate) (e : coev) : option costate :=
  let n := length (co_calls s) in
  match e with
  | Call m r =>
      if co_object s then
        match r, awaits m with
        | None, true =>
            (** await_ready false (FutureAwaitable.h:34-37); await_suspend starts a thread and detaches it, 39-49. *)
            Some {| co_calls := co_calls s ++ [{| cl_meth := m; cl_args := true; cl_phase := Waiting |}];
                    co_object := true; co_acc := co_acc s ++ touch n true true (before m);
                    co_sets := co_sets s; co_threads := S (co_threads s) |}
        | Some a, _ =>
            (** await_ready true, or no co_await: all of it runs in the caller's thread, initial_suspend being suspend_never,
                Task.h:32. *)
            Some {| co_calls := co_calls s ++ [{| cl_meth := m; cl_args := true; cl_phase := Ended a |}];
                    co_object := true; co_acc := co_acc s ++ touch n true true (before m ++ after m a);
                    co_sets := co_sets s ++ [n]; co_threads := co_threads s |}
        | None, false => None
        end
      else None
  | Gone i =>
      match nth_error (co_calls s) i with
      | Some c => Some {| co_calls := put (co_calls s) i {| cl_meth := cl_meth c; cl_args := false; cl_phase := cl_phase c |};
                          co_object := co_object s; co_acc := co_acc s; co_sets := co_sets s; co_threads := co_threads s |}
      | None => None
      end
  | Answer i a =>
      match nth_error (co_calls s) i with
      | Some c =>
          match cl_phase c with
          | Waiting => Some {| co_calls := put (co_calls s) i {| cl_meth := cl_meth c; cl_args := cl_args c; cl_phase := Woken a |};
                               co_object := co_object s; co_acc := co_acc s; co_sets := co_sets s; co_threads := co_threads s |}
          | _ => None
          end
      | None => None
      end
  | Resume i =>
      match nth_error (co_calls s) i with
      | Some c =>
          match cl_phase c with
          | Woken a => Some {| co_calls := put (co_calls s) i {| cl_meth := cl_meth c; cl_args := cl_args c; cl_phase := Ended a |};
                               co_object := co_object s; co_acc := co_acc s ++ touch i (cl_args c) (co_object s) (after (cl_meth c) a);
                               co_sets := co_sets s ++ [i]; co_threads := pred (co_threads s) |}
          | _ => None
          end
      | None => None
      end
  | Destroy => if co_object s then Some {| co_calls := co_calls s; co_object := false; co_acc := co_acc s; co_sets := co_sets s;
                                           co_threads := co_threads s |}
               else None
  end.

(** A history. *)
Fixpoint coruns (s : costate) (h : list coev) : option costate :=
  match h with
  | [] => Some s
  | e :: r => match costep s e with Some s' => coruns s' r | None => None end
  end.
