(** Tasks: values, their JSON forms, related-task metadata and the task store. *)
From Coq Require Import Ascii String List Arith NArith ZArith Bool.
From Verif Require Import StrModel DoubleModel JsonModel MapModel.
Import ListNotations.
Local Open Scope nat_scope.

(** struct Task, include/mcp/Protocol.h:177-185. *)
Record task := {
  tk_id : bstr;
  tk_status : bstr;
  tk_message : option bstr;
  tk_created : bstr;
  tk_updated : bstr;
  tk_ttl : option Z;
  tk_poll : option Z
}.

(** A default-constructed Task. *)
Definition task0 : task :=
  {| tk_id := []; tk_status := []; tk_message := None; tk_created := []; tk_updated := []; tk_ttl := None; tk_poll := None |}.

(** namespace Status, TaskSupport.h:32-38. *)
Definition WORKING : bstr := bs "working".
Definition COMPLETED : bstr := bs "completed".
Definition FAILED : bstr := bs "failed".
Definition CANCELLED : bstr := bs "cancelled".

(** IsTerminalStatus, TaskSupport.h:53-57. *)
Definition is_terminal (s : bstr) : bool := (beq s COMPLETED || beq s FAILED || beq s CANCELLED)%bool.

(** RELATED_TASK_META_KEY, TaskSupport.h:30. *)
Definition RELATED : bstr := bs "modelcontextprotocol.io/related-task".
Definition META : bstr := bs "_meta".
Definition DATA : bstr := bs "data".

(** The object stored under a key, or an empty one: TaskSupport.h:87-91, 102-106, 107-112. *)
Definition obj_at (k : bstr) (o : obj) : obj :=
  match obj_get k o with Some (JObj m) => m | _ => [] end.

(** MakeRelatedTaskMetaValue, TaskSupport.h:76-80. *)
Definition related_value (i : bstr) : json := JObj (obj_set (bs "taskId") (JStr i) []).

(** AttachRelatedTaskMetaToResult, TaskSupport.h:82-95. *)
Definition attach_result (p : json) (i : bstr) : json :=
  match p with
  | JObj o => JObj (obj_set META (JObj (obj_set RELATED (related_value i) (obj_at META o))) o)
  | _ => p
  end.

(** AttachRelatedTaskMetaToError, TaskSupport.h:97-117. *)
Definition attach_error (p : json) (i : bstr) : json :=
  match p with
  | JObj o =>
      let d := obj_at DATA o in
      let m := obj_set RELATED (related_value i) (obj_at META d) in
      JObj (obj_set DATA (JObj (obj_set META (JObj m) d)) o)
  | _ => p
  end.

Definition opt_set {A : Type} (k : bstr) (f : A -> json) (v : option A) (o : obj) : obj :=
  match v with Some x => obj_set k (f x) o | None => o end.

(** SerializeTask, TaskSupport.h:119-138. *)
Definition task_json (t : task) : json :=
  let o := obj_set (bs "taskId") (JStr (tk_id t)) [] in
  let o := obj_set (bs "status") (JStr (tk_status t)) o in
  let o := obj_set (bs "createdAt") (JStr (tk_created t)) o in
  let o := obj_set (bs "lastUpdatedAt") (JStr (tk_updated t)) o in
  let o := opt_set (bs "statusMessage") JStr (tk_message t) o in
  let o := obj_set (bs "ttl") (match tk_ttl t with Some z => JInt z | None => JNull end) o in
  JObj (opt_set (bs "pollInterval") JInt (tk_poll t) o).

(** A member that must be a string (TaskSupport.h:146-149 and alike) or an integer (166-169). *)
Definition get_str (k : bstr) (o : obj) : option bstr := match obj_get k o with Some (JStr s) => Some s | _ => None end.
Definition get_int (k : bstr) (o : obj) : option Z := match obj_get k o with Some (JInt z) => Some z | _ => None end.
Definition or_empty (s : option bstr) : bstr := match s with Some x => x | None => [] end.

(** ParseTask, TaskSupport.h:140-174. *)
Definition parse_task (v : json) : task :=
  match v with
  | JObj o =>
      {| tk_id := or_empty (get_str (bs "taskId") o); tk_status := or_empty (get_str (bs "status") o);
         tk_message := get_str (bs "statusMessage") o; tk_created := or_empty (get_str (bs "createdAt") o);
         tk_updated := or_empty (get_str (bs "lastUpdatedAt") o); tk_ttl := get_int (bs "ttl") o;
         tk_poll := get_int (bs "pollInterval") o |}
  | _ => task0
  end.

(** SerializeCreateTaskResult and ParseCreateTaskResult, TaskSupport.h:176-200. *)
Definition created_json (t : task) (m : option json) : json :=
  JObj (opt_set META (fun x => x) m (obj_set (bs "task") (task_json t) [])).

Definition parse_created (v : json) : task * option json :=
  match v with
  | JObj o => (match obj_get (bs "task") o with Some x => parse_task x | None => task0 end, obj_get META o)
  | _ => (task0, None)
  end.

(** SerializeTasksListResult and ParseTasksListResult, TaskSupport.h:202-237. *)
Definition tasks_json (l : list task) (next : option bstr) : json :=
  JObj (opt_set (bs "nextCursor") JStr next (obj_set (bs "tasks") (JArr (map task_json l)) [])).

Definition parse_tasks (v : json) : list task * option bstr :=
  match v with
  | JObj o => (match obj_get (bs "tasks") o with Some (JArr l) => map parse_task l | _ => [] end,
               get_str (bs "nextCursor") o)
  | _ => ([], None)
  end.

(** SerializeTaskMetadata, TaskSupport.h:239-245. *)
Definition metadata_json (ttl : option Z) : json := JObj (opt_set (bs "ttl") JInt ttl []).

(** TryParseTaskMetadata, TaskSupport.h:247-262; the second argument is the task passed in. *)
Definition parse_metadata (params : option json) (ttl : option Z) : bool * option Z :=
  match params with
  | Some (JObj o) =>
      match obj_get (bs "task") o with
      | Some (JObj t) => (true, match get_int (bs "ttl") t with Some z => Some z | None => ttl end)
      | _ => (false, ttl)
      end
  | _ => (false, ttl)
  end.

(** TryParseTaskId, TaskSupport.h:264-276. *)
Definition parse_task_id (params : option json) : bool * bstr :=
  match params with
  | Some (JObj o) => match get_str (bs "taskId") o with Some s => (true, s) | None => (false, []) end
  | _ => (false, [])
  end.

(** ToolTaskSupportMode, TaskSupport.h:278-292; the argument is tool.execution. *)
Definition task_support (execution : option json) : bstr :=
  match execution with
  | Some (JObj o) =>
      match get_str (bs "taskSupport") o with
      | Some s => if (beq s (bs "required") || beq s (bs "optional"))%bool then s else bs "forbidden"
      | None => bs "forbidden"
      end
  | _ => bs "forbidden"
  end.

(** enum class TaskKind, TaskSupport.h:46-51. *)
Inductive task_kind := KUnknown | KToolCall | KCreateMessage | KElicitation.

(** TaskStore::Record, TaskSupport.h:454-460; tr_stop: request_stop was called on stopSource. *)
Record trec := {
  tr_task : task;
  tr_kind : task_kind;
  tr_stop : bool;
  tr_error : bool;
  tr_payload : option json
}.

(** One call of SetTerminal: its arguments, with the text UtcNowIso8601 returned. *)
Record attempt := {
  at_id : bstr;
  at_status : bstr;
  at_message : option bstr;
  at_error : bool;
  at_payload : json;
  at_now : bstr;
  at_stop : bool
}.

(** What SetTerminal told its caller: not found; refused, with the task as it stands; done. *)
Inductive told := NotFound | Refused (t : task) | Won (t : task).

(** TaskStore, TaskSupport.h:518-524. ts_emit: callback calls (with a request_stop before
    them, if any) that a thread is about to make after releasing the lock. The rest are
    observations: callback calls made, answers to SetTerminal, tasks returned by CreateTask,
    waiters inside WaitForTerminalPayload and what finished waits returned. *)
Record tstore := {
  ts_recs : list (bstr * trec);
  ts_order : list bstr;
  ts_next : N;
  ts_emit : list (bool * task);
  ts_seen : list task;
  ts_log : list (attempt * told);
  ts_created : list (task * task_kind);
  ts_waiting : list bstr;
  ts_waited : list (bstr * option (bool * json))
}.

Definition tstore0 : tstore :=
  {| ts_recs := []; ts_order := []; ts_next := 1; ts_emit := []; ts_seen := []; ts_log := []; ts_created := [];
     ts_waiting := []; ts_waited := [] |}.

Definition task_name (n : N) : bstr := bs "task-" ++ print_N n.

(** The task CreateTask builds, TaskSupport.h:359-364. *)
Definition new_task (n : N) (now : bstr) (ttl : option Z) : task :=
  {| tk_id := task_name n; tk_status := WORKING; tk_message := None; tk_created := now; tk_updated := now;
     tk_ttl := ttl; tk_poll := Some 100%Z |}.

(** CreateTask up to the release of the lock, TaskSupport.h:355-371. nextId_ is a uint64_t. *)
Definition ts_create (kind : task_kind) (ttl : option Z) (now : bstr) (s : tstore) : tstore :=
  let t := new_task (ts_next s) now ttl in
  {| ts_recs := aset (tk_id t) {| tr_task := t; tr_kind := kind; tr_stop := false; tr_error := false; tr_payload := None |} (ts_recs s);
     ts_order := ts_order s ++ [tk_id t];
     ts_next := N.modulo (ts_next s + 1) two64;
     ts_emit := ts_emit s ++ [(false, t)]; ts_seen := ts_seen s; ts_log := ts_log s;
     ts_created := ts_created s ++ [(t, kind)]; ts_waiting := ts_waiting s; ts_waited := ts_waited s |}.

(** GetTask and GetKind, TaskSupport.h:385-401. *)
Definition ts_get (i : bstr) (s : tstore) : option task := option_map tr_task (aget i (ts_recs s)).
Definition ts_kind (i : bstr) (s : tstore) : option task_kind := option_map tr_kind (aget i (ts_recs s)).

(** std::vector indexing loop and cursor of ListTasks, TaskSupport.h:403-422. None: end is
    less than start because start + limit wrapped, and reserve(end - start) throws. *)
Definition ts_list (start : N) (limit : option N) (s : tstore) : option (list task * option bstr) :=
  let size := N.of_nat (length (ts_order s)) in
  if N.leb size start then Some ([], None)
  else
    let e := match limit with Some n => N.min size (N.modulo (start + n) two64) | None => size end in
    if N.ltb e start then None
    else
      let ids := firstn (N.to_nat e - N.to_nat start) (skipn (N.to_nat start) (ts_order s)) in
      Some (flat_map (fun i => match aget i (ts_recs s) with Some r => [tr_task r] | None => [] end) ids,
            match limit with Some _ => if N.ltb e size then Some (print_N e) else None | None => None end).

(** SetTerminal up to the release of the lock, TaskSupport.h:469-496. *)
Definition ts_terminal (a : attempt) (s : tstore) : told * tstore :=
  let log w := {| ts_recs := ts_recs s; ts_order := ts_order s; ts_next := ts_next s; ts_emit := ts_emit s; ts_seen := ts_seen s;
     ts_log := ts_log s ++ [(a, w)]; ts_created := ts_created s; ts_waiting := ts_waiting s; ts_waited := ts_waited s |} in
  match aget (at_id a) (ts_recs s) with
  | None => (NotFound, log NotFound)
  | Some r =>
      if ((match tr_payload r with Some _ => true | None => false end) || is_terminal (tk_status (tr_task r)))%bool
      then (Refused (tr_task r), log (Refused (tr_task r)))
      else
        let t := {| tk_id := tk_id (tr_task r); tk_status := at_status a; tk_message := at_message a;
                    tk_created := tk_created (tr_task r); tk_updated := at_now a;
                    tk_ttl := tk_ttl (tr_task r); tk_poll := tk_poll (tr_task r) |} in
        (Won t,
         {| ts_recs := aset (at_id a) {| tr_task := t; tr_kind := tr_kind r; tr_stop := tr_stop r;
                                         tr_error := at_error a; tr_payload := Some (at_payload a) |} (ts_recs s);
            ts_order := ts_order s; ts_next := ts_next s; ts_emit := ts_emit s ++ [(at_stop a, t)];
            ts_seen := ts_seen s; ts_log := ts_log s ++ [(a, Won t)]; ts_created := ts_created s;
            ts_waiting := ts_waiting s; ts_waited := ts_waited s |})
  end.

(** CancelTask, TaskSupport.h:433-435. *)
Definition cancel_attempt (i : bstr) (payload : json) (now : bstr) : attempt :=
  {| at_id := i; at_status := CANCELLED; at_message := Some (bs "Cancelled"); at_error := true; at_payload := payload;
     at_now := now; at_stop := true |}.

(** CompleteTask, TaskSupport.h:424-431. *)
Definition complete_attempt (i status : bstr) (msg : option bstr) (err : bool) (payload : json) (now : bstr) : attempt :=
  {| at_id := i; at_status := status; at_message := msg; at_error := err; at_payload := payload; at_now := now; at_stop := false |}.

(** Steps, each one critical section or one call:
    - TCreate, TTerminal: above
    - TEmit n: a thread makes the calls that follow the lock: request_stop 497-502 and the
      status callback 504-506, 510-516. Simplification: a callback is always installed.
    - TWait i: the lookup of WaitForTerminalPayload 437-446; TWake n: a waiter finds its
      payload and returns 448-450 *)
Inductive tev :=
| TCreate (kind : task_kind) (ttl : option Z) (now : bstr)
| TTerminal (a : attempt)
| TEmit (n : nat)
| TWait (i : bstr)
| TWake (n : nat).

Definition set_stop (i : bstr) (m : list (bstr * trec)) : list (bstr * trec) :=
  match aget i m with
  | Some r => aset i {| tr_task := tr_task r; tr_kind := tr_kind r; tr_stop := true; tr_error := tr_error r;
                        tr_payload := tr_payload r |} m
  | None => m
  end.

Definition ts_emit_one (x : bool * task) (rest : list (bool * task)) (s : tstore) : tstore :=
  {| ts_recs := if fst x then set_stop (tk_id (snd x)) (ts_recs s) else ts_recs s;
     ts_order := ts_order s; ts_next := ts_next s; ts_emit := rest; ts_seen := ts_seen s ++ [snd x];
     ts_log := ts_log s; ts_created := ts_created s; ts_waiting := ts_waiting s; ts_waited := ts_waited s |}.

Definition ts_set_wait (w : list bstr) (d : list (bstr * option (bool * json))) (s : tstore) : tstore :=
  {| ts_recs := ts_recs s; ts_order := ts_order s; ts_next := ts_next s; ts_emit := ts_emit s; ts_seen := ts_seen s;
     ts_log := ts_log s; ts_created := ts_created s; ts_waiting := w; ts_waited := d |}.

Definition ts_step (s : tstore) (v : tev) : tstore :=
  match v with
  | TCreate k ttl now => ts_create k ttl now s
  | TTerminal a => snd (ts_terminal a s)
  | TEmit n =>
      match take_nth n (ts_emit s) with
      | None => s
      | Some (x, rest) => ts_emit_one x rest s
      end
  | TWait i =>
      match aget i (ts_recs s) with
      | None => ts_set_wait (ts_waiting s) (ts_waited s ++ [(i, None)]) s
      | Some _ => ts_set_wait (ts_waiting s ++ [i]) (ts_waited s) s
      end
  | TWake n =>
      match take_nth n (ts_waiting s) with
      | None => s
      | Some (i, rest) =>
          match aget i (ts_recs s) with
          | Some r => match tr_payload r with
                      | Some p => ts_set_wait rest (ts_waited s ++ [(i, Some (tr_error r, p))]) s
                      | None => s
                      end
          | None => s
          end
      end
  end.

Definition ts_run (s : tstore) (vs : list tev) : tstore := fold_left ts_step vs s.

(** tasks/list, Server.cpp:1588-1628 and Client.cpp:731-771: the page or the error the peer
    is answered. ListThrows: ListTasks threw and the error is -32603. The strict shape check
    1619-1624 is left out. *)
Inductive list_reply := ListInvalid (msg : bstr) | ListThrows | ListPage (v : json).

(** std::stoll and the cast to size_t, Server.cpp:1600. *)
Definition cursor_start (c : bstr) : option N := option_map (fun z => Z.to_N (Z.modulo z (Z.of_N two64))) (stoll c).

Definition tasks_list (params : option json) (s : tstore) : list_reply :=
  let page start limit :=
    match ts_list start limit s with
    | None => ListThrows
    | Some (ts, next) => ListPage (tasks_json ts next)
    end in
  match params with
  | Some (JObj o) =>
      match match obj_get (bs "cursor") o with
            | None => Some 0%N
            | Some (JStr c) => cursor_start c
            | Some _ => None
            end with
      | None => ListInvalid (bs "Invalid cursor")
      | Some start =>
          match obj_get (bs "limit") o with
          | None => page start None
          | Some (JInt n) => if Z.leb n 0 then ListInvalid (bs "Invalid limit") else page start (Some (Z.to_N n))
          | Some _ => ListInvalid (bs "Invalid limit")
          end
      end
  | _ => page 0%N None
  end.
