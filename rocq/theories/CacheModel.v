(** The client's ListTools, ListResources, ListResourceTemplates and ListPrompts and the cache
    behind them. *)
From Coq Require Import Ascii String List Arith NArith ZArith Bool.
From Verif Require Import StrModel DoubleModel JsonModel MapModel RpcModel TaskModel DescModel RegModel ValModel.
Import ListNotations.
Local Open Scope nat_scope.

Inductive lkind := KTools | KResources | KTemplates | KPrompts.
Definition kind_eqb (a b : lkind) : bool :=
  match a, b with
  | KTools, KTools | KResources, KResources | KTemplates, KTemplates | KPrompts, KPrompts => true
  | _, _ => false
  end.
Inductive entry := ETool (t : tool) | EResource (r : resource) | ETemplate (t : template) | EPrompt (p : prompt).

(** A default-constructed Tool, include/mcp/Protocol.h. *)
Definition blank_tool : tool :=
  {| tl_name := []; tl_title := None; tl_desc := []; tl_icons := None; tl_input := JNull; tl_output := None;
     tl_annot := None; tl_exec := None; tl_meta := None |}.

(** The member that holds the list, its validator, and one item: src/mcp/Client.cpp:1472-1508,
    1610-1643, 1746-1779, 1885-1918. ListTools keeps an item that is not an object as a blank
    tool; its siblings skip it. *)
Definition list_key (k : lkind) : bstr :=
  match k with KTools => bs "tools" | KResources => bs "resources" | KTemplates => bs "resourceTemplates" | KPrompts => bs "prompts" end.
Definition valid_list (k : lkind) : json -> bool :=
  match k with KTools => valid_tools | KResources => valid_resources | KTemplates => valid_templates | KPrompts => valid_prompts end.
Definition read_item (k : lkind) (v : json) : list entry :=
  match k, v with
  | KTools, JObj o => [ETool (parse_tool o)]
  | KTools, _ => [ETool blank_tool]
  | KResources, JObj o => [EResource (parse_resource o)]
  | KTemplates, JObj o => [ETemplate (parse_template o)]
  | KPrompts, JObj o => [EPrompt (parse_prompt o)]
  | _, _ => []
  end.
Definition read_list (k : lkind) (v : json) : list entry :=
  match v with
  | JObj o => match obj_get (list_key k) o with Some (JArr l) => flat_map (read_item k) l | _ => [] end
  | _ => []
  end.

(** What the future of the request brings: a response (the pointer may be null) or an
    exception. *)
Inductive reply := RResponse (r : option response) | RException.
Inductive got := Got (l : list entry) | Fails.

(** Between the request and the store: Client.cpp:1470-1510 and siblings. *)
Definition list_reply (strict : bool) (k : lkind) (r : reply) : got :=
  match r with
  | RException => Fails
  | RResponse None => Got []
  | RResponse (Some p) =>
      match rs_error p, rs_result p with
      | None, Some v => if (strict && negb (valid_list k v))%bool then Fails else Got (read_list k v)
      | _, _ => Got []
      end
  end.

(** One cache, Client.cpp:201-204. *)
Record slot := { sl_set : bool; sl_data : list entry; sl_ts : Z }.
(** A call that asked the server: what it got, once it has resumed. *)
Record lcall := { ca_kind : lkind; ca_got : option (list entry) }.
Inductive outcome := Cached (l : list entry) | Returned (l : list entry) | Raised.

(** lc_now: the steady clock in nanoseconds. Calls are numbered; lc_out: how each ended. *)
Record lcache := {
  lc_strict : bool; lc_ttl : option N; lc_now : Z; lc_slot : lkind -> slot;
  lc_calls : list (nat * lcall); lc_next : nat; lc_out : list (nat * outcome)
}.
Definition empty_slot : slot := {| sl_set := false; sl_data := []; sl_ts := 0 |}.
Definition lcache0 (strict : bool) (now : Z) : lcache :=
  {| lc_strict := strict; lc_ttl := None; lc_now := now; lc_slot := fun _ => empty_slot; lc_calls := []; lc_next := 0; lc_out := [] |}.

Definition set_slot (k : lkind) (x : slot) (f : lkind -> slot) : lkind -> slot := fun j => if kind_eqb j k then x else f j.
Definition unset (k : lkind) (f : lkind -> slot) : lkind -> slot :=
  set_slot k {| sl_set := false; sl_data := sl_data (f k); sl_ts := sl_ts (f k) |} f.

Definition with_slots (f : lkind -> slot) (s : lcache) : lcache :=
  {| lc_strict := lc_strict s; lc_ttl := lc_ttl s; lc_now := lc_now s; lc_slot := f; lc_calls := lc_calls s; lc_next := lc_next s; lc_out := lc_out s |}.
Definition lwith_calls (c : list (nat * lcall)) (o : list (nat * outcome)) (s : lcache) : lcache :=
  {| lc_strict := lc_strict s; lc_ttl := lc_ttl s; lc_now := lc_now s; lc_slot := lc_slot s; lc_calls := c; lc_next := lc_next s; lc_out := o |}.
Definition with_ttl (t : option N) (f : lkind -> slot) (s : lcache) : lcache :=
  {| lc_strict := lc_strict s; lc_ttl := t; lc_now := lc_now s; lc_slot := f; lc_calls := lc_calls s; lc_next := lc_next s; lc_out := lc_out s |}.

(** invalidateCachesForListChanged, Client.cpp:538-550, reached from onNotification, 595-628, for
    these methods whatever handlers are installed. *)
Definition invalidate (m : bstr) (f : lkind -> slot) : lkind -> slot :=
  if beq m (bs "notifications/tools/list_changed") then unset KTools f
  else if beq m (bs "notifications/resources/list_changed") then unset KTemplates (unset KResources f)
  else if beq m (bs "notifications/prompts/list_changed") then unset KPrompts f
  else f.

(** SetListingsCacheTtlMs, Client.cpp:2297-2310. *)
Definition set_ttl (t : option N) (s : lcache) : lcache :=
  match t with
  | None | Some 0%N => with_ttl None (unset KPrompts (unset KTemplates (unset KResources (unset KTools (lc_slot s))))) s
  | Some n => with_ttl (Some n) (lc_slot s) s
  end.

(** The age in whole milliseconds, and static_cast<int64_t> of the time to live. *)
Definition MILLI : Z := 1000000%Z.
Definition age_ms (s : lcache) (x : slot) : Z := Z.quot (lc_now s - sl_ts x) MILLI.
Definition int64_of (n : N) : Z := if N.ltb n (2 ^ 63) then Z.of_N n else (Z.of_N n - 2 ^ 64)%Z.
Definition enabled (s : lcache) : option N := match lc_ttl s with Some 0%N | None => None | Some n => Some n end.

(** The cache hit path, Client.cpp:1454-1465 and siblings. *)
Definition cache_hit (k : lkind) (s : lcache) : option (list entry) :=
  match enabled s with
  | Some n => if (sl_set (lc_slot s k) && Z.leb (age_ms s (lc_slot s k)) (int64_of n))%bool then Some (sl_data (lc_slot s k)) else None
  | None => None
  end.

(** A list call. *)
Definition begin_list (k : lkind) (s : lcache) : lcache :=
  let '(c, o) := match cache_hit k s with
                 | Some l => (lc_calls s, lc_out s ++ [(lc_next s, Cached l)])
                 | None => (lc_calls s ++ [(lc_next s, {| ca_kind := k; ca_got := None |})], lc_out s)
                 end in
  {| lc_strict := lc_strict s; lc_ttl := lc_ttl s; lc_now := lc_now s; lc_slot := lc_slot s; lc_calls := c; lc_next := S (lc_next s); lc_out := o |}.

Fixpoint find_lcall (t : nat) (l : list (nat * lcall)) : option lcall :=
  match l with [] => None | (n, c) :: r => if Nat.eqb t n then Some c else find_lcall t r end.
Definition drop_lcall (t : nat) (l : list (nat * lcall)) : list (nat * lcall) := filter (fun c => negb (Nat.eqb t (fst c))) l.

(** The actions. Other calls and notifications, on other threads, may come between any two steps
    of a call: the request, the resumption with the reply, the store. SetListingsCacheTtlMs is one
    action here; in the code it races with the unlocked reads of listingsCacheTtlMs. *)
Inductive lact :=
| LTime (d : N) | LTtl (t : option N) | LNotify (m : bstr) | LBegin (k : lkind) | LReply (t : nat) (r : reply) | LStore (t : nat).

Definition lstep (s : lcache) (a : lact) : lcache :=
  match a with
  | LTime d => {| lc_strict := lc_strict s; lc_ttl := lc_ttl s; lc_now := lc_now s + Z.of_N d; lc_slot := lc_slot s; lc_calls := lc_calls s; lc_next := lc_next s; lc_out := lc_out s |}
  | LTtl t => set_ttl t s
  | LNotify m => with_slots (invalidate m (lc_slot s)) s
  | LBegin k => begin_list k s
  | LReply t r =>
      match find_lcall t (lc_calls s) with
      | Some {| ca_kind := k; ca_got := None |} =>
          match list_reply (lc_strict s) k r with
          | Got l => lwith_calls (drop_lcall t (lc_calls s) ++ [(t, {| ca_kind := k; ca_got := Some l |})]) (lc_out s) s
          | Fails => lwith_calls (drop_lcall t (lc_calls s)) (lc_out s ++ [(t, Raised)]) s
          end
      | _ => s
      end
  | LStore t =>
      match find_lcall t (lc_calls s) with
      | Some {| ca_kind := k; ca_got := Some l |} =>
          let s := lwith_calls (drop_lcall t (lc_calls s)) (lc_out s ++ [(t, Returned l)]) s in
          match enabled s with
          | Some _ => with_slots (set_slot k {| sl_set := true; sl_data := l; sl_ts := lc_now s |} (lc_slot s)) s
          | None => s
          end
      | _ => s
      end
  end%Z.

Definition lrun (s : lcache) (h : list lact) : lcache := fold_left lstep h s.
