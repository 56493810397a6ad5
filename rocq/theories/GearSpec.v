(** What a request to the server is to carry, who is to hear of errors, and what the last response was. *)
From Coq Require Import Ascii String List Arith NArith ZArith Bool.
From Verif Require Import StrModel GearModel.
Import ListNotations.
Local Open Scope nat_scope.

(** The value of a field, whatever the case of its name: of the first, and of the last of that name. *)
Fixpoint value_of (n : bstr) (l : fields) : option bstr :=
  match l with
  | [] => None
  | (m, v) :: r => if beq (lower n) (lower m) then Some v else value_of n r
  end.
Definition last_of (n : bstr) (l : fields) : option bstr := value_of n (rev l).

Inductive ask := APost (body : bstr) | ADelete | AStream.

(** The transport's own fields. The session and the version are empty as long as there are none. *)
Definition whose (c : gconf) : bstr := if (gc_https c && negb (beq (gc_server c) []))%bool then gc_server c else gc_host c.
Definition some_field (n v : bstr) : fields := if beq v [] then [] else [(n, v)].
Definition own_fields (c : gconf) (k : ask) (session version : bstr) : fields :=
  match k with
  | APost body =>
      [(bs "Content-Type", bs "application/json");
       (bs "Accept", if gc_streamable c then bs "application/json, text/event-stream" else bs "application/json");
       (bs "Connection", bs "close"); (bs "Content-Length", print_N (N.of_nat (length body)))] ++
      (if gc_streamable c then some_field (bs "Mcp-Session-Id") session ++ some_field (bs "MCP-Protocol-Version") version else []) ++
      [(bs "Host", whose c)]
  | ADelete =>
      [(bs "Accept", bs "application/json"); (bs "Connection", bs "close"); (bs "Mcp-Session-Id", session)] ++
      some_field (bs "MCP-Protocol-Version") version ++ [(bs "Host", whose c)]
  | AStream =>
      [(bs "Host", whose c); (bs "Accept", bs "text/event-stream"); (bs "Mcp-Session-Id", session)] ++
      some_field (bs "MCP-Protocol-Version") version
  end.

(** What is sent. *)
Definition sent (c : gconf) (k : ask) (session version : bstr) (auth : fields) : fields :=
  match k with
  | APost body => post_head c session version auth body
  | ADelete => delete_head c session version auth
  | AStream => stream_head c session version auth
  end.

(** The last error handler set, and the last auth object set, in a history. *)
Definition handler_set (os : list wop) : option nat :=
  fold_left (fun x o => match o with WHandler h => h | _ => x end) os None.
Definition auth_set (os : list wop) : option nat :=
  fold_left (fun x o => match o with WAuth a => Some a | WShared a => a | _ => x end) os None.

(** The response to the last POST or DELETE that had one. *)
Fixpoint latest (es : list exch) : option (N * fields) :=
  match es with
  | [] => None
  | e :: r => match latest r with
              | Some x => Some x
              | None => match e with XAnswered st hs => Some (st, hs) | _ => None end
              end
  end.
