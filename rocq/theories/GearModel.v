(** What the HTTP client transport sends besides the message, who hears of errors of its auth object, and what it keeps of
    the last response. *)
From Coq Require Import Ascii String List Arith NArith ZArith Bool.
From Verif Require Import StrModel.
Import ListNotations.
Local Open Scope nat_scope.

Definition fields := list (bstr * bstr).
Definition same_name (a b : bstr) : bool := beq (lower a) (lower b).

(** basic_fields::set of boost: all fields of the name go, whatever its case, and the new one is put at the end. *)
Definition fset (n v : bstr) (l : fields) : fields := filter (fun f => negb (same_name (fst f) n)) l ++ [(n, v)].

(** Options::endpointPath is set; scheme is https; host; serverName, include/mcp/HTTPTransport.hpp:55-75. *)
Record gconf := { gc_streamable : bool; gc_https : bool; gc_host : bstr; gc_server : bstr }.
Definition host_field (c : gconf) : bstr :=
  if gc_https c then match gc_server c with [] => gc_host c | n => n end else gc_host c.

(** coEnsureAuthHeader, src/mcp/HTTPTransport.cpp:297-307, once the auth object is ready. *)
Definition add_auth (auth : fields) (l : fields) : fields := fold_left (fun l h => fset (fst h) (snd h) l) auth l.
Definition if_some (n v : bstr) (l : fields) : fields := match v with [] => l | _ => fset n v l end.

(** The request of coPostJson, 310-328 with 349 or 364. *)
Definition post_head (c : gconf) (session version : bstr) (auth : fields) (body : bstr) : fields :=
  let l := fset (bs "Content-Type") (bs "application/json") [] in
  let l := fset (bs "Accept") (if gc_streamable c then bs "application/json, text/event-stream" else bs "application/json") l in
  let l := fset (bs "Connection") (bs "close") l in
  let l := fset (bs "Content-Length") (print_N (N.of_nat (length body))) l in
  let l := if gc_streamable c then if_some (bs "Mcp-Session-Id") session l else l in
  let l := if gc_streamable c then if_some (bs "MCP-Protocol-Version") version l else l in
  fset (bs "Host") (host_field c) (add_auth auth l).

(** The request of coDeleteSession, 379-406 with 427 or 442; there is a session. *)
Definition delete_head (c : gconf) (session version : bstr) (auth : fields) : fields :=
  let l := fset (bs "Accept") (bs "application/json") [] in
  let l := fset (bs "Connection") (bs "close") l in
  let l := fset (bs "Mcp-Session-Id") session l in
  let l := if_some (bs "MCP-Protocol-Version") version l in
  fset (bs "Host") (host_field c) (add_auth auth l).

(** The request of runSseLoop, 572-587 and 661-676; there is a session. *)
Definition stream_head (c : gconf) (session version : bstr) (auth : fields) : fields :=
  let l := fset (bs "Host") (host_field c) [] in
  let l := fset (bs "Accept") (bs "text/event-stream") l in
  let l := fset (bs "Mcp-Session-Id") session l in
  let l := if_some (bs "MCP-Protocol-Version") version l in
  add_auth auth l.

(** headers of BearerAuth, include/mcp/auth/BearerAuth.hpp:26-29, and of OAuth2ClientCredentialsAuth,
    OAuth2ClientCredentialsAuth.cpp:158-162, for the token they hold. *)
Definition token_fields (token : bstr) : fields :=
  match token with [] => [] | t => [(bs "Authorization", bs "Bearer " ++ t)] end.

(** Who hears of errors. Handlers and auth objects are numbered. gw_strong and gw_weak: authStrong and authWeak. gw_sinks: the
    handler each auth object holds; BearerAuth holds none, BearerAuth.hpp:31-33. *)
Record wiring := { gw_handler : option nat; gw_strong : option nat; gw_weak : option nat; gw_sinks : nat -> option nat }.
Definition wiring0 : wiring := {| gw_handler := None; gw_strong := None; gw_weak := None; gw_sinks := fun _ => None |}.
Definition current (w : wiring) : option nat := match gw_strong w with Some a => Some a | None => gw_weak w end.
Definition hand_to (keeps : nat -> bool) (h : option nat) (a : option nat) (w : wiring) : wiring :=
  match h, a with
  | Some _, Some x =>
      {| gw_handler := gw_handler w; gw_strong := gw_strong w; gw_weak := gw_weak w;
         gw_sinks := fun y => if (Nat.eqb y x && keeps x)%bool then h else gw_sinks w y |}
  | _, _ => w
  end.
Inductive wop := WHandler (h : option nat) | WAuth (a : nat) | WShared (a : option nat).
(** SetErrorHandler and the two SetAuth, HTTPTransport.cpp:960-987. *)
Definition wstep (keeps : nat -> bool) (w : wiring) (o : wop) : wiring :=
  match o with
  | WHandler h =>
      let w := {| gw_handler := h; gw_strong := gw_strong w; gw_weak := gw_weak w; gw_sinks := gw_sinks w |} in
      hand_to keeps h (current w) w
  | WAuth a =>
      let w := {| gw_handler := gw_handler w; gw_strong := None; gw_weak := Some a; gw_sinks := gw_sinks w |} in
      hand_to keeps (gw_handler w) (Some a) w
  | WShared a =>
      let w := {| gw_handler := gw_handler w; gw_strong := a; gw_weak := None; gw_sinks := gw_sinks w |} in
      hand_to keeps (gw_handler w) a w
  end.
Definition wrun (keeps : nat -> bool) (os : list wop) : wiring := fold_left (wstep keeps) os wiring0.

(** HttpResponseInfo, HTTPTransport.hpp:34-38. *)
Record info := { in_status : N; in_headers : fields; in_challenge : bstr }.
Definition info0 : info := {| in_status := 0; in_headers := []; in_challenge := [] |}.

(** The field of a name that comes first, basic_fields::operator[]; empty if there is none. *)
Definition at_name (n : bstr) (l : fields) : bstr :=
  match find (fun f => same_name (fst f) n) l with Some f => snd f | None => [] end.

(** recordResponse, HTTPTransport.cpp:176-193. *)
Definition record_response (status : N) (hs : fields) : info :=
  {| in_status := status; in_headers := hs;
     in_challenge := match at_name (bs "WWW-Authenticate") hs with [] => [] | w => w end |}.

(** How requests to the server end: a POST or DELETE with a response, 352, 369, 430, 447; either without one, 374 and 452; the GET of
    the event stream, whose status line and fields are read at 591-620 and 680-710. *)
Inductive exch := XAnswered (status : N) (hs : fields) | XFailed | XStream (status : N) (hs : fields).
Definition xstep (i : info) (e : exch) : info :=
  match e with XAnswered st hs => record_response st hs | _ => i end.
Definition last_info (es : list exch) : info := fold_left xstep es info0.

(** QueryLastHttpResponse, HTTPTransport.cpp:989-1010. *)
Definition query (i : info) : bool * info :=
  (if negb (N.eqb (in_status i) 0) then true
   else match in_headers i with
        | _ :: _ => true
        | [] => match in_challenge i with [] => false | _ => true end
        end, i).
