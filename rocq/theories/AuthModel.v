(** Server-side bearer checks and the token info shown to handlers. *)
From Coq Require Import Ascii String List Arith NArith ZArith Bool.
From Verif Require Import StrModel.
Import ListNotations.
Local Open Scope nat_scope.

(** TokenInfo, ServerAuth.hpp:22-26. The expiration is the number of clock ticks since the
    epoch. *)
Record token_info := {
  ti_scopes : list bstr;
  ti_expiration : Z;
  ti_extra : list (bstr * bstr)
}.

(** RequireBearerTokenOptions, ServerAuth.hpp:46-51. *)
Record bearer_opts := {
  bo_metadata_url : bstr;
  bo_required : list bstr;
  bo_servers : list bstr;
  bo_supported : list bstr
}.

(** What one call of ITokenVerifier::Verify does, ServerAuth.hpp:33-37: return true having
    filled the token info, or return false having set the message. Any function of the
    token; it may change from one request to the next. Simplification: a verifier that
    throws is not modelled. *)
Inductive verdict := Accepts (i : token_info) | Rejects (err : bstr).
Definition verifier := bstr -> verdict.

(** BearerCheckResult, ServerAuth.hpp:62-67, with the token info moved out on success. *)
Record bearer_result := {
  br_ok : bool;
  br_status : N;
  br_message : bstr;
  br_challenge : bool;
  br_info : option token_info
}.

Definition refuse (status : N) (msg : bstr) : bearer_result :=
  {| br_ok := false; br_status := status; br_message := msg; br_challenge := true;
     br_info := None |}.

Definition BEARER : bstr := bs "Bearer ".

(** startsWithBearer, ServerAuth.cpp:25-36, with icaseEqual, 21-23. *)
Fixpoint icase_prefix (p s : bstr) : bool :=
  match p, s with
  | [], _ => true
  | _, [] => false
  | a :: p', b :: s' => (Ascii.eqb (to_lower b) (to_lower a) && icase_prefix p' s')%bool
  end.

(** containsAllScopes, ServerAuth.cpp:38-54. *)
Definition contains_all (have need : list bstr) : bool :=
  forallb (fun s => existsb (fun h => beq h s) have) need.

(** CheckBearerAuth, ServerAuth.cpp:69-149. now: the value of system_clock::now() when the
    expiry is compared. *)
Definition check_bearer (header : bstr) (verify : verifier) (o : bearer_opts) (now : Z)
  : bearer_result :=
  match header with
  | [] => refuse 401 (bs "no bearer token")
  | _ =>
    if negb (icase_prefix BEARER header) then refuse 401 (bs "no bearer token")
    else
      match drop_while is_space (skipn 7 header) with
      | [] => refuse 401 (bs "no bearer token")
      | token =>
        match verify token with
        | Rejects err => refuse 401 (match err with [] => bs "invalid token" | _ => err end)
        | Accepts i =>
          if (match bo_required o with [] => false | _ => true end &&
              negb (contains_all (ti_scopes i) (bo_required o)))%bool
          then refuse 403 (bs "insufficient scope")
          else if Z.eqb (ti_expiration i) 0 then refuse 401 (bs "token missing expiration")
          else if Z.leb (ti_expiration i) now then refuse 401 (bs "token expired")
          else {| br_ok := true; br_status := 200; br_message := []; br_challenge := false;
                  br_info := Some i |}
        end
      end
  end.

(** The thread-local gCurrentTokenInfo of one thread, ServerAuth.cpp:19, and the prev members
    of the TokenInfoScope objects alive on that thread, innermost first (the objects are
    block-scoped, so they are destroyed innermost first). *)
Record tls := { tl_current : option token_info; tl_saved : list (option token_info) }.

(** CurrentTokenInfo() before any scope is entered. *)
Definition tls0 : tls := {| tl_current := None; tl_saved := [] |}.

(** TokenInfoScope's constructor, ServerAuth.cpp:61-63. *)
Definition scope_enter (i : option token_info) (t : tls) : tls :=
  {| tl_current := i; tl_saved := tl_current t :: tl_saved t |}.

(** TokenInfoScope's destructor, ServerAuth.cpp:65-67. *)
Definition scope_leave (t : tls) : tls :=
  match tl_saved t with
  | [] => t
  | p :: r => {| tl_current := p; tl_saved := r |}
  end.

(** What threads do: thread n enters a scope or leaves its innermost one. *)
Inductive scope_event := EnterScope (n : nat) (i : option token_info) | LeaveScope (n : nat).

Definition scope_step (m : nat -> tls) (e : scope_event) : nat -> tls :=
  match e with
  | EnterScope n i => fun k => if Nat.eqb k n then scope_enter i (m k) else m k
  | LeaveScope n => fun k => if Nat.eqb k n then scope_leave (m k) else m k
  end.

(** CurrentTokenInfo() as seen by thread n after the events, ServerAuth.cpp:57-59. *)
Definition current_token_info (es : list scope_event) (n : nat) : option token_info :=
  tl_current (fold_left scope_step es (fun _ => tls0) n).
