(** Fetching a token: the operations on the network, and what the error handler is told. *)
From Coq Require Import Ascii String List Arith NArith ZArith Bool.
From Verif Require Import StrModel RpcModel OauthModel DiscoModel.
Import ListNotations.
Local Open Scope nat_scope.

(** How the operations of one fetch end; Some w: it throws an exception with this text.
    na_verify: set_default_verify_paths (None: it returns; Some (Some w): a std::exception; Some None: something else). na_sni: the host name could be set. *)
Record net := {
  na_resolve : option bstr; na_verify : option (option bstr); na_sni : bool; na_connect : option bstr; na_handshake : option bstr;
  na_write : option bstr; na_read : option bstr; na_body : bstr }.

(** The error handler: None if there is none; otherwise whether it throws, given what it was told before and what it is told now. *)
Definition handler := option (list bstr -> bstr -> option bstr).

(** What a fetch does: an operation on the network, or a call of the error handler. *)
Inductive act := Op (r : option bstr) | Say (text : bstr).

Definition DEBUG : bstr := bs "HTTP DEBUG: ".
Definition say (t : string) : act := Say (DEBUG ++ bs t).

(** The body of the try block of coPostFormUrlencoded, src/mcp/auth/OAuthClient.cpp:63-161, as ensureReady calls it (no context and no server name are
    handed over). Simplification: timeouts are among the failures of the operations; closing the stream does not throw (error_code versions, 127, 159). *)
Definition script (url : bstr) (n : net) : list act :=
  let u := parse_url url in
  [Op (na_resolve n); Say (DEBUG ++ bs "token resolved " ++ up_host u ++ bs ":" ++ up_port u ++ bs " path=" ++ up_path u)] ++
  if beq (up_scheme u) (bs "https") then
    match na_verify n with
    | None => []
    | Some (Some w) => [Say (DEBUG ++ bs "token https set_default_verify_paths failed: " ++ w)]
    | Some None => [say "token https set_default_verify_paths failed (unknown exception)"]
    end ++
    (if (nonempty (up_host u) && negb (na_sni n))%bool then [say "token https SNI set failed"] else []) ++
    [Op (na_connect n); say "token https connected"; Op (na_handshake n); say "token https handshake complete";
     Op (na_write n); say "token https wrote form";
     Op (na_read n); Say (DEBUG ++ bs "token https read response bytes=" ++ print_N (N.of_nat (length (na_body n))))]
  else
    [Op (na_connect n); say "token http connected"; Op (na_write n); say "token http wrote form";
     Op (na_read n); Say (DEBUG ++ bs "token http read response bytes=" ++ print_N (N.of_nat (length (na_body n))))].

(** A call of the handler: what it has been told then, and whether it threw. if (errorHandler), throughout. *)
Definition tell (h : handler) (text : bstr) (told : list bstr) : option bstr * list bstr :=
  match h with None => (None, told) | Some f => (f told text, told ++ [text]) end.

(** The block: up to the first exception. *)
Fixpoint run_acts (h : handler) (l : list act) (told : list bstr) : option bstr * list bstr :=
  match l with
  | [] => (None, told)
  | Op (Some w) :: _ => (Some w, told)
  | Op None :: r => run_acts h r told
  | Say t :: r => match tell h t told with (Some w, told') => (Some w, told') | (None, told') => run_acts h r told' end
  end.

Definition FAILED : bstr := bs "HTTP coPostFormUrlencoded failed: ".

(** coPostFormUrlencoded, OAuthClient.cpp:57-169: its body, or the exception that leaves it. *)
Definition post_form (h : handler) (url : bstr) (n : net) : (bstr + bstr) * list bstr :=
  match run_acts h (script url n) [] with
  | (None, told) => (inl (na_body n), told)
  | (Some w, told) => match tell h (FAILED ++ w) told with (Some x, told') => (inr x, told') | (None, told') => (inl [], told') end
  end.

(** ensureReady when there is no fresh token, OAuth2ClientCredentialsAuth.cpp:130-156: a token and its lifetime, no token, or an exception. *)
Inductive outcome := Token (t : bstr) (life : Z) | NoToken | Threw (w : bstr).
Definition last_word (h : handler) (text : bstr) (told : list bstr) : outcome * list bstr :=
  match tell h text told with (Some w, told') => (Threw w, told') | (None, told') => (NoToken, told') end.
Definition ready (h : handler) (url : bstr) (n : net) : outcome * list bstr :=
  match post_form h url n with
  | (inr w, told) => (Threw w, told)
  | (inl [], told) => last_word h NO_REPLY told
  | (inl body, told) =>
      match string_field body (bs "access_token") with
      | Some t => (Token t (lifetime body), told)
      | None => last_word h NO_TOKEN told
      end
  end.
