(** The HTTP server's checks of the Host, Origin and protocol version headers. *)
From Coq Require Import Ascii String List Arith NArith ZArith Bool.
From Verif Require Import StrModel.
Import ListNotations.
Local Open Scope nat_scope.

Definition COLON_ : ascii := chr 58.
Definition LBR : ascii := chr 91.
Definition RBR : ascii := chr 93.
Definition SLASH : ascii := chr 47.

(** trimCopy, HTTPServer.cpp:233-238. *)
Definition trim (s : bstr) : bstr := rev (drop_while is_space (rev (drop_while is_space s))).

Section Guard.
(** Whether boost::asio::ip::make_address accepts the text and the address is_loopback:
    external, so any predicate. *)
Variable loopback : bstr -> bool.

(** shouldValidateDnsRebinding, HTTPServer.cpp:240-248. *)
Definition guarded (address : bstr) : bool :=
  let a := trim (lower address) in
  (beq a (bs "localhost") || loopback a)%bool.

(** extractAuthorityHost, HTTPServer.cpp:250-269. *)
Definition authority_host (v : bstr) : bstr :=
  match trim v with
  | [] => []
  | c :: r =>
      let a := c :: r in
      if Ascii.eqb c LBR then
        match find_char RBR a with
        | None => []
        | Some closing => substr a 1 (closing - 1)
        end
      else
        match rfind_char COLON_ a, find_char COLON_ a with
        | Some i, Some j => if Nat.eqb i j then firstn i a else a
        | _, _ => a
        end
  end.

(** isLocalAuthorityHost, HTTPServer.cpp:271-282. *)
Definition local_host (v : bstr) : bool :=
  match lower (trim v) with
  | [] => false
  | h => (beq h (bs "localhost") || loopback h)%bool
  end.

(** extractOriginHost, HTTPServer.cpp:284-297. *)
Definition origin_host (v : bstr) : option bstr :=
  match trim v with
  | [] => Some []
  | o =>
      match find_sub (bs "://") o with
      | None => None
      | Some p =>
          let r := skipn (p + 3) o in
          Some (authority_host (match find_char SLASH r with
                                | None => r
                                | Some k => firstn k r
                                end))
      end
  end.

(** validateLocalHeaders, HTTPServer.cpp:299-325: Some body is a refusal with status 403. An
    absent header reads as the empty string. *)
Definition check_local (address host origin : bstr) : option bstr :=
  if negb (guarded address) then None
  else if negb (local_host (authority_host host)) then Some (bs "{""error"":""Forbidden Host header""}")
  else
    match origin with
    | [] => None
    | _ =>
        match origin_host origin with
        | Some h => if local_host h then None else Some (bs "{""error"":""Forbidden Origin header""}")
        | None => Some (bs "{""error"":""Forbidden Origin header""}")
        end
    end.
End Guard.

(** PROTOCOL_VERSION, Protocol.h:23. *)
Definition PROTO : bstr := bs "2025-11-25".

(** validateProtocolHeader, HTTPServer.cpp:327-361: true to go on, false for a refusal with
    status 400. expected: the version of the session (always present where it is called). *)
Definition check_version (header expected : bstr) : bool :=
  match header with
  | [] => true
  | _ =>
      (beq header expected ||
       (beq expected PROTO &&
        existsb (beq header) [bs "2025-03-26"; bs "2025-06-18"; PROTO]))%bool
  end.
