(** OAuth 2.0 client credentials: src/mcp/auth/OAuth2ClientCredentialsAuth.cpp. *)
From Coq Require Import Ascii String List Arith NArith ZArith Bool.
From Verif Require Import StrModel RpcModel.
Import ListNotations.
Local Open Scope nat_scope.

(** const char* hex, OAuth2ClientCredentialsAuth.cpp:25: the digit of a nibble. *)
Definition form_hex (n : N) : ascii := if N.ltb n 10 then chr (48 + n) else chr (55 + n).

(** The bytes kept as they are, OAuth2ClientCredentialsAuth.cpp:19. *)
Definition form_keeps (c : ascii) : bool :=
  (in_range 65 90 c || in_range 97 122 c || in_range 48 57 c ||
   N.eqb (code c) 45 || N.eqb (code c) 95 || N.eqb (code c) 46 || N.eqb (code c) 126)%bool.

(** One round of the loop, OAuth2ClientCredentialsAuth.cpp:17-28. *)
Definition form_byte (c : ascii) : bstr :=
  if form_keeps c then [c]
  else if Ascii.eqb c SPACE then [chr 43]
  else [chr 37; form_hex (N.modulo (N.div (code c) 16) 16); form_hex (N.modulo (code c) 16)].

(** urlEncodeForm, OAuth2ClientCredentialsAuth.cpp:15-30. *)
Definition url_encode_form (s : bstr) : bstr := concat (map form_byte s).

(** The constructor arguments that reach the wire, OAuth2ClientCredentialsAuth.cpp:85-104.
    The token URL, timeouts and CA settings only choose the connection. *)
Record oauth_conf := mkOauth {
  oc_id : bstr;
  oc_secret : bstr;
  oc_scope : bstr;
  oc_skew : N }.                       (* unsigned int seconds *)

(** if (!v.empty()) form << label << urlEncodeForm(v), cpp:118-120. *)
Definition form_field (label v : bstr) : bstr :=
  match v with [] => [] | _ => label ++ url_encode_form v end.

(** The body posted to the token endpoint, cpp:116-120. *)
Definition token_form (c : oauth_conf) : bstr :=
  bs "grant_type=client_credentials" ++
  form_field (bs "&client_id=") (oc_id c) ++
  form_field (bs "&client_secret=") (oc_secret c) ++
  form_field (bs "&scope=") (oc_scope c).

(** std::string needle = quote + key + quote, cpp:34 and 61. *)
Definition needle (k : bstr) : bstr := QUOTE :: k ++ [QUOTE].

(** The loop over q2, cpp:47-56: the text up to the first quote not preceded by a
    backslash; prev is json[q2 - 1]. *)
Fixpoint until_bare_quote (prev : ascii) (s : bstr) : option bstr :=
  match s with
  | [] => None
  | c :: s' =>
      if (Ascii.eqb c QUOTE && negb (Ascii.eqb prev BACKSLASH))%bool then Some []
      else option_map (cons c) (until_bare_quote c s')
  end.

(** parseJsonStringField, cpp:32-58. None is the result false. *)
Definition string_field (json k : bstr) : option bstr :=
  match after (needle k) json with
  | None => None
  | Some r1 =>
      match after [chr 58] r1 with
      | None => None
      | Some r2 =>
          match after [QUOTE] r2 with
          | None => None
          | Some r3 => until_bare_quote QUOTE r3
          end
      end
  end.

(** std::stoi: stoll narrowed to int, out_of_range outside it. *)
Definition stoi (s : bstr) : option Z :=
  match stoll s with
  | Some z => if (Z.leb (- 2147483648) z && Z.leb z 2147483647)%bool then Some z else None
  | None => None
  end.

(** The characters the scan over j takes, cpp:76. *)
Definition int_char (c : ascii) : bool := (is_digit c || N.eqb (code c) 45)%bool.

(** parseJsonIntField, cpp:60-83. None is the result false. *)
Definition int_field (json k : bstr) : option Z :=
  match after (needle k) json with
  | None => None
  | Some r1 =>
      match after [chr 58] r1 with
      | None => None
      | Some r2 => stoi (fst (span int_char (drop_while is_ws r2)))
      end
  end.

(** Nanoseconds in a second: steady_clock counts nanoseconds. *)
Definition SECOND : Z := 1000000000%Z.

(** cachedAccessToken and tokenExpiry (OAuth2ClientCredentialsAuth.hpp), the number of
    ensureReady calls waiting for the endpoint, and what has been reported to onError. *)
Record oauth := mkTok {
  ok_token : bstr;
  ok_expiry : Z;
  ok_waiting : nat;
  ok_errors : list bstr }.

(** As constructed: no token; tokenExpiry is value-initialised. *)
Definition oauth0 : oauth := mkTok [] 0 0 [].

(** What happens to one instance. Calls overlap freely: the lock is held only for the
    check (cpp:109-113) and for the store (cpp:138-144), never across the co_await. *)
Inductive oev :=
| OCall (now : Z)                      (* ensureReady starts; the clock reads now *)
| OReply (resp : bstr) (now : Z).      (* some waiting call resumes with this reply
                                          (empty on any failure), the clock reads now *)

(** What an event makes visible to the endpoint and the caller. *)
Inductive oout :=
| OReturns                             (* ensureReady returns at once *)
| OPosts (body : bstr)                 (* a POST with this body goes out *)
| OResumes                             (* a waiting ensureReady returns *)
| ONothing.                            (* no call was waiting: cannot happen *)

(** The check under the lock, cpp:111. *)
Definition cached_ok (c : oauth_conf) (now : Z) (s : oauth) : bool :=
  (negb (beq (ok_token s) []) && Z.ltb (now + Z.of_N (oc_skew c) * SECOND) (ok_expiry s))%bool.

(** The lifetime stored with a token, cpp:140-144. *)
Definition lifetime (resp : bstr) : Z :=
  match int_field resp (bs "expires_in") with
  | Some n => if Z.ltb 0 n then n else 3600
  | None => 3600
  end.

Definition NO_TOKEN : bstr := bs "OAuth2: token endpoint response missing access_token".
Definition NO_REPLY : bstr := bs "OAuth2: empty response from token endpoint".

(** The tail of ensureReady after the co_await, cpp:131-154. *)
Definition on_reply (resp : bstr) (now : Z) (s : oauth) : oauth :=
  let w := Nat.pred (ok_waiting s) in
  match resp with
  | [] => mkTok (ok_token s) (ok_expiry s) w (ok_errors s ++ [NO_REPLY])
  | _ =>
      match string_field resp (bs "access_token") with
      | Some t => mkTok t (now + lifetime resp * SECOND) w (ok_errors s)
      | None => mkTok (ok_token s) (ok_expiry s) w (ok_errors s ++ [NO_TOKEN])
      end
  end.

(** ensureReady, cpp:107-156. *)
Definition ostep (c : oauth_conf) (e : oev) (s : oauth) : oauth * oout :=
  match e with
  | OCall now =>
      if cached_ok c now s then (s, OReturns)
      else (mkTok (ok_token s) (ok_expiry s) (S (ok_waiting s)) (ok_errors s), OPosts (token_form c))
  | OReply resp now =>
      match ok_waiting s with
      | O => (s, ONothing)
      | S _ => (on_reply resp now s, OResumes)
      end
  end.

Fixpoint orun (c : oauth_conf) (es : list oev) (s : oauth) : oauth * list oout :=
  match es with
  | [] => (s, [])
  | e :: es' =>
      let (s1, o) := ostep c e s in
      let (s2, os) := orun c es' s1 in (s2, o :: os)
  end.

(** headers, cpp:158-162: the value of the Authorization header, if any is sent. *)
Definition oauth_header (s : oauth) : option bstr :=
  match ok_token s with
  | [] => None
  | t => Some (bs "Bearer " ++ t)
  end.
