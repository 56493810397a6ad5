(** When a fetch fails, and what counts as an error report. *)
From Coq Require Import Ascii String List Arith NArith ZArith Bool.
From Verif Require Import StrModel RpcModel OauthModel DiscoModel FetchModel.
Import ListNotations.
Local Open Scope nat_scope.

(** Over TLS: the URL begins with https://. *)
Definition secure (url : bstr) : bool := beq (up_scheme (parse_url url)) (bs "https").
(** The operations that must succeed, in their order. *)
Definition needed (url : bstr) (n : net) : list (option bstr) :=
  [na_resolve n; na_connect n] ++ (if secure url then [na_handshake n] else []) ++ [na_write n; na_read n].
(** All succeed; or the first that does not, with its reason. *)
Definition reached (url : bstr) (n : net) : Prop := Forall (fun r => r = None) (needed url n).
Definition failed (url : bstr) (n : net) (why : bstr) : Prop := exists a b, needed url n = a ++ Some why :: b /\ Forall (fun r => r = None) a.
(** A handler that is set and never throws. *)
Definition calm (h : handler) : Prop := exists f, h = Some f /\ forall told t, f told t = None.
(** What the handler is told that is no error: it begins with HTTP DEBUG. *)
Definition is_debug (t : bstr) : bool := beq (firstn 12 t) (bs "HTTP DEBUG: ").
Definition errors (told : list bstr) : list bstr := filter (fun t => negb (is_debug t)) told.
