(** Authorities, origins and local hosts, without the server's string handling. *)
From Coq Require Import Ascii String List Arith NArith ZArith Bool.
From Verif Require Import StrModel GuardModel.
Import ListNotations.
Local Open Scope nat_scope.

Definition spaces (s : bstr) : Prop := forall c, In c s -> is_space c = true.
Definition digits (s : bstr) : Prop := forall c, In c s -> is_digit c = true.
Definition AT : ascii := chr 64.

(** A host name or IPv4 address: not empty, no white space, colon, bracket, slash or at
    sign. *)
Definition reg_name (h : bstr) : Prop :=
  h <> [] /\ forall c, In c h -> is_space c = false /\ ~ In c [COLON_; LBR; RBR; SLASH; AT].

(** An IPv6 address: not empty, no white space, bracket, slash or at sign. *)
Definition ip6 (h : bstr) : Prop :=
  h <> [] /\ forall c, In c h -> is_space c = false /\ ~ In c [LBR; RBR; SLASH; AT].

(** An optional port. *)
Definition port_text (p : bstr) : Prop := p = [] \/ exists d, p = COLON_ :: d /\ digits d.

(** The authority a names the host h (RFC 3986 without user info). *)
Inductive names : bstr -> bstr -> Prop :=
| n_name : forall h p, reg_name h -> port_text p -> names (h ++ p) h
| n_ip6 : forall h p, ip6 h -> port_text p -> names ([LBR] ++ h ++ [RBR] ++ p) h.

(** An authority with user info: the host is what follows the at sign. *)
Definition names_user (a h : bstr) : Prop :=
  exists u b, a = u ++ [AT] ++ b /\ names b h.

(** The origin o names the host h: scheme, authority, perhaps a path. *)
Definition origin_names (o h : bstr) : Prop :=
  exists s a p, o = s ++ bs "://" ++ a ++ p /\ s <> [] /\
    (forall c, In c s -> is_space c = false /\ c <> COLON_) /\
    names a h /\ (p = [] \/ exists q, p = SLASH :: q /\ (forall c, In c q -> is_space c = false)).

(** The host is this machine: localhost in any case, or a loopback address (addresses are
    read after folding to lower case). *)
Definition local (loopback : bstr -> bool) (h : bstr) : Prop :=
  h <> [] /\ (lower h = bs "localhost" \/ loopback (lower h) = true).

(** The server is bound to this machine only. *)
Definition bound_local (loopback : bstr -> bool) (address : bstr) : Prop :=
  exists w a w', address = w ++ a ++ w' /\ spaces w /\ spaces w' /\ local loopback a /\
    (forall c, In c a -> is_space c = false).

(** a is v without the white space around it. *)
Definition trimmed (v a : bstr) : Prop :=
  exists w w', v = w ++ a ++ w' /\ spaces w /\ spaces w' /\
    (forall c, hd_error a = Some c \/ hd_error (rev a) = Some c -> is_space c = false).

(** How a text, well formed or not, is read: what stands in brackets, or before the only
    colon, or all of it. *)
Inductive reads : bstr -> bstr -> Prop :=
| r_bracket : forall h x, ~ In RBR h -> reads ([LBR] ++ h ++ [RBR] ++ x) h
| r_port : forall h x, ~ In COLON_ h -> ~ In COLON_ x -> hd_error h <> Some LBR -> reads (h ++ [COLON_] ++ x) h
| r_none : forall a, hd_error a <> Some LBR -> ~ In COLON_ a -> reads a a
| r_many : forall x y z, hd_error x <> Some LBR ->
    reads (x ++ [COLON_] ++ y ++ [COLON_] ++ z) (x ++ [COLON_] ++ y ++ [COLON_] ++ z).
