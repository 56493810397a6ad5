(** What a user may expect of the connections that carry secrets. *)
From Coq Require Import Ascii String List Arith NArith ZArith Bool.
From Verif Require Import StrModel DoubleModel JsonModel RpcModel OauthModel DiscoModel DiscoSpec ConfModel DialModel.
Import ListNotations.
Local Open Scope nat_scope.

(** The authorities the options name: the file and the directory given, or the system's when
    neither is. *)
Definition trusts (o : hopts) (r : root) : Prop :=
  match ho_cafile o, ho_capath o with
  | [], [] => r = RSystem
  | f, d => (f <> [] /\ r = RFile f) \/ (d <> [] /\ r = RDir d)
  end.
(** All of them can be loaded. *)
Definition loadable (ld : loader) (o : hopts) : Prop := forall r, trusts o r -> ld r = true.

(** A peer that holds a certificate for the name, issued under one of the authorities. *)
Definition genuine (name : bstr) (tr : root -> Prop) (p : peer) : Prop :=
  In name (pe_names p) /\ exists r, tr r /\ pe_vouched p r = true.

(** The credential the options ask for: their bearer token, or the token last fetched. *)
Definition credential (o : hopts) (token : bstr) (v : bstr) : Prop :=
  exists t, t <> [] /\ v = bs "Bearer " ++ t /\
    ((ho_auth o = bs "bearer" /\ t = ho_token o) \/ (ho_auth o = bs "oauth2" /\ t = token)).

(** A Host header as RFC 9110 has it: the host, and the port unless it is the scheme's default. *)
Definition host_field (secure : bool) (host port : bstr) : bstr :=
  if beq port (if secure then bs "443" else bs "80") then host else host ++ bs ":" ++ port.
