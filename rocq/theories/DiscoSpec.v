(** OAuth metadata documents (RFC 9728, RFC 8414) and the addresses they are found at. *)
From Coq Require Import Ascii String List Arith NArith ZArith Bool.
From Verif Require Import StrModel DoubleModel JsonModel LayoutSpec DiscoModel.
Import ListNotations.
Local Open Scope nat_scope.

(** [document l d]: d is a JSON text of an object with members l, in any layout, that uses no
    escape but the two-character ones for the quotation mark, the backslash, the slash and the
    three line and tab characters. *)
Definition absent (p s : bstr) : Prop := forall a b, s <> a ++ p ++ b.
Definition document (l : list (bstr * json)) (d : bstr) : Prop :=
  (exists a t b, d = a ++ t ++ b /\ blank a /\ blank b /\ writes (JObj l) t) /\
  absent (bs "\u") d /\ absent (bs "\b") d /\ absent (bs "\f") d.

(** A member that is a string, a list of strings, or a flag; the empty string, the empty list and
    false stand for a member that is missing or of another type. *)
Definition text_member (k : bstr) (l : list (bstr * json)) : bstr :=
  match obj_get k l with Some (JStr s) => s | _ => [] end.
Fixpoint leading_strings (l : list json) : list bstr :=
  match l with JStr s :: r => s :: leading_strings r | _ => [] end.
Definition list_member (k : bstr) (l : list (bstr * json)) : list bstr :=
  match obj_get k l with Some (JArr a) => leading_strings a | _ => [] end.
Definition flag_member (k : bstr) (l : list (bstr * json)) : bool :=
  match obj_get k l with Some (JBool b) => b | _ => false end.

(** The members each document may have. *)
Definition resource_keys : list bstr :=
  [bs "resource"; bs "authorization_servers"; bs "scopes_supported"; bs "bearer_methods_supported"; bs "resource_documentation"].
Definition server_keys : list bstr :=
  [bs "issuer"; bs "authorization_endpoint"; bs "token_endpoint"; bs "registration_endpoint"; bs "jwks_uri"; bs "scopes_supported";
   bs "response_types_supported"; bs "grant_types_supported"; bs "token_endpoint_auth_methods_supported";
   bs "client_id_metadata_document_supported"].

(** Web addresses: http or https, a host, perhaps a port, and a path. *)
Record web := { wb_secure : bool; wb_host : bstr; wb_port : option bstr; wb_path : bstr }.
Definition web_origin (w : web) : bstr :=
  (if wb_secure w then bs "https://" else bs "http://") ++ wb_host w ++ match wb_port w with Some p => bs ":" ++ p | None => [] end.
Definition web_text (w : web) : bstr := web_origin w ++ wb_path w.
Definition web_ok (w : web) : Prop :=
  ~ In ":"%char (wb_host w) /\ ~ In "/"%char (wb_host w) /\
  (forall p, wb_port w = Some p -> ~ In "/"%char p) /\ (wb_path w = [] \/ exists r, wb_path w = "/"%char :: r).
Definition default_port (w : web) : bstr := if wb_secure w then bs "443" else bs "80".
(** The origin with a port that is the default left out. *)
Definition short_origin (w : web) : bstr :=
  match wb_port w with
  | Some p => if beq p (default_port w) then web_origin {| wb_secure := wb_secure w; wb_host := wb_host w; wb_port := None; wb_path := [] |} else web_origin w
  | None => web_origin w
  end.
(** A path that does not end in a slash. *)
Definition bare_path (p : bstr) : Prop := p <> [] /\ forall r, p <> r ++ ["/"%char].
