(** What ought to be reported when a token is not obtained. *)
From Coq Require Import Ascii String List Arith NArith ZArith Bool.
From Verif Require Import StrModel OauthModel.
Import ListNotations.
Local Open Scope nat_scope.

Definition NOTHING_CAME : bstr := bs "OAuth2: empty response from token endpoint".
Definition NONE_IN_IT : bstr := bs "OAuth2: token endpoint response missing access_token".

(** One report for each reply that has no token, in order. *)
Definition failure (e : oev) : list bstr :=
  match e with
  | OCall _ => []
  | OReply [] _ => [NOTHING_CAME]
  | OReply r _ => match string_field r (bs "access_token") with None => [NONE_IN_IT] | Some _ => [] end
  end.
