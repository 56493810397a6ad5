(** Independent specification for the client-credentials properties: how a server reads
    an application/x-www-form-urlencoded body, and which token counts as current. *)
From Coq Require Import Ascii String List Arith NArith ZArith Bool.
From Verif Require Import StrModel OauthModel.
Import ListNotations.
Local Open Scope nat_scope.

(** A hexadecimal digit, either case. *)
Definition unhex (c : ascii) : option N :=
  let n := N_of_ascii c in
  if (N.leb 48 n && N.leb n 57)%bool then Some (n - 48)%N
  else if (N.leb 65 n && N.leb n 70)%bool then Some (n - 55)%N
  else if (N.leb 97 n && N.leb n 102)%bool then Some (n - 87)%N
  else None.

(** Decoding a name or a value of a form: plus is a space, percent and two digits a byte. *)
Fixpoint form_decode (s : bstr) : option bstr :=
  match s with
  | [] => Some []
  | c :: s' =>
      if Ascii.eqb c "+" then option_map (cons " "%char) (form_decode s')
      else if Ascii.eqb c "%" then
        match s' with
        | h :: l :: s'' =>
            match unhex h, unhex l with
            | Some a, Some b => option_map (cons (ascii_of_N (16 * a + b))) (form_decode s'')
            | _, _ => None
            end
        | _ => None
        end
      else option_map (cons c) (form_decode s')
  end.

(** Cutting at every occurrence of a byte. *)
Fixpoint cut (sep : ascii) (s : bstr) : list bstr :=
  match s with
  | [] => [[]]
  | c :: s' =>
      if Ascii.eqb c sep then [] :: cut sep s'
      else match cut sep s' with
           | w :: ws => (c :: w) :: ws
           | [] => [[c]]
           end
  end.

(** name=value, both decoded; a name without an equals sign is an error here. *)
Definition form_pair (s : bstr) : option (bstr * bstr) :=
  match cut "=" s with
  | [n; v] => match form_decode n, form_decode v with
              | Some n', Some v' => Some (n', v')
              | _, _ => None
              end
  | _ => None
  end.

Fixpoint all_some {A} (l : list (option A)) : option (list A) :=
  match l with
  | [] => Some []
  | Some x :: l' => option_map (cons x) (all_some l')
  | None :: _ => None
  end.

(** The fields of a form body, in order. *)
Definition form_fields (body : bstr) : option (list (bstr * bstr)) :=
  all_some (map form_pair (cut "&" body)).

(** The fields of RFC 6749 section 4.4.2; empty settings are left out. *)
Definition grant_fields (c : oauth_conf) : list (bstr * bstr) :=
  (bs "grant_type", bs "client_credentials") ::
  filter (fun f => negb (beq (snd f) []))
    [(bs "client_id", oc_id c); (bs "client_secret", oc_secret c); (bs "scope", oc_scope c)].

(** The bytes allowed in an encoded value. *)
Definition form_safe (c : ascii) : Prop :=
  In c (bs "ABCDEFGHIJKLMNOPQRSTUVWXYZabcdefghijklmnopqrstuvwxyz0123456789-_.~+%").

(** [issued es t m life]: in the history es, the last reply a token was read from was
    received at time m, its token was t and its lifetime life seconds. *)
Definition issued (es : list oev) (t : bstr) (m life : Z) : Prop :=
  exists es1 resp es2,
    es = es1 ++ OReply resp m :: es2 /\
    string_field resp (bs "access_token") = Some t /\ life = lifetime resp /\
    Forall (fun e => match e with
                     | OReply r _ => string_field r (bs "access_token") = None
                     | OCall _ => True
                     end) es2.

(** Histories in which only calls that were made can be answered. *)
Definition possible (c : oauth_conf) (es : list oev) : Prop := ~ In ONothing (snd (orun c es oauth0)).
