(** What a Bearer challenge header is, without the parser. *)
From Coq Require Import Ascii String List Arith NArith ZArith Bool.
From Verif Require Import StrModel MapModel WwwModel.
Import ListNotations.
Local Open Scope nat_scope.

Definition blank (s : bstr) : Prop := forall c, In c s -> c = SPACE \/ c = TAB.

(** A parameter name or a scheme: not empty, no blank, equals sign, comma or quote. *)
Definition name (s : bstr) : Prop :=
  s <> [] /\ forall c, In c s -> ~ In c [SPACE; TAB; EQUALS; COMMA_; QUOTE].

(** b stands for v between quotes: backslashes may precede any byte, and must precede
    quotes and backslashes. *)
Inductive escaped : bstr -> bstr -> Prop :=
| esc_nil : escaped [] []
| esc_plain : forall c v b, c <> QUOTE -> c <> BACKSLASH -> escaped v b -> escaped (c :: v) (c :: b)
| esc_slash : forall c v b, escaped v b -> escaped (c :: v) (BACKSLASH :: c :: b).

(** An unquoted value: no comma, no blank at either end, not starting with a quote. *)
Definition bare (v : bstr) : Prop :=
  ~ In COMMA_ v /\ hd_error v <> Some QUOTE /\
  (forall c, hd_error v = Some c \/ hd_error (rev v) = Some c -> c <> SPACE /\ c <> TAB).

(** The text of one parameter: name alone, name = value, name = quoted value. *)
Inductive param_text : bstr * bstr -> bstr -> Prop :=
| pt_alone : forall k w, name k -> blank w -> param_text (k, []) (k ++ w)
| pt_bare : forall k v w1 w2 w3, name k -> bare v -> blank w1 -> blank w2 -> blank w3 ->
    param_text (k, v) (k ++ w1 ++ [EQUALS] ++ w2 ++ v ++ w3)
| pt_quoted : forall k v b w1 w2 w3, name k -> escaped v b -> blank w1 -> blank w2 -> blank w3 ->
    param_text (k, v) (k ++ w1 ++ [EQUALS] ++ w2 ++ [QUOTE] ++ b ++ [QUOTE] ++ w3).

(** Parameters separated by commas and blanks. *)
Inductive params_text : list (bstr * bstr) -> bstr -> Prop :=
| ps_one : forall p t, param_text p t -> params_text [p] t
| ps_cons : forall p t w l u, param_text p t -> blank w -> params_text l u ->
    params_text (p :: l) (t ++ [COMMA_] ++ w ++ u).

(** A Bearer challenge with these parameters. *)
Inductive bearer_text : list (bstr * bstr) -> bstr -> Prop :=
| bt_none : forall w1 s w2, blank w1 -> blank w2 -> lower s = bs "bearer" ->
    bearer_text [] (w1 ++ s ++ w2)
| bt_params : forall w1 s c w2 l t, blank w1 -> blank (c :: w2) -> lower s = bs "bearer" ->
    params_text l t -> bearer_text l (w1 ++ s ++ c :: w2 ++ t).

(** Parameter lists as maps: names in lower case, the last value given counts. *)
Definition value_of (l : list (bstr * bstr)) (k : bstr) : option bstr :=
  option_map snd (find (fun p => beq (lower (fst p)) k) (rev l)).

(** The first word of the header is Bearer, in any case. *)
Definition is_bearer (h : bstr) : Prop :=
  exists w s r, h = w ++ s ++ r /\ blank w /\ lower s = bs "bearer" /\
    (r = [] \/ exists c r', r = c :: r' /\ In c [SPACE; TAB; EQUALS; COMMA_; QUOTE]).

(** A quoted value that is not closed. *)
Definition unclosed (b : bstr) : Prop := forall v r, ~ exists e, b = e ++ QUOTE :: r /\ escaped v e.
