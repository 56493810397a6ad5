(** Independent specification of the JSON values the round-trip laws are about. *)
From Coq Require Import Ascii String List Arith NArith ZArith Bool.
From Verif Require Import StrModel DoubleModel JsonModel.
Import ListNotations.
Local Open Scope nat_scope.

(** A text without quotation marks and backslashes, i.e. one that needs no JSON
    escaping (control bytes aside, which the parser accepts raw). *)
Definition plain (s : bstr) : Prop := ~ In """"%char s /\ ~ In "\"%char s.

(** A double whose value is a multiple of one millionth, hence printed exactly by
    std::to_string: for instance every integer and every multiple of 1/64. *)
Definition exact_double (d : dbl) : Prop :=
  match d with
  | DZero _ => True
  | DFin _ m e => dbl_canonical d /\ (0 <= e \/ exists k, Zpos m * 10 ^ 6 = k * 2 ^ (- e))%Z
  | DInf _ => False
  | DNaN _ => False
  end.

(** Values that survive a round trip: integers in the int64 range, exactly printed
    doubles, arbitrary byte strings, objects with distinct escape-free keys. *)
Inductive ok : json -> Prop :=
| ok_null : ok JNull
| ok_bool b : ok (JBool b)
| ok_int z : (- 2 ^ 63 <= z < 2 ^ 63)%Z -> ok (JInt z)
| ok_dbl d : exact_double d -> ok (JDbl d)
| ok_str s : ok (JStr s)
| ok_arr l : Forall ok l -> ok (JArr l)
| ok_obj l : NoDup (map fst l) -> Forall plain (map fst l) -> Forall ok (map snd l) -> ok (JObj l).

(** [key_in k v]: some object nested anywhere in v has the key k. *)
Inductive key_in (k : bstr) : json -> Prop :=
| key_here l : In k (map fst l) -> key_in k (JObj l)
| key_obj l v : In v (map snd l) -> key_in k v -> key_in k (JObj l)
| key_arr l v : In v l -> key_in k v -> key_in k (JArr l).

(** What may follow a value in a text without being read as part of it: the end, or a
    byte that cannot continue a number. *)
Definition value_end (rest : bstr) : Prop :=
  match rest with
  | [] => True
  | c :: _ => is_digit c = false /\ c <> "."%char /\ c <> "e"%char /\ c <> "E"%char
  end.

(** The grammar of what may stand between the quotes of a JSON string (RFC 8259, with
    bytes of 128 and more unconstrained): no raw control byte, no bare quote or backslash. *)
Inductive json_text : bstr -> Prop :=
| jt_nil : json_text []
| jt_char c t : (32 <= N_of_ascii c)%N -> c <> """"%char -> c <> "\"%char ->
    json_text t -> json_text (c :: t)
| jt_esc c t : In c (bs """\bfnrt") -> json_text t -> json_text ("\"%char :: c :: t)
| jt_u a b c d t : In a (bs "0123456789abcdef") -> In b (bs "0123456789abcdef") ->
    In c (bs "0123456789abcdef") -> In d (bs "0123456789abcdef") ->
    json_text t -> json_text ("\"%char :: "u"%char :: a :: b :: c :: d :: t).
