(** Independent specification of JSON texts: the grammar of RFC 8259, with the value each
    text denotes. Nothing here mentions the parser or the serializer: only the type of
    values and the type of doubles are shared with the model. *)
From Coq Require Import Ascii String List Arith NArith ZArith Bool.
From Verif Require Import StrModel DoubleModel JsonModel JsonSpec.
Import ListNotations.
Local Open Scope nat_scope.

(** ** White space: blanks, tabs, line feeds and carriage returns. *)
Definition blank (s : bstr) : Prop :=
  Forall (fun c => In (N_of_ascii c) [32; 9; 10; 13]%N) s.

(** ** Strings *)

(** The bytes of a code point in UTF-8 (RFC 3629). *)
Definition utf8_of (v : N) : bstr :=
  (if v <? 128 then map ascii_of_N [v]
   else if v <? 2048 then map ascii_of_N [192 + v / 64; 128 + v mod 64]
   else if v <? 65536 then map ascii_of_N [224 + v / 4096; 128 + v / 64 mod 64; 128 + v mod 64]
   else map ascii_of_N [240 + v / 262144; 128 + v / 4096 mod 64; 128 + v / 64 mod 64; 128 + v mod 64])%N.

(** A hexadecimal digit, in either case, and its value. *)
Definition hexit (c : ascii) (v : nat) : Prop :=
  nth_error (bs "0123456789abcdef") v = Some c \/ nth_error (bs "0123456789ABCDEF") v = Some c.

(** Four hexadecimal digits. *)
Definition quad (t : bstr) (v : N) : Prop :=
  exists a b c d w x y z, t = [a; b; c; d] /\ hexit a w /\ hexit b x /\ hexit c y /\ hexit d z /\
    v = (4096 * N.of_nat w + 256 * N.of_nat x + 16 * N.of_nat y + N.of_nat z)%N.

(** The escapes of one letter: what follows the backslash, and the byte meant. *)
Definition LETTERS : list (ascii * N) :=
  [(""""%char, 34%N); ("\"%char, 92%N); ("/"%char, 47%N); ("b"%char, 8%N); ("f"%char, 12%N);
   ("n"%char, 10%N); ("r"%char, 13%N); ("t"%char, 9%N)].

(** [chars t s]: between quotation marks, the text t denotes the bytes s. Escapes of code
    points outside the surrogate range only: [chars16] below adds the pairs. *)
Inductive chars : bstr -> bstr -> Prop :=
| ch_end : chars [] []
| ch_raw c t s : (32 <= N_of_ascii c)%N -> c <> """"%char -> c <> "\"%char ->
    chars t s -> chars (c :: t) (c :: s)
| ch_letter c n t s : In (c, n) LETTERS -> chars t s ->
    chars ("\"%char :: c :: t) (ascii_of_N n :: s)
| ch_code q v t s : quad q v -> ~ (55296 <= v <= 57343)%N -> chars t s ->
    chars ("\"%char :: "u"%char :: q ++ t) (utf8_of v ++ s).

(** A pair of escapes denoting one code point above 65535 (RFC 8259, section 7). *)
Definition surrogates (t : bstr) (v : N) : Prop :=
  exists p q hi lo, t = "\"%char :: "u"%char :: p ++ "\"%char :: "u"%char :: q /\
    quad p hi /\ quad q lo /\ (55296 <= hi <= 56319)%N /\ (56320 <= lo <= 57343)%N /\
    v = (65536 + 1024 * (hi - 55296) + (lo - 56320))%N.

(** ** Numbers *)

(** A non-empty text of decimal digits, and its value. *)
Definition decimals (t : bstr) : Prop := t <> [] /\ Forall (fun c => In c (bs "0123456789")) t.

Definition val10 (t : bstr) : Z :=
  fold_left (fun a c => 10 * a + (Z.of_N (N_of_ascii c) - 48))%Z t 0%Z.

(** The digits before the point: no leading zero unless it is the only one. *)
Definition whole (t : bstr) : Prop := decimals t /\ (hd_error t = Some "0"%char -> t = bs "0").

Definition minus (neg : bool) : bstr := if neg then bs "-" else [].

(** The part after the digits before the point: a fraction, an exponent or both. [fp] are the
    digits after the point, [x] the exponent. *)
Inductive fraction : bstr -> bstr -> Prop :=
| fr_none : fraction [] []
| fr_some fp : decimals fp -> fraction ("."%char :: fp) fp.

Inductive exponent : bstr -> Z -> Prop :=
| ex_none : exponent [] 0
| ex_some c sg ds x : In c (bs "eE") -> decimals ds ->
    (sg = [] /\ x = val10 ds \/ sg = bs "+" /\ x = val10 ds \/ sg = bs "-" /\ x = (- val10 ds)%Z) ->
    exponent (c :: sg ++ ds) x.

(** The value of a finite double in units of 2^-1074, the least positive one: an integer. *)
Definition units (d : dbl) : option Z :=
  match d with
  | DZero _ => Some 0%Z
  | DFin s m e => Some ((if s then -1 else 1) * (Zpos m * 2 ^ (e + 1074)))%Z
  | _ => None
  end.

(** The sign of a double. *)
Definition negative (d : dbl) : bool :=
  match d with DZero s | DFin s _ _ | DInf s | DNaN s => s end.

Definition even_mantissa (d : dbl) : Prop :=
  match d with DFin _ m _ => Z.even (Zpos m) = true | _ => True end.

(** Distance of a double of value u (in units) from num/den, multiplied by den. *)
Definition dist (num den u : Z) : Z := Z.abs (u * den - num * 2 ^ 1074).

(** [nearest neg num den d]: d is the double nearest to num/den (or to -num/den), of the two
    nearest the one with the even mantissa; num/den does not reach the number halfway between
    the greatest double and 2^1024. *)
Definition nearest (neg : bool) (num den : Z) (d : dbl) : Prop :=
  dbl_canonical d /\ negative d = neg /\ (num < den * (2 ^ 1024 - 2 ^ 970))%Z /\
  exists u, units d = Some u /\
    let x := (if neg then - num else num)%Z in
    forall d' u', dbl_canonical d' -> units d' = Some u' ->
      (dist x den u <= dist x den u')%Z /\
      (u' <> u -> dist x den u = dist x den u' -> even_mantissa d).

(** The two kinds of numbers no double is read for: too great, and below 2^-1022 without being a
    double. *)
Definition too_great (num den : Z) : Prop := (den * (2 ^ 1024 - 2 ^ 970) <= num)%Z.
Definition too_small (num den : Z) : Prop :=
  (num * 2 ^ 1022 < den)%Z /\
  forall d u, dbl_canonical d -> units d = Some u -> (u * den <> num * 2 ^ 1074)%Z.

(** Decimal m * 10^k as a fraction. *)
Definition frac10 (m k : Z) : Z * Z :=
  if (0 <=? k)%Z then ((m * 10 ^ k)%Z, 1%Z) else (m, (10 ^ (- k))%Z).

(** A numeral with a fraction or an exponent: text, sign, and absolute value num/den. *)
Definition real_text (t : bstr) (neg : bool) (num den : Z) : Prop :=
  exists ip f fp ex x, t = minus neg ++ ip ++ f ++ ex /\ whole ip /\ fraction f fp /\
    exponent ex x /\ f ++ ex <> [] /\
    (num, den) = frac10 (val10 (ip ++ fp)) (x - Z.of_nat (length fp)).

(** A numeral without either: an integer. *)
Definition int_text (t : bstr) (z : Z) : Prop :=
  exists neg ip, t = minus neg ++ ip /\ whole ip /\ z = (if neg then - val10 ip else val10 ip)%Z.

(** ** Values *)

(** [text t v]: the JSON text t, without white space around it, denotes the value v. Objects
    have distinct names here. Integers are within 64 bits. *)
Inductive text : bstr -> json -> Prop :=
| tx_null : text (bs "null") JNull
| tx_true : text (bs "true") (JBool true)
| tx_false : text (bs "false") (JBool false)
| tx_int t z : int_text t z -> (- 2 ^ 63 <= z < 2 ^ 63)%Z -> text t (JInt z)
| tx_real t neg num den d : real_text t neg num den -> nearest neg num den d ->
    ~ too_small num den -> text t (JDbl d)
| tx_str t s : chars t s -> text (bs """" ++ t ++ bs """") (JStr s)
| tx_arr0 w : blank w -> text (bs "[" ++ w ++ bs "]") (JArr [])
| tx_arr t l : items t l -> text (bs "[" ++ t ++ bs "]") (JArr l)
| tx_obj0 w : blank w -> text (bs "{" ++ w ++ bs "}") (JObj [])
| tx_obj t ms : members t ms -> NoDup (map fst ms) -> text (bs "{" ++ t ++ bs "}") (JObj ms)
with items : bstr -> list json -> Prop :=
| it_one w1 t w2 v : blank w1 -> blank w2 -> text t v -> items (w1 ++ t ++ w2) [v]
| it_more w1 t w2 v t' l : blank w1 -> blank w2 -> text t v -> items t' l ->
    items (w1 ++ t ++ w2 ++ bs "," ++ t') (v :: l)
with members : bstr -> list (bstr * json) -> Prop :=
| me_one w1 k k' w2 w3 t w4 v : blank w1 -> blank w2 -> blank w3 -> blank w4 -> chars k k' -> text t v ->
    members (w1 ++ bs """" ++ k ++ bs """" ++ w2 ++ bs ":" ++ w3 ++ t ++ w4) [(k', v)]
| me_more w1 k k' w2 w3 t w4 v t' ms : blank w1 -> blank w2 -> blank w3 -> blank w4 -> chars k k' ->
    text t v -> members t' ms ->
    members (w1 ++ bs """" ++ k ++ bs """" ++ w2 ++ bs ":" ++ w3 ++ t ++ w4 ++ bs "," ++ t') ((k', v) :: ms).

(** ** Values that are written as JSON: those of the round-trip law ([ok], JsonSpec.v) whose names
    need no escape. *)
Definition clean_name (k : bstr) : Prop :=
  Forall (fun c => (32 <= N_of_ascii c)%N /\ c <> """"%char /\ c <> "\"%char) k.

Definition writable (v : json) : Prop := ok v /\ forall k, key_in k v -> clean_name k.

(** ** What the parser also accepts: the same grammar with the liberties listed here. *)

(** Strings: any raw byte but a quotation mark and a backslash; each escape of a surrogate by
    itself, as a code point of three bytes. *)
Inductive near_chars : bstr -> bstr -> Prop :=
| nc_end : near_chars [] []
| nc_raw c t s : c <> """"%char -> c <> "\"%char -> near_chars t s -> near_chars (c :: t) (c :: s)
| nc_letter c n t s : In (c, n) LETTERS -> near_chars t s ->
    near_chars ("\"%char :: c :: t) (ascii_of_N n :: s)
| nc_code q v t s : quad q v -> near_chars t s ->
    near_chars ("\"%char :: "u"%char :: q ++ t) (utf8_of v ++ s).

Definition maybe_digits (t : bstr) : Prop := Forall (fun c => In c (bs "0123456789")) t.

(** Numbers: a plus sign, leading zeros, and digits missing before or after the point or in the
    exponent. *)
Inductive near_sign : bstr -> bool -> Prop :=
| ns_none : near_sign [] false
| ns_plus : near_sign (bs "+") false
| ns_minus : near_sign (bs "-") true.

Inductive near_fraction : bstr -> bstr -> Prop :=
| nf_none : near_fraction [] []
| nf_some fp : maybe_digits fp -> near_fraction ("."%char :: fp) fp.

Inductive near_exponent : bstr -> Z -> Prop :=
| ne_none : near_exponent [] 0
| ne_some c sg neg ds : In c (bs "eE") -> maybe_digits ds -> near_sign sg neg ->
    near_exponent (c :: sg ++ ds) (if neg then - val10 ds else val10 ds)%Z.

(** [near t v]: t is a JSON text for v up to these liberties. A number that is out of range, or
    has no digits, is null: the text may even be empty. *)
Inductive near : bstr -> json -> Prop :=
| nr_null : near (bs "null") JNull
| nr_true : near (bs "true") (JBool true)
| nr_false : near (bs "false") (JBool false)
| nr_int sg neg ip : near_sign sg neg -> decimals ip ->
    let z := (if neg then - val10 ip else val10 ip)%Z in
    (- 2 ^ 63 <= z < 2 ^ 63)%Z -> near (sg ++ ip) (JInt z)
| nr_real sg neg ip f fp ex x num den d : near_sign sg neg -> maybe_digits ip -> near_fraction f fp ->
    near_exponent ex x -> f ++ ex <> [] -> ip ++ fp <> [] ->
    (num, den) = frac10 (val10 (ip ++ fp)) (x - Z.of_nat (length fp)) -> nearest neg num den d ->
    near (sg ++ ip ++ f ++ ex) (JDbl d)
| nr_unread t : Forall (fun c => In c (bs "+-0123456789.eE")) t -> near t JNull
| nr_str t s : near_chars t s -> near (bs """" ++ t ++ bs """") (JStr s)
| nr_arr0 w : blank w -> near (bs "[" ++ w ++ bs "]") (JArr [])
| nr_arr t l : near_items t l -> near (bs "[" ++ t ++ bs "]") (JArr l)
| nr_obj0 w : blank w -> near (bs "{" ++ w ++ bs "}") (JObj [])
| nr_obj t ms o : near_members t ms -> NoDup (map fst o) ->
    (forall k v, obj_get k o = Some v <->
       exists before after, ms = before ++ (k, v) :: after /\ ~ In k (map fst after)) ->
    near (bs "{" ++ t ++ bs "}") (JObj o)
with near_items : bstr -> list json -> Prop :=
| ni_one w1 t w2 v : blank w1 -> blank w2 -> near t v -> near_items (w1 ++ t ++ w2) [v]
| ni_more w1 t w2 v t' l : blank w1 -> blank w2 -> near t v -> near_items t' l ->
    near_items (w1 ++ t ++ w2 ++ bs "," ++ t') (v :: l)
with near_members : bstr -> list (bstr * json) -> Prop :=
| nm_one w1 k k' w2 w3 t w4 v : blank w1 -> blank w2 -> blank w3 -> blank w4 -> near_chars k k' -> near t v ->
    near_members (w1 ++ bs """" ++ k ++ bs """" ++ w2 ++ bs ":" ++ w3 ++ t ++ w4) [(k', v)]
| nm_more w1 k k' w2 w3 t w4 v t' ms : blank w1 -> blank w2 -> blank w3 -> blank w4 -> near_chars k k' ->
    near t v -> near_members t' ms ->
    near_members (w1 ++ bs """" ++ k ++ bs """" ++ w2 ++ bs ":" ++ w3 ++ t ++ w4 ++ bs "," ++ t') ((k', v) :: ms).
