(** JSON documents as other programs write them: any white space between tokens and any
    of the escapes of RFC 8259 inside strings. Used to state what the substring-searching
    field readers of the OAuth code get right. *)
From Coq Require Import Ascii String List Arith NArith ZArith Bool.
From Verif Require Import StrModel DoubleModel JsonModel JsonSpec FramerSpec.
Import ListNotations.
Local Open Scope nat_scope.

(** Layout: spaces, tabs, carriage returns, line feeds. *)
Definition blank (s : bstr) : Prop := Forall (fun c => In c [" "%char; "009"%char; "013"%char; "010"%char]) s.

(** The two-character escapes and what they stand for. *)
Inductive short_escape : ascii -> ascii -> Prop :=
| se_quote : short_escape """" """"
| se_back : short_escape "\" "\"
| se_slash : short_escape "/" "/"
| se_b : short_escape "b" "008"
| se_f : short_escape "f" "012"
| se_n : short_escape "n" "010"
| se_r : short_escape "r" "013"
| se_t : short_escape "t" "009".

(** [str_text s t]: between quotes, t is a way to write the string s. A \uXXXX escape
    may stand for any bytes here: what it stands for does not matter to the theorems. *)
Inductive str_text : bstr -> bstr -> Prop :=
| st_nil : str_text [] []
| st_char c s t : c <> """"%char -> c <> "\"%char -> str_text s t -> str_text (c :: s) (c :: t)
| st_esc e c s t : short_escape e c -> str_text s t -> str_text (c :: s) ("\"%char :: e :: t)
| st_u u x y z w s t :
    Forall (fun h => In h (bs "0123456789abcdefABCDEF")) [x; y; z; w] ->
    str_text s t -> str_text (u ++ s) ("\"%char :: "u"%char :: x :: y :: z :: w :: t).

(** [writes v t]: t is a way to write the value v. For a double any text of digits,
    signs, dots and exponents is let in. Keys are written as they are. *)
Inductive writes : json -> bstr -> Prop :=
| w_null : writes JNull (bs "null")
| w_true : writes (JBool true) (bs "true")
| w_false : writes (JBool false) (bs "false")
| w_int z : writes (JInt z) (print_Z z)
| w_dbl d t : t <> [] -> Forall (fun c => In c (bs "0123456789+-.eE")) t -> writes (JDbl d) t
| w_str s t : str_text s t -> writes (JStr s) (""""%char :: t ++ [""""%char])
| w_arr0 a : blank a -> writes (JArr []) ("["%char :: a ++ ["]"%char])
| w_arr l ts : l <> [] ->
    Forall2 (fun v t => exists a u b, t = a ++ u ++ b /\ blank a /\ blank b /\ writes v u) l ts ->
    writes (JArr l) ("["%char :: join (bs ",") ts ++ ["]"%char])
| w_obj0 a : blank a -> writes (JObj []) ("{"%char :: a ++ ["}"%char])
| w_obj l ts : l <> [] ->
    Forall2 (fun m t => exists a b c u d,
               t = a ++ """"%char :: fst m ++ """"%char :: b ++ ":"%char :: c ++ u ++ d /\
               blank a /\ blank b /\ blank c /\ blank d /\
               plain (fst m) /\ writes (snd m) u) l ts ->
    writes (JObj l) ("{"%char :: join (bs ",") ts ++ ["}"%char]).

(** A string that is the text k, or ends in a quotation mark followed by k. *)
Definition quotes (k s : bstr) : Prop := s = k \/ exists a, s = a ++ """"%char :: k.

(** [says k v]: somewhere inside v a string is the text k (or ends in a quotation mark and k),
    or an object has k as a key. *)
Inductive says (k : bstr) : json -> Prop :=
| says_str s : quotes k s -> says k (JStr s)
| says_elem l v : In v l -> says k v -> says k (JArr l)
| says_key l : In k (map fst l) -> says k (JObj l)
| says_val l v : In v (map snd l) -> says k v -> says k (JObj l).

(** No member value of the document mentions k: only a key of the outermost object may. *)
Definition unmentioned (k : bstr) (l : list (bstr * json)) : Prop :=
  Forall (fun v => ~ says k v) (map snd l).
