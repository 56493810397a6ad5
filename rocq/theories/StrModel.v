(** Byte strings and the C++ standard-library functions the code calls on them.

    Every definition models the documented behaviour of a function of the C++
    standard library in the "C" locale; there is no /repo source for these, the
    comment names the library function and a place in /repo that calls it. *)
From Coq Require Import Ascii String List Arith NArith ZArith Bool.
Import ListNotations.
Local Open Scope nat_scope.

(** std::string: any sequence of bytes. *)
Definition bstr := list ascii.

(** A string literal of the source. *)
Definition bs (s : string) : bstr := list_ascii_of_string s.

(** Numeric value of a byte (static_cast to unsigned char). *)
Definition code (c : ascii) : N := N_of_ascii c.

(** The byte with a given value below 256. *)
Definition chr (n : N) : ascii := ascii_of_N n.

Definition QUOTE : ascii := chr 34.
Definition BACKSLASH : ascii := chr 92.
Definition CR : ascii := chr 13.
Definition LF : ascii := chr 10.
Definition TAB : ascii := chr 9.
Definition SPACE : ascii := chr 32.
Definition CRLF : bstr := [CR; LF].

(** operator== on std::string. *)
Fixpoint beq (a b : bstr) : bool :=
  match a, b with
  | [], [] => true
  | x :: a', y :: b' => Ascii.eqb x y && beq a' b'
  | _, _ => false
  end.

(** s.compare(i, len(p), p) == 0 / rfind(p, 0) == 0, on the suffix at i. *)
Fixpoint starts_with (p s : bstr) : bool :=
  match p, s with
  | [], _ => true
  | x :: p', y :: s' => Ascii.eqb x y && starts_with p' s'
  | _ :: _, [] => false
  end.

(** std::string::find(p) on a whole string; None is npos. *)
Fixpoint find_sub (p s : bstr) : option nat :=
  if starts_with p s then Some 0
  else match s with
       | [] => None
       | _ :: s' => option_map S (find_sub p s')
       end.

(** std::string::find(p, pos) for a non-empty p. *)
Definition find_from (p s : bstr) (pos : nat) : option nat :=
  option_map (fun k => pos + k) (find_sub p (skipn pos s)).

(** std::string::find(char) *)
Fixpoint find_char (c : ascii) (s : bstr) : option nat :=
  match s with
  | [] => None
  | x :: s' => if Ascii.eqb x c then Some 0 else option_map S (find_char c s')
  end.

Definition find_char_from (c : ascii) (s : bstr) (pos : nat) : option nat :=
  option_map (fun k => pos + k) (find_char c (skipn pos s)).

(** std::string::rfind(char): position of the last occurrence. *)
Fixpoint rfind_char (c : ascii) (s : bstr) : option nat :=
  match s with
  | [] => None
  | x :: s' =>
      match rfind_char c s' with
      | Some k => Some (S k)
      | None => if Ascii.eqb x c then Some 0 else None
      end
  end.

(** std::string::substr(pos, len) for pos <= size(). *)
Definition substr (s : bstr) (pos len : nat) : bstr := firstn len (skipn pos s).

(** Longest prefix of bytes satisfying p, and the rest. *)
Fixpoint span (p : ascii -> bool) (s : bstr) : bstr * bstr :=
  match s with
  | [] => ([], [])
  | c :: s' => if p c then let (a, b) := span p s' in (c :: a, b) else ([], s)
  end.

Fixpoint drop_while (p : ascii -> bool) (s : bstr) : bstr :=
  match s with
  | [] => []
  | c :: s' => if p c then drop_while p s' else s
  end.

Definition in_range (lo hi : N) (c : ascii) : bool :=
  (N.leb lo (code c) && N.leb (code c) hi)%bool.

(** std::isdigit *)
Definition is_digit (c : ascii) : bool := in_range 48 57 c.

(** std::isspace: space, \t \n \v \f \r *)
Definition is_space (c : ascii) : bool := (N.eqb (code c) 32 || in_range 9 13 c)%bool.

(** std::tolower *)
Definition to_lower (c : ascii) : ascii :=
  if in_range 65 90 c then chr (code c + 32) else c.

Definition lower (s : bstr) : bstr := map to_lower s.

(** The four JSON white-space bytes: find_first_not_of with space \t \r \n. *)
Definition is_ws (c : ascii) : bool :=
  (Ascii.eqb c SPACE || Ascii.eqb c TAB || Ascii.eqb c CR || Ascii.eqb c LF)%bool.

Definition digit (n : N) : ascii := chr (48 + n).
Definition digit_val (c : ascii) : N := code c - 48.

(** std::to_string of an unsigned integer. The fuel is an upper bound on the number
    of decimal digits. *)
Fixpoint dec_fuel (fuel : nat) (n : N) : bstr :=
  match fuel with
  | O => []
  | S f => (if N.ltb n 10 then [] else dec_fuel f (N.div n 10)) ++ [digit (N.modulo n 10)]
  end.

Definition print_N (n : N) : bstr := dec_fuel (S (N.to_nat (N.log2 n))) n.

(** std::to_string of a signed integer. *)
Definition print_Z (z : Z) : bstr :=
  if Z.ltb z 0 then chr 45 :: print_N (Z.to_N (- z)) else print_N (Z.to_N z).

(** Value of a digit string, most significant first. *)
Definition digits_val (s : bstr) : N :=
  fold_left (fun acc c => N.add (N.mul 10 acc) (digit_val c)) s 0%N.

(** An optional sign: (is minus, rest). *)
Definition split_sign (s : bstr) : bool * bstr :=
  match s with
  | c :: r => if Ascii.eqb c (chr 45) then (true, r)
              else if Ascii.eqb c (chr 43) then (false, r) else (false, s)
  | [] => (false, [])
  end.

(** The syntax strtoll/strtoull accept in base 10: white space, an optional sign,
    at least one digit; anything may follow. Result: sign is minus, magnitude. *)
Definition scan_int (s : bstr) : option (bool * N) :=
  let (neg, s2) := split_sign (drop_while is_space s) in
  match fst (span is_digit s2) with
  | [] => None
  | d :: ds => Some (neg, digits_val (d :: ds))
  end.

Definition two63 : Z := 9223372036854775808%Z.
Definition two64 : N := 18446744073709551616%N.

(** std::stoull: None is an exception (invalid_argument or out_of_range); a minus
    sign negates modulo 2^64, as strtoull does. *)
Definition stoull (s : bstr) : option N :=
  match scan_int s with
  | None => None
  | Some (neg, m) =>
      if N.leb two64 m then None
      else Some (if neg then N.modulo (two64 - m) two64 else m)
  end.

(** std::stoll: None is an exception. *)
Definition stoll (s : bstr) : option Z :=
  match scan_int s with
  | None => None
  | Some (neg, m) =>
      let z := if neg then (- Z.of_N m)%Z else Z.of_N m in
      if (Z.leb (- two63) z && Z.ltb z two63)%bool then Some z else None
  end.

(** Range of int64_t. *)
Definition int64 (z : Z) : Prop := (- two63 <= z < two63)%Z.

(** Concatenation with a separator, the loop "if (!first) oss << sep". *)
Fixpoint join (sep : bstr) (l : list bstr) : bstr :=
  match l with
  | [] => []
  | [x] => x
  | x :: l' => x ++ sep ++ join sep l'
  end.
