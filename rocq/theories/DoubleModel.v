(** IEEE binary64 values, their printing by std::to_string and reading by std::stod.

    There is no /repo source for these: they are the library functions called at
    src/mcp/JSONParser.cpp:228 (std::to_string(double), i.e. printf "%f") and
    JSONParser.cpp:153 (std::stod), with glibc's correctly rounded conversions. *)
From Coq Require Import Ascii String List Arith NArith ZArith Bool.
From Verif Require Import StrModel.
Import ListNotations.
Local Open Scope nat_scope.

(** A double: sign is true for minus. [DFin s m e] is (+/-) m * 2^e. *)
Inductive dbl :=
| DZero (s : bool)
| DFin (s : bool) (m : positive) (e : Z)
| DInf (s : bool)
| DNaN (s : bool).

(** The canonical representation of a finite non-zero binary64. *)
Definition dbl_canonical (d : dbl) : Prop :=
  match d with
  | DFin _ m e =>
      (-1074 <= e <= 971)%Z /\ (Zpos m < 2 ^ 53)%Z /\ ((2 ^ 52 <= Zpos m)%Z \/ e = (-1074)%Z)
  | _ => True
  end.

(** num/den rounded to the nearest integer, ties to even. *)
Definition div_rne (num den : N) : N :=
  let (q, r) := N.div_eucl num den in
  match N.compare (2 * r) den with
  | Lt => q
  | Gt => q + 1
  | Eq => if N.even q then q else q + 1
  end.

(** m * 2^e * 10^6 rounded to the nearest integer, ties to even. *)
Definition micros (m : positive) (e : Z) : N :=
  match e with
  | Zneg p => div_rne (Npos m * 1000000) (2 ^ Npos p)
  | _ => Npos m * 2 ^ Z.to_N e * 1000000
  end.

(** n < 10^k written with exactly k digits. *)
Fixpoint pad_digits (k : nat) (n : N) : bstr :=
  match k with
  | O => []
  | S k' => pad_digits k' (n / 10) ++ [digit (n mod 10)]
  end.

Definition sign_text (s : bool) : bstr := if s then [chr 45] else [].

(** printf "%f". *)
Definition print_double (d : dbl) : bstr :=
  match d with
  | DZero s => sign_text s ++ bs "0.000000"
  | DFin s m e =>
      let q := micros m e in
      sign_text s ++ print_N (q / 1000000) ++ [chr 46] ++ pad_digits 6 (q mod 1000000)
  | DInf s => sign_text s ++ bs "inf"
  | DNaN s => sign_text s ++ bs "nan"
  end.

(** num/den rounded to binary64. None: the result overflows, or is tiny and inexact;
    in both cases strtod sets ERANGE and std::stod throws std::out_of_range. *)
Definition round_ratio (s : bool) (num den : positive) : option dbl :=
  let l := (Z.of_N (N.log2 (Npos num)) - Z.of_N (N.log2 (Npos den)))%Z in
  let ge := if (0 <=? l)%Z then (Zpos den * 2 ^ l <=? Zpos num)%Z
            else (Zpos den <=? Zpos num * 2 ^ (- l))%Z in
  let fl := if ge then l else (l - 1)%Z in
  let e := Z.max (-1074) (fl - 52) in
  let n' := (Npos num * 2 ^ Z.to_N (- e))%N in
  let d' := (Npos den * 2 ^ Z.to_N e)%N in
  let m := div_rne n' d' in
  let exact := N.eqb (n' mod d') 0 in
  let tiny := N.ltb m (2 ^ 52) in
  if (tiny && negb exact)%bool then None
  else
    let '(m, e) := if N.eqb m (2 ^ 53) then (2 ^ 52, e + 1)%Z else (Z.of_N m, e) in
    if (971 <? e)%Z then None
    else match m with
         | Zpos p => Some (DFin s p e)
         | _ => Some (DZero s)
         end.

(** The decimal digits * 10^k. *)
Definition dec_to_double (s : bool) (digits : N) (k : Z) : option dbl :=
  match digits with
  | N0 => Some (DZero s)
  | Npos p =>
      match k with
      | Zneg q => round_ratio s p (10 ^ q)
      | Z0 => round_ratio s p 1
      | Zpos q => round_ratio s (p * 10 ^ q) 1
      end
  end.

Definition is_e (c : ascii) : bool := (Ascii.eqb c (chr 101) || Ascii.eqb c (chr 69))%bool.

(** The exponent part accepted by strtod: e, optional sign, at least one digit. *)
Definition scan_exp (s : bstr) : Z :=
  match s with
  | c :: r =>
      if is_e c then
        let (neg, r2) := split_sign r in
        let ds := fst (span is_digit r2) in
        match ds with
        | [] => 0%Z
        | _ => if neg then (- Z.of_N (digits_val ds))%Z else Z.of_N (digits_val ds)
        end
      else 0%Z
  | [] => 0%Z
  end.

(** std::stod on a decimal numeral. Simplification: the hexadecimal, inf and nan
    spellings strtod also accepts are not modelled: the callers only pass texts made of
    digits, signs, a point and e. None: an exception. *)
Definition stod (s : bstr) : option dbl :=
  let (neg, s1) := split_sign (drop_while is_space s) in
  let (ip, s2) := span is_digit s1 in
  let '(fp, s3) :=
    match s2 with
    | c :: r => if Ascii.eqb c (chr 46) then span is_digit r else ([], s2)
    | [] => ([], [])
    end in
  match ip ++ fp with
  | [] => None
  | ds => dec_to_double neg (digits_val ds) (scan_exp s3 - Z.of_nat (length fp))
  end.
