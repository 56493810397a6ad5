(** Independent specification of Content-Length framing. *)
From Coq Require Import Ascii String List Arith NArith ZArith Bool.
From Verif Require Import StrModel.
Import ListNotations.
Local Open Scope nat_scope.

(** [occurs p s]: p occurs somewhere in s. *)
Definition occurs (p s : bstr) : Prop := exists a b, s = a ++ p ++ b.

(** A header block is a sequence of lines separated by CR LF. *)
Definition header_lines (h : bstr) (ls : list bstr) : Prop :=
  ls <> [] /\ h = join [CR; LF] ls /\ Forall (fun l => ~ occurs [CR; LF] l) ls.

(** The line is a Content-Length header (field name compared without regard to case)
    whose value part, after leading white space, is [v]. *)
Definition content_length_line (line v : bstr) : Prop :=
  exists name sp,
    line = name ++ [":"%char] ++ sp ++ v /\
    ~ In ":"%char name /\
    map to_lower name = bs "content-length" /\
    forallb is_space sp = true /\
    (match v with [] => True | c :: _ => is_space c = false end).

Definition is_content_length_line (line : bstr) : Prop := exists v, content_length_line line v.

(** The value starts with a decimal number (optional sign, as strtoull reads it)
    equal to n. *)
Definition numeral_prefix (v : bstr) (n : N) : Prop :=
  exists sign ds rest,
    v = sign ++ ds ++ rest /\ ds <> [] /\ forallb is_digit ds = true /\
    (match rest with [] => True | c :: _ => is_digit c = false end) /\
    (((sign = [] \/ sign = ["+"%char]) /\ digits_val ds = n) \/
     (sign = ["-"%char] /\ n = ((2 ^ 64 - digits_val ds) mod 2 ^ 64)%N /\ (digits_val ds < 2 ^ 64)%N)).

(** The header block designates a body of n bytes: its last Content-Length line says n. *)
Definition designates (h : bstr) (n : N) : Prop :=
  exists before line v after,
    header_lines h (before ++ line :: after) /\
    content_length_line line v /\ numeral_prefix v n /\
    Forall (fun l => ~ is_content_length_line l) after.
