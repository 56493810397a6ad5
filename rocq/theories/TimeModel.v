(** The text of the moment, as tasks carry it. *)
From Coq Require Import Ascii String List Arith NArith ZArith Bool.
From Verif Require Import StrModel.
Import ListNotations.
Local Open Scope Z_scope.

(** gmtime_r, called at src/mcp/TaskSupport.h:66: the Gregorian calendar from 1970-01-01 on, counted year by year and
    month by month. It is a function of the C library; what is written here is what ISO C and POSIX say it returns, for
    moments from 1970 on. *)
Definition leap (y : Z) : bool := ((y mod 4 =? 0) && negb (y mod 100 =? 0) || (y mod 400 =? 0))%bool.
Definition year_len (y : Z) : Z := if leap y then 366 else 365.
Definition month_len (y m : Z) : Z :=
  if m =? 2 then (if leap y then 29 else 28)
  else if (m =? 4) || (m =? 6) || (m =? 9) || (m =? 11) then 30 else 31.
Fixpoint year_of (fuel : nat) (y d : Z) : Z * Z :=
  match fuel with
  | O => (y, d)
  | S f => if d <? year_len y then (y, d) else year_of f (y + 1) (d - year_len y)
  end.
Fixpoint month_of (fuel : nat) (y m d : Z) : Z * Z :=
  match fuel with
  | O => (m, d)
  | S f => if d <? month_len y m then (m, d) else month_of f y (m + 1) (d - month_len y m)
  end.
Record tm := { tm_year : Z; tm_mon : Z; tm_mday : Z; tm_hour : Z; tm_min : Z; tm_sec : Z }.
Definition gmtime (t : Z) : tm :=
  let day := t / 86400 in
  let s := t mod 86400 in
  let (y, yd) := year_of (S (Z.to_nat (day / 365))) 1970 day in
  let (m, md) := month_of 12 y 1 yd in
  {| tm_year := y; tm_mon := m; tm_mday := md + 1; tm_hour := s / 3600; tm_min := s / 60 mod 60; tm_sec := s mod 60 |}.

(** setw(k) with setfill('0'), TaskSupport.h:73, and the padding of %m, %d, %H, %M and %S, 71: zeros on the left, before a
    sign if there is one. *)
Definition zeros (k : nat) (s : bstr) : bstr := repeat (chr 48) (k - length s) ++ s.

(** strftime with %Y-%m-%dT%H:%M:%S, TaskSupport.h:71. The buffer of 32 holds it: %Y has four digits. *)
Definition date_text (t : tm) : bstr :=
  print_Z (tm_year t) ++ bs "-" ++ zeros 2 (print_Z (tm_mon t)) ++ bs "-" ++ zeros 2 (print_Z (tm_mday t)) ++ bs "T" ++
  zeros 2 (print_Z (tm_hour t)) ++ bs ":" ++ zeros 2 (print_Z (tm_min t)) ++ bs ":" ++ zeros 2 (print_Z (tm_sec t)).

(** UtcNowIso8601, TaskSupport.h:58-75, at a reading of the system clock: nanoseconds since 1970, 64 bits signed.
    duration_cast and to_time_t cut towards zero; % keeps the sign. *)
Definition utc_now (ns : Z) : bstr :=
  let ms := Z.rem (Z.quot ns 1000000) 1000 in
  let secs := Z.quot ns 1000000000 in
  date_text (gmtime secs) ++ bs "." ++ zeros 3 (print_Z ms) ++ bs "Z".
