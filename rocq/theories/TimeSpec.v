(** What the statements on timestamps mean. *)
From Coq Require Import Ascii String List Arith NArith ZArith Bool.
From Verif Require Import StrModel JsonModel MapModel TaskModel TimeModel.
Import ListNotations.
Local Open Scope Z_scope.

(** The Gregorian calendar. *)
Definition leap_year (y : Z) : Prop := (y mod 4 = 0 /\ y mod 100 <> 0) \/ y mod 400 = 0.
Definition lasts (y m n : Z) : Prop :=
  (In m [1; 3; 5; 7; 8; 10; 12] /\ n = 31) \/ (In m [4; 6; 9; 11] /\ n = 30) \/
  (m = 2 /\ leap_year y /\ n = 29) \/ (m = 2 /\ ~ leap_year y /\ n = 28).

(** A moment in UTC, to the millisecond. *)
Record moment := { mo_year : Z; mo_month : Z; mo_day : Z; mo_hour : Z; mo_min : Z; mo_sec : Z; mo_ms : Z }.
Definition valid (d : moment) : Prop :=
  1970 <= mo_year d <= 9999 /\ 1 <= mo_month d <= 12 /\ (exists n, lasts (mo_year d) (mo_month d) n /\ 1 <= mo_day d <= n) /\
  0 <= mo_hour d < 24 /\ 0 <= mo_min d < 60 /\ 0 <= mo_sec d < 60 /\ 0 <= mo_ms d < 1000.

(** The days from 1970-01-01 to the first of a month, counting months. *)
Inductive reaches : Z -> Z -> Z -> Prop :=
| at_first : reaches 1970 1 0
| next_month y m n d : reaches y m d -> lasts y m n -> m < 12 -> reaches y (m + 1) (d + n)
| next_year y n d : reaches y 12 d -> lasts y 12 n -> reaches (y + 1) 1 (d + n).

(** The moment is ms milliseconds after 1970-01-01T00:00:00Z. *)
Definition instant (d : moment) (ms : Z) : Prop :=
  exists days, reaches (mo_year d) (mo_month d) days /\
    ms = ((((days + mo_day d - 1) * 24 + mo_hour d) * 60 + mo_min d) * 60 + mo_sec d) * 1000 + mo_ms d.

(** A number of k digits. *)
Definition numeral (k : nat) (s : bstr) (n : Z) : Prop := length s = k /\ forallb is_digit s = true /\ Z.of_N (digits_val s) = n.

(** The form of RFC 3339: 2025-01-31T23:59:59.999Z. *)
Definition written (x : bstr) (d : moment) : Prop :=
  exists y m dd h mi s ms, x = y ++ bs "-" ++ m ++ bs "-" ++ dd ++ bs "T" ++ h ++ bs ":" ++ mi ++ bs ":" ++ s ++ bs "." ++ ms ++ bs "Z" /\
    numeral 4 y (mo_year d) /\ numeral 2 m (mo_month d) /\ numeral 2 dd (mo_day d) /\ numeral 2 h (mo_hour d) /\
    numeral 2 mi (mo_min d) /\ numeral 2 s (mo_sec d) /\ numeral 3 ms (mo_ms d).

(** The order of strings, byte by byte, among strings of one length. *)
Definition before (a b : bstr) : Prop :=
  exists p c d u v, a = p ++ c :: u /\ b = p ++ d :: v /\ (code c < code d)%N.
Definition not_after (a b : bstr) : Prop := a = b \/ before a b.

(** A reading of the clock from 1970 on. *)
Definition reading (ns : Z) : Prop := 0 <= ns < 2 ^ 63.

(** A history of a task store whose clock is not set back: what it is given each time is the text of a reading, none below lo. *)
Inductive timed : Z -> list tev -> Prop :=
| timed_nil lo : timed lo []
| timed_create lo k ttl t vs : lo <= t -> reading t -> timed t vs -> timed lo (TCreate k ttl (utc_now t) :: vs)
| timed_end lo a t vs : lo <= t -> reading t -> at_now a = utc_now t -> timed t vs -> timed lo (TTerminal a :: vs)
| timed_emit lo n vs : timed lo vs -> timed lo (TEmit n :: vs)
| timed_wait lo i vs : timed lo vs -> timed lo (TWait i :: vs)
| timed_wake lo n vs : timed lo vs -> timed lo (TWake n :: vs).
