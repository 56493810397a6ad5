(** What the statements on log files mean. *)
From Coq Require Import Ascii String List Arith NArith Bool.
From Verif Require Import StrModel FramerModel LogModel SayModel SaySpec ScribeModel.
Import ListNotations.
Local Open Scope nat_scope.

(** The level set last; INFO if none was. *)
Definition no_level (vs : list sevent) : Prop := forall g, ~ In (SLevel g) vs.
Definition level_now (vs : list sevent) (g : grade) : Prop :=
  (exists a b, vs = a ++ SLevel g :: b /\ no_level b) \/ (no_level vs /\ g = GInfo).

(** The file set last, if it could be opened. *)
Definition no_change (vs : list sevent) : Prop := forall p ok stamp, ~ In (SFile p ok stamp) vs.
Definition file_now (vs : list sevent) (p : bstr) : Prop := exists a stamp b, vs = a ++ SFile p true stamp :: b /\ no_change b.

(** The same, and no write failed since it was opened. *)
Definition file_sound (vs : list sevent) (p : bstr) : Prop := exists a stamp b, vs = a ++ SFile p true stamp :: b /\ no_change b /\
  forall g file line f n, ~ In (SLog g file line f (Some n)) b.

(** The text of an entry: its level, place and message. *)
Definition says (f : formatted) (m : bstr) : Prop :=
  match f with Formatted t => m = t | FormatError what => m = bs "Format error: " ++ what end.
Definition entry_is (g : grade) (file : bstr) (line : N) (f : formatted) (t : bstr) : Prop :=
  exists l r m, says f m /\ t = bs "[" ++ l ++ grade_name g ++ r ++ bs "] " ++ file ++ bs ":" ++ print_N line ++ bs ": " ++ m ++ [LF].

(** The entry is added at the end of the file p, and no other file changes. *)
Definition added (p t : bstr) (before after : bstr -> bstr) : Prop := after p = before p ++ t /\ forall q, q <> p -> after q = before q.

(** The full property: an entry at the level in force or above, which the system takes, is added to the file chosen. *)
Definition always_written : Prop := forall color disk vs p g0 g file line f, file_now vs p -> level_now vs g0 -> at_least g g0 ->
  exists t, entry_is g file line f t /\ added p t (sc_disk (scribe_run color disk vs)) (sc_disk (scribe_run color disk (vs ++ [SLog g file line f None]))).
