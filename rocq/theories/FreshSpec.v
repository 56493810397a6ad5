(** What the lists a client gets are compared with. *)
From Coq Require Import List Arith Bool.
From Verif Require Import FreshModel.
Import ListNotations.
Local Open Scope nat_scope.

(** Call j has returned the list as it was after v changes. *)
Definition gave (s : fresh) (j v : nat) : Prop := nth_error (fr_calls s) j = Some (CDone v) \/ nth_error (fr_calls s) j = Some (CHit v).
(** Call j asked the server and has returned that. *)
Definition asked (s : fresh) (j v : nat) : Prop := nth_error (fr_calls s) j = Some (CDone v).
(** A call is under way. *)
Definition under_way (s : fresh) : Prop := exists j, nth_error (fr_calls s) j = Some CWait \/ exists v, nth_error (fr_calls s) j = Some (CGot v).
(** The client handles a notification next. *)
Definition hears_note (s : fresh) (e : ev) : Prop := e = CHear /\ exists r, fr_down s = DNote :: r.
(** No notification is handled while a call is under way. *)
Definition apart (s : fresh) (h : list ev) : Prop :=
  forall a e b, h = a ++ e :: b -> hears_note (frun s a) e -> ~ under_way (frun s a).
(** All that changed has been said and heard. *)
Definition settled (s : fresh) : Prop := fr_owed s = 0 /\ ~ In DNote (fr_down s).
