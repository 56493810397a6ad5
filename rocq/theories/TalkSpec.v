(** What talking is compared with: calling the other side's handler directly. *)
From Coq Require Import Ascii String List Arith Bool.
From Verif Require Import StrModel TalkModel.
Import ListNotations.
Local Open Scope nat_scope.

(** calls timed b p r: p on side b may return r if every request is a call of the other side's handler; if timed, a
    request may also time out. *)
Inductive calls (w : world) (timed : bool) : bool -> prog -> bstr -> Prop :=
| calls_ret : forall b a, calls w timed b (Ret a) a
| calls_tell : forall b m p r, calls w timed b p r -> calls w timed b (Tell m p) r
| calls_ask : forall b q k o a r, calls w timed (negb b) (w_req w (negb b) q o) a -> calls w timed b (k (Some a)) r -> calls w timed b (Ask q k) r
| calls_late : forall b q k r, timed = true -> calls w timed b (k None) r -> calls w timed b (Ask q k) r.

(** A program that waits for nothing. *)
Inductive quiet : prog -> Prop :=
| quiet_ret : forall a, quiet (Ret a)
| quiet_tell : forall m p, quiet p -> quiet (Tell m p).

(** What runs on a thread that reads messages waits for nothing. *)
Definition calm (w : world) (inline : bool -> bool) (c : bool) : Prop :=
  (forall m o, quiet (w_note w c m o)) /\ (inline c = true -> forall q o, quiet (w_req w c q o)).

(** costs b p n: p, with all it causes on both sides, takes at most n steps. *)
Inductive costs (w : world) : bool -> prog -> nat -> Prop :=
| costs_ret : forall b a n, 2 <= n -> costs w b (Ret a) n
| costs_tell : forall b m p n x y, (forall o, costs w (negb b) (w_note w (negb b) m o) x) -> costs w b p y -> x + y + 2 <= n -> costs w b (Tell m p) n
| costs_ask : forall b q k n x y, (forall o, costs w (negb b) (w_req w (negb b) q o) x) -> (forall a, costs w b (k a) y) -> x + y + 3 <= n -> costs w b (Ask q k) n.

(** Something can happen. *)
Definition enabled (s : talk) (v : tev) : Prop :=
  match v with
  | TApp _ _ => False
  | TRecv c _ => busy c s = false /\ nth_error (tk_sent s c) (tk_got s c) <> None
  | TStep n => exists t p, nth_error (tk_threads s) n = Some t /\ th_at t = Run p
  | TTimeout n => exists t i q k, nth_error (tk_threads s) n = Some t /\ th_at t = Wait i q k
  end.
Fixpoint lively (w : world) (inline : bool -> bool) (s : talk) (h : list tev) : Prop :=
  match h with [] => True | v :: h => enabled s v /\ lively w inline (talk_step w inline s v) h end.

(** Every thread has come to its end and every message was taken. *)
Definition settled (s : talk) : Prop :=
  (forall t, In t (tk_threads s) -> exists a, th_at t = Over a) /\ forall c, tk_got s c = List.length (tk_sent s c).

Definition timely (h : list tev) : Prop := forall n, ~ In (TTimeout n) h.

(** The messages that the reader of c has taken. *)
Definition taken (c : bool) (s : talk) : list msg := firstn (tk_got s c) (tk_sent s c).

(** Only the reader of c acts: it takes messages, and runs the handlers of notifications. *)
Fixpoint reader_only (w : world) (inline : bool -> bool) (c : bool) (s : talk) (h : list tev) : Prop :=
  match h with
  | [] => True
  | v :: h =>
      match v with
      | TRecv d _ => d = c
      | TStep n => exists t, nth_error (tk_threads s) n = Some t /\ th_side t = c /\ th_reader t = true /\ th_for t = None
      | _ => False
      end /\ reader_only w inline c (talk_step w inline s v) h
  end.

(** tells p l p': p, on its way to p', sends the notifications l, in this order. *)
Inductive tells : prog -> list bstr -> prog -> Prop :=
| tells_nil : forall p, tells p [] p
| tells_tell : forall m p l p', tells p l p' -> tells (Tell m p) (m :: l) p'
| tells_ask : forall q k a l p', tells (k a) l p' -> tells (Ask q k) l p'.

(** The notifications among messages that were sent on behalf of request i. *)
Fixpoint notes_of (i : nat) (l : list msg) : list bstr :=
  match l with
  | [] => []
  | MNote (Some j) m :: l => if Nat.eqb i j then m :: notes_of i l else notes_of i l
  | _ :: l => notes_of i l
  end.
