(** What the statements on the process log mean. *)
From Coq Require Import Ascii String List Arith NArith Bool.
From Verif Require Import StrModel FramerModel SayModel.
Import ListNotations.
Local Open Scope nat_scope.

(** What was sent, and what was logged, in order. *)
Fixpoint sent (vs : list sayev) : list bstr := match vs with [] => [] | Send p :: r => p :: sent r | _ :: r => sent r end.
Fixpoint logged (vs : list sayev) : list entry := match vs with [] => [] | Log e :: r => e :: logged r | _ :: r => logged r end.

(** The user has asked for the log on standard error: MCP_STDIO_MODE is 1, true or TRUE. *)
Definition stdio_mode (c : saycfg) : Prop := In (sy_mode c) [Some (bs "1"); Some (bs "true"); Some (bs "TRUE")].

(** A message fits the reader. *)
Definition readable (max : N) (p : bstr) : Prop :=
  (N.of_nat (length p) <= max)%N /\ (N.of_nat (length (encode p)) < 2 ^ 64)%N.

(** The text of a message: a JSON object on one line. *)
Definition message (p : bstr) : Prop := (exists r, p = "{"%char :: r) /\ ~ In CR p.

(** An entry without carriage returns; an entry on one line. *)
Definition plain (e : entry) : Prop := ~ In CR (en_file e) /\ ~ In CR (en_msg e).
Definition one_line (e : entry) : Prop := ~ In LF (en_file e) /\ ~ In LF (en_msg e).

(** A level is at least another. *)
Definition at_least (g h : grade) : Prop :=
  match h, g with
  | GDebug, _ => True
  | GInfo, (GInfo | GWarn | GError | GFatal) => True
  | GWarn, (GWarn | GError | GFatal) => True
  | GError, (GError | GFatal) => True
  | GFatal, GFatal => True
  | _, _ => False
  end.

(** The entries a threshold lets through, in order. *)
Inductive selected (c : saycfg) : list entry -> list entry -> Prop :=
| SelNil : selected c [] []
| SelTake : forall e es ks, at_least (en_grade e) (sy_level c) -> selected c es ks -> selected c (e :: es) (e :: ks)
| SelSkip : forall e es ks, ~ at_least (en_grade e) (sy_level c) -> selected c es ks -> selected c (e :: es) ks.

(** A text is made of these lines, each ended by a line feed. *)
Definition made_of_lines (t : bstr) (ls : list bstr) : Prop :=
  t = concat (map (fun l => l ++ [LF]) ls) /\ Forall (fun l => ~ In LF l) ls.

(** The line of an entry ends with its place and its message. *)
Definition line_of (e : entry) (l : bstr) : Prop :=
  exists head, l = "["%char :: head ++ bs "] " ++ en_file e ++ bs ":" ++ print_N (en_line e) ++ bs ": " ++ en_msg e.
