(** C188 and C189: timestamps, and those of tasks. *)
From Coq Require Import Ascii String List Arith NArith ZArith Bool Lia.
From Verif Require Import StrModel JsonModel MapModel TaskModel TaskSpec TimeModel TimeSpec TimeProofs.
Import ListNotations.
Local Open Scope Z_scope.

(** C188. The text written at any reading of the clock has the form of RFC 3339, and whatever is read from it is a valid date and time:
    the one at which the clock was read, to the millisecond, in the Gregorian calendar. *)
Theorem C188_written : forall ns, reading ns -> exists d, written (utc_now ns) d.
Proof. intros ns R. exists (moment_of ns). now apply moment_ok. Qed.
Print Assumptions C188_written.

Theorem C188_read : forall ns d, reading ns -> written (utc_now ns) d -> valid d /\ instant d (ns / 1000000).
Proof. exact read_back. Qed.
Print Assumptions C188_read.

(** C188. Comparing the texts byte by byte compares the moments. *)
Theorem C188_order : forall s t, reading s -> reading t ->
  (before (utc_now s) (utc_now t) <-> s / 1000000 < t / 1000000) /\ (utc_now s = utc_now t <-> s / 1000000 = t / 1000000).
Proof.
  intros s t S T. destruct (Z.lt_trichotomy (s / 1000000) (t / 1000000)) as [L|[L|L]].
  - pose proof (now_order s t S T L) as B. split; split; intros H; auto; [|lia]. rewrite H in B. now apply before_irrefl in B.
  - pose proof (now_same s t S T L) as B. split; split; intros H; auto; [|lia]. rewrite B in H. now apply before_irrefl in H.
  - pose proof (now_order t s T S L) as B. split; split; intros H; try lia; [now apply before_asym in B|]. rewrite H in B. now apply before_irrefl in B.
Qed.
Print Assumptions C188_order.

(** The last millisecond before the 29th of February 2024, the first after it, and the last the clock can show. *)
Example C188_ex :
  reading 1709164799999999999 /\ utc_now 1709164799999999999 = bs "2024-02-28T23:59:59.999Z" /\
  reading 1709251200000000000 /\ utc_now 1709251200000000000 = bs "2024-03-01T00:00:00.000Z" /\
  reading 9223372036854775807 /\ utc_now 9223372036854775807 = bs "2262-04-11T23:47:16.854Z".
Proof. repeat split; vm_compute; congruence. Qed.

(** The half second before 1970 is not written so. *)
Example C188_earlier : utc_now (-500000000) = bs "1970-01-01T00:00:00.-500Z".
Proof. vm_compute. reflexivity. Qed.

(** C189, the part that holds: while the clock is not set back, no task's lastUpdatedAt sorts before its createdAt. *)
Theorem C189_updated_partial : forall vs i t, timed 0 vs -> ts_get i (ts_run tstore0 vs) = Some t -> not_after (tk_created t) (tk_updated t).
Proof. exact updated_after. Qed.
Print Assumptions C189_updated_partial.

(** And no task sorts by createdAt before one created earlier. *)
Theorem C189_created_partial : forall vs p i q j r ti tj, few vs -> timed 0 vs -> ids (ts_run tstore0 vs) = p ++ i :: q ++ j :: r ->
  ts_get i (ts_run tstore0 vs) = Some ti -> ts_get j (ts_run tstore0 vs) = Some tj -> not_after (tk_created ti) (tk_created tj).
Proof. exact listed_in_order. Qed.
Print Assumptions C189_created_partial.

(** Two tasks created a millisecond apart around a new year; the second is completed first. *)
Definition two_tasks : list tev :=
  [TCreate KToolCall None (utc_now 1735689599999000000); TCreate KToolCall None (utc_now 1735689600000000000);
   TTerminal (complete_attempt (bs "task-2") COMPLETED None false JNull (utc_now 1735689600250000000)); TEmit 0;
   TTerminal (cancel_attempt (bs "task-1") JNull (utc_now 1735689600250400000))].
Example C189_ex : few two_tasks /\ timed 0 two_tasks /\ ids (ts_run tstore0 two_tasks) = [bs "task-1"; bs "task-2"] /\
  option_map tk_created (ts_get (bs "task-1") (ts_run tstore0 two_tasks)) = Some (bs "2024-12-31T23:59:59.999Z") /\
  option_map tk_updated (ts_get (bs "task-1") (ts_run tstore0 two_tasks)) = Some (bs "2025-01-01T00:00:00.250Z").
Proof.
  split; [reflexivity|]. split; [|vm_compute; auto].
  apply timed_create; [lia|split; [lia|reflexivity]|]. apply timed_create; [lia|split; [lia|reflexivity]|].
  eapply timed_end with (t := 1735689600250000000); [lia|split; [lia|reflexivity]|reflexivity|]. apply timed_emit.
  eapply timed_end with (t := 1735689600250400000); [lia|split; [lia|reflexivity]|reflexivity|]. apply timed_nil.
Qed.

(** C189 fails: the system clock is read, which may be set back. A task then ends before it was created. *)
Theorem C189_back_refuted : exists s t a, reading s /\ reading t /\ at_now a = utc_now t /\
  exists x, ts_get (bs "task-1") (ts_run tstore0 [TCreate KToolCall None (utc_now s); TTerminal a]) = Some x /\ before (tk_updated x) (tk_created x).
Proof.
  exists 1735689600250000000, 1735689600000000000, (complete_attempt (bs "task-1") COMPLETED None false JNull (utc_now 1735689600000000000)).
  assert (reading 1735689600250000000) as R by (split; [lia|reflexivity]). assert (reading 1735689600000000000) as Q by (split; [lia|reflexivity]).
  split; [exact R|]. split; [exact Q|]. split; [reflexivity|]. eexists. split; [cbn; reflexivity|]. cbn [tk_updated tk_created].
  apply now_order; auto. reflexivity.
Qed.
Print Assumptions C189_back_refuted.
