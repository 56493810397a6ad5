(** C210: log files. *)
From Coq Require Import Ascii String List Arith NArith Bool Lia.
From Verif Require Import StrModel StrProofs FramerModel LogModel SayModel SaySpec ScribeModel ScribeSpec ScribeProofs.
Import ListNotations.
Local Open Scope nat_scope.

(** The part that holds: as long as no write to the file chosen has failed, an entry at the level in force or above
    is added at its end, once and complete, and to no other file. Missing: writes after one
    that failed. *)
Theorem C210_written_partial : forall color disk vs p g0 g file line f, file_sound vs p -> level_now vs g0 -> at_least g g0 ->
  exists t, entry_is g file line f t /\ added p t (sc_disk (scribe_run color disk vs)) (sc_disk (scribe_run color disk (vs ++ [SLog g file line f None]))).
Proof.
  intros color disk vs p g0 g file line f F L A. destruct (sound_run color disk vs p F) as (O & B).
  exists (entry_text color (grade_name g) file line (message_of f)). split; [apply entry_text_is|].
  rewrite run_app. cbn [scribe_step]. rewrite (level_run color disk vs g0 L), (proj2 (shown_iff g g0) A), O, B. apply added_here.
Qed.
Print Assumptions C210_written_partial.

(** An entry below the level in force changes nothing; one that is not is written to the console in any case. *)
Theorem C210_level : forall color disk vs g0 g file line f took, level_now vs g0 ->
  (~ at_least g g0 -> scribe_run color disk (vs ++ [SLog g file line f took]) = scribe_run color disk vs) /\
  (at_least g g0 -> exists t, entry_is g file line f t /\
     sc_console (scribe_run color disk (vs ++ [SLog g file line f took])) = sc_console (scribe_run color disk vs) ++ t).
Proof.
  intros color disk vs g0 g file line f took L. rewrite run_app. cbn [scribe_step]. rewrite (level_run color disk vs g0 L). split; intro A.
  - destruct (shown g0 g) eqn:E; [elim A; apply shown_iff; exact E|reflexivity].
  - rewrite (proj2 (shown_iff g g0) A). eexists. split; [apply entry_text_is|]. destruct (sc_open _); [destruct (sc_bad _)|]; reflexivity.
Qed.
Print Assumptions C210_level.

(** Nothing is ever removed from a file, and one that is neither being opened nor the one chosen last is left alone. *)
Theorem C210_kept : forall color disk vs,
  (forall more q, exists t, sc_disk (scribe_run color disk (vs ++ more)) q = sc_disk (scribe_run color disk vs) q ++ t) /\
  (forall v q, (forall stamp, v <> SFile q true stamp) -> ~ file_now vs q -> sc_disk (scribe_run color disk (vs ++ [v])) q = sc_disk (scribe_run color disk vs) q).
Proof.
  intros color disk vs. split; [intros more q; apply kept|]. intros v q N F. rewrite run_app.
  destruct (step_disk color (scribe_run color disk vs) v q) as [E | [(st & E & _) | (g & file & line & f & took & x & _ & O & _)]]; [exact E|elim (N st E)|].
  elim F. exact (open_now color disk vs q O).
Qed.
Print Assumptions C210_kept.

(** Opening a file leaves one line in it; a file that cannot be opened leaves none in force, and the user is told. *)
Theorem C210_opened : forall color disk vs p stamp,
  added p ([LF] ++ bs "=== Log opened at " ++ stamp ++ bs " ===" ++ [LF]) (sc_disk (scribe_run color disk vs)) (sc_disk (scribe_run color disk (vs ++ [SFile p true stamp]))) /\
  (forall q, sc_disk (scribe_run color disk (vs ++ [SFile p false stamp])) q = sc_disk (scribe_run color disk vs) q) /\
  (forall more q, no_change more -> sc_disk (scribe_run color disk (vs ++ SFile p false stamp :: more)) q = sc_disk (scribe_run color disk vs) q) /\
  exists a b, sc_console (scribe_run color disk (vs ++ [SFile p false stamp])) = sc_console (scribe_run color disk vs) ++ a ++ p ++ b.
Proof.
  intros color disk vs p stamp. rewrite !run_app. split; [apply added_here|]. split; [reflexivity|]. split; [|eexists; eexists; reflexivity].
  intros more q. induction more as [|v more IH] using rev_ind; intro N; [rewrite run_app; reflexivity|].
  assert (no_change more) as N' by (intros x y z I; apply (N x y z); apply in_or_app; left; exact I). rewrite <- (IH N').
  rewrite app_comm_cons, app_assoc. apply C210_kept.
  - intros st ->. apply (N q true st). apply in_or_app. right. left. reflexivity.
  - intros (a & st & b & E & M). assert (sc_open (scribe_run color disk (vs ++ SFile p false stamp :: more)) = Some q) as O by (apply file_run; exists a, st, b; split; assumption).
    unfold scribe_run in O. rewrite fold_left_app in O. cbn [fold_left] in O. rewrite fold_open in O by exact N'. discriminate O.
Qed.
Print Assumptions C210_opened.

(** Once a write has failed, nothing more is written to the file until setLogFile is called again, however much room there is. *)
Theorem C210_mute : forall color disk vs p g0 g file line f n more, file_sound vs p -> level_now vs g0 -> at_least g g0 -> no_change more ->
  sc_disk (scribe_run color disk (vs ++ SLog g file line f (Some n) :: more)) = sc_disk (scribe_run color disk (vs ++ [SLog g file line f (Some n)])).
Proof.
  intros color disk vs p g0 g file line f n more F L A N. destruct (sound_run color disk vs p F) as (O & B).
  replace (vs ++ SLog g file line f (Some n) :: more) with ((vs ++ [SLog g file line f (Some n)]) ++ more) by (rewrite <- app_assoc; reflexivity).
  unfold scribe_run at 1. rewrite fold_left_app. fold (scribe_run color disk (vs ++ [SLog g file line f (Some n)])).
  apply bad_stays; [exact N| |]; rewrite run_app; cbn [scribe_step]; rewrite (level_run color disk vs g0 L), (proj2 (shown_iff g g0) A), O, B; [reflexivity|discriminate].
Qed.
Print Assumptions C210_mute.

Theorem C210_refuted : ~ always_written.
Proof.
  intro H. pose (e := SLog GError (bs "a.cpp") 1 (Formatted (bs "x")) (Some 0)).
  destruct (H false (fun _ => []) [SFile (bs "log") true (bs "now"); e] (bs "log") GInfo GError (bs "a.cpp") 1%N (Formatted (bs "x"))) as (t & (l & r & m & _ & E) & D & _).
  - exists [], (bs "now"), [e]. split; [reflexivity|]. intros p ok st [I | []]. discriminate I.
  - right. split; [|reflexivity]. intros g [I | [I | []]]; discriminate I.
  - exact I.
  - match type of D with ?x = ?y ++ _ => assert (x = y) as Q by (vm_compute; reflexivity); rewrite Q in D end.
    assert (t = []) as Z by (apply (f_equal (@length _)) in D; rewrite app_length in D; destruct t; [reflexivity|cbn [length] in D; lia]).
    rewrite Z in E. discriminate E.
Qed.
Print Assumptions C210_refuted.

(** Two files and two levels. *)
Definition some_events : list sevent :=
  [SFile (bs "a") true (bs "noon"); SLevel GWarn; SLog GInfo (bs "x.cpp") 7 (Formatted (bs "no")) None; SLog GError (bs "x.cpp") 8 (FormatError (bs "bad")) None; SFile (bs "b") true (bs "one")].
Example C210_case : file_sound some_events (bs "b") /\ level_now some_events GWarn /\ at_least GError GWarn /\
  sc_disk (scribe_run false (fun _ => bs "old") (some_events ++ [SLog GError (bs "x.cpp") 9 (Formatted (bs "hi")) None])) (bs "b")
  = bs "old" ++ [LF] ++ bs "=== Log opened at one ===" ++ [LF] ++ bs "[ERROR] x.cpp:9: hi" ++ [LF] /\
  sc_disk (scribe_run false (fun _ => bs "old") some_events) (bs "a")
  = bs "old" ++ [LF] ++ bs "=== Log opened at noon ===" ++ [LF] ++ bs "[ERROR] x.cpp:8: Format error: bad" ++ [LF].
Proof.
  split; [exists (firstn 4 some_events), (bs "one"), []; split; [reflexivity|split; [intros p ok st []|intros g file line f n []]]|].
  split; [left; exists (firstn 1 some_events), (skipn 2 some_events); split; [reflexivity|]; intros g [Q | [Q | [Q | []]]]; discriminate Q|].
  split; [exact I|]. split; vm_compute; reflexivity.
Qed.
