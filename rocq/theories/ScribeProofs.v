(** Proofs about log files. *)
From Coq Require Import Ascii String List Arith NArith Bool Lia.
From Verif Require Import StrModel StrProofs FramerModel LogModel SayModel SaySpec ScribeModel ScribeSpec.
Import ListNotations.
Local Open Scope nat_scope.

Section Run.
Context (color : bool) (disk : bstr -> bstr).
Notation run := (scribe_run color disk).

Lemma run_app : forall vs v, run (vs ++ [v]) = scribe_step color (run vs) v.
Proof. intros. unfold scribe_run. rewrite fold_left_app. reflexivity. Qed.

Lemma shown_iff : forall g h, shown h g = true <-> at_least g h.
Proof. intros [] []; cbn; split; intro H; try exact I; try reflexivity; try discriminate H; contradiction. Qed.

(** Levels. *)
Lemma step_level : forall s v, (forall g, v <> SLevel g) -> sc_level (scribe_step color s v) = sc_level s.
Proof.
  intros s [g|p [] stamp|g file line f took] N; [now elim (N g)|reflexivity|reflexivity|]. cbn [scribe_step]. destruct (shown _ _); [|reflexivity].
  destruct (sc_open s); [destruct (sc_bad s)|]; reflexivity.
Qed.
Lemma fold_level : forall b s, no_level b -> sc_level (fold_left (scribe_step color) b s) = sc_level s.
Proof.
  induction b as [|v b IH]; intros s N; [reflexivity|]. cbn [fold_left]. rewrite IH by (intros g I; apply (N g); right; exact I).
  apply step_level. intros g ->. apply (N g). left. reflexivity.
Qed.
Lemma level_run : forall vs g, level_now vs g -> sc_level (run vs) = g.
Proof.
  intros vs g [(a & b & -> & N) | (N & ->)]; unfold scribe_run.
  - rewrite fold_left_app. cbn [fold_left]. rewrite fold_level by exact N. reflexivity.
  - rewrite fold_level by exact N. reflexivity.
Qed.

(** Files. *)
Lemma step_open : forall s v, (forall p ok st, v <> SFile p ok st) -> sc_open (scribe_step color s v) = sc_open s.
Proof.
  intros s [g|p ok stamp|g file line f took] N; [reflexivity|now elim (N p ok stamp)|]. cbn [scribe_step]. destruct (shown _ _); [|reflexivity].
  destruct (sc_open s) eqn:E; [destruct (sc_bad s)|]; cbn [sc_open]; congruence.
Qed.
Lemma fold_open : forall b s, no_change b -> sc_open (fold_left (scribe_step color) b s) = sc_open s.
Proof.
  induction b as [|v b IH]; intros s N; [reflexivity|]. cbn [fold_left]. rewrite IH by (intros p ok st I; apply (N p ok st); right; exact I).
  apply step_open. intros p ok st ->. apply (N p ok st). left. reflexivity.
Qed.
Lemma file_run : forall vs p, file_now vs p -> sc_open (run vs) = Some p.
Proof. intros vs p (a & st & b & -> & N). unfold scribe_run. rewrite fold_left_app. cbn [fold_left]. rewrite fold_open by exact N. reflexivity. Qed.

Lemma fold_sound : forall b s, no_change b -> (forall g file line f n, ~ In (SLog g file line f (Some n)) b) -> sc_bad s = false ->
  sc_bad (fold_left (scribe_step color) b s) = false.
Proof.
  induction b as [|v b IH]; intros s N F B; [exact B|]. cbn [fold_left]. apply IH.
  - intros p ok st I. apply (N p ok st). right. exact I.
  - intros g file line f n I. apply (F g file line f n). right. exact I.
  - destruct v as [g|p ok st|g file line f took]; [exact B|elim (N p ok st); left; reflexivity|]. cbn [scribe_step]. destruct (shown _ _); [|exact B].
    destruct (sc_open s); [rewrite B; cbn [sc_bad]|exact B]. destruct took as [n|]; [elim (F g file line f n); left; reflexivity|reflexivity].
Qed.
Lemma sound_run : forall vs p, file_sound vs p -> sc_open (run vs) = Some p /\ sc_bad (run vs) = false.
Proof.
  intros vs p (a & st & b & -> & N & F). split; [apply file_run; exists a, st, b; split; [reflexivity|exact N]|].
  unfold scribe_run. rewrite fold_left_app. cbn [fold_left]. apply fold_sound; [exact N|exact F|reflexivity].
Qed.

(** The other way: an open file is the one chosen. *)
Lemma open_now : forall vs p, sc_open (run vs) = Some p -> file_now vs p.
Proof.
  intros vs. induction vs as [|v vs IH] using rev_ind; intros p H; [discriminate H|]. rewrite run_app in H.
  assert ((exists q ok st, v = SFile q ok st) \/ (forall q ok st, v <> SFile q ok st)) as [(q & ok & st & ->) | N].
  { destruct v; [right; discriminate|left; eauto|right; discriminate]. }
  - destruct ok; [|discriminate H]. injection H as ->. exists vs, st, []. split; [reflexivity|intros x y z []].
  - rewrite step_open in H by exact N. destruct (IH p H) as (a & st & b & -> & M). exists a, st, (b ++ [v]). split; [rewrite <- app_assoc; reflexivity|].
    intros x y z I. apply in_app_or in I as [I | [I | []]]; [exact (M x y z I)|exact (N x y z I)].
Qed.

Lemma added_here : forall p t d, added p t d (append_to p t d).
Proof. intros p t d. unfold append_to. split; [rewrite beq_refl; reflexivity|]. intros q N. rewrite (proj2 (beq_neq _ _)); [reflexivity|congruence]. Qed.

Lemma entry_text_is : forall g file line f, entry_is g file line f (entry_text color (grade_name g) file line (message_of f)).
Proof.
  intros g file line f. unfold entry_is, entry_text. destruct color.
  - exists (label_color (grade_name g)), (ESC :: bs "[0m"), (message_of f). split; [destruct f; reflexivity|]. rewrite <- !app_assoc. reflexivity.
  - exists [], [], (message_of f). split; [destruct f; reflexivity|]. reflexivity.
Qed.

Lemma step_disk : forall s v q, sc_disk (scribe_step color s v) q = sc_disk s q \/
  (exists st, v = SFile q true st /\ sc_disk (scribe_step color s v) q = sc_disk s q ++ mark st) \/
  (exists g file line f took t, v = SLog g file line f took /\ sc_open s = Some q /\ sc_disk (scribe_step color s v) q = sc_disk s q ++ t).
Proof.
  intros s [g|p [] stamp|g file line f took] q; [left; reflexivity| |left; reflexivity|].
  - cbn [scribe_step sc_disk]. unfold append_to. destruct (beq p q) eqn:E; [|left; reflexivity]. apply beq_eq in E as ->. right; left. exists stamp. split; reflexivity.
  - cbn [scribe_step]. destruct (shown _ _); [|left; reflexivity]. destruct (sc_open s) as [p|] eqn:O; [|left; reflexivity]. destruct (sc_bad s); [left; reflexivity|].
    cbn [sc_disk]. unfold append_to. destruct (beq p q) eqn:E; [|left; reflexivity]. apply beq_eq in E as ->. right; right. do 6 eexists. split; [reflexivity|]. split; reflexivity.
Qed.

Lemma kept : forall more vs q, exists t, sc_disk (run (vs ++ more)) q = sc_disk (run vs) q ++ t.
Proof.
  intros more. induction more as [|v more IH] using rev_ind; intros vs q; [exists []; rewrite !app_nil_r; reflexivity|].
  destruct (IH vs q) as (t & E). rewrite app_assoc, run_app.
  destruct (step_disk (run (vs ++ more)) v q) as [-> | [(st & _ & ->) | (g & file & line & f & took & x & _ & _ & ->)]]; rewrite E, <- ?app_assoc; eexists; reflexivity.
Qed.

(** A stream that has failed. *)
Lemma bad_stays : forall b s, no_change b -> sc_bad s = true -> sc_open s <> None ->
  sc_disk (fold_left (scribe_step color) b s) = sc_disk s.
Proof.
  induction b as [|v b IH]; intros s N B O; [reflexivity|]. cbn [fold_left].
  assert (sc_disk (scribe_step color s v) = sc_disk s /\ sc_bad (scribe_step color s v) = true /\ sc_open (scribe_step color s v) <> None) as (D & B' & O').
  { destruct v as [g|p ok st|g file line f took]; [repeat split; assumption|elim (N p ok st); left; reflexivity|]. cbn [scribe_step]. destruct (shown _ _); [|repeat split; assumption].
    destruct (sc_open s) eqn:E; [|now elim O]. rewrite B. cbn [sc_disk sc_bad sc_open]. repeat split. discriminate. }
  rewrite IH; [exact D| |exact B'|exact O']. intros p ok st I. apply (N p ok st). right. exact I.
Qed.
End Run.
