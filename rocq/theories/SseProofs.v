(** Proofs about the event stream. *)
From Coq Require Import Ascii String List Permutation Arith NArith ZArith Bool Lia ZifyBool ZifyNat ZifyN.
From Verif Require Import StrModel StrProofs SseModel SseSpec.
Import ListNotations.
Local Open Scope nat_scope.

(** The parser byte by byte: the current line, reversed, and the state. *)
Definition mchar (m : bstr * sse) (c : ascii) : bstr * sse :=
  if Ascii.eqb c LF then ([], sse_line (snd m) (rev (fst m))) else (c :: fst m, snd m).
Definition mcut (m : bstr * sse) : bstr * sse :=
  ([], match fst m with [] => snd m | _ => sse_line (snd m) (rev (fst m)) end).

Lemma getlines_run : forall b cur s,
  fold_left sse_line (getlines cur b) s = snd (mcut (fold_left mchar b (cur, s))).
Proof.
  induction b as [|c b IH]; intros cur s.
  - destruct cur; reflexivity.
  - cbn [getlines fold_left]. unfold mchar at 2. cbn [fst snd]. destruct (Ascii.eqb c LF); [|apply IH].
    cbn [fold_left]. apply IH.
Qed.

Lemma run_free : forall b cur s, has_lf b = false -> fold_left mchar b (cur, s) = (rev b ++ cur, s).
Proof.
  induction b as [|c b IH]; intros cur s H; [reflexivity|].
  cbn [has_lf existsb] in H. apply orb_false_iff in H as [H1 H2].
  cbn [fold_left]. unfold mchar at 2. cbn [fst snd]. rewrite H1, IH by exact H2.
  cbn [rev]. now rewrite <- app_assoc.
Qed.

Lemma cut_app : forall m, fst (mcut m) = []. Proof. reflexivity. Qed.

(** An invariant kept by pieces and by cuts holds to the end. *)
Section Carry.
Variable Inv : list bstr -> bstr * sse -> Prop.
Hypothesis Hatom : forall a rest m, Inv (a :: rest) m -> Inv rest (fold_left mchar a m).
Hypothesis Hcut : forall rest m, Inv rest m -> Inv rest (mcut m).

Lemma carry_atoms : forall g rest m, Inv (g ++ rest) m -> Inv rest (fold_left mchar (concat g) m).
Proof.
  induction g as [|a g IH]; intros rest m H; [exact H|].
  cbn [concat]. rewrite fold_left_app. apply IH, Hatom, H.
Qed.

Lemma carry_reads : forall groups buf s, has_lf buf = false ->
  Inv (concat groups) (fold_left mchar buf ([], s)) ->
  exists cur, Inv [] (cur, sse_reads buf (map (@concat ascii) groups) s).
Proof.
  induction groups as [|g gs IH]; intros buf s L H.
  - cbn [map sse_reads]. rewrite run_free in H by exact L. eauto.
  - cbn [map sse_reads concat] in *. cbv zeta.
    assert (K : Inv (concat gs) (fold_left mchar (buf ++ concat g) ([], s))).
    { rewrite fold_left_app. apply carry_atoms, H. }
    destruct (has_lf (buf ++ concat g)) eqn:E.
    + apply IH; [reflexivity|]. unfold parse_events. rewrite getlines_run. cbn [fold_left].
      apply Hcut in K. rewrite (surjective_pairing (mcut _)), cut_app in K. exact K.
    + apply IH; assumption.
Qed.
End Carry.

(** What each event contributes. *)
Definition gives (x : bool * (bstr * bstr)) (d : list bstr) : Prop :=
  length d <= 1 /\ (fst x = true -> d = [snd (snd x)]).
Definition made (done : list (bool * (bstr * bstr))) (out : list bstr) : Prop :=
  exists ds, Forall2 gives done ds /\ out = concat ds.

Lemma made_snoc : forall done out x d, made done out -> gives x d -> made (done ++ [x]) (out ++ d).
Proof.
  intros done out x d [ds [F ->]] G. exists (ds ++ [d]). split.
  - apply Forall2_app; [exact F|constructor; [exact G|constructor]].
  - rewrite concat_app. cbn [concat]. now rewrite app_nil_r.
Qed.

Definition good (x : bool * (bstr * bstr)) : Prop :=
  number (fst (snd x)) /\
  if fst x then one_line (snd (snd x)) else ~ In LF (snd (snd x)) /\ ~ In CR (snd (snd x)).

Definition atoms (l : list (bool * (bstr * bstr))) : list bstr := flat_map (fun x => pieces (fst x) (snd x)) l.
Definition single (s : bstr) : list bstr := map (fun c => [c]) s.
Definition idc (c : ascii) : Prop := In c (bs "id: ") \/ (48 <= N_of_ascii c <= 57)%N.

(** The pieces after the id line. *)
Definition data_part (x : bool * (bstr * bstr)) : list bstr :=
  if fst x then [bs "data: " ++ snd (snd x); [LF]; [LF]] else single (bs "data: " ++ snd (snd x)) ++ [[LF]; [LF]].

Lemma pieces_parts : forall x, pieces (fst x) (snd x) = single (bs "id: " ++ fst (snd x) ++ [LF]) ++ data_part x.
Proof.
  intros [f [i p]]. unfold pieces, data_part, single. cbn [fst snd]. destruct f; [reflexivity|].
  rewrite map_app. f_equal. rewrite map_app. reflexivity.
Qed.

Inductive at_ (all : list (bool * (bstr * bstr))) : list bstr -> bstr * sse -> Prop :=
| at_between done later s : all = done ++ later -> made done (se_out s) -> se_pending s = [] ->
    at_ all (atoms later) ([], s)
| at_id done x later w cur s : all = done ++ x :: later -> made done (se_out s) -> se_pending s = [] ->
    Forall idc w -> Forall idc cur ->
    at_ all (single (w ++ [LF]) ++ data_part x ++ atoms later) (cur, s)
| at_data done x later s : all = done ++ x :: later -> made done (se_out s) -> se_pending s = [] ->
    at_ all (data_part x ++ atoms later) ([], s)
| at_loose done x later w cur s : all = done ++ x :: later -> made done (se_out s) -> fst x = false ->
    ~ In LF w -> ~ In CR w -> ~ In LF cur -> ~ In CR cur ->
    at_ all (single w ++ [LF] :: [LF] :: atoms later) (cur, s)
| at_end1 done x later cur s : all = done ++ x :: later -> made done (se_out s) -> fst x = true ->
    (cur = rev (bs "data: " ++ snd (snd x)) /\ se_pending s = []) \/ (cur = [] /\ se_pending s = snd (snd x)) ->
    at_ all ([LF] :: [LF] :: atoms later) (cur, s)
| at_end2 done x later s : all = done ++ x :: later ->
    (made done (se_out s) /\ (fst x = true -> se_pending s = snd (snd x))) \/
    (made (done ++ [x]) (se_out s) /\ se_pending s = []) ->
    at_ all ([LF] :: atoms later) ([], s).

Lemma idc_lf : forall c, idc c -> c <> LF.
Proof. intros c [H|H] ->; [cbn in H; decompose [or] H; try contradiction; discriminate|cbn in H; lia]. Qed.
Lemma idc_cr : forall c, idc c -> c <> CR.
Proof. intros c [H|H] ->; [cbn in H; decompose [or] H; try contradiction; discriminate|cbn in H; lia]. Qed.
Lemma idc_a : forall c, idc c -> c <> "a"%char.
Proof. intros c [H|H] ->; [cbn in H; decompose [or] H; try contradiction; discriminate|cbn in H; lia]. Qed.
Lemma idc_r : forall c, idc c -> c <> "r"%char.
Proof. intros c [H|H] ->; [cbn in H; decompose [or] H; try contradiction; discriminate|cbn in H; lia]. Qed.

Lemma chop_cr_other : forall l, (forall q, l <> q ++ [CR]) -> chop_cr l = l.
Proof.
  intros l H. unfold chop_cr. destruct (rev l) as [|c r] eqn:E.
  - apply (f_equal (@rev ascii)) in E. rewrite rev_involutive in E. now rewrite E.
  - destruct (Ascii.eqb_spec c CR) as [->|N]; [|reflexivity].
    apply (f_equal (@rev ascii)) in E. rewrite rev_involutive in E. cbn [rev] in E. now apply H in E.
Qed.
Lemma chop_cr_free : forall l, ~ In CR l -> chop_cr l = l.
Proof.
  intros l H. apply chop_cr_other. intros q ->. apply H, in_app_iff. right. now left.
Qed.

Lemma id_line_ignored : forall l s, Forall idc l -> l <> [] -> sse_line s l = s.
Proof.
  intros l s F N. unfold sse_line.
  rewrite chop_cr_free by (intro I; rewrite Forall_forall in F; exact (idc_cr _ (F _ I) eq_refl)). cbv zeta.
  destruct l as [|a l]; [now destruct N|]. inversion F as [|? ? Fa Fl]; subst.
  assert (E1 : starts_with (bs "data:") (a :: l) = false).
  { cbn [bs list_ascii_of_string starts_with]. destruct l as [|b l]; [now rewrite andb_false_r|].
    inversion Fl as [|? ? Fb _]; subst.
    destruct (Ascii.eqb_spec "a" b) as [<-|_]; [now destruct (idc_a _ Fb)|now rewrite andb_false_r]. }
  assert (E2 : starts_with (bs "retry:") (a :: l) = false).
  { cbn [bs list_ascii_of_string starts_with].
    destruct (Ascii.eqb_spec "r" a) as [<-|_]; [now destruct (idc_r _ Fa)|reflexivity]. }
  now rewrite E1, E2.
Qed.

Lemma empty_line : forall s, sse_line s [] =
  match se_pending s with [] => s | p => {| se_pending := []; se_retry := se_retry s; se_out := se_out s ++ [p] |} end.
Proof. reflexivity. Qed.

Lemma id_cur_ignored : forall cur s, Forall idc cur -> se_pending s = [] -> sse_line s (rev cur) = s.
Proof.
  intros cur s F P. destruct cur as [|c cur].
  - cbn [rev]. rewrite empty_line, P. reflexivity.
  - apply id_line_ignored; [now apply Forall_rev|]. intro E. apply (f_equal (@length ascii)) in E. rewrite rev_length in E. discriminate.
Qed.

(** A line that is not empty delivers nothing. *)
Lemma full_line_out : forall s l, ~ In CR l -> l <> [] -> se_out (sse_line s l) = se_out s.
Proof.
  intros s l H N. unfold sse_line. rewrite chop_cr_free by exact H. cbv zeta.
  destruct l; [now destruct N|]. destruct (starts_with (bs "data:") _); [reflexivity|].
  now destruct (starts_with (bs "retry:") _).
Qed.

Lemma data_line : forall s p, one_line p -> se_pending s = [] ->
  sse_line s (bs "data: " ++ p) = {| se_pending := p; se_retry := se_retry s; se_out := se_out s |}.
Proof.
  intros s p [Ne [_ Hc]] P. unfold sse_line.
  rewrite chop_cr_other.
  2:{ intros q E. destruct (exists_last Ne) as [p' [c ->]]. rewrite app_assoc in E. apply app_inj_tail in E as [_ ->].
      now apply (Hc p'). }
  cbv zeta. change (bs "data: " ++ p) with (bs "data:" ++ SPACE :: p).
  assert (E : starts_with (bs "data:") (bs "data:" ++ SPACE :: p) = true) by (apply starts_with_iff; eauto).
  destruct (bs "data:" ++ SPACE :: p) as [|a l] eqn:D; [discriminate|]. rewrite E, <- D, P.
  reflexivity.
Qed.

Lemma single_cons : forall c s, single (c :: s) = [c] :: single s. Proof. reflexivity. Qed.
Lemma single_app : forall a b, single (a ++ b) = single a ++ single b. Proof. intros. apply map_app. Qed.

Lemma rev_nil : forall (l : bstr), rev l = [] -> l = [].
Proof. intros l E. destruct l as [|c l]; [reflexivity|]. apply (f_equal (@length ascii)) in E. rewrite rev_length in E. discriminate. Qed.

Lemma not_in_cons : forall (c d : ascii) l, c <> d -> ~ In d l -> ~ In d (c :: l).
Proof. intros c d l N H [E|I]; [now apply N|now apply H]. Qed.

Lemma not_in_rev : forall (d : ascii) l, ~ In d l -> ~ In d (rev l).
Proof. intros d l H I. apply in_rev in I. now apply H. Qed.

Lemma good_in : forall all done x later, Forall good all -> all = done ++ x :: later -> good x.
Proof. intros all done x later F ->. apply Forall_app in F as [_ F]. now inversion F. Qed.

Lemma gives_nil : forall x, fst x = false -> gives x []. Proof. intros x E. split; [cbn; lia|]. rewrite E. discriminate. Qed.
Lemma gives_one : forall x, gives x [snd (snd x)]. Proof. intros x. split; [cbn; lia|reflexivity]. Qed.
Lemma gives_any : forall x p, fst x = false -> gives x [p]. Proof. intros x p E. split; [cbn; lia|]. rewrite E. discriminate. Qed.

(** The empty line after a loosely cut event. *)
Lemma empty_makes : forall done x s, made done (se_out s) -> (fst x = true -> se_pending s = snd (snd x) /\ snd (snd x) <> []) ->
  made (done ++ [x]) (se_out (sse_line s [])) /\ se_pending (sse_line s []) = [].
Proof.
  intros done x s M H. rewrite empty_line. destruct (se_pending s) as [|c p] eqn:P.
  - split; [|exact P]. rewrite <- (app_nil_r (se_out s)). apply made_snoc; [exact M|].
    destruct (fst x) eqn:F; [destruct (H eq_refl) as [E N]; now rewrite <- E in N|]. now apply gives_nil.
  - cbn [se_out se_pending]. split; [|reflexivity]. apply made_snoc; [exact M|].
    destruct (fst x) eqn:F; [|now apply gives_any]. destruct (H eq_refl) as [-> _]. apply gives_one.
Qed.

Lemma at_id_step : forall all done x later w cur s a rest, Forall good all ->
  all = done ++ x :: later -> made done (se_out s) -> se_pending s = [] -> Forall idc w -> Forall idc cur ->
  single (w ++ [LF]) ++ data_part x ++ atoms later = a :: rest -> at_ all rest (fold_left mchar a (cur, s)).
Proof.
  intros all done x later w cur s a rest G E M P Fw Fc R. destruct w as [|c w].
  - injection R as <- <-. cbn [fold_left]. unfold mchar. cbn [fst snd]. rewrite Ascii.eqb_refl.
    rewrite (id_cur_ignored cur s Fc P). econstructor; eassumption.
  - cbn [app] in R. rewrite single_cons in R. injection R as <- <-. inversion Fw as [|? ? Hc Fw']; subst.
    cbn [fold_left]. unfold mchar. cbn [fst snd].
    destruct (Ascii.eqb_spec c LF) as [->|_]; [now destruct (idc_lf _ Hc)|].
    eapply at_id; try reflexivity; try eassumption. now constructor.
Qed.

Lemma number_idc : forall i, number i -> Forall idc (bs "id: " ++ i).
Proof.
  intros i H. apply Forall_app. split.
  - apply Forall_forall. intros c I. now left.
  - eapply Forall_impl; [|exact H]. intros c K. now right.
Qed.

Lemma at_loose_step : forall all done x later w cur s a rest, Forall good all ->
  all = done ++ x :: later -> made done (se_out s) -> fst x = false ->
  ~ In LF w -> ~ In CR w -> ~ In LF cur -> ~ In CR cur ->
  single w ++ [LF] :: [LF] :: atoms later = a :: rest -> at_ all rest (fold_left mchar a (cur, s)).
Proof.
  intros all done x later w cur s a rest G E M F W1 W2 C1 C2 R. destruct w as [|c w].
  - injection R as <- <-. cbn [fold_left]. unfold mchar. cbn [fst snd]. rewrite Ascii.eqb_refl.
    eapply at_end2; [exact E|]. destruct (rev cur) as [|r cr] eqn:D.
    + right. apply empty_makes; [exact M|]. rewrite F. discriminate.
    + left. split; [|rewrite F; discriminate]. rewrite full_line_out; [exact M| |discriminate].
      rewrite <- D. now apply not_in_rev.
  - rewrite single_cons in R. injection R as <- <-. cbn [fold_left]. unfold mchar. cbn [fst snd].
    destruct (Ascii.eqb_spec c LF) as [->|N1]; [now destruct W1; left|].
    assert (N2 : c <> CR) by (intros ->; now destruct W2; left).
    eapply at_loose; try eassumption; [intro I; apply W1; now right|intro I; apply W2; now right|now apply not_in_cons|now apply not_in_cons].
Qed.

Lemma data_no_break : forall p, ~ In LF p -> ~ In LF (bs "data: " ++ p).
Proof. intros p H I. apply in_app_iff in I as [I|I]; [cbn in I; decompose [or] I; try contradiction; discriminate|now apply H]. Qed.
Lemma data_no_cr : forall p, ~ In CR p -> ~ In CR (bs "data: " ++ p).
Proof. intros p H I. apply in_app_iff in I as [I|I]; [cbn in I; decompose [or] I; try contradiction; discriminate|now apply H]. Qed.

Lemma no_lf : forall b, ~ In LF b -> has_lf b = false.
Proof.
  intros b H. unfold has_lf. destruct (existsb _ b) eqn:E; [|reflexivity]. apply existsb_exists in E as [c [I J]].
  apply Ascii.eqb_eq in J as ->. now destruct H.
Qed.

Lemma at_atom : forall all, Forall good all -> forall a rest m, at_ all (a :: rest) m -> at_ all rest (fold_left mchar a m).
Proof.
  intros all G a rest m H. remember (a :: rest) as r eqn:R. destruct H as
    [done later s E M P
    |done x later w cur s E M P Fw Fc
    |done x later s E M P
    |done x later w cur s E M F W1 W2 C1 C2
    |done x later cur s E M F D
    |done x later s E D].
  - destruct later as [|x later]; [discriminate|]. unfold atoms in R. cbn [flat_map] in R. fold (atoms later) in R.
    rewrite pieces_parts, (app_assoc (bs "id: ")), <- app_assoc in R.
    eapply (at_id_step all done x later (bs "id: " ++ fst (snd x)) []); try eassumption; [|constructor].
    apply number_idc. exact (proj1 (good_in _ _ _ _ G E)).
  - exact (at_id_step _ _ _ _ _ _ _ _ _ G E M P Fw Fc R).
  - destruct (fst x) eqn:F; unfold data_part in R; rewrite F in R.
    + injection R as <- <-. pose proof (good_in _ _ _ _ G E) as [_ K]. rewrite F in K.
      rewrite run_free by (apply no_lf, data_no_break; apply K). rewrite app_nil_r.
      eapply at_end1; try eassumption. left. split; [reflexivity|assumption].
    + pose proof (good_in _ _ _ _ G E) as [_ K]. rewrite F in K. destruct K as [K1 K2].
      rewrite <- app_assoc in R. cbn [app] in R.
      eapply (at_loose_step all done x later (bs "data: " ++ snd (snd x)) [] s a rest G E M F); [now apply data_no_break|now apply data_no_cr|intros []|intros []|exact R].
  - exact (at_loose_step _ _ _ _ _ _ _ _ _ G E M F W1 W2 C1 C2 R).
  - injection R as <- <-. cbn [fold_left]. unfold mchar. cbn [fst snd]. rewrite Ascii.eqb_refl.
    pose proof (good_in _ _ _ _ G E) as [_ K]. rewrite F in K.
    eapply at_end2; [exact E|]. destruct D as [[-> P]|[-> P]].
    + left. rewrite rev_involutive, data_line by assumption. cbn [se_out se_pending]. split; [exact M|reflexivity].
    + right. cbn [rev]. apply empty_makes; [exact M|]. intros _. split; [exact P|apply K].
  - injection R as <- <-. cbn [fold_left]. unfold mchar. cbn [fst snd]. rewrite Ascii.eqb_refl. cbn [rev].
    pose proof (good_in _ _ _ _ G E) as [_ K].
    assert (E' : all = (done ++ [x]) ++ later) by (rewrite <- app_assoc; exact E).
    destruct D as [[M D]|[M P]].
    + destruct (empty_makes done x s M) as [M' P'].
      { intro F. rewrite F in K. split; [now apply D|apply K]. }
      econstructor; eassumption.
    + rewrite empty_line, P. econstructor; eassumption.
Qed.

Lemma at_cut : forall all, Forall good all -> forall rest m, at_ all rest m -> at_ all rest (mcut m).
Proof.
  intros all G rest m H. pose proof H as H0. destruct H as
    [done later s E M P
    |done x later w cur s E M P Fw Fc
    |done x later s E M P
    |done x later w cur s E M F W1 W2 C1 C2
    |done x later cur s E M F D
    |done x later s E D]; unfold mcut; cbn [fst snd]; try exact H0; clear H0.
  - assert (K : match cur with [] => s | _ => sse_line s (rev cur) end = s).
    { destruct cur; [reflexivity|]. now apply id_cur_ignored. }
    rewrite K. eapply at_id; try eassumption. constructor.
  - apply (at_loose all done x later w []); try assumption; try (intros []; fail). destruct cur as [|c cur]; [exact M|].
    rewrite full_line_out; [exact M|now apply not_in_rev|]. intro K. apply rev_nil in K. discriminate.
  - pose proof (good_in _ _ _ _ G E) as [_ K]. rewrite F in K. destruct D as [[-> P]|[-> P]].
    + destruct (rev (bs "data: " ++ snd (snd x))) as [|c r] eqn:D.
      { apply rev_nil in D. discriminate. }
      rewrite <- D, rev_involutive, data_line by assumption.
      eapply at_end1; try eassumption. right. split; reflexivity.
    + eapply at_end1; try eassumption. right. now split.
Qed.

Lemma atoms_nil : forall later, atoms later = [] -> later = [].
Proof.
  intros [|x later]; [reflexivity|]. unfold atoms. cbn [flat_map]. rewrite pieces_parts. discriminate.
Qed.

Lemma at_done : forall all m, at_ all [] m -> made all (se_out (snd m)) /\ se_pending (snd m) = [].
Proof.
  intros all m H. remember (@nil bstr) as r eqn:R. destruct H as
    [done later s E M P
    |done x later w cur s E M P Fw Fc
    |done x later s E M P
    |done x later w cur s E M F W1 W2 C1 C2
    |done x later cur s E M F D
    |done x later s E D]; cbn [snd]; try discriminate.
  - apply atoms_nil in R as ->. rewrite app_nil_r in E. subst. now split.
  - exfalso. destruct w; discriminate.
  - exfalso. unfold data_part in R. destruct (fst x); discriminate.
  - exfalso. destruct w; discriminate.
Qed.

(** The general theorem: the first reads may be taken in with the headers. *)
Theorem stream_contained : forall all extra reads retry, Forall good all -> cut_into all (extra :: reads) ->
  let s := sse_connection retry extra reads in
  made all (se_out s) /\ se_pending s = [].
Proof.
  intros all extra reads retry G [groups [C R]]. cbv zeta. unfold sse_connection.
  destruct groups as [|g gs]; [discriminate|]. cbn [map] in R. injection R as -> ->. cbn [concat] in C.
  assert (A0 : at_ all (g ++ concat gs) ([], sse0 retry)).
  { rewrite C. change (flat_map _ all) with (atoms all). apply at_between with (done := []); [reflexivity| |reflexivity].
    exists []. split; [constructor|reflexivity]. }
  pose proof (carry_atoms (at_ all) (at_atom all G) _ _ _ A0) as A1. apply (at_cut all G) in A1.
  assert (A2 : at_ all (concat gs) (fold_left mchar [] ([], parse_events (concat g) (sse0 retry)))).
  { unfold parse_events. rewrite getlines_run. cbn [fold_left].
    rewrite (surjective_pairing (mcut _)), cut_app in A1. exact A1. }
  destruct (carry_reads (at_ all) (at_atom all G) (at_cut all G) gs [] (parse_events (concat g) (sse0 retry)) eq_refl A2) as [cur A3].
  exact (at_done _ _ A3).
Qed.

Lemma made_kept : forall es out, made (map (pair true) es) out -> out = map snd es.
Proof.
  intros es out [ds [F ->]]. revert ds F. induction es as [|e es IH]; intros ds F; cbn [map] in F; inversion F as [|? d ? ds' G F']; subst; [reflexivity|].
  cbn [concat map]. destruct G as [_ G]. rewrite (G eq_refl). cbn [app]. f_equal. now apply IH.
Qed.

Lemma good_kept : forall es, Forall (fun e => number (fst e) /\ one_line (snd e)) es -> Forall good (map (pair true) es).
Proof. intros es F. apply Forall_map. eapply Forall_impl; [|exact F]. intros e H. exact H. Qed.

Lemma concat_single : forall s : bstr, concat (single s) = s.
Proof. induction s as [|c s IH]; [reflexivity|]. cbn [single map concat app]. f_equal. exact IH. Qed.

Lemma pieces_text : forall k e, concat (pieces k e) = event_text e.
Proof.
  intros k [i p]. change (pieces k (i, p)) with (pieces (fst (k, (i, p))) (snd (k, (i, p)))). rewrite pieces_parts.
  rewrite concat_app, concat_single. unfold data_part, event_text. cbn [fst snd].
  rewrite <- app_assoc. f_equal. rewrite <- app_assoc. f_equal. f_equal.
  destruct k.
  - cbn [concat]. rewrite <- app_assoc. f_equal.
  - rewrite concat_app, concat_single. rewrite <- app_assoc. reflexivity.
Qed.

Lemma cut_text : forall all reads, cut_into all reads -> concat reads = stream_text (map snd all).
Proof.
  intros all reads [groups [C ->]].
  transitivity (concat (concat groups)).
  { clear C. induction groups as [|g gs IH]; [reflexivity|]. cbn [map concat]. now rewrite concat_app, IH. }
  rewrite C. clear. induction all as [|x all IH]; [reflexivity|].
  cbn [flat_map map]. rewrite concat_app, IH, pieces_text. reflexivity.
Qed.

Lemma single_groups : forall reads : list bstr, map (@concat ascii) (map single reads) = reads.
Proof. induction reads as [|r rs IH]; [reflexivity|]. cbn [map]. now rewrite concat_single, IH. Qed.

Lemma pieces_loose : forall es, flat_map (fun x => pieces (fst x) (snd x)) (map (pair false) es) = single (stream_text es).
Proof.
  induction es as [|[i p] es IH]; [reflexivity|]. cbn [map flat_map]. rewrite IH.
  unfold stream_text. cbn [flat_map]. rewrite single_app. f_equal.
  unfold pieces, event_text, single. cbn [fst snd]. f_equal.
  rewrite <- !app_assoc. reflexivity.
Qed.

(** Any reads of the stream are of the loose kind. *)
Lemma any_cut : forall es reads, concat reads = stream_text es -> cut_into (map (pair false) es) reads.
Proof.
  intros es reads H. exists (map single reads). split; [|symmetry; apply single_groups].
  rewrite pieces_loose, <- H. clear. unfold single. rewrite concat_map. reflexivity.
Qed.

(** Reads that are whole events. *)
Lemma whole_cut : forall ess : list (list (bstr * bstr)), cut_into (map (pair true) (concat ess)) (map stream_text ess).
Proof.
  intros ess. exists (map (fun es => flat_map (pieces true) es) ess). split.
  - induction ess as [|es ess IH]; [reflexivity|]. cbn [map concat]. rewrite map_app, flat_map_app, <- IH. f_equal.
    clear. induction es as [|e es IH]; [reflexivity|]. cbn [map flat_map fst snd]. now rewrite IH.
  - rewrite map_map. apply map_ext. intros es. induction es as [|e es IH]; [reflexivity|].
    unfold stream_text in *. cbn [flat_map]. rewrite concat_app, pieces_text. now rewrite IH.
Qed.

(** Lines that end in CR LF are read like lines that end in LF. *)
Lemma getlines_line : forall l cur r, ~ In LF l -> getlines cur (l ++ LF :: r) = (rev cur ++ l) :: getlines [] r.
Proof.
  induction l as [|c l IH]; intros cur r N.
  - cbn [app getlines]. change (Ascii.eqb LF LF) with true. cbv iota. now rewrite app_nil_r.
  - cbn [app getlines]. destruct (Ascii.eqb_spec c LF) as [-> |_]; [exfalso; apply N; now left|]. rewrite IH by (intros I; apply N; now right).
    cbn [rev]. now rewrite <- app_assoc.
Qed.
Lemma chop_cr_end : forall l, chop_cr (l ++ [CR]) = l.
Proof. intros l. unfold chop_cr. rewrite rev_app_distr. cbn [rev app]. change (Ascii.eqb CR CR) with true. cbv iota. apply rev_involutive. Qed.
Lemma sse_line_cr : forall l s, (forall q, l <> q ++ [CR]) -> sse_line s (l ++ [CR]) = sse_line s l.
Proof. intros l s H. unfold sse_line. now rewrite chop_cr_end, chop_cr_other. Qed.
Lemma crlf_parsed : forall ls s, Forall (fun l => ~ In LF l /\ forall q, l <> q ++ [CR]) ls ->
  parse_events (flat_map (fun l => l ++ [CR; LF]) ls) s = parse_events (flat_map (fun l => l ++ [LF]) ls) s.
Proof.
  unfold parse_events. induction ls as [|l ls IH]; intros s F; [reflexivity|]. inversion F as [|? ? [N C] F']; subst. cbn [flat_map].
  rewrite <- !app_assoc. cbn [app]. change (l ++ CR :: LF :: flat_map (fun l => l ++ [CR; LF]) ls) with (l ++ [CR] ++ LF :: flat_map (fun l => l ++ [CR; LF]) ls).
  rewrite app_assoc. rewrite getlines_line by (rewrite in_app_iff; intros [I|[I|[]]]; [easy|discriminate]).
  rewrite getlines_line by exact N. cbn [rev app fold_left]. rewrite sse_line_cr by exact C. now apply IH.
Qed.
