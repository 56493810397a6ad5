From Coq Require Import Ascii String List Arith NArith ZArith Bool Lia.
From Verif Require Import StrModel StrProofs AuthProofs GuardModel GuardSpec.
Import ListNotations.
Local Open Scope nat_scope.

Lemma spaces_forallb : forall w, spaces w <-> forallb is_space w = true.
Proof. intros w. unfold spaces. rewrite forallb_forall. reflexivity. Qed.

Lemma spaces_rev : forall w, spaces w -> spaces (rev w).
Proof. intros w H c I. apply H. now apply in_rev. Qed.

Lemma trim_trimmed : forall v a, trimmed v a <-> trim v = a.
Proof.
  intros v a. split.
  - intros (w & w' & -> & W & W' & E). unfold trim. destruct a as [|c a].
    + cbn [app]. replace (w ++ w') with ((w ++ w') ++ []) by apply app_nil_r.
      rewrite (drop_while_app is_space (w ++ w') []); [reflexivity| |exact I].
      rewrite forallb_app. apply spaces_forallb in W, W'. now rewrite W, W'.
    + rewrite drop_while_app; [|now apply spaces_forallb|apply E; now left].
      change (rev ((c :: a) ++ w')) with (rev ((c :: a) ++ w')). rewrite rev_app_distr.
      destruct (rev (c :: a)) as [|d r] eqn:R.
      { exfalso. apply (f_equal (@length ascii)) in R. rewrite rev_length in R. discriminate R. }
      rewrite drop_while_app; [|apply spaces_forallb, spaces_rev, W'|apply E; now right].
      rewrite <- R. apply rev_involutive.
  - intros <-. unfold trim. destruct (drop_while_spec is_space v) as (w & E & F & G).
    set (u := drop_while is_space v) in *.
    destruct (drop_while_spec is_space (rev u)) as (w' & E' & F' & G').
    set (t := drop_while is_space (rev u)) in *.
    assert (U : u = rev t ++ rev w') by (rewrite <- (rev_involutive u), E', rev_app_distr; reflexivity).
    exists w, (rev w'). split; [now rewrite <- U|]. split; [now apply spaces_forallb|].
    split; [apply spaces_rev; now apply spaces_forallb|].
    intros c [H|H].
    + destruct (rev t) as [|d q] eqn:R; [discriminate H|]. cbn in H. injection H as <-.
      rewrite U in G. exact G.
    + rewrite rev_involutive in H. destruct t as [|d q]; [discriminate H|]. cbn in H. now injection H as <-.
Qed.

Lemma trim_id : forall a, (forall c, In c a -> is_space c = false) -> trim a = a.
Proof.
  intros a H. apply trim_trimmed. exists [], []. rewrite app_nil_r. split; [reflexivity|].
  split; [intros c []|]. split; [intros c []|]. intros c [E|E]; apply H.
  - destruct a; [discriminate E|]. injection E as <-. now left.
  - apply in_rev. destruct (rev a); [discriminate E|]. injection E as <-. now left.
Qed.

Lemma trim_pad : forall w a w', spaces w -> spaces w' -> (forall c, In c a -> is_space c = false) ->
  trim (w ++ a ++ w') = a.
Proof.
  intros w a w' W W' H. apply trim_trimmed. exists w, w'. repeat split; [exact W | exact W'|].
  intros c [E|E]; apply H.
  - destruct a; [discriminate E|]. injection E as <-. now left.
  - apply in_rev. destruct (rev a); [discriminate E|]. injection E as <-. now left.
Qed.

Lemma rfind_none : forall c s, ~ In c s -> rfind_char c s = None.
Proof.
  induction s as [|x s IH]; intros H; [reflexivity|]. cbn. rewrite IH by (intros I; apply H; now right).
  destruct (Ascii.eqb_spec x c) as [->|N]; [exfalso; apply H; now left | reflexivity].
Qed.

Lemma rfind_app : forall c a b, ~ In c b -> rfind_char c (a ++ c :: b) = Some (length a).
Proof.
  induction a as [|x a IH]; intros b H; cbn.
  - rewrite (rfind_none c b H). now rewrite Ascii.eqb_refl.
  - now rewrite (IH b H).
Qed.

Lemma last_split : forall (c : ascii) s, In c s -> exists a b, s = a ++ c :: b /\ ~ In c b.
Proof.
  induction s as [|x s IH]; intros H; [destruct H|].
  destruct (in_dec ascii_dec c s) as [I|N].
  - destruct (IH I) as (a & b & -> & B). exists (x :: a), b. now split.
  - destruct H as [->|H]; [|contradiction]. exists [], s. now split.
Qed.

Lemma host_reads : forall v h, reads (trim v) h -> authority_host v = h.
Proof.
  intros v h H. unfold authority_host; cbv zeta. remember (trim v) as a eqn:A. clear A.
  destruct H as [h x N|h x N1 N2 L|a L N|x y z L].
  - cbn [app]. rewrite Ascii.eqb_refl.
    replace (LBR :: h ++ RBR :: x) with ((LBR :: h) ++ RBR :: x) by reflexivity.
    rewrite find_char_app.
    + cbn [length]. unfold substr. cbn [app skipn]. rewrite Nat.sub_1_r. cbn [Nat.pred].
      now rewrite firstn_app, Nat.sub_diag, firstn_all, app_nil_r.
    + intros [I|I]; [discriminate I | contradiction].
  - cbn [app].
    assert (K : match rfind_char COLON_ (h ++ COLON_ :: x), find_char COLON_ (h ++ COLON_ :: x) with
                | Some i, Some j => if i =? j then firstn i (h ++ COLON_ :: x) else h ++ COLON_ :: x
                | _, _ => h ++ COLON_ :: x end = h).
    { rewrite (rfind_app COLON_ h x N2), (find_char_app COLON_ h x N1), Nat.eqb_refl.
      now rewrite firstn_app, Nat.sub_diag, firstn_all, app_nil_r. }
    assert (M : hd_error (h ++ COLON_ :: x) <> Some LBR).
    { destruct h as [|c h]; [discriminate | exact L]. }
    destruct (h ++ COLON_ :: x) as [|c r] eqn:E; [destruct h; discriminate E|]. 
    destruct (Ascii.eqb_spec c LBR) as [->|Q]; [exfalso; now apply M | exact K].
  - destruct a as [|c r]; [reflexivity|].
    destruct (Ascii.eqb_spec c LBR) as [->|Q]; [exfalso; now apply L|].
    now rewrite (rfind_none COLON_ (c :: r) N).
  - cbn [app]. set (a := x ++ COLON_ :: y ++ COLON_ :: z).
    assert (K : match rfind_char COLON_ a, find_char COLON_ a with
                | Some i, Some j => if i =? j then firstn i a else a
                | _, _ => a end = a).
    { assert (I : In COLON_ (COLON_ :: z)) by now left.
      destruct (find_char COLON_ a) as [j|] eqn:F.
      2:{ now destruct (rfind_char COLON_ a). }
      apply find_char_some in F as (p & q & E & Lp & Np).
      assert (Q : exists p' q', a = p' ++ COLON_ :: q' /\ ~ In COLON_ q' /\ length p < length p').
      { destruct (in_dec ascii_dec COLON_ q) as [Iq|Nq].
        - destruct (last_split COLON_ q Iq) as (s & t & -> & T). exists (p ++ COLON_ :: s), t.
          split; [rewrite E, <- app_assoc; reflexivity|]. split; [exact T|]. rewrite app_length. cbn. lia.
        - exfalso. unfold a in E.
          assert (count : forall s, length (filter (Ascii.eqb COLON_) s) = 0 <-> ~ In COLON_ s).
          { intros s. split.
            - intros Z J. assert (In COLON_ (filter (Ascii.eqb COLON_) s)) by (apply filter_In; split; [exact J | apply Ascii.eqb_refl]).
              destruct (filter _ s); [contradiction | discriminate Z].
            - intros J. induction s as [|d s IHs]; [reflexivity|]. cbn [filter].
              destruct (Ascii.eqb_spec COLON_ d) as [<-|ND]; [exfalso; apply J; now left|].
              apply IHs. intros W. apply J. now right. }
          apply (f_equal (fun s => length (filter (Ascii.eqb COLON_) s))) in E.
          apply count in Np, Nq. cbn [filter] in E. rewrite !filter_app in E. cbn [filter] in E.
          rewrite !Ascii.eqb_refl, !filter_app in E. cbn [filter] in E. rewrite !Ascii.eqb_refl in E.
          rewrite !app_length in E. cbn [length] in E. rewrite !app_length in E. cbn [length] in E.
          lia. }
      destruct Q as (p' & q' & E' & N' & LT). rewrite E' at 1. rewrite (rfind_app COLON_ p' q' N').
      destruct (Nat.eqb_spec (length p') j); [lia | reflexivity]. }
    destruct a as [|c r] eqn:A; [reflexivity|].
    assert (hd_error (c :: r) <> Some LBR).
    { rewrite <- A. unfold a in *. destruct x as [|d x]; cbn; [discriminate | exact L]. }
    destruct (Ascii.eqb_spec c LBR) as [->|Q]; [exfalso; apply H; reflexivity | exact K].
Qed.

(** Every text that is not an unclosed bracket is read in one way. *)
Lemma reads_total : forall a, (exists h, reads a h) \/ (hd_error a = Some LBR /\ ~ In RBR a).
Proof.
  intros a. destruct (Ascii.eqb_spec (hd SPACE a) LBR) as [E|E].
  - destruct a as [|c r]; [discriminate E|]. cbn in E. subst c.
    destruct (in_dec ascii_dec RBR r) as [I|N].
    + left. destruct (find_char RBR r) as [k|] eqn:F; [|apply find_char_none in F; contradiction].
      apply find_char_some in F as (p & q & -> & _ & NP). exists p. exact (r_bracket p q NP).
    + right. split; [reflexivity|]. intros [Q|Q]; [discriminate Q | contradiction].
  - left. assert (L : hd_error a <> Some LBR) by (destruct a; cbn in *; congruence).
    destruct (find_char COLON_ a) as [k|] eqn:F.
    + apply find_char_some in F as (p & q & -> & _ & NP).
      destruct (in_dec ascii_dec COLON_ q) as [I|N].
      * destruct (last_split COLON_ q I) as (s & t & -> & T). eexists.
        apply (r_many p s t). destruct p; cbn in *; congruence.
      * exists p. apply (r_port p q NP N). destruct p; cbn in *; congruence.
    + apply find_char_none in F. exists a. now constructor.
Qed.

Lemma host_unread : forall v, hd_error (trim v) = Some LBR -> ~ In RBR (trim v) -> authority_host v = [].
Proof.
  intros v H N. unfold authority_host; cbv zeta. destruct (trim v) as [|c r] eqn:T; [reflexivity|].
  assert (Q : c = LBR) by exact (f_equal (fun o => match o with Some x => x | None => c end) H). subst c. rewrite Ascii.eqb_refl.
  destruct (find_char RBR (LBR :: r)) eqn:F; [|reflexivity].
  apply find_char_some in F as (a & b & E & _). exfalso. apply N. rewrite E. apply in_or_app. right. now left.
Qed.

Section Loop.
Variable loopback : bstr -> bool.

Lemma local_host_iff : forall v, local_host loopback v = true <-> exists h, trimmed v h /\ local loopback h.
Proof.
  intros v. unfold local_host. split.
  - intros H. exists (trim v). split; [now apply trim_trimmed|].
    destruct (lower (trim v)) as [|c r] eqn:E; [discriminate H|].
    split; [intros Q; rewrite Q in E; discriminate E|]. rewrite E.
    apply orb_true_iff in H as [H|H]; [left; now apply beq_eq | now right].
  - intros (h & T & N & L). apply trim_trimmed in T. rewrite T.
    destruct (lower h) as [|c r] eqn:E.
    { exfalso. apply N. destruct h; [reflexivity | discriminate E]. }
    apply orb_true_iff. destruct L as [L|L]; [left; apply beq_eq; congruence | right; congruence].
Qed.

Lemma local_host_nil : local_host loopback [] = false.
Proof. reflexivity. Qed.

(** Any Host value. *)
Lemma host_local_iff : forall v, local_host loopback (authority_host v) = true <->
  exists a h h', trimmed v a /\ reads a h /\ trimmed h h' /\ local loopback h'.
Proof.
  intros v. split.
  - intros H. destruct (reads_total (trim v)) as [(h & R)|(A & B)].
    + exists (trim v), h. rewrite (host_reads v h R) in H. apply local_host_iff in H as (h' & T & L).
      exists h'. split; [now apply trim_trimmed|]. split; [exact R|]. split; assumption.
    + rewrite (host_unread v A B) in H. discriminate H.
  - intros (a & h & h' & T & R & T' & L). apply trim_trimmed in T. subst a.
    rewrite (host_reads v h R). apply local_host_iff. now exists h'.
Qed.

Lemma digits_no : forall d c, digits d -> is_digit c = false -> ~ In c d.
Proof. intros d c D E I. specialize (D c I). congruence. Qed.

Lemma digit_not_space : forall c, is_digit c = true -> is_space c = false.
Proof. intros c. destruct c as [[] [] [] [] [] [] [] []]; vm_compute; congruence. Qed.

Lemma names_reads : forall a h, names a h -> reads a h.
Proof.
  intros a h [h' p [N H] P|h' p [N H] P].
  - assert (L : hd_error h' <> Some LBR).
    { destruct h' as [|c r]; [discriminate|]. cbn. intros E. injection E as ->.
      apply (proj2 (H LBR (or_introl eq_refl))). cbn. auto. }
    assert (C : ~ In COLON_ h') by (intros I; apply (proj2 (H _ I)); cbn; auto).
    destruct P as [-> | (d & -> & D)].
    + rewrite app_nil_r. now constructor.
    + apply (r_port h' d); [exact C | now apply digits_no | exact L].
  - apply r_bracket. intros I. apply (proj2 (H _ I)). cbn. auto.
Qed.

Lemma names_nospace : forall a h, names a h -> (forall c, In c a -> is_space c = false) /\ (forall c, In c h -> is_space c = false).
Proof.
  intros a h [h' p [N H] P|h' p [N H] P].
  - split; [|intros c I; now apply H]. intros c I. apply in_app_or in I as [I|I]; [now apply H|].
    destruct P as [-> | (d & -> & D)]; [destruct I|]. destruct I as [<-|I]; [reflexivity|].
    apply digit_not_space, D, I.
  - split; [|intros c I; now apply H]. intros c I. cbn [app] in I. destruct I as [<-|I]; [reflexivity|].
    apply in_app_or in I as [I|I]; [now apply H|]. destruct I as [<-|I]; [reflexivity|].
    destruct P as [-> | (d & -> & D)]; [destruct I|]. destruct I as [<-|I]; [reflexivity|].
    apply digit_not_space, D, I.
Qed.

Lemma names_host : forall w a w' h, names a h -> spaces w -> spaces w' -> authority_host (w ++ a ++ w') = h.
Proof.
  intros w a w' h N W W'. apply host_reads. rewrite trim_pad; [now apply names_reads | exact W | exact W' | apply (names_nospace a h N)].
Qed.

Lemma local_plain : forall h, (forall c, In c h -> is_space c = false) ->
  (local_host loopback h = true <-> local loopback h).
Proof.
  intros h H. rewrite local_host_iff. split.
  - intros (h' & T & L). apply trim_trimmed in T. rewrite (trim_id h H) in T. now subst.
  - intros L. exists h. split; [|exact L]. apply trim_trimmed. now apply trim_id.
Qed.

Lemma names_accepted : forall w a w' h, names a h -> spaces w -> spaces w' ->
  (local_host loopback (authority_host (w ++ a ++ w')) = true <-> local loopback h).
Proof. intros w a w' h N W W'. rewrite (names_host w a w' h N W W'). apply local_plain, (names_nospace a h N). Qed.

Lemma names_no_slash : forall a h, names a h -> ~ In SLASH a.
Proof.
  intros a h [h' p [N H] P|h' p [N H] P] I.
  - apply in_app_or in I as [I|I]; [apply (proj2 (H _ I)); cbn; auto|].
    destruct P as [-> | (d & -> & D)]; [destruct I|]. destruct I as [Q|I]; [discriminate Q|]. now apply (digits_no d SLASH D).
  - cbn [app] in I. destruct I as [Q|I]; [discriminate Q|]. apply in_app_or in I as [I|I]; [apply (proj2 (H _ I)); cbn; auto|].
    destruct I as [Q|I]; [discriminate Q|].
    destruct P as [-> | (d & -> & D)]; [destruct I|]. destruct I as [Q|I]; [discriminate Q|]. now apply (digits_no d SLASH D).
Qed.

Lemma find_scheme : forall s r, (forall c, In c s -> c <> COLON_) ->
  find_sub (bs "://") (s ++ bs "://" ++ r) = Some (length s).
Proof.
  intros s r H. apply find_sub_intro.
  - rewrite skipn_app, skipn_all, Nat.sub_diag. cbn [skipn app]. apply starts_with_app.
  - rewrite app_length. lia.
  - intros j J. rewrite skipn_app. replace (j - length s) with 0 by lia. cbn [skipn].
    destruct (skipn j s) as [|c q] eqn:E.
    { apply (f_equal (@length ascii)) in E. rewrite skipn_length in E. cbn in E. lia. }
    assert (I : In c s) by (rewrite <- (firstn_skipn j s), E; apply in_or_app; right; now left).
    cbn [app]. change (bs "://") with (COLON_ :: bs "//"). cbn [starts_with].
    destruct (Ascii.eqb_spec COLON_ c) as [Q|Q]; [exfalso; apply (H c I); congruence | reflexivity].
Qed.

Lemma origin_host_names : forall w o w' h, origin_names o h -> spaces w -> spaces w' -> origin_host (w ++ o ++ w') = Some h.
Proof.
  intros w o w' h (s & a & p & -> & NS & S & N & P) W W'.
  assert (NSP : forall c, In c (s ++ bs "://" ++ a ++ p) -> is_space c = false).
  { intros c I. apply in_app_or in I as [I|I]; [now apply S|].
    apply in_app_or in I as [I|I].
    - cbn in I. decompose [or] I; try contradiction; subst c; reflexivity.
    - apply in_app_or in I as [I|I]; [now apply (proj1 (names_nospace a h N))|].
      destruct P as [-> | (q & -> & Q)]; [destruct I|]. destruct I as [<-|I]; [reflexivity | now apply Q]. }
  unfold origin_host. rewrite (trim_pad w _ w' W W' NSP).
  destruct (s ++ bs "://" ++ a ++ p) as [|x y] eqn:E; [destruct s; [congruence | discriminate E]|].
  rewrite <- E. rewrite find_scheme by (intros c I; now apply S). f_equal.
  replace (skipn (length s + 3) (s ++ bs "://" ++ a ++ p)) with (a ++ p).
  2:{ rewrite app_assoc. rewrite skipn_app.
      replace (length s + 3) with (length (s ++ bs "://")) by (rewrite app_length; reflexivity).
      now rewrite skipn_all, Nat.sub_diag. }
  assert (Q : match find_char SLASH (a ++ p) with None => a ++ p | Some k => firstn k (a ++ p) end = a).
  { destruct P as [-> | (q & -> & Q)].
    - rewrite app_nil_r. assert (F : find_char SLASH a = None) by (apply find_char_none; now apply (names_no_slash a h)).
      now rewrite F.
    - rewrite find_char_app by now apply (names_no_slash a h).
      now rewrite firstn_app, Nat.sub_diag, firstn_all, app_nil_r. }
  transitivity (authority_host a); [exact (f_equal authority_host Q)|].
  rewrite <- (app_nil_r a). change (a ++ []) with ([] ++ a ++ []). apply names_host; [exact N | intros c [] | intros c []].
Qed.

Lemma lower_space_eq : forall c, is_space (to_lower c) = is_space c.
Proof. intros c. destruct c as [[] [] [] [] [] [] [] []]; reflexivity. Qed.

Lemma lower_idem : forall s, lower (lower s) = lower s.
Proof.
  intros s. unfold lower. rewrite map_map. apply map_ext. intros c.
  destruct c as [[] [] [] [] [] [] [] []]; reflexivity.
Qed.

Lemma guarded_iff : forall addr, bound_local loopback addr -> guarded loopback addr = true.
Proof.
  intros addr (w & a & w' & -> & W & W' & (NE & L) & S). unfold guarded, lower. rewrite !map_app.
  assert (SM : forall x, spaces x -> spaces (map to_lower x)).
  { intros x X c I. apply in_map_iff in I as (d & <- & I). rewrite lower_space_eq. now apply X. }
  rewrite trim_pad; [|now apply SM|now apply SM|].
  2:{ intros c I. apply in_map_iff in I as (d & <- & I). rewrite lower_space_eq. now apply S. }
  apply orb_true_iff. destruct L as [L|L]; [left; now apply beq_eq | now right].
Qed.

Lemma check_local_none_iff : forall addr host origin,
  check_local loopback addr host origin = None <->
  (guarded loopback addr = false \/
   (local_host loopback (authority_host host) = true /\
    (origin = [] \/ exists h, origin_host origin = Some h /\ local_host loopback h = true))).
Proof.
  intros addr host origin. unfold check_local. destruct (guarded loopback addr); cbn [negb].
  2:{ split; [now left | reflexivity]. }
  destruct (local_host loopback (authority_host host)) eqn:H; cbn [negb].
  2:{ split; [discriminate|]. intros [Q|[Q _]]; discriminate Q. }
  destruct origin as [|c o].
  { split; [intros _; right; split; [reflexivity | now left] | reflexivity]. }
  destruct (origin_host (c :: o)) as [h|].
  - destruct (local_host loopback h) eqn:L; split; try discriminate; try reflexivity.
    + intros _. right. split; [reflexivity|]. right. now exists h.
    + intros [Q|[_ [Q|(h' & E & Q)]]]; [discriminate Q | discriminate Q|]. injection E as <-. congruence.
  - split; [discriminate|]. intros [Q|[_ [Q|(h' & E & Q)]]]; discriminate.
Qed.

Lemma check_version_iff : forall v e, check_version v e = true <->
  (v = [] \/ v = e \/ (e = PROTO /\ (v = bs "2025-03-26" \/ v = bs "2025-06-18"))).
Proof.
  intros v e. unfold check_version. destruct v as [|c r].
  { split; [intros _; now left | reflexivity]. }
  set (v := c :: r). rewrite orb_true_iff, andb_true_iff, !beq_eq. cbn [existsb]. rewrite !orb_true_iff, !beq_eq.
  split.
  - intros [H|(E & [H|[H|[H|H]]])]; [right; now left | right; right; split; [exact E | now left] |
      right; right; split; [exact E | now right] | right; left; congruence | discriminate H].
  - intros [H|[H|(E & [H|H])]]; [discriminate H | now left | right; split; [exact E | now left] |
      right; split; [exact E | right; now left]].
Qed.
End Loop.
