From Coq Require Import Ascii String List Permutation Arith NArith ZArith Bool Lia ZifyBool ZifyNat ZifyN.
From Verif Require Import StrModel StrProofs DoubleModel JsonModel MapModel MapProofs TaskModel DescModel RegModel RegSpec RegProofs TmplModel TmplSpec.
Import ListNotations.
Local Open Scope nat_scope.

Lemma find_char_some : forall c s i, find_char c s = Some i -> s = firstn i s ++ c :: skipn (S i) s /\ ~ In c (firstn i s) /\ i < length s.
Proof.
  intros c s. induction s as [|x s IH]; intros i H; [discriminate|]. cbn in H. destruct (Ascii.eqb x c) eqn:E.
  - injection H as <-. apply Ascii.eqb_eq in E. subst x. cbn. split; [reflexivity|]. split; [intros []|lia].
  - destruct (find_char c s) as [k|] eqn:Ek; [|discriminate]. injection H as <-. destruct (IH k eq_refl) as (H1 & H2 & H3). cbn [firstn skipn app length]. split.
    + f_equal. exact H1.
    + split; [|lia]. intros [H|H]; [|now apply H2]. subst x. rewrite Ascii.eqb_refl in E. discriminate.
Qed.

Lemma find_char_none : forall c s, find_char c s = None <-> ~ In c s.
Proof.
  intros c s. induction s as [|x s IH]; [easy|]. cbn. destruct (Ascii.eqb x c) eqn:E.
  - apply Ascii.eqb_eq in E. subst x. split; [discriminate|intro H; exfalso; apply H; now left].
  - destruct (find_char c s) as [k|].
    + split; [discriminate|]. intro H. exfalso. assert (In c s -> False) as K by (intro Hc; apply H; now right). apply IH in K. discriminate.
    + split; [|reflexivity]. intros _ [H|H]; [subst x; rewrite Ascii.eqb_refl in E; discriminate|]. now apply IH in H.
Qed.

Lemma find_char_at : forall c p r, ~ In c p -> find_char c (p ++ c :: r) = Some (length p).
Proof.
  intros c p r. induction p as [|x p IH]; intro H; cbn; [now rewrite Ascii.eqb_refl|]. destruct (Ascii.eqb x c) eqn:E.
  - apply Ascii.eqb_eq in E. subst x. exfalso. apply H. now left.
  - rewrite IH; [reflexivity|]. intro Hc. apply H. now right.
Qed.

(** The tokenizer. *)
Lemma tokenize_total : forall f s, length s < f -> tokenize f s <> TokFuel.
Proof.
  induction f as [|f IH]; intros s H; [lia|]. cbn [tokenize]. destruct s as [|x s]; [discriminate|].
  remember (x :: s) as w. destruct (find_char LBRACE w) as [i|] eqn:E; [|discriminate].
  destruct (find_char RBRACE (skipn (S i) w)) as [[|j]|] eqn:E2; try discriminate.
  destruct (tokenize f (skipn (S (S j)) (skipn (S i) w))) eqn:E3; try discriminate. intros _. revert E3. apply IH.
  apply find_char_some in E. rewrite !skipn_length. lia.
Qed.

Lemma tokenize_sound : forall f s ts, tokenize f s = TokOk ts -> written ts = s /\ well_formed ts.
Proof.
  induction f as [|f IH]; intros s ts H; [discriminate|]. cbn [tokenize] in H. destruct s as [|x s]; [injection H as <-; split; [reflexivity|constructor]|].
  remember (x :: s) as w. destruct (find_char LBRACE w) as [i|] eqn:E.
  - destruct (find_char_some _ _ _ E) as (H1 & H2 & H3).
    destruct (find_char RBRACE (skipn (S i) w)) as [[|j]|] eqn:E2; try discriminate.
    destruct (find_char_some _ _ _ E2) as (H4 & H5 & H6).
    destruct (tokenize f (skipn (S (S j)) (skipn (S i) w))) as [| |l] eqn:E3; try discriminate. injection H as <-.
    destruct (IH _ _ E3) as (H7 & H8).
    assert (well_formed (TVar (firstn (S j) (skipn (S i) w)) :: l)) as W.
    { constructor; [|exact H8]. split; [|exact H5]. intro Hn. apply (f_equal (@length ascii)) in Hn. rewrite firstn_length in Hn. cbn [length] in Hn. lia. }
    assert (written (TVar (firstn (S j) (skipn (S i) w)) :: l) = LBRACE :: skipn (S i) w) as V.
    { cbn [written]. rewrite H7. change (bs "{" ++ ?y) with (LBRACE :: y). f_equal. change (bs "}" ++ ?y) with (RBRACE :: y). now symmetry. }
    destruct i as [|i].
    + split; [|exact W]. cbn [app]. refine (eq_trans V _). now symmetry.
    + split; [|constructor; [exact H2|exact W]]. cbn [app]. refine (eq_trans (f_equal (app (firstn (S i) w)) V) _). now symmetry.
  - injection H as <-. cbn [written]. rewrite app_nil_r. split; [reflexivity|]. constructor; [|constructor]. now apply find_char_none.
Qed.

Lemma tokenize_complete : forall ts lit f, well_formed ts -> ~ In LBRACE lit -> length (lit ++ written ts) < f ->
  exists ts', tokenize f (lit ++ written ts) = TokOk ts' /\ (forall u, filled ts u -> filled ts' (lit ++ u)) /\
    names ts' = names ts /\ (forall v, replaced v ts' = lit ++ replaced v ts).
Proof.
  induction ts as [|t ts IH]; intros lit f W L Hf.
  - cbn [written]. rewrite app_nil_r. destruct f as [|f]; [lia|]. destruct lit as [|c lit].
    + exists []. split; [reflexivity|]. split; [now intros|]. now split.
    + remember (c :: lit) as w. assert (tokenize (S f) w = TokOk [TLit w]) as ->.
      { cbn [tokenize]. subst w. apply find_char_none in L. now rewrite L. }
      exists [TLit w]. split; [reflexivity|]. split; [|split; [reflexivity|reflexivity]]. intros u H. now constructor.
  - inversion W as [|t' ts' Wt Wr]; subst. destruct t as [s|n].
    + cbn [written] in *. destruct (IH (lit ++ s) f Wr) as (ts' & E & F & Nm & Rp).
      * intro H. apply in_app_or in H. destruct H as [H|H]; [now apply L|now apply Wt].
      * now rewrite <- app_assoc.
      * rewrite <- app_assoc in E. exists ts'. split; [exact E|]. split; [|split; [exact Nm|intro v; rewrite Rp; cbn [replaced]; now rewrite app_assoc]].
        intros u H. inversion H as [|s0 r0 u0 H0|]; subst. rewrite app_assoc. now apply F.
    + destruct Wt as [Wn Wb]. cbn [written] in *. change (bs "{" ++ ?y) with (LBRACE :: y) in *. change (bs "}" ++ ?y) with (RBRACE :: y) in *.
      destruct f as [|f]; [lia|].
      destruct (IH [] f Wr) as (ts' & E & F & Nm & Rp); [intros []|cbn [app]; rewrite app_length in Hf; cbn [length] in Hf; rewrite app_length in Hf; cbn [length] in Hf; lia|].
      cbn [app] in E, F, Rp.
      assert (tokenize (S f) (lit ++ LBRACE :: n ++ RBRACE :: written ts) = TokOk (match lit with [] => [] | _ :: _ => [TLit lit] end ++ TVar n :: ts')) as ET.
      { cbn [tokenize]. destruct (lit ++ LBRACE :: n ++ RBRACE :: written ts) as [|c w] eqn:Ew; [now destruct lit|]. rewrite <- Ew.
        rewrite (find_char_at LBRACE lit _ L).
        assert (skipn (S (length lit)) (lit ++ LBRACE :: n ++ RBRACE :: written ts) = n ++ RBRACE :: written ts) as ->.
        { rewrite skipn_app. rewrite skipn_all2 by lia. replace (S (length lit) - length lit) with 1 by lia. reflexivity. }
        rewrite (find_char_at RBRACE n _ Wb). destruct n as [|c0 n]; [contradiction|]. cbn [length].
        assert (skipn (S (S (length n))) ((c0 :: n) ++ RBRACE :: written ts) = written ts) as ->.
        { rewrite skipn_app. rewrite skipn_all2 by (cbn [length]; lia). cbn [length]. replace (S (S (length n)) - S (length n)) with 1 by lia. reflexivity. }
        rewrite E. f_equal.
        assert (firstn (S (length n)) ((c0 :: n) ++ RBRACE :: written ts) = c0 :: n) as ->.
        { change (S (length n)) with (length (c0 :: n)). rewrite firstn_app, firstn_all, Nat.sub_diag. cbn [firstn]. now rewrite app_nil_r. }
        f_equal. destruct lit as [|c1 lit]; [reflexivity|]. cbn [length].
        change (S (length lit)) with (length (c1 :: lit)). rewrite firstn_app, firstn_all, Nat.sub_diag. cbn [firstn]. now rewrite app_nil_r. }
      rewrite ET. eexists. split; [reflexivity|]. split; [|split].
      * intros u H. inversion H as [| |n0 v r0 u0 H0]; subst. destruct lit as [|c lit].
        -- cbn [app]. constructor. now apply F.
        -- change ([TLit (c :: lit)] ++ TVar n :: ts') with (TLit (c :: lit) :: TVar n :: ts'). constructor. constructor. now apply F.
      * destruct lit as [|c lit]; cbn [app names flat_map]; f_equal; exact Nm.
      * intro v. destruct lit as [|c lit]; cbn [app replaced]; now rewrite Rp.
Qed.

(** The matcher. *)
Definition loop_of (r : list token) (u : bstr) (n : bstr) (previous : option bstr) : nat -> nat -> vars -> bool * vars :=
  fix loop (m k : nat) (vs : vars) {struct m} : bool * vars :=
    match m with
    | 0 => (false, match previous with Some x => aset n x vs | None => adel n vs end)
    | S m' =>
        match tmatch r (skipn k u) (aset n (firstn k u) vs) with
        | (true, vs') => (true, vs')
        | (false, vs') => loop m' (S k) vs'
        end
    end.

Lemma tmatch_var : forall n r u vs, tmatch (TVar n :: r) u vs = loop_of r u n (aget n vs) (S (length u)) 0 vs.
Proof. reflexivity. Qed.

(** A failed attempt leaves the variables it does not own as they were; we only need that a
    lookup is unchanged. *)
Lemma tmatch_false : forall ts u vs vs', tmatch ts u vs = (false, vs') -> forall k, aget k vs' = aget k vs.
Proof.
  induction ts as [|[s|n] r IH]; intros u vs vs' H k.
  - cbn in H. destruct u; [discriminate|now injection H as <-].
  - cbn in H. destruct (starts_with s u); [exact (IH _ _ _ H k)|now injection H as <-].
  - rewrite tmatch_var in H. remember (aget n vs) as prev eqn:Ep. symmetry in Ep.
    assert (forall m j vs0, (forall k, k <> n -> aget k vs0 = aget k vs) -> loop_of r u n prev m j vs0 = (false, vs') -> forall k, aget k vs' = aget k vs) as K.
    { induction m as [|m IHm]; intros j vs0 H0 HL q.
      - cbn in HL. injection HL as <-. destruct prev as [x|].
        + destruct (list_eq_dec ascii_dec q n) as [-> |E]; [rewrite aget_aset_same; now symmetry|rewrite aget_aset_other by exact E; now apply H0].
        + destruct (list_eq_dec ascii_dec q n) as [-> |E]; [rewrite aget_adel_same; now symmetry|rewrite aget_adel_other by exact E; now apply H0].
      - cbn [loop_of] in HL. destruct (tmatch r (skipn j u) (aset n (firstn j u) vs0)) as [[|] vs1] eqn:E1; [discriminate|].
        apply (IHm (S j) vs1); [|exact HL]. intros q' Hq. rewrite (IH _ _ _ E1), aget_aset_other by exact Hq. now apply H0. }
    apply (K _ _ _ (fun k _ => eq_refl) H).
Qed.

Lemma tmatch_true : forall ts u vs vs', tmatch ts u vs = (true, vs') ->
  filled ts u /\ (forall k, ~ In k (names ts) -> aget k vs' = aget k vs) /\ (forall k, In k (names ts) -> aget k vs' <> None) /\
  (NoDup (names ts) -> u = replaced (value_in vs') ts).
Proof.
  induction ts as [|[s|n] r IH]; intros u vs vs' H.
  - cbn in H. destruct u; [|discriminate]. injection H as <-. split; [constructor|]. split; [reflexivity|]. split; [intros k []|reflexivity].
  - cbn in H. destruct (starts_with s u) eqn:E; [|discriminate]. apply starts_with_iff in E. destruct E as (w & ->).
    rewrite skipn_app, skipn_all, Nat.sub_diag in H. cbn [skipn app] in H. destruct (IH _ _ _ H) as (H1 & H2 & H3 & H4).
    split; [now constructor|]. split; [exact H2|]. split; [exact H3|]. intro N. cbn [replaced]. f_equal. now apply H4.
  - rewrite tmatch_var in H. remember (aget n vs) as prev eqn:Ep. clear Ep.
    assert (forall m j vs0, (forall k, k <> n -> aget k vs0 = aget k vs) -> loop_of r u n prev m j vs0 = (true, vs') ->
            exists j' vs1, (forall k, k <> n -> aget k vs1 = aget k vs) /\ tmatch r (skipn j' u) (aset n (firstn j' u) vs1) = (true, vs')) as K.
    { induction m as [|m IHm]; intros j vs0 H0 HL; [discriminate|]. cbn [loop_of] in HL.
      destruct (tmatch r (skipn j u) (aset n (firstn j u) vs0)) as [[|] vs1] eqn:E1.
      - injection HL as ->. now exists j, vs0.
      - apply (IHm (S j) vs1); [|exact HL]. intros q Hq. rewrite (tmatch_false _ _ _ _ E1), aget_aset_other by exact Hq. now apply H0. }
    destruct (K _ _ _ (fun k _ => eq_refl) H) as (j & vs1 & K1 & K2). destruct (IH _ _ _ K2) as (H1 & H2 & H3 & H4).
    split; [|split; [|split]].
    + rewrite <- (firstn_skipn j u). now constructor.
    + intros k Hk. cbn [names flat_map app] in Hk. rewrite H2 by (intro Hi; apply Hk; now right). assert (k <> n) as Hn by (intros ->; apply Hk; now left). rewrite aget_aset_other by exact Hn. now apply K1.
    + intros k Hk. destruct (in_dec (list_eq_dec ascii_dec) k (names r)) as [Hi|Hi]; [now apply H3|]. rewrite (H2 k Hi).
      destruct Hk as [<- |Hk]; [now rewrite aget_aset_same|contradiction].
    + intro N. cbn [names flat_map app] in N. inversion N as [|n' l N1 N2]; subst. cbn [replaced]. rewrite <- (H4 N2).
      unfold value_in. rewrite (H2 n N1), aget_aset_same. now rewrite firstn_skipn.
Qed.

Lemma tmatch_complete : forall ts u, filled ts u -> forall vs, exists vs', tmatch ts u vs = (true, vs').
Proof.
  intros ts u F. induction F as [|s r u F IH|n v r u F IH]; intro vs.
  - now exists vs.
  - cbn. assert (starts_with s (s ++ u) = true) as -> by (apply starts_with_iff; now exists u).
    rewrite skipn_app, skipn_all, Nat.sub_diag. cbn [skipn app]. apply IH.
  - rewrite tmatch_var. generalize (aget n vs). intro prev.
    assert (forall d j vs0, j + d = length v -> forall m, d < m -> exists vs', loop_of r (v ++ u) n prev m j vs0 = (true, vs')) as K.
    { induction d as [|d IHd]; intros j vs0 Hj m Hm; (destruct m as [|m]; [lia|]); cbn [loop_of];
      destruct (tmatch r (skipn j (v ++ u)) (aset n (firstn j (v ++ u)) vs0)) as [[|] vs1] eqn:E1; eauto.
      - exfalso. assert (j = length v) as -> by lia. rewrite skipn_app, skipn_all, Nat.sub_diag in E1. cbn [skipn app] in E1.
        destruct (IH (aset n (firstn (length v) (v ++ u)) vs0)) as (vs' & E). congruence.
      - apply IHd; lia. }
    apply (K (length v) 0 vs); [reflexivity|]. rewrite app_length. lia.
Qed.

Lemma match_sound : forall t u vs, match_template t u = Some vs ->
  exists ts, written ts = t /\ well_formed ts /\ filled ts u /\ (forall k, aget k vs <> None <-> In k (names ts)) /\
    (NoDup (names ts) -> u = replaced (value_in vs) ts).
Proof.
  intros t u vs H. unfold match_template in H. destruct (tokenize (S (length t)) t) as [| |ts] eqn:E; try discriminate.
  destruct (tmatch ts u []) as [[|] vs'] eqn:E1; [|discriminate]. injection H as ->.
  destruct (tokenize_sound _ _ _ E) as (H1 & H2). destruct (tmatch_true _ _ _ _ E1) as (H3 & H4 & H5 & H6). exists ts.
  split; [exact H1|]. split; [exact H2|]. split; [exact H3|]. split; [|exact H6]. intro k. split; [|apply H5].
  intro H. destruct (in_dec (list_eq_dec ascii_dec) k (names ts)) as [Hi|Hi]; [exact Hi|]. exfalso. apply H. now apply H4.
Qed.

Lemma match_complete : forall t u, instance t u -> exists vs, match_template t u = Some vs.
Proof.
  intros t u (ts & <- & W & F). unfold match_template.
  destruct (tokenize_complete ts [] (S (length (written ts))) W) as (ts' & E & F' & _); [intros []|cbn [app]; lia|]. cbn [app] in E. rewrite E.
  destruct (tmatch_complete ts' u (F' u F) []) as (vs & ->). now exists vs.
Qed.

Lemma match_iff : forall t u, (exists vs, match_template t u = Some vs) <-> instance t u.
Proof.
  intros t u. split; [|apply match_complete]. intros (vs & H). destruct (match_sound _ _ _ H) as (ts & H1 & H2 & H3 & _). now exists ts.
Qed.

Lemma replaced_filled : forall v ts, filled ts (replaced v ts).
Proof. intros v ts. induction ts as [|[s|n] r IH]; cbn; now constructor. Qed.

(** Resolution. *)
Lemma resolve_templates_spec : forall l u acc,
  match resolve_templates l u acc with
  | RDirect _ => False
  | RTemplate h vs =>
      (acc = Some (h, vs) /\ forall t h', In (t, Some h') l -> match_template (tp_uri t) u = None) \/
      (acc = None /\ exists l1 t l2, l = l1 ++ (t, Some h) :: l2 /\ match_template (tp_uri t) u = Some vs /\
         forall t' h', In (t', Some h') (l1 ++ l2) -> match_template (tp_uri t') u = None)
  | RAmbiguous =>
      (acc <> None /\ exists t h, In (t, Some h) l /\ match_template (tp_uri t) u <> None) \/
      (exists l1 t1 h1 l2 t2 h2 l3, l = l1 ++ (t1, Some h1) :: l2 ++ (t2, Some h2) :: l3 /\
         match_template (tp_uri t1) u <> None /\ match_template (tp_uri t2) u <> None)
  | RNone => acc = None /\ forall t h, In (t, Some h) l -> match_template (tp_uri t) u = None
  end.
Proof.
  induction l as [|[t [h|]] l IH]; intros u acc; cbn [resolve_templates].
  - destruct acc as [[h vs]|]; [left; split; [reflexivity|intros t h' []]|split; [reflexivity|intros t h []]].
  - destruct (match_template (tp_uri t) u) as [vs|] eqn:E.
    + destruct acc as [p|].
      * left. split; [discriminate|]. exists t, h. split; [now left|congruence].
      * specialize (IH u (Some (h, vs))). destruct (resolve_templates l u (Some (h, vs))) as [h'|h' vs'| |].
        -- destruct IH.
        -- right. split; [reflexivity|]. destruct IH as [[E1 IH]|[E1 _]]; [|discriminate]. injection E1 as <- <-.
           exists [], t, l. split; [reflexivity|]. split; [exact E|exact IH].
        -- right. destruct IH as [[_ (t2 & h2 & Hi & Hm)]|IH].
           ++ apply in_split in Hi. destruct Hi as (l2 & l3 & ->). exists [], t, h, l2, t2, h2, l3. split; [reflexivity|]. split; [congruence|exact Hm].
           ++ destruct IH as (l1 & t1 & h1 & l2 & t2 & h2 & l3 & -> & M1 & M2). exists ((t, Some h) :: l1), t1, h1, l2, t2, h2, l3. now split.
        -- destruct IH as [E1 _]. discriminate.
    + specialize (IH u acc). destruct (resolve_templates l u acc) as [h'|h' vs'| |].
      * destruct IH.
      * destruct IH as [[E1 IH]|[E1 (l1 & t1 & l2 & -> & M & IH)]].
        -- left. split; [exact E1|]. intros t' h'' [H|H]; [injection H as <- <-; exact E|now apply IH with h''].
        -- right. split; [exact E1|]. exists ((t, Some h) :: l1), t1, l2. split; [reflexivity|]. split; [exact M|].
           intros t' h'' [H|H]; [injection H as <- <-; exact E|now apply IH with h''].
      * destruct IH as [[E1 (t2 & h2 & Hi & M)]|(l1 & t1 & h1 & l2 & t2 & h2 & l3 & -> & M)].
        -- left. split; [exact E1|]. exists t2, h2. split; [now right|exact M].
        -- right. exists ((t, Some h) :: l1), t1, h1, l2, t2, h2, l3. now split.
      * destruct IH as [E1 IH]. split; [exact E1|]. intros t' h'' [H|H]; [injection H as <- <-; exact E|now apply IH with h''].
  - specialize (IH u acc). destruct (resolve_templates l u acc) as [h'|h' vs'| |].
    + destruct IH.
    + destruct IH as [[E1 IH]|[E1 (l1 & t1 & l2 & -> & M & IH)]].
      * left. split; [exact E1|]. intros t' h'' [H|H]; [discriminate|now apply IH with h''].
      * right. split; [exact E1|]. exists ((t, None) :: l1), t1, l2. split; [reflexivity|]. split; [exact M|].
        intros t' h'' [H|H]; [discriminate|now apply IH with h''].
    + destruct IH as [[E1 (t2 & h2 & Hi & M)]|(l1 & t1 & h1 & l2 & t2 & h2 & l3 & -> & M)].
      * left. split; [exact E1|]. exists t2, h2. split; [now right|exact M].
      * right. exists ((t, None) :: l1), t1, h1, l2, t2, h2, l3. now split.
    + destruct IH as [E1 IH]. split; [exact E1|]. intros t' h'' [H|H]; [discriminate|now apply IH with h''].
Qed.

Lemma match_none : forall t u, match_template t u = None <-> ~ instance t u.
Proof.
  intros t u. rewrite <- match_iff. destruct (match_template t u) as [vs|]; split; try easy.
  - intro H. exfalso. apply H. now exists vs.
  - intros _ (vs & E). discriminate.
Qed.

Lemma match_some : forall t u, match_template t u <> None <-> instance t u.
Proof.
  intros t u. rewrite <- match_iff. destruct (match_template t u) as [vs|]; split; try easy.
  - intros _. now exists vs.
  - intros (vs & E). discriminate.
Qed.

Lemma serves_in : forall ops u t h, serves ops u t h <-> In (t, Some h) (rg_rt (reg_run ops)) /\ instance (tp_uri t) u.
Proof. intros ops u t h. unfold serves. now rewrite (proj1 (proj2 (minv_run ops))). Qed.

Lemma resolve_spec : forall ops u,
  match resolve (reg_run ops) u with
  | RDirect h => exists r, resource_now u (rev ops) = Some (r, h)
  | RTemplate h vs => resource_now u (rev ops) = None /\
      exists t, serves ops u t h /\ (forall t' h', serves ops u t' h' -> t' = t) /\
        exists ts, written ts = tp_uri t /\ well_formed ts /\ (forall k, aget k vs <> None <-> In k (names ts)) /\
          (NoDup (names ts) -> u = replaced (value_in vs) ts)
  | RAmbiguous => resource_now u (rev ops) = None /\
      exists t1 h1 t2 h2, tp_uri t1 <> tp_uri t2 /\ serves ops u t1 h1 /\ serves ops u t2 h2
  | RNone => resource_now u (rev ops) = None /\ forall t h, ~ serves ops u t h
  end.
Proof.
  intros ops u. unfold resolve. destruct (rinv_run ops) as (_ & _ & H1 & _). rewrite H1.
  destruct (resource_now u (rev ops)) as [[r h]|] eqn:E; cbn [option_map snd]; [now exists r|].
  pose proof (resolve_templates_spec (rg_rt (reg_run ops)) u None) as S.
  destruct (minv_run ops) as (N & _). destruct (resolve_templates (rg_rt (reg_run ops)) u None) as [h|h vs| |].
  - destruct S.
  - destruct S as [[S _]|[_ (l1 & t & l2 & El & M & Hno)]]; [discriminate|]. split; [reflexivity|]. exists t.
    destruct (match_sound _ _ _ M) as (ts & G1 & G2 & G3 & G4 & G5). split; [|split].
    + apply serves_in. split; [rewrite El; apply in_or_app; right; now left|]. now exists ts.
    + intros t' h' H. apply serves_in in H. destruct H as [Hi Hs]. rewrite El in Hi. apply in_app_or in Hi.
      assert (~ In (t', Some h') (l1 ++ l2)) as Q by (intro Q; apply Hno in Q; now apply match_none in Q).
      destruct Hi as [Hi|[Hi|Hi]]; [exfalso; apply Q, in_or_app; now left|now injection Hi as <- <-|exfalso; apply Q, in_or_app; now right].
    + exists ts. split; [exact G1|]. split; [exact G2|]. now split.
  - destruct S as [[S _]|(l1 & t1 & h1 & l2 & t2 & h2 & l3 & El & M1 & M2)]; [now contradiction S|]. split; [reflexivity|].
    exists t1, h1, t2, h2. split; [|split].
    + intro Eu. rewrite El in N. rewrite map_app in N. cbn [map fst] in N. apply NoDup_remove_2 in N. apply N. apply in_or_app. right.
      rewrite Eu, map_app. apply in_or_app. right. now left.
    + apply serves_in. split; [rewrite El; apply in_or_app; right; now left|]. now apply match_some.
    + apply serves_in. split; [rewrite El; apply in_or_app; right; right; apply in_or_app; right; now left|]. now apply match_some.
  - destruct S as [_ S]. split; [reflexivity|]. intros t h H. apply serves_in in H. destruct H as [Hi Hs]. apply S in Hi. now apply match_none in Hi.
Qed.
