From Coq Require Import Ascii String List Arith NArith ZArith Bool Lia.
From Verif Require Import StrModel StrProofs MapModel MapProofs AuthModel AuthSpec AuthProofs WwwModel WwwSpec.
Import ListNotations.
Local Open Scope nat_scope.

Lemma is_ht_iff : forall c, is_ht c = true <-> c = SPACE \/ c = TAB.
Proof. intros c. unfold is_ht. rewrite orb_true_iff, !Ascii.eqb_eq. reflexivity. Qed.

Lemma stops_iff : forall c, stops c = true <-> In c [SPACE; TAB; EQUALS; COMMA_; QUOTE].
Proof.
  intros c. unfold stops. rewrite !orb_true_iff, is_ht_iff, !Ascii.eqb_eq. cbn [In].
  intuition congruence.
Qed.

Lemma blank_ht : forall w, blank w -> forallb is_ht w = true.
Proof. intros w H. apply forallb_forall. intros c I. apply is_ht_iff, H, I. Qed.

Lemma skip_blank : forall w s, blank w -> skip_ht (w ++ s) = skip_ht s.
Proof.
  unfold skip_ht. induction w as [|c w IH]; intros s B; [reflexivity|]. cbn.
  rewrite (proj2 (is_ht_iff c)) by (apply B; now left). apply IH. intros d I. apply B. now right.
Qed.

Lemma skip_no : forall c s, is_ht c = false -> skip_ht (c :: s) = c :: s.
Proof. intros c s H. cbn. unfold skip_ht. cbn. now rewrite H. Qed.

Lemma skip_length : forall s, length (skip_ht s) <= length s.
Proof. unfold skip_ht. induction s as [|c s IH]; cbn; [lia|]. destruct (is_ht c); cbn; lia. Qed.

Lemma name_stops : forall k, name k -> forallb (fun c => negb (stops c)) k = true.
Proof.
  intros k [_ H]. apply forallb_forall. intros c I. apply negb_true_iff, not_true_iff_false.
  rewrite stops_iff. now apply H.
Qed.

Lemma span_app : forall p a b, forallb p a = true ->
  (match b with [] => True | c :: _ => p c = false end) -> span p (a ++ b) = (a, b).
Proof.
  induction a as [|x a IH]; intros b F G; cbn in *.
  - destruct b; [reflexivity|]. cbn. now rewrite G.
  - apply andb_true_iff in F as [F1 F2]. rewrite F1, (IH b F2 G). reflexivity.
Qed.

Lemma span_spec : forall p s a b, span p s = (a, b) ->
  s = a ++ b /\ forallb p a = true /\ (match b with [] => True | c :: _ => p c = false end).
Proof.
  induction s as [|c s IH]; cbn; intros a b H.
  - injection H as <- <-. repeat split.
  - destruct (p c) eqn:P.
    + destruct (span p s) as [x y] eqn:E. injection H as <- <-. destruct (IH x y eq_refl) as (A & B & C).
      cbn. rewrite P, B, <- A. repeat split. exact C.
    + injection H as <- <-. repeat split. exact P.
Qed.

Lemma token_name : forall k r, name k ->
  (match r with [] => True | c :: _ => stops c = true end) -> parse_token (k ++ r) = Some (k, r).
Proof.
  intros k r N H. unfold parse_token. rewrite span_app.
  - destruct k as [|c k]; [destruct N as [N _]; congruence | reflexivity].
  - now apply name_stops.
  - destruct r; [exact I|]. now rewrite H.
Qed.

Lemma token_inv : forall s t r, parse_token s = Some (t, r) ->
  s = t ++ r /\ name t /\ (match r with [] => True | c :: _ => stops c = true end).
Proof.
  unfold parse_token. intros s t r H. destruct (span _ s) as [a b] eqn:E.
  apply span_spec in E as (A & B & C). destruct a as [|x a]; [discriminate|]. injection H as <- <-.
  split; [exact A|]. split.
  - split; [discriminate|]. intros c I J. rewrite forallb_forall in B. specialize (B c I).
    apply stops_iff in J. rewrite J in B. discriminate.
  - destruct b; [exact I|]. destruct (stops a0); [reflexivity | discriminate].
Qed.

Lemma quoted_escaped : forall v b r, escaped v b -> parse_quoted (b ++ QUOTE :: r) = Some (v, r).
Proof.
  intros v b r H. induction H as [|c v b N1 N2 H IH|c v b H IH].
  - reflexivity.
  - cbn [app parse_quoted]. destruct (Ascii.eqb_spec c BACKSLASH); [contradiction|].
    destruct (Ascii.eqb_spec c QUOTE); [contradiction|]. rewrite IH. reflexivity.
  - cbn [app parse_quoted]. rewrite Ascii.eqb_refl, IH. reflexivity.
Qed.

Lemma quoted_inv_n : forall n s v r, length s <= n -> parse_quoted s = Some (v, r) ->
  exists b, s = b ++ QUOTE :: r /\ escaped v b.
Proof.
  induction n as [|n IH]; intros s v r L H; (destruct s as [|c s]; [discriminate H|]); [cbn in L; lia|].
  cbn [parse_quoted] in H. cbn [length] in L. destruct (Ascii.eqb_spec c BACKSLASH) as [->|N1].
  - destruct s as [|d s]; [discriminate|]. destruct (parse_quoted s) as [[v' r']|] eqn:E; [|discriminate].
    cbn in H. injection H as <- <-. cbn [length] in L. destruct (IH s v' r' ltac:(lia) E) as (b & -> & B).
    exists (BACKSLASH :: d :: b). split; [reflexivity | now constructor].
  - destruct (Ascii.eqb_spec c QUOTE) as [->|N2].
    + injection H as <- <-. exists []. split; [reflexivity | constructor].
    + destruct (parse_quoted s) as [[v' r']|] eqn:E; [|discriminate].
      cbn in H. injection H as <- <-. destruct (IH s v' r' ltac:(lia) E) as (b & -> & B).
      exists (c :: b). split; [reflexivity | now constructor].
Qed.

Lemma quoted_inv : forall s v r, parse_quoted s = Some (v, r) -> exists b, s = b ++ QUOTE :: r /\ escaped v b.
Proof. intros s v r. apply (quoted_inv_n (length s)). lia. Qed.

Lemma unclosed_none : forall b, unclosed b -> parse_quoted b = None.
Proof.
  intros b H. destruct (parse_quoted b) as [[v r]|] eqn:E; [|reflexivity].
  exfalso. apply quoted_inv in E. exact (H v r E).
Qed.

Lemma skip_keep : forall s, (forall c, hd_error s = Some c -> c <> SPACE /\ c <> TAB) -> skip_ht s = s.
Proof.
  intros [|c s] H; [reflexivity|]. apply skip_no. apply not_true_iff_false. rewrite is_ht_iff.
  destruct (H c eq_refl) as [A B]. now intros [-> | ->].
Qed.

Lemma blank_rev : forall w, blank w -> blank (rev w).
Proof. intros w B c I. apply B. now apply in_rev. Qed.

Lemma trim_bare : forall v w, bare v -> blank w -> trim_ht (v ++ w) = v.
Proof.
  intros v w (_ & _ & E) B. unfold trim_ht. rewrite rev_app_distr, (skip_blank _ _ (blank_rev _ B)).
  rewrite (skip_keep (rev v)) by (intros c H; apply E; now right). rewrite rev_involutive.
  apply skip_keep. intros c H. apply E. now left.
Qed.

Definition ends (r : bstr) : Prop := r = [] \/ exists u, r = COMMA_ :: u.

Lemma value_quoted : forall v b r, escaped v b -> parse_value ([QUOTE] ++ b ++ [QUOTE] ++ r) = Some (v, r).
Proof. intros v b r H. cbn [app parse_value]. rewrite Ascii.eqb_refl. now apply quoted_escaped. Qed.

Lemma no_comma : forall v, ~ In COMMA_ v -> forallb (fun c => negb (Ascii.eqb c COMMA_)) v = true.
Proof.
  intros v H. apply forallb_forall. intros c I. apply negb_true_iff, not_true_iff_false.
  rewrite Ascii.eqb_eq. intros ->. contradiction.
Qed.

Lemma blank_no_comma : forall w, blank w -> ~ In COMMA_ w.
Proof. intros w B I. destruct (B _ I) as [H|H]; discriminate H. Qed.

Lemma value_bare : forall v w r, bare v -> blank w -> ends r ->
  parse_value (skip_ht (v ++ w ++ r)) = Some (v, r).
Proof.
  intros v w r B W R. pose proof B as (NC & NQ & E).
  assert (S : forall x, ~ In COMMA_ x -> span (fun c => negb (Ascii.eqb c COMMA_)) (x ++ r) = (x, r)).
  { intros x NX. apply span_app; [now apply no_comma|]. destruct R as [-> | (u & ->)]; [exact I | reflexivity]. }
  destruct v as [|c v].
  - cbn [app]. rewrite (skip_blank w r W). destruct R as [-> | (u & ->)]; [reflexivity|].
    rewrite skip_no by reflexivity. reflexivity.
  - rewrite (skip_keep ((c :: v) ++ w ++ r)) by (intros d H; apply E; now left).
    change (parse_value ((c :: v) ++ w ++ r)) with
      (if Ascii.eqb c QUOTE then parse_quoted (v ++ w ++ r)
       else let '(v0, r') := span (fun c => negb (Ascii.eqb c COMMA_)) ((c :: v) ++ w ++ r) in Some (trim_ht v0, r')).
    destruct (Ascii.eqb_spec c QUOTE) as [->|N]; [exfalso; now apply NQ|].
    rewrite app_assoc, S.
    + now rewrite trim_bare.
    + intros I. apply in_app_or in I as [I|I]; [contradiction|]. now apply (blank_no_comma w).
Qed.

Lemma param_head : forall p t, param_text p t ->
  exists c t', t = c :: t' /\ c <> COMMA_ /\ is_ht c = false.
Proof.
  intros p t H. assert (K : exists k r, t = k ++ r /\ name k).
  { destruct H; eexists _, _; (split; [reflexivity | assumption]). }
  destruct K as (k & r & -> & [N S]). destruct k as [|c k]; [congruence|].
  exists c, (k ++ r). split; [reflexivity|]. specialize (S c (or_introl eq_refl)). split.
  - intros ->. apply S. cbn. auto.
  - apply not_true_iff_false. rewrite is_ht_iff. intros [-> | ->]; apply S; cbn; auto.
Qed.

(** One turn of the loop over one parameter. *)
Lemma loop_param : forall n pre p t r acc, param_text p t -> ends r ->
  (pre = [] \/ exists w, pre = COMMA_ :: w /\ blank w) ->
  params_loop (S n) (pre ++ t ++ r) acc = params_loop n r (aset (lower (fst p)) (snd p) acc).
Proof.
  intros n pre p t r acc P R PRE.
  destruct (param_head p t P) as (c & t' & E & NC & NH).
  assert (HD : match pre ++ t ++ r with
               | [] => []
               | c :: q => skip_ht (if Ascii.eqb c COMMA_ then skip_ht q else pre ++ t ++ r)
               end = t ++ r).
  { destruct PRE as [-> | (w & -> & W)].
    - cbn [app]. rewrite E. cbn [app]. destruct (Ascii.eqb_spec c COMMA_); [contradiction|].
      now apply skip_no.
    - cbn [app]. rewrite Ascii.eqb_refl, (skip_blank w _ W), E. cbn [app].
      rewrite !skip_no by assumption. reflexivity. }
  assert (NE : exists a q, pre ++ t ++ r = a :: q).
  { destruct PRE as [-> | (w & -> & W)]; [rewrite E|]; eexists _, _; reflexivity. }
  destruct NE as (a & q & NE). rewrite NE in HD |- *. cbn [params_loop]. rewrite HD.
  assert (TR : exists x y, t ++ r = x :: y) by (rewrite E; eexists _, _; reflexivity).
  destruct TR as (x & y & TR).
  assert (M : forall T (A B : T), match t ++ r with [] => A | _ :: _ => B end = B).
  { intros. now rewrite TR. }
  rewrite M. clear M TR x y HD NE a q E NC NH c t' PRE pre.
  assert (RS : forall w x, blank w -> match w ++ x with [] => True | c :: _ => stops c = true end
                       <-> match w with [] => match x with [] => True | c :: _ => stops c = true end | _ => True end).
  { intros [|c w] x W; [reflexivity|]. cbn. split; [intros _; exact I|]. intros _. apply stops_iff.
    destruct (W c (or_introl eq_refl)) as [-> | ->]; cbn; auto. }
  destruct P as [k w K W|k v w1 w2 w3 K V W1 W2 W3|k v b w1 w2 w3 K V W1 W2 W3]; cbn [fst snd].
  - rewrite <- app_assoc, token_name; [|exact K|].
    2:{ apply RS; [exact W|]. destruct w; [|exact I]. destruct R as [-> | (u & ->)]; [exact I | reflexivity]. }
    rewrite (skip_blank w r W). destruct R as [-> | (u & ->)]; [reflexivity|].
    rewrite skip_no by reflexivity. reflexivity.
  - rewrite <- !app_assoc, token_name; [|exact K|].
    2:{ apply RS; [exact W1|]. destruct w1; [reflexivity | exact I]. }
    rewrite (skip_blank w1 _ W1). cbn [app]. rewrite skip_no by reflexivity. rewrite Ascii.eqb_refl.
    rewrite (skip_blank w2 _ W2), (value_bare v w3 r V W3 R).
    f_equal. destruct R as [-> | (u & ->)]; reflexivity.
  - rewrite <- !app_assoc, token_name; [|exact K|].
    2:{ apply RS; [exact W1|]. destruct w1; [reflexivity | exact I]. }
    rewrite (skip_blank w1 _ W1). cbn [app]. rewrite skip_no by reflexivity. rewrite Ascii.eqb_refl.
    rewrite (skip_blank w2 _ W2), skip_no by reflexivity.
    replace (QUOTE :: b ++ QUOTE :: w3 ++ r) with ([QUOTE] ++ b ++ [QUOTE] ++ (w3 ++ r)) by reflexivity.
    rewrite (value_quoted v b (w3 ++ r) V), (skip_blank w3 r W3).
    f_equal. destruct R as [-> | (u & ->)]; reflexivity.
Qed.

Definition put (acc : list (bstr * bstr)) (p : bstr * bstr) := aset (lower (fst p)) (snd p) acc.

Lemma loop_params : forall l t, params_text l t -> forall n pre acc,
  (pre = [] \/ exists w, pre = COMMA_ :: w /\ blank w) -> length l < n ->
  params_loop n (pre ++ t) acc = WwwTrue (fold_left put l acc).
Proof.
  intros l t H. induction H as [p t P|p t w l u P W H IH]; intros n pre acc PRE L; cbn [length] in L.
  - destruct n as [|n]; [lia|]. rewrite <- (app_nil_r t), (loop_param n pre p t [] acc P); [|now left|exact PRE].
    destruct n; [lia|]. reflexivity.
  - destruct n as [|n]; [lia|].
    replace (pre ++ t ++ [COMMA_] ++ w ++ u) with (pre ++ t ++ (COMMA_ :: w ++ u)) by reflexivity.
    rewrite (loop_param n pre p t (COMMA_ :: w ++ u) acc P); [|right; now exists (w ++ u)|exact PRE].
    change (COMMA_ :: w ++ u) with ((COMMA_ :: w) ++ u).
    rewrite IH; [reflexivity|right; now exists w|lia].
Qed.

Lemma param_length : forall p t, param_text p t -> 1 <= length t.
Proof. intros p t H. destruct (param_head p t H) as (c & t' & -> & _). cbn. lia. Qed.

Lemma params_length : forall l t, params_text l t -> length l <= length t.
Proof.
  intros l t H. induction H as [p t P|p t w l u P W H IH].
  - apply param_length in P. cbn. lia.
  - apply param_length in P. rewrite !app_length. cbn. lia.
Qed.

Lemma params_head : forall l t, params_text l t -> exists c t', t = c :: t' /\ is_ht c = false.
Proof.
  intros l t H. destruct H as [p t P|p t w l u P W H]; destruct (param_head p t P) as (c & t' & -> & _ & N);
    eexists _, _; (split; [reflexivity | exact N]).
Qed.

Lemma lower_in : forall s c, In c s -> In (to_lower c) (lower s).
Proof. intros s c I. unfold lower. now apply in_map. Qed.

Lemma bearer_name : forall s, lower s = bs "bearer" -> name s.
Proof.
  intros s H. split; [intros ->; discriminate H|]. intros c I J. apply lower_in in I. rewrite H in I.
  cbn in J. decompose [or] J; try contradiction; subst c; cbn in I; decompose [or] I; try contradiction; discriminate.
Qed.

Lemma scheme_token : forall w s r, blank w -> lower s = bs "bearer" ->
  (match r with [] => True | c :: _ => stops c = true end) ->
  parse_token (skip_ht (w ++ s ++ r)) = Some (s, r).
Proof.
  intros w s r W S R. rewrite (skip_blank w _ W).
  pose proof (bearer_name s S) as N. rewrite skip_keep.
  - now apply token_name.
  - destruct s as [|c s]; [discriminate S|]. intros d E. cbn in E. injection E as <-.
    destruct N as [_ N]. specialize (N c (or_introl eq_refl)). split; intros ->; apply N; cbn; auto.
Qed.

Lemma www_bearer : forall l h, bearer_text l h -> parse_www h = WwwTrue (fold_left put l []).
Proof.
  intros l h H. destruct H as [w1 s w2 B1 B2 S|w1 s c w2 l t B1 B2 S P]; unfold parse_www.
  - rewrite (scheme_token w1 s w2 B1 S).
    2:{ destruct w2 as [|c w2]; [exact I|]. apply stops_iff. destruct (B2 c (or_introl eq_refl)) as [-> | ->]; cbn; auto. }
    rewrite S, beq_refl. rewrite <- (app_nil_r w2), (skip_blank w2 [] B2). reflexivity.
  - rewrite (scheme_token w1 s (c :: w2 ++ t) B1 S).
    2:{ apply stops_iff. destruct (B2 c (or_introl eq_refl)) as [-> | ->]; cbn; auto. }
    rewrite S, beq_refl. change (c :: w2 ++ t) with ((c :: w2) ++ t). rewrite (skip_blank _ t B2).
    destruct (params_head l t P) as (x & t' & E & N).
    assert (K : skip_ht t = t) by (rewrite E; now apply skip_no). rewrite K.
    change t with ([] ++ t) at 2. apply (loop_params l t P); [now left|].
    pose proof (params_length l t P). rewrite app_length. cbn. lia.
Qed.

Lemma aget_put : forall l acc k,
  aget k (fold_left put l acc) =
  match value_of l k with Some v => Some v | None => aget k acc end.
Proof.
  induction l as [|p l IH] using rev_ind; intros acc k; [reflexivity|].
  rewrite fold_left_app. cbn [fold_left]. unfold put at 1, value_of. rewrite rev_app_distr. cbn [rev app find].
  destruct (beq (lower (fst p)) k) eqn:B.
  - apply beq_eq in B. subst k. cbn. apply aget_aset_same.
  - rewrite aget_aset_other; [apply IH|]. intros ->. rewrite beq_refl in B. discriminate.
Qed.

Lemma www_values : forall l h, bearer_text l h ->
  exists m, parse_www h = WwwTrue m /\ forall k, aget k m = value_of l k.
Proof.
  intros l h H. exists (fold_left put l []). split; [now apply www_bearer|].
  intros k. rewrite aget_put. now destruct (value_of l k).
Qed.

(** Rejection *)

Lemma bearer_found : forall h t r, parse_token (skip_ht h) = Some (t, r) -> lower t = bs "bearer" -> is_bearer h.
Proof.
  intros h t r H L. apply token_inv in H as (A & N & E). destruct (drop_while_spec is_ht h) as (w & W & F & _).
  exists w, t, r. split.
  - rewrite W at 1. fold (skip_ht h). now rewrite A.
  - split.
    + intros c I. apply is_ht_iff. rewrite forallb_forall in F. now apply F.
    + split; [exact L|]. destruct r as [|c r]; [now left|]. right. exists c, r. split; [reflexivity|].
      now apply stops_iff.
Qed.

Lemma not_bearer_false : forall h, ~ is_bearer h -> parse_www h = WwwFalse.
Proof.
  intros h H. unfold parse_www. destruct (parse_token (skip_ht h)) as [[t r]|] eqn:E; [|reflexivity].
  destruct (beq (lower t) (bs "bearer")) eqn:B; [|reflexivity]. apply beq_eq in B.
  exfalso. apply H. exact (bearer_found h t r E B).
Qed.

Lemma loop_unclosed : forall n pre k w1 w2 b acc, name k -> blank w1 -> blank w2 -> unclosed b ->
  (pre = [] \/ exists w, pre = COMMA_ :: w /\ blank w) ->
  params_loop (S n) (pre ++ k ++ w1 ++ [EQUALS] ++ w2 ++ [QUOTE] ++ b) acc = WwwFalse.
Proof.
  intros n pre k w1 w2 b acc K W1 W2 U PRE. set (x := k ++ _).
  assert (X : exists c x', x = c :: x' /\ c <> COMMA_ /\ is_ht c = false).
  { destruct (param_head (k, []) (k ++ w1)) as (c & x' & E & A & B).
    - now constructor.
    - exists c, (x' ++ [EQUALS] ++ w2 ++ [QUOTE] ++ b). unfold x. rewrite app_assoc, E. repeat split; assumption. }
  destruct X as (c & x' & E & NC & NH).
  assert (HD : match pre ++ x with
               | [] => []
               | c :: q => skip_ht (if Ascii.eqb c COMMA_ then skip_ht q else pre ++ x)
               end = x).
  { destruct PRE as [-> | (w & -> & W)].
    - cbn [app]. rewrite E. destruct (Ascii.eqb_spec c COMMA_); [contradiction|].
      now apply skip_no.
    - cbn [app]. rewrite Ascii.eqb_refl, (skip_blank w _ W), E.
      rewrite !skip_no by assumption. reflexivity. }
  assert (NE : exists a q, pre ++ x = a :: q).
  { destruct PRE as [-> | (w & -> & W)]; [rewrite E|]; eexists _, _; reflexivity. }
  destruct NE as (a & q & NE). rewrite NE in HD |- *. cbn [params_loop]. rewrite HD.
  assert (M : forall T (A B : T), match x with [] => A | _ :: _ => B end = B).
  { intros. now rewrite E. }
  rewrite M. unfold x. rewrite token_name; [|exact K|].
  2:{ destruct w1 as [|d w1]; [reflexivity|]. apply stops_iff. destruct (W1 d (or_introl eq_refl)) as [-> | ->]; cbn; auto. }
  rewrite (skip_blank w1 _ W1). cbn [app]. rewrite skip_no by reflexivity. rewrite Ascii.eqb_refl.
  rewrite (skip_blank w2 _ W2), skip_no by reflexivity. cbn [parse_value]. rewrite Ascii.eqb_refl.
  now rewrite (unclosed_none b U).
Qed.

Lemma loop_params_rest : forall l t, params_text l t -> forall n pre u acc,
  (pre = [] \/ exists w, pre = COMMA_ :: w /\ blank w) ->
  params_loop (length l + n) (pre ++ t ++ COMMA_ :: u) acc = params_loop n (COMMA_ :: u) (fold_left put l acc).
Proof.
  intros l t H. induction H as [p t P|p t w l v P W H IH]; intros n pre u acc PRE; cbn [length Nat.add].
  - rewrite (loop_param n pre p t (COMMA_ :: u) acc P); [reflexivity | right; now exists u | exact PRE].
  - rewrite <- !app_assoc.
    replace (pre ++ t ++ [COMMA_] ++ w ++ v ++ COMMA_ :: u) with (pre ++ t ++ (COMMA_ :: (w ++ v ++ COMMA_ :: u))) by reflexivity.
    rewrite (loop_param _ pre p t (COMMA_ :: (w ++ v ++ COMMA_ :: u)) acc P); [|right; eexists; reflexivity|exact PRE].
    change (COMMA_ :: w ++ v ++ COMMA_ :: u) with ((COMMA_ :: w) ++ v ++ COMMA_ :: u).
    rewrite IH; [reflexivity|]. right. exists w. now split.
Qed.

Lemma unclosed_false : forall w1 s c w2 pre k w3 w4 b,
  blank w1 -> blank (c :: w2) -> lower s = bs "bearer" ->
  (pre = [] \/ exists l t w, params_text l t /\ blank w /\ pre = t ++ COMMA_ :: w) ->
  name k -> blank w3 -> blank w4 -> unclosed b ->
  parse_www (w1 ++ s ++ c :: w2 ++ pre ++ k ++ w3 ++ [EQUALS] ++ w4 ++ [QUOTE] ++ b) = WwwFalse.
Proof.
  intros w1 s c w2 pre k w3 w4 b B1 B2 S PRE K W3 W4 U. unfold parse_www.
  set (x := k ++ w3 ++ [EQUALS] ++ w4 ++ [QUOTE] ++ b).
  rewrite (scheme_token w1 s (c :: w2 ++ pre ++ x) B1 S).
  2:{ apply stops_iff. destruct (B2 c (or_introl eq_refl)) as [-> | ->]; cbn; auto. }
  rewrite S, beq_refl. change (c :: w2 ++ pre ++ x) with ((c :: w2) ++ pre ++ x). rewrite (skip_blank _ _ B2).
  assert (H : exists d q, pre ++ x = d :: q /\ is_ht d = false).
  { destruct PRE as [-> | (l & t & w & P & W & ->)].
    - destruct (param_head (k, []) (k ++ w3)) as (d & x' & E & A & B); [now constructor|].
      exists d, (x' ++ [EQUALS] ++ w4 ++ [QUOTE] ++ b). cbn [app]. unfold x. rewrite app_assoc, E. now split.
    - destruct (params_head l t P) as (d & t' & -> & N). eexists d, _. split; [reflexivity | exact N]. }
  destruct H as (d & q & E & N). assert (SK : skip_ht (pre ++ x) = pre ++ x) by (rewrite E; now apply skip_no).
  rewrite SK. destruct PRE as [-> | (l & t & w & P & W & ->)].
  - apply (loop_unclosed _ [] k w3 w4 b); auto.
  - pose proof (params_length l t P) as L. rewrite <- app_assoc. cbn [app].
    match goal with |- params_loop ?n _ _ = _ => assert (Q : length l < n);
      [|remember n as N0; replace N0 with (length l + Datatypes.S (N0 - length l - 1)) by lia] end.
    { cbn [length]. rewrite !app_length. cbn [length]. rewrite !app_length. lia. }
    change (t ++ COMMA_ :: w ++ x) with ([] ++ t ++ COMMA_ :: (w ++ x)).
    rewrite (loop_params_rest l t P); [|now left].
    change (COMMA_ :: w ++ x) with ((COMMA_ :: w) ++ x). apply loop_unclosed; auto. right. exists w. now split.
Qed.

(** Termination *)

Lemma token_length : forall s t r, parse_token s = Some (t, r) -> length r < length s.
Proof.
  intros s t r H. apply token_inv in H as (-> & [N _] & _). rewrite app_length.
  destruct t; [congruence|]. cbn. lia.
Qed.

Lemma value_length : forall s v r, parse_value s = Some (v, r) -> length r <= length s.
Proof.
  intros s v r H. destruct s as [|c s]; cbn [parse_value] in H.
  - injection H as <- <-. cbn. lia.
  - destruct (Ascii.eqb c QUOTE).
    + apply quoted_inv in H as (b & -> & _). cbn. rewrite app_length. cbn. lia.
    + destruct (span _ (c :: s)) as [a b] eqn:E. injection H as <- <-. apply span_spec in E as (E & _).
      rewrite E, app_length. lia.
Qed.

Lemma loop_ends : forall n s acc, length s < n -> params_loop n s acc <> WwwStuck.
Proof.
  induction n as [|n IH]; intros s acc L; [lia|]. cbn [params_loop]. destruct s as [|c s]; [discriminate|].
  set (s1 := skip_ht _).
  assert (L1 : length s1 <= S (length s)).
  { unfold s1. etransitivity; [apply skip_length|]. destruct (Ascii.eqb c COMMA_); [|cbn; lia].
    pose proof (skip_length s). lia. }
  assert (E : s1 = [] \/ exists a b, s1 = a :: b) by (destruct s1; [now left | right; eexists _, _; reflexivity]).
  destruct E as [->|(a & b & E)]; [discriminate|]. rewrite E in *.
  destruct (parse_token (a :: b)) as [[k s2]|] eqn:T; [|discriminate].
  apply token_length in T. pose proof (skip_length s2) as L2. destruct (skip_ht s2) as [|e s3].
  - apply IH. cbn [length] in *. lia.
  - destruct (Ascii.eqb e EQUALS).
    + destruct (parse_value (skip_ht s3)) as [[v s4]|] eqn:V; [|discriminate].
      apply value_length in V. pose proof (skip_length s3). pose proof (skip_length s4).
      apply IH. cbn [length] in *. lia.
    + apply IH. cbn [length] in *. lia.
Qed.

Lemma www_ends : forall h, parse_www h <> WwwStuck.
Proof.
  intros h. unfold parse_www. destruct (parse_token _) as [[t r]|] eqn:E; [|discriminate].
  destruct (beq _ _); [|discriminate]. apply loop_ends. pose proof (skip_length r). lia.
Qed.

(** The server's challenge *)

Lemma quote_escaped : forall s, exists b, quote s = [QUOTE] ++ b ++ [QUOTE] /\ escaped s b.
Proof.
  intros s. unfold quote. eexists. split; [reflexivity|].
  induction s as [|c s IH]; [constructor|]. cbn [flat_map].
  destruct (Ascii.eqb_spec c BACKSLASH) as [->|N1]; [exact (esc_slash _ _ _ IH)|].
  destruct (Ascii.eqb_spec c QUOTE) as [->|N2]; [exact (esc_slash _ _ _ IH)|].
  exact (esc_plain _ _ _ N2 N1 IH).
Qed.

Lemma blank_nil : blank [].
Proof. intros c []. Qed.

Lemma blank_one : blank [SPACE].
Proof. intros c [<-|[]]. now left. Qed.

Lemma check_name : forall k, (match k with [] => false | _ => true end && forallb (fun c => negb (stops c)) k)%bool = true -> name k.
Proof.
  intros k H. apply andb_true_iff in H as [A B]. split; [intros ->; discriminate A|].
  intros c I J. rewrite forallb_forall in B. specialize (B c I). apply stops_iff in J. now rewrite J in B.
Qed.

Lemma quoted_param : forall k v, name k -> param_text (k, v) (k ++ [EQUALS] ++ quote v).
Proof.
  intros k v K. destruct (quote_escaped v) as (b & -> & E).
  replace (k ++ [EQUALS] ++ [QUOTE] ++ b ++ [QUOTE])
    with (k ++ [] ++ [EQUALS] ++ [] ++ [QUOTE] ++ b ++ [QUOTE] ++ []) by now rewrite app_nil_r.
  apply pt_quoted; auto using blank_nil.
Qed.

Lemma bare_param : forall k v, name k -> bare v -> param_text (k, v) (k ++ [EQUALS] ++ v).
Proof.
  intros k v K B. replace (k ++ [EQUALS] ++ v) with (k ++ [] ++ [EQUALS] ++ [] ++ v ++ []) by now rewrite app_nil_r.
  apply pt_bare; auto using blank_nil.
Qed.

(** The parameters the server means to send. *)
Definition told (o : bearer_opts) (r : bearer_result) : list (bstr * bstr) :=
  (bs "resource_metadata", bo_metadata_url o) ::
  (if N.eqb (br_status r) 403 then [(bs "error", bs "insufficient_scope")] else []) ++
  (match bo_required o with [] => [] | l => [(bs "scope", join [SPACE] l)] end) ++
  (if N.eqb (br_status r) 403 then match br_message r with [] => [] | m => [(bs "error_description", m)] end else []).

Lemma params_snoc : forall l t p u, params_text l t -> param_text p u ->
  params_text (l ++ [p]) (t ++ COMMA_ :: SPACE :: u).
Proof.
  intros l t p u H P. induction H as [q t Q|q t w l v Q W H IH].
  - apply (ps_cons q t [SPACE] [p] u Q blank_one). now constructor.
  - rewrite <- !app_assoc. cbn [app]. apply (ps_cons q t w); assumption.
Qed.

Lemma challenge_text : forall o r h, challenge o r = Some h -> bare (bo_metadata_url o) ->
  bearer_text (told o r) h.
Proof.
  intros o r h H B. unfold challenge in H. destruct (br_challenge r); [|discriminate].
  unfold told. destruct (bo_metadata_url o) as [|u url] eqn:U; [discriminate|].
  remember (u :: url) as V eqn:EV. injection H as <-. clear U.
  match goal with |- bearer_text _ ?h => replace h with
    ([] ++ bs "Bearer" ++ SPACE :: [] ++ ((bs "resource_metadata" ++ [EQUALS] ++ V) ++
      (if (br_status r =? 403)%N then
         (COMMA_ :: SPACE :: bs "error" ++ [EQUALS] ++ quote (bs "insufficient_scope")) ++
         (match bo_required o with [] => [] | l => COMMA_ :: SPACE :: bs "scope" ++ [EQUALS] ++ quote (join [SPACE] l) end) ++
         match br_message r with [] => [] | m => COMMA_ :: SPACE :: bs "error_description" ++ [EQUALS] ++ quote m end
       else match bo_required o with [] => [] | l => COMMA_ :: SPACE :: bs "scope" ++ [EQUALS] ++ quote (join [SPACE] l) end)))
  end.
  2:{ change (bs "Bearer resource_metadata=") with (bs "Bearer" ++ SPACE :: bs "resource_metadata" ++ [EQUALS]).
      change (bs ", error=") with (COMMA_ :: SPACE :: bs "error" ++ [EQUALS]).
      change (bs ", scope=") with (COMMA_ :: SPACE :: bs "scope" ++ [EQUALS]).
      change (bs ", error_description=") with (COMMA_ :: SPACE :: bs "error_description" ++ [EQUALS]).
      destruct (br_status r =? 403)%N; destruct (bo_required o); destruct (br_message r);
        repeat (cbn [app]; rewrite <- ?app_assoc); reflexivity. }
  apply bt_params; [exact blank_nil | exact blank_one | reflexivity |].
  assert (P0 : params_text [(bs "resource_metadata", V)] (bs "resource_metadata" ++ [EQUALS] ++ V)).
  { constructor. apply bare_param; [now apply check_name | exact B]. }
  destruct (br_status r =? 403)%N.
  - pose proof (params_snoc _ _ (bs "error", bs "insufficient_scope") _ P0
                  (quoted_param _ _ (check_name (bs "error") eq_refl))) as P1.
    destruct (bo_required o) as [|x l].
    + destruct (br_message r) as [|m ms].
      * cbn [app]. rewrite !app_nil_r. exact P1.
      * pose proof (params_snoc _ _ (bs "error_description", m :: ms) _ P1
                      (quoted_param _ _ (check_name (bs "error_description") eq_refl))) as P2.
        cbn [app] in *. rewrite <- app_assoc in P2. exact P2.
    + pose proof (params_snoc _ _ (bs "scope", join [SPACE] (x :: l)) _ P1
                    (quoted_param _ _ (check_name (bs "scope") eq_refl))) as P2.
      destruct (br_message r) as [|m ms].
      * cbn [app] in *. rewrite <- app_assoc in P2. rewrite !app_nil_r. exact P2.
      * pose proof (params_snoc _ _ (bs "error_description", m :: ms) _ P2
                      (quoted_param _ _ (check_name (bs "error_description") eq_refl))) as P3.
        cbn [app] in *. rewrite <- !app_assoc in P3. exact P3.
  - destruct (bo_required o) as [|x l].
    + cbn [app]. rewrite app_nil_r. exact P0.
    + exact (params_snoc _ _ (bs "scope", join [SPACE] (x :: l)) _ P0
                    (quoted_param _ _ (check_name (bs "scope") eq_refl))).
Qed.
