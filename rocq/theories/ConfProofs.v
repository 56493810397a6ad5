(** Proofs about the configuration texts. *)
From Coq Require Import Ascii String List Arith NArith ZArith Bool Lia ZifyBool ZifyNat ZifyN.
From Verif Require Import StrModel StrProofs GuardModel AuthModel WwwModel WqModel RpcModel PendModel MapModel StdioModel ConfModel.
From Verif Require Import GuardSpec WwwSpec ConfSpec GuardProofs WwwProofs.
Import ListNotations.
Local Open Scope nat_scope.

Lemma pieces_one : forall sep a, (forall c, In c a -> sep c = false) -> pieces sep a = [a].
Proof.
  intros sep. induction a as [|c a IH]; intros H; cbn; [easy|].
  rewrite (H c (or_introl eq_refl)), IH; [easy|]. intros d Hd. apply H. now right.
Qed.

Lemma pieces_cut : forall sep a c b, (forall d, In d a -> sep d = false) -> sep c = true ->
  pieces sep (a ++ c :: b) = a :: pieces sep b.
Proof.
  intros sep. induction a as [|d a IH]; intros c b H Hc; cbn.
  - now rewrite Hc.
  - rewrite (H d (or_introl eq_refl)), IH; [easy| |easy]. intros e He. apply H. now right.
Qed.

Lemma cut_at_app : forall c a b, ~ In c a -> cut_at c (a ++ c :: b) = Some (a, b).
Proof.
  intros c a b H. unfold cut_at. rewrite find_char_app by easy.
  replace (S (length a)) with (length (a ++ [c])) by (rewrite app_length; cbn; lia).
  replace (a ++ c :: b) with ((a ++ [c]) ++ b) at 2 by now rewrite <- app_assoc.
  now rewrite firstn_app_len, skipn_app_len.
Qed.

Lemma cut_at_none : forall c a, ~ In c a -> cut_at c a = None.
Proof. intros c a H. unfold cut_at. now rewrite (proj2 (find_char_none c a) H). Qed.

Lemma skip_edges : forall a r, (forall c, hd_error a = Some c -> c <> SPACE /\ c <> TAB) -> a <> [] ->
  skip_ht (a ++ r) = a ++ r.
Proof.
  intros [|c a] r H N; [congruence|]. apply skip_keep. cbn. intros d [= <-]. now apply H.
Qed.

Lemma trim_ht_pad : forall w a w', blank w -> blank w' -> edges a -> trim_ht (w ++ a ++ w') = a.
Proof.
  intros w a w' B B' E. unfold trim_ht.
  assert (Z : forall u, blank u -> skip_ht u = []).
  { intros u Bu. rewrite <- (app_nil_r u). now rewrite skip_blank. }
  destruct a as [|c0 a0] eqn:Ea.
  - assert (Bw : blank (rev (w ++ [] ++ w'))).
    { apply blank_rev. intros c H. apply in_app_or in H as [H|H]; [now apply B|now apply B']. }
    rewrite (Z _ Bw). easy.
  - rewrite <- Ea in *. assert (Na : a <> []) by (rewrite Ea; discriminate). clear Ea c0 a0.
    rewrite !rev_app_distr, <- app_assoc, skip_blank by now apply blank_rev.
    rewrite skip_edges.
    + rewrite rev_app_distr, !rev_involutive, skip_blank by easy.
      rewrite <- (app_nil_r a). apply skip_edges; [|easy]. intros c H. apply E. now left.
    + intros c H. apply E. now right.
    + intros H. apply Na. rewrite <- (rev_involutive a), H. easy.
Qed.

(** ** Settings applied in order *)

Section Run.
Variables (O V : Type) (set : bstr -> bstr -> O -> O).

Definition run (l : list setting) (o : O) : O := fold_left (fun o s => set (fst s) (snd s) o) l o.

Variables (g : O -> V) (ks : list bstr) (conv : bstr -> option V).
Hypothesis Set_ : forall k v o, g (set k v o) = if existsb (beq k) ks then or_keep (conv v) (g o) else g o.

Lemma existsb_in : forall k, existsb (beq k) ks = true <-> In k ks.
Proof.
  intros k. rewrite existsb_exists. split.
  - intros (x & H & E). apply beq_eq in E. now subst.
  - intros H. exists k. split; [easy|apply beq_refl].
Qed.

Lemma run_not_given : forall l o, not_given ks l -> g (run l o) = g o.
Proof.
  induction l as [|[k v] l IH]; intros o H; [easy|]. cbn. unfold run in *. rewrite IH.
  - rewrite Set_. destruct (existsb (beq k) ks) eqn:E; [|easy]. apply existsb_in in E.
    now destruct (H k v (or_introl eq_refl)).
  - intros k' v' Hi. apply (H k' v'). now right.
Qed.

Lemma run_given : forall l o v x, given ks l v -> conv v = Some x -> g (run l o) = x.
Proof.
  intros l o v x (l1 & k & l2 & -> & Hk & Hl) Hx. unfold run. rewrite fold_left_app. cbn [fold_left fst snd].
  fold (run l1 o). fold (run l2 (set k v (run l1 o))). rewrite run_not_given by exact Hl.
  rewrite Set_, (proj2 (existsb_in k) Hk), Hx. easy.
Qed.

Lemma run_app : forall l1 l2 o, run (l1 ++ l2) o = run l2 (run l1 o).
Proof. intros. unfold run. apply fold_left_app. Qed.
End Run.

(** ** Numbers *)

Lemma stoull_numeral : forall d n, numeral d n -> (n < two64)%N -> stoull d = Some n.
Proof.
  intros d n (N0 & D & V) B. unfold stoull, scan_int.
  destruct d as [|c d]; [congruence|].
  assert (Hc : is_digit c = true) by (apply D; now left).
  assert (Hs : drop_while is_space (c :: d) = c :: d) by (cbn; now rewrite (StrProofs.digit_not_space c Hc)).
  rewrite Hs. unfold split_sign.
  rewrite (digit_neq c (chr 45) Hc eq_refl), (digit_neq c (chr 43) Hc eq_refl).
  assert (Sp : fst (span is_digit (c :: d)) = c :: d).
  { rewrite <- (app_nil_r (c :: d)) at 1. rewrite StrProofs.span_all; [easy|now apply forallb_forall|easy]. }
  rewrite Sp, V. replace (two64 <=? n)%N with false by lia. easy.
Qed.

Lemma stoul32_numeral : forall d n, numeral d n -> (n < 2 ^ 32)%N -> stoul32 d = Some n.
Proof.
  intros d n H B. unfold stoul32. rewrite (stoull_numeral d n H).
  - cbn [option_map]. f_equal. now apply N.mod_small.
  - unfold two64. change (2 ^ 32)%N with 4294967296%N in B. lia.
Qed.

Lemma stoull_no_number : forall v, no_number v -> stoull v = None.
Proof.
  intros [|c v] H; [easy|]. destruct (H c eq_refl) as (H1 & H2 & H3 & H4).
  unfold stoull, scan_int. cbn [drop_while]. rewrite H2. unfold split_sign.
  rewrite (proj2 (eqb_neq c (chr 45)) H4), (proj2 (eqb_neq c (chr 43)) H3). cbn. now rewrite H1.
Qed.

Lemma print_numeral : forall n, numeral (print_N n) n.
Proof.
  intros n. destruct (print_N_spec n) as [H1 H2]. destruct (print_N_head n) as (d & ds & E & Hd).
  split; [rewrite E; discriminate|]. split; [|exact H1].
  intros c Hc. destruct H2 as [H2 H3]. rewrite forallb_forall in H2. now apply H2.
Qed.

(** ** HTTP client *)

Lemma triple : forall (A B C : Type) (a a' : A) (b b' : B) (c c' : C),
  (a, b, c) = (a', b', c') -> a = a' /\ b = b' /\ c = c'.
Proof. intros A B C a a' b b' c c' H. injection H as -> -> ->. auto. Qed.

Ltac setter k :=
  repeat match goal with
         | |- context [beq k ?x] =>
             let E := fresh "E" in
             destruct (beq k x) eqn:E; [apply beq_eq in E; subst k; reflexivity|]
         end; reflexivity.

Lemma http_strings_set : forall ks g d, In (ks, g, d) http_strings ->
  g hopts0 = d /\
  forall k v o, g (ho_set k v o) = if existsb (beq k) ks then or_keep (Some v) (g o) else g o.
Proof.
  intros ks g d H. cbn [http_strings In] in H.
  repeat (destruct H as [H|H]; [apply triple in H as (<- & <- & <-); split; [reflexivity|];
    intros k v []; unfold ho_set, named; cbn [existsb]; setter k|]).
  destruct H.
Qed.

Lemma http_numbers_set : forall ks g d, In (ks, g, d) http_numbers ->
  g hopts0 = d /\
  forall k v o, g (ho_set k v o) = if existsb (beq k) ks then or_keep (stoul32 v) (g o) else g o.
Proof.
  intros ks g d H. cbn [http_numbers In] in H.
  repeat (destruct H as [H|H]; [apply triple in H as (<- & <- & <-); split; [reflexivity|];
    intros k v []; unfold ho_set, named; cbn [existsb]; setter k|]).
  destruct H.
Qed.

Lemma http_switches_set : forall ks g d, In (ks, g, d) http_switches ->
  g hopts0 = d /\
  forall k v o, g (ho_set k v o) = if existsb (beq k) ks then or_keep (Some (switch v)) (g o) else g o.
Proof.
  intros ks g d H. cbn [http_switches In] in H.
  repeat (destruct H as [H|H]; [apply triple in H as (<- & <- & <-); split; [reflexivity|];
    intros k v []; unfold ho_set, named; cbn [existsb]; setter k|]).
  destruct H.
Qed.

Definition semi (c : ascii) : bool := Ascii.eqb c SEMI.

Lemma blank_in : forall w c, blank w -> In c w -> c <> EQUALS /\ c <> SEMI.
Proof. intros w c B H. destruct (B c H) as [-> | ->]; split; discriminate. Qed.

Lemma line_no_semi : forall k v t, http_line k v t -> forall c, In c t -> semi c = false.
Proof.
  intros k v t (w1 & w2 & w3 & w4 & B1 & B2 & B3 & B4 & (_ & _ & K) & (_ & V) & ->) c H.
  apply eqb_neq. rewrite !in_app_iff in H.
  destruct H as [H|[H|[H|[H|[H|[H|H]]]]]].
  - now apply (blank_in w1).
  - intros ->. now apply K.
  - now apply (blank_in w2).
  - destruct H as [<-|[]]. discriminate.
  - now apply (blank_in w3).
  - intros ->. now apply V.
  - now apply (blank_in w4).
Qed.

Lemma blank_no_semi : forall w, blank w -> forall c, In c w -> semi c = false.
Proof. intros w B c H. apply eqb_neq. now apply (blank_in w). Qed.

Lemma trim_blank : forall w, blank w -> trim_ht w = [].
Proof.
  intros w B. rewrite <- (app_nil_r w). apply (trim_ht_pad w [] []); [easy| |].
  - intros c [].
  - intros c [H|H]; discriminate.
Qed.

Lemma http_piece_blank : forall w o, blank w -> http_piece o w = o.
Proof. intros w o B. unfold http_piece. now rewrite trim_blank. Qed.

Lemma blank_app : forall a b, blank a -> blank b -> blank (a ++ b).
Proof. intros a b A B c H. apply in_app_or in H as [H|H]; [now apply A|now apply B]. Qed.

Lemma skip_to : forall a c b, is_ht c = false -> skip_ht (a ++ c :: b) = skip_ht a ++ c :: b.
Proof.
  intros a c b H. induction a as [|x a IH]; unfold skip_ht in *; cbn; [now rewrite H|].
  destruct (is_ht x); [exact IH|easy].
Qed.

Lemma trim_around : forall a c b, is_ht c = false ->
  trim_ht (a ++ c :: b) = skip_ht a ++ c :: rev (skip_ht (rev b)).
Proof.
  intros a c b H. unfold trim_ht.
  rewrite rev_app_distr. cbn [rev]. rewrite <- app_assoc. cbn [Datatypes.app].
  rewrite skip_to by easy. rewrite rev_app_distr. cbn [rev]. rewrite rev_involutive, <- app_assoc. cbn [Datatypes.app].
  now rewrite skip_to.
Qed.

Lemma skip_in : forall s c, In c (skip_ht s) -> In c s.
Proof.
  intros s c H. destruct (drop_while_suffix is_ht s) as (b & E & _). rewrite E. apply in_or_app. now right.
Qed.

Lemma http_piece_line : forall k v t o, http_line k v t -> http_piece o t = ho_set k v o.
Proof.
  intros k v t o (w1 & w2 & w3 & w4 & B1 & B2 & B3 & B4 & (Ke & Keq & Ks) & (Ve & Vs) & ->).
  unfold http_piece.
  replace (w1 ++ k ++ w2 ++ [EQUALS] ++ w3 ++ v ++ w4)
    with ((w1 ++ k ++ w2) ++ EQUALS :: (w3 ++ v ++ w4)) by now rewrite <- !app_assoc.
  rewrite trim_around, cut_at_app; [|intros H; apply skip_in in H; rewrite !in_app_iff in H|easy].
  - f_equal.
    + rewrite skip_blank by easy. destruct k as [|c k].
      * apply (trim_ht_pad [] [] (skip_ht w2)); [intros c []| |easy].
        intros c Hc. apply B2. now apply skip_in.
      * rewrite skip_edges; [|intros d Hd; apply Ke; now left|discriminate].
        apply (trim_ht_pad [] (c :: k) w2); [intros d []|easy|easy].
    + unfold trim_ht. rewrite rev_involutive. unfold skip_ht at 2 3. rewrite drop_while_idem.
      fold (skip_ht (rev (w3 ++ v ++ w4))). fold (trim_ht (w3 ++ v ++ w4)). now apply trim_ht_pad.
  - destruct H as [H|[H|H]].
    + now apply (blank_in w1) in H.
    + now apply Keq.
    + now apply (blank_in w2) in H.
Qed.

Lemma http_text_run : forall l t, http_text l t -> forall o,
  fold_left http_piece (pieces semi t) o = run _ ho_set l o.
Proof.
  intros l t H. induction H as [w B|w l t B H IH|k v t H|k v t l u H Hl IH]; intros o.
  - rewrite pieces_one by now apply blank_no_semi. cbn. now apply http_piece_blank.
  - cbn [Datatypes.app]. rewrite pieces_cut; [|now apply blank_no_semi|easy]. cbn [fold_left].
    rewrite http_piece_blank by easy. apply IH.
  - rewrite pieces_one by now apply (line_no_semi k v). cbn. now apply http_piece_line.
  - cbn [Datatypes.app]. rewrite pieces_cut; [|now apply (line_no_semi k v)|easy]. cbn [fold_left].
    rewrite (http_piece_line k v) by easy. apply IH.
Qed.

Lemma http_config_run : forall l t, http_text l t -> http_config t = run _ ho_set l hopts0.
Proof. intros l t H. unfold http_config. now apply http_text_run. Qed.

Lemma http_config_strings : forall l t ks g d, http_text l t -> In (ks, g, d) http_strings ->
  (forall v, given ks l v -> g (http_config t) = v) /\ (not_given ks l -> g (http_config t) = d).
Proof.
  intros l t ks g d H I. destruct (http_strings_set ks g d I) as [D Sg]. rewrite (http_config_run l t H). split.
  - intros v G. now apply (run_given _ _ ho_set g ks Some Sg l hopts0 v).
  - intros G. now rewrite (run_not_given _ _ ho_set g ks Some Sg).
Qed.

Lemma http_config_numbers : forall l t ks g d, http_text l t -> In (ks, g, d) http_numbers ->
  (forall v n, given ks l v -> numeral v n -> (n < 2 ^ 32)%N -> g (http_config t) = n) /\
  (not_given ks l -> g (http_config t) = d).
Proof.
  intros l t ks g d H I. destruct (http_numbers_set ks g d I) as [D Sg]. rewrite (http_config_run l t H). split.
  - intros v n G Nv B. apply (run_given _ _ ho_set g ks stoul32 Sg l hopts0 v); [easy|]. now apply stoul32_numeral.
  - intros G. now rewrite (run_not_given _ _ ho_set g ks stoul32 Sg).
Qed.

Lemma http_config_wrap : forall l t ks g d, http_text l t -> In (ks, g, d) http_numbers ->
  forall v n, given ks l v -> numeral v n -> (n < 2 ^ 64)%N -> g (http_config t) = (n mod 2 ^ 32)%N.
Proof.
  intros l t ks g d H I v n G Nv B. destruct (http_numbers_set ks g d I) as [D Sg]. rewrite (http_config_run l t H).
  apply (run_given _ _ ho_set g ks stoul32 Sg l hopts0 v); [easy|]. unfold stoul32.
  now rewrite (stoull_numeral v n Nv B).
Qed.

Lemma switch_false : forall v, switch v = false <-> In v [bs "0"; bs "false"; bs "False"].
Proof.
  intros v. unfold switch. rewrite negb_false_iff, !orb_true_iff, !beq_eq. cbn [In].
  split; [intros [[-> | ->] | ->]|intros [<-|[<-|[<-|[]]]]]; auto.
Qed.

Lemma http_config_switches : forall l t ks g d, http_text l t -> In (ks, g, d) http_switches ->
  (forall v, given ks l v -> (g (http_config t) = false <-> In v [bs "0"; bs "false"; bs "False"])) /\
  (not_given ks l -> g (http_config t) = d).
Proof.
  intros l t ks g d H I. destruct (http_switches_set ks g d I) as [D Sg]. rewrite (http_config_run l t H). split.
  - intros v G. rewrite (run_given _ _ ho_set g ks (fun v => Some (switch v)) Sg l hopts0 v (switch v) G eq_refl).
    apply switch_false.
  - intros G. now rewrite (run_not_given _ _ ho_set g ks (fun v => Some (switch v)) Sg).
Qed.

Ltac listed :=
  cbn [http_strings http_numbers http_switches map concat fst Datatypes.app In];
  repeat first [left; reflexivity | right].

(** A setting that changes nothing. *)
Lemma ho_set_unknown : forall k v o,
  (forall ks g d, In (ks, g, d) http_strings -> ~ In k ks) ->
  (forall ks g d, In (ks, g, d) http_numbers -> ~ In k ks) ->
  (forall ks g d, In (ks, g, d) http_switches -> ~ In k ks) -> ho_set k v o = o.
Proof.
  intros k v o H1 H2 H3.
  assert (K1 : forall x, In x (concat (map (fun e => fst (fst e)) http_strings)) -> beq k x = false).
  { intros x Hx. apply beq_neq. intros ->. apply in_concat in Hx as (ks & Hk & Hx). apply in_map_iff in Hk as ([[ks' g] d] & <- & Hi).
    exact (H1 ks' g d Hi Hx). }
  assert (K2 : forall x, In x (concat (map (fun e => fst (fst e)) http_numbers)) -> beq k x = false).
  { intros x Hx. apply beq_neq. intros ->. apply in_concat in Hx as (ks & Hk & Hx). apply in_map_iff in Hk as ([[ks' g] d] & <- & Hi).
    exact (H2 ks' g d Hi Hx). }
  assert (K3 : forall x, In x (concat (map (fun e => fst (fst e)) http_switches)) -> beq k x = false).
  { intros x Hx. apply beq_neq. intros ->. apply in_concat in Hx as (ks & Hk & Hx). apply in_map_iff in Hk as ([[ks' g] d] & <- & Hi).
    exact (H3 ks' g d Hi Hx). }
  destruct o. unfold ho_set, named.
  repeat match goal with
         | |- context [beq k ?x] =>
             let E := fresh in
             assert (E : beq k x = false) by
               (first [solve [apply K1; listed]|solve [apply K2; listed]|solve [apply K3; listed]]);
             rewrite E; clear E
         end.
  reflexivity.
Qed.

Lemma ho_set_no_number : forall ks g d k v o, In (ks, g, d) http_numbers -> In k ks -> no_number v -> ho_set k v o = o.
Proof.
  intros ks g d k v o H Hk N. assert (E : stoul32 v = None) by (unfold stoul32; now rewrite stoull_no_number).
  destruct o. cbn [http_numbers In] in H.
  repeat (destruct H as [H|H]; [apply triple in H as (<- & <- & <-); cbn [In] in Hk;
    repeat (destruct Hk as [<-|Hk]; [unfold ho_set; rewrite E; reflexivity|]); destruct Hk|]).
  destruct H.
Qed.

Lemma http_config_drop : forall l1 k v l2 t t', (forall o, ho_set k v o = o) ->
  http_text (l1 ++ (k, v) :: l2) t -> http_text (l1 ++ l2) t' -> http_config t = http_config t'.
Proof.
  intros l1 k v l2 t t' E H H'. rewrite (http_config_run _ _ H), (http_config_run _ _ H').
  unfold run. rewrite !fold_left_app. cbn [fold_left fst snd]. now rewrite E.
Qed.

Lemma line_simple : forall k v, http_name k -> http_value v -> http_line k v (k ++ [EQUALS] ++ v).
Proof.
  intros k v K V. assert (Bn : blank []) by (intros c []).
  exists [], [], [], []. rewrite app_nil_r. cbn [Datatypes.app]. auto 10.
Qed.

(** A value with a semicolon is cut there. *)
Lemma http_cut : forall a b, http_value a -> ~ In EQUALS b -> ~ In SEMI b ->
  ho_secret (http_config (bs "clientSecret=" ++ a ++ [SEMI] ++ b)) = a.
Proof.
  intros a b [Ea Sa] Eb Sb. unfold http_config. cbn [Datatypes.app].
  change (fun c => Ascii.eqb c SEMI) with semi.
  replace (bs "clientSecret=" ++ a ++ SEMI :: b) with ((bs "clientSecret=" ++ a) ++ SEMI :: b) by now rewrite <- app_assoc.
  assert (L : http_line (bs "clientSecret") a (bs "clientSecret=" ++ a)).
  { apply (line_simple (bs "clientSecret") a); [|now split]. split; [|split].
    - intros c [H|H]; injection H as <-; split; discriminate.
    - intros H. cbn in H. repeat (destruct H as [H|H]; [discriminate|]). destruct H.
    - intros H. cbn in H. repeat (destruct H as [H|H]; [discriminate|]). destruct H. }
  rewrite pieces_cut; [|now apply (line_no_semi _ _ _ L)|easy].
  rewrite pieces_one by (intros c Hc; apply eqb_neq; intros ->; contradiction).
  cbn [fold_left]. rewrite (http_piece_line _ _ _ _ L). unfold http_piece at 1.
  rewrite cut_at_none; [reflexivity|].
  intros H. apply Eb. unfold trim_ht in H. apply skip_in in H. rewrite <- in_rev in H. apply skip_in in H.
  now rewrite <- in_rev in H.
Qed.

(** ** Standard input and output *)

Lemma in_sep : forall c, In c [SEMI; SPACE; TAB] <-> is_sep c = true.
Proof.
  intros c. unfold is_sep. rewrite !orb_true_iff, !eqb_eq. cbn [In]. intuition congruence.
Qed.

Lemma word_no_sep : forall v, word v -> forall c, In c v -> is_sep c = false.
Proof.
  intros v W c H. destruct (is_sep c) eqn:E; [|easy]. apply in_sep in E. now destruct (W c H).
Qed.

Lemma stdio_skip : forall w t o, separators w ->
  fold_left stdio_piece (pieces is_sep (w ++ t)) o = fold_left stdio_piece (pieces is_sep t) o.
Proof.
  induction w as [|c w IH]; intros t o H; [easy|]. cbn [Datatypes.app pieces].
  rewrite (proj1 (in_sep c) (H c (or_introl eq_refl))). cbn [fold_left]. unfold stdio_piece at 2. cbn [cut_at find_char].
  apply IH. intros d Hd. apply H. now right.
Qed.

Lemma stdio_word : forall k v o, ~ In EQUALS k -> stdio_piece o (k ++ EQUALS :: v) = sc_set k v o.
Proof. intros k v o H. unfold stdio_piece. now rewrite cut_at_app. Qed.

Lemma kv_no_sep : forall k v, word k -> word v -> forall c, In c (k ++ EQUALS :: v) -> is_sep c = false.
Proof.
  intros k v K V c H. apply in_app_or in H as [H|[<-|H]]; [now apply (word_no_sep k)|easy|now apply (word_no_sep v)].
Qed.

Lemma stdio_text_run : forall l t, stdio_text l t -> forall o,
  fold_left stdio_piece (pieces is_sep t) o = run _ sc_set l o.
Proof.
  intros l t H. induction H as [w W|w k v W K E V|w k v c l t W K E V C H IH]; intros o.
  - rewrite <- (app_nil_r w), stdio_skip by easy. easy.
  - rewrite stdio_skip by easy. cbn [Datatypes.app]. rewrite pieces_one by now apply kv_no_sep.
    cbn [fold_left]. now rewrite stdio_word.
  - rewrite stdio_skip by easy. cbn [Datatypes.app].
    replace (k ++ EQUALS :: v ++ c :: t) with ((k ++ EQUALS :: v) ++ c :: t) by now rewrite <- app_assoc.
    rewrite pieces_cut; [|now apply kv_no_sep|apply in_sep, C; now left].
    cbn [fold_left]. rewrite stdio_word by easy. apply IH.
Qed.

Definition stdio_means (k : bstr) (f : N -> Z) (v : bstr) : option Z :=
  option_map f (stoull v).

Lemma int64_small : forall n, (n < 2 ^ 63)%N -> to_int64 n = Z.of_N n.
Proof.
  intros n H. unfold to_int64. change (2 ^ 63)%N with 9223372036854775808%N in H.
  rewrite N.mod_small by (unfold two64; lia). unfold two63.
  destruct (Z.ltb_spec (Z.of_N n) 9223372036854775808); lia.
Qed.

(** The exact meaning of a number for each option. *)
Definition stdio_exact (k : bstr) (n : N) : Z :=
  if beq k (bs "timeout_ms") then timeout_of n
  else if (beq k (bs "idle_read_timeout_ms") || beq k (bs "write_timeout_ms"))%bool then to_int64 n
  else Z.of_N (if N.eqb n 0 then 1%N else n).

Lemma stdio_set : forall x g f, In (x, g, f) stdio_options ->
  (forall n, (n < 2 ^ 63)%N -> stdio_exact x n = f n) /\
  forall k v o, g (sc_set k v o) =
    if existsb (beq k) [x] then or_keep (option_map (stdio_exact x) (stoull v)) (g o) else g o.
Proof.
  intros x g f H. cbn [stdio_options In] in H.
  repeat (destruct H as [H|H]; [apply triple in H as (<- & <- & <-)|]); [..|destruct H].
  all: split.
  all: try (intros k v []; unfold sc_set, named; destruct (stoull v) as [n|]; cbn [existsb option_map];
            [setter k|now destruct (beq k _)]).
  - intros n B. change (timeout_of n = if N.eqb n 0 then int64_max else Z.of_N n). unfold timeout_of.
    destruct (N.eqb_spec n 0); [easy|now apply int64_small].
  - intros n B. change (to_int64 n = Z.of_N n). now apply int64_small.
  - intros n B. change (to_int64 n = Z.of_N n). now apply int64_small.
  - intros n B. change (Z.of_N (if N.eqb n 0 then 1%N else n) = Z.max 1 (Z.of_N n)).
    destruct (N.eqb_spec n 0); lia.
  - intros n B. change (Z.of_N (if N.eqb n 0 then 1%N else n) = Z.max 1 (Z.of_N n)).
    destruct (N.eqb_spec n 0); lia.
Qed.

Lemma stdio_config_options : forall env l t x g f, stdio_text l t -> In (x, g, f) stdio_options ->
  (forall v n, given [x] l v -> numeral v n -> (n < 2 ^ 63)%N -> g (stdio_config env t) = f n) /\
  (not_given [x] l -> g (stdio_config env t) = g (stdio_config env [])).
Proof.
  intros env l t x g f H I. destruct (stdio_set x g f I) as [E Sg].
  assert (R : stdio_config env t = run _ sc_set l (sconf0 env)) by (now apply stdio_text_run).
  rewrite R. split.
  - intros v n G Nv B.
    apply (run_given _ _ sc_set g [x] (fun v => option_map (stdio_exact x) (stoull v)) Sg l (sconf0 env) v); [easy|].
    rewrite (stoull_numeral v n Nv); [cbn [option_map]; f_equal; now apply E|].
    unfold two64. change (2 ^ 63)%N with 9223372036854775808%N in B. lia.
  - intros G. now rewrite (run_not_given _ _ sc_set g [x] (fun v => option_map (stdio_exact x) (stoull v)) Sg).
Qed.

Lemma sc_set_inert : forall k v o, no_number v \/ (forall x g f, In (x, g, f) stdio_options -> k <> x) -> sc_set k v o = o.
Proof.
  intros k v [ti id wr qu co] [N|H].
  - unfold sc_set. now rewrite stoull_no_number.
  - unfold sc_set, named. destruct (stoull v); [|easy].
    assert (K : forall x, In x (map (fun e => fst (fst e)) stdio_options) -> beq k x = false).
    { intros x Hx. apply beq_neq. apply in_map_iff in Hx as ([[y g] f] & <- & Hi). exact (H y g f Hi). }
    repeat match goal with
           | |- context [beq k ?x] =>
               let E := fresh in
               assert (E : beq k x = false) by
                 (apply K; cbn [stdio_options map fst In]; repeat first [left; reflexivity | right]);
               rewrite E; clear E
           end.
    reflexivity.
Qed.

Lemma stdio_config_drop : forall env l1 k v l2 t t',
  no_number v \/ (forall x g f, In (x, g, f) stdio_options -> k <> x) ->
  stdio_text (l1 ++ (k, v) :: l2) t -> stdio_text (l1 ++ l2) t' -> stdio_config env t = stdio_config env t'.
Proof.
  intros env l1 k v l2 t t' E H H'. unfold stdio_config.
  rewrite (stdio_text_run _ _ H), (stdio_text_run _ _ H').
  unfold run. rewrite !fold_left_app. cbn [fold_left fst snd]. now rewrite sc_set_inert.
Qed.

(** ** Queries *)

Definition amp (c : ascii) : bool := Ascii.eqb c AMP.

Lemma pair_no_amp : forall k v, query_name k -> query_value v -> forall c, In c (k ++ EQUALS :: v) -> amp c = false.
Proof.
  intros k v [_ K] V c H. apply eqb_neq. apply in_app_or in H as [H|[<-|H]].
  - intros ->. contradiction.
  - discriminate.
  - intros ->. now apply V.
Qed.

Lemma query_run : forall (O : Type) (piece : O -> bstr -> O) (set : bstr -> bstr -> O -> O),
  (forall o, piece o [] = o) ->
  (forall o k v, ~ In EQUALS k -> piece o (k ++ EQUALS :: v) = set k v o) ->
  forall l o, queryable l -> fold_left piece (pieces amp (query l)) o = run _ set l o.
Proof.
  intros O piece set P0 P1. induction l as [|[k v] l IH]; intros o Q.
  - cbn. apply P0.
  - destruct (Q k v (or_introl eq_refl)) as [K V].
    assert (Ql : queryable l) by (intros k' v' Hi; apply Q; now right).
    destruct l as [|[k2 v2] l].
    + cbn [query Datatypes.app]. rewrite pieces_one by now apply pair_no_amp. cbn [fold_left]. rewrite P1 by apply K. easy.
    + change (query ((k, v) :: (k2, v2) :: l)) with (k ++ [EQUALS] ++ v ++ [AMP] ++ query ((k2, v2) :: l)).
      cbn [Datatypes.app].
      replace (k ++ EQUALS :: v ++ AMP :: query ((k2, v2) :: l))
        with ((k ++ EQUALS :: v) ++ AMP :: query ((k2, v2) :: l)) by now rewrite <- app_assoc.
      rewrite pieces_cut; [|now apply pair_no_amp|easy]. cbn [fold_left]. rewrite P1 by apply K.
      rewrite (IH _ Ql). easy.
Qed.

Lemma cut_query : forall a l q, ~ In QMARK a -> query_part l q ->
  exists s, or_keep (cut_at QMARK (a ++ q)) (a ++ q, []) = (a, s) /\ (s = query l).
Proof.
  intros a l q H [_ [[-> ->] | ->]].
  - exists []. rewrite app_nil_r, cut_at_none by easy. easy.
  - exists (query l). cbn [Datatypes.app]. now rewrite cut_at_app.
Qed.

(** ** Shared memory *)

Definition shm_start (name : bstr) : mopts :=
  {| mo_channel := match name with [] => bs "mcp-shm" | _ => name end; mo_create := false;
     mo_size := 1048576%N; mo_count := 256%N |}.

Lemma shm_config_run : forall pre name l q, ~ In QMARK name -> query_part l q ->
  pre = bs "shm://" \/ pre = [] /\ starts_with (bs "shm://") (name ++ q) = false ->
  shm_config (pre ++ name ++ q) = run _ mo_set l (shm_start name).
Proof.
  intros pre name l q H Q P. unfold shm_config.
  assert (R : (if starts_with (bs "shm://") (pre ++ name ++ q) then skipn 6 (pre ++ name ++ q) else pre ++ name ++ q) = name ++ q).
  { destruct P as [-> | [-> E]].
    - rewrite starts_with_app. reflexivity.
    - cbn [Datatypes.app]. now rewrite E. }
  rewrite R. destruct (cut_query name l q H Q) as (s & E & ->). rewrite E.
  fold (shm_start name). change (fun c => Ascii.eqb c AMP) with amp.
  apply query_run; [easy| |apply Q]. intros o k v Hk. unfold shm_piece. now rewrite cut_at_app.
Qed.

Lemma yes_iff : forall v, yes v = true <-> affirmative v.
Proof.
  intros v. unfold yes, affirmative. rewrite !orb_true_iff, !beq_eq. cbn [In]. intuition congruence.
Qed.

Lemma mo_set_channel : forall k v o, mo_channel (mo_set k v o) = mo_channel o.
Proof.
  intros k v []. unfold mo_set.
  repeat match goal with |- context [if ?b then _ else _] => destruct b end; easy.
Qed.

Lemma run_channel : forall l o, mo_channel (run _ mo_set l o) = mo_channel o.
Proof.
  induction l as [|[k v] l IH]; intros o; [easy|]. cbn. unfold run in *. now rewrite IH, mo_set_channel.
Qed.

Lemma mo_set_create : forall k v o, mo_create (mo_set k v o) =
  if existsb (beq k) [bs "create"] then or_keep (Some (yes v)) (mo_create o) else mo_create o.
Proof. intros k v []. unfold mo_set, named. cbn [existsb]. setter k. Qed.

Lemma mo_set_size : forall k v o, mo_size (mo_set k v o) =
  if existsb (beq k) [bs "maxSize"] then or_keep (stoull v) (mo_size o) else mo_size o.
Proof. intros k v []. unfold mo_set, named. cbn [existsb]. setter k. Qed.

Lemma mo_set_count : forall k v o, mo_count (mo_set k v o) =
  if existsb (beq k) [bs "maxCount"] then or_keep (stoul32 v) (mo_count o) else mo_count o.
Proof. intros k v []. unfold mo_set, named. cbn [existsb]. setter k. Qed.

Lemma shm_config_options : forall pre name l q, ~ In QMARK name -> query_part l q ->
  pre = bs "shm://" \/ pre = [] /\ starts_with (bs "shm://") (name ++ q) = false ->
  let o := shm_config (pre ++ name ++ q) in
  (name <> [] -> mo_channel o = name) /\ (name = [] -> mo_channel o = bs "mcp-shm") /\
  (forall v, given [bs "create"] l v -> (mo_create o = true <-> affirmative v)) /\
  (not_given [bs "create"] l -> mo_create o = false) /\
  (forall v n, given [bs "maxSize"] l v -> numeral v n -> (n < 2 ^ 64)%N -> mo_size o = n) /\
  (not_given [bs "maxSize"] l -> mo_size o = 1048576%N) /\
  (forall v n, given [bs "maxCount"] l v -> numeral v n -> (n < 2 ^ 32)%N -> mo_count o = n) /\
  (not_given [bs "maxCount"] l -> mo_count o = 256%N).
Proof.
  intros pre name l q H Q P o. unfold o. rewrite (shm_config_run pre name l q H Q P). clear o.
  split; [|split; [|split; [|split; [|split; [|split; [|split]]]]]].
  - intros N. rewrite run_channel. now destruct name.
  - intros ->. now rewrite run_channel.
  - intros v G. rewrite (run_given _ _ mo_set mo_create _ _ mo_set_create l _ v (yes v) G eq_refl). apply yes_iff.
  - intros G. now rewrite (run_not_given _ _ mo_set mo_create _ _ mo_set_create).
  - intros v n G Nv B. apply (run_given _ _ mo_set mo_size _ _ mo_set_size l _ v n G). now apply stoull_numeral.
  - intros G. now rewrite (run_not_given _ _ mo_set mo_size _ _ mo_set_size).
  - intros v n G Nv B. apply (run_given _ _ mo_set mo_count _ _ mo_set_count l _ v n G). now apply stoul32_numeral.
  - intros G. now rewrite (run_not_given _ _ mo_set mo_count _ _ mo_set_count).
Qed.

Lemma shm_count_wrap : forall pre name l q v n, ~ In QMARK name -> query_part l q ->
  pre = bs "shm://" \/ pre = [] /\ starts_with (bs "shm://") (name ++ q) = false ->
  given [bs "maxCount"] l v -> numeral v n -> (n < 2 ^ 64)%N ->
  mo_count (shm_config (pre ++ name ++ q)) = (n mod 2 ^ 32)%N.
Proof.
  intros pre name l q v n H Q P G Nv B. rewrite (shm_config_run pre name l q H Q P).
  apply (run_given _ _ mo_set mo_count _ _ mo_set_count l _ v _ G). unfold stoul32. now rewrite (stoull_numeral v n Nv B).
Qed.

(** ** HTTP server *)

Lemma listen_strings_set : forall ks g d, In (ks, g, d) listen_strings ->
  (forall sc ad po, g (Build_lopts sc ad po [] [] (bs "/mcp/rpc") (bs "/mcp/notify") [] []) = d) /\
  forall k v o, g (lo_set k v o) = if existsb (beq k) ks then or_keep (Some v) (g o) else g o.
Proof.
  intros ks g d H. cbn [listen_strings In] in H.
  repeat (destruct H as [H|H]; [apply triple in H as (<- & <- & <-); split; [reflexivity|];
    intros k v []; unfold lo_set, named; cbn [existsb]; setter k|]).
  destruct H.
Qed.

Lemma lo_set_same : forall k v o, lo_scheme (lo_set k v o) = lo_scheme o /\
  lo_address (lo_set k v o) = lo_address o /\ lo_port (lo_set k v o) = lo_port o.
Proof.
  intros k v []. unfold lo_set.
  repeat match goal with |- context [if ?b then _ else _] => destruct b end; easy.
Qed.

Lemma run_listen_same : forall l o, lo_scheme (run _ lo_set l o) = lo_scheme o /\
  lo_address (run _ lo_set l o) = lo_address o /\ lo_port (run _ lo_set l o) = lo_port o.
Proof.
  induction l as [|[k v] l IH]; intros o; [easy|]. cbn. unfold run in *.
  destruct (IH (lo_set k v o)) as (-> & -> & ->). apply lo_set_same.
Qed.

Lemma trim_keep : forall s, (forall c, hd_error s = Some c \/ hd_error (rev s) = Some c -> is_space c = false) -> trim s = s.
Proof.
  intros s H. unfold trim.
  assert (K : forall t, (forall c, hd_error t = Some c -> is_space c = false) -> drop_while is_space t = t).
  { intros [|c t] Ht; [easy|]. cbn. now rewrite (Ht c eq_refl). }
  rewrite (K s) by (intros c Hc; apply H; now left).
  rewrite (K (rev s)) by (intros c Hc; apply H; now right). apply rev_involutive.
Qed.

Lemma trim_ends : forall w s w', spaces w -> spaces w' ->
  (forall c, hd_error s = Some c \/ hd_error (rev s) = Some c -> is_space c = false) -> s <> [] ->
  trim (w ++ s ++ w') = s.
Proof.
  intros w s w' W W' H N. unfold trim.
  assert (D : forall w s, spaces w -> drop_while is_space (w ++ s) = drop_while is_space s).
  { intros u. induction u as [|c u IH]; intros t Hu; [easy|]. cbn. rewrite (Hu c (or_introl eq_refl)).
    apply IH. intros d Hd. apply Hu. now right. }
  assert (K : forall t r, t <> [] -> (forall c, hd_error t = Some c -> is_space c = false) -> drop_while is_space (t ++ r) = t ++ r).
  { intros [|c t] r Nt Ht; [congruence|]. cbn. now rewrite (Ht c eq_refl). }
  rewrite D by easy. rewrite K by (try easy; intros c Hc; apply H; now left).
  rewrite rev_app_distr, D by now apply spaces_rev.
  rewrite <- (app_nil_r (rev s)), K.
  - rewrite app_nil_r. apply rev_involutive.
  - intros E. apply N. rewrite <- (rev_involutive s), E. easy.
  - intros c Hc. apply H. now right.
Qed.

Lemma trim_nospace : forall s, (forall c, In c s -> is_space c = false) -> trim s = s.
Proof. exact trim_id. Qed.

Lemma plain_no : forall h c, plain_host h -> In c [COLON_; LBR; RBR; SLASH; QMARK] -> ~ In c h.
Proof. intros h c [_ P] Hc H. destruct (P c H) as [_ X]. contradiction. Qed.

Lemma bracket_no : forall h c, bracket_host h -> In c [LBR; RBR; SLASH; QMARK] -> ~ In c h.
Proof. intros h c [_ P] Hc H. destruct (P c H) as [_ X]. contradiction. Qed.

Lemma listen_at_text : forall h p t, listen_text h p t -> listen_at t = (h, p).
Proof.
  intros h p t H. destruct H as [h P|h d P D Nd|h P|h d P D].
  - destruct P as [N P]. destruct h as [|c h]; [congruence|]. unfold listen_at.
    destruct (P c (or_introl eq_refl)) as [_ X].
    rewrite (proj2 (eqb_neq c LBR)) by (intros ->; apply X; cbn; tauto).
    rewrite rfind_none by (apply (plain_no _ COLON_ (conj N P)); cbn; tauto).
    rewrite trim_nospace by (intros x Hx; now apply P). reflexivity.
  - destruct P as [Nh P]. destruct h as [|c h]; [congruence|]. unfold listen_at.
    change ((c :: h) ++ [COLON_] ++ d) with (c :: h ++ COLON_ :: d).
    destruct (P c (or_introl eq_refl)) as [_ X].
    rewrite (proj2 (eqb_neq c LBR)) by (intros ->; apply X; cbn; tauto).
    change (c :: h ++ COLON_ :: d) with ((c :: h) ++ COLON_ :: d).
    rewrite rfind_app by (apply (digits_no d COLON_ D); reflexivity).
    rewrite firstn_app_len. replace ((c :: h) ++ COLON_ :: d) with (((c :: h) ++ [COLON_]) ++ d) by now rewrite <- app_assoc.
    replace (S (length (c :: h))) with (length ((c :: h) ++ [COLON_])) by (rewrite app_length; cbn; lia).
    rewrite skipn_app_len. rewrite !trim_nospace.
    + now destruct d.
    + intros x Hx. apply GuardProofs.digit_not_space. now apply D.
    + intros x Hx. now apply P.
  - unfold listen_at. cbn [Datatypes.app]. rewrite eqb_refl.
    change (LBR :: h ++ [RBR]) with ((LBR :: h) ++ RBR :: []).
    rewrite cut_at_app.
    + cbn [skipn]. rewrite trim_nospace by (intros x Hx; now apply P). reflexivity.
    + intros [H|H]; [discriminate|]. revert H. apply (bracket_no h RBR P). cbn; tauto.
  - unfold listen_at. cbn [Datatypes.app]. rewrite eqb_refl.
    change (LBR :: h ++ RBR :: COLON_ :: d) with ((LBR :: h) ++ RBR :: COLON_ :: d).
    rewrite cut_at_app.
    + cbn [skipn]. rewrite eqb_refl. rewrite !trim_nospace.
      * now destruct d.
      * intros x Hx. apply GuardProofs.digit_not_space. now apply D.
      * intros x Hx. now apply P.
    + intros [H|H]; [discriminate|]. revert H. apply (bracket_no h RBR P). cbn; tauto.
Qed.

Lemma listen_text_chars : forall h p t, listen_text h p t -> t <> [] /\
  (forall c, In c t -> is_space c = false /\ c <> SLASH /\ c <> QMARK).
Proof.
  assert (B : forall c, In c [LBR; RBR; COLON_] -> is_space c = false /\ c <> SLASH /\ c <> QMARK).
  { intros c [<-|[<-|[<-|[]]]]; (split; [reflexivity|split; discriminate]). }
  assert (P1 : forall h, plain_host h -> forall c, In c h -> is_space c = false /\ c <> SLASH /\ c <> QMARK).
  { intros h P c Hc. split; [now apply P|]. split; intros ->; revert Hc; apply (plain_no h _ P); cbn; tauto. }
  assert (P2 : forall h, bracket_host h -> forall c, In c h -> is_space c = false /\ c <> SLASH /\ c <> QMARK).
  { intros h P c Hc. split; [now apply P|]. split; intros ->; revert Hc; apply (bracket_no h _ P); cbn; tauto. }
  assert (D1 : forall d, digits d -> forall c, In c d -> is_space c = false /\ c <> SLASH /\ c <> QMARK).
  { intros d D c Hc. split; [apply GuardProofs.digit_not_space; now apply D|].
    split; intros ->; revert Hc; apply (digits_no d _ D); reflexivity. }
  intros h p t H. destruct H as [h P|h d P D Nd|h P|h d P D].
  - split; [apply P|now apply P1].
  - split; [destruct P as [Nh _]; destruct h; [congruence|discriminate]|].
    intros c Hc. apply in_app_or in Hc as [Hc|[<-|Hc]]; [now apply (P1 h)|apply B; cbn; tauto|now apply (D1 d)].
  - split; [discriminate|]. intros c Hc. apply in_app_or in Hc as [[<-|[]]|Hc]; [apply B; cbn; tauto|].
    apply in_app_or in Hc as [Hc|[<-|[]]]; [now apply (P2 h)|apply B; cbn; tauto].
  - split; [discriminate|]. intros c Hc. apply in_app_or in Hc as [[<-|[]]|Hc]; [apply B; cbn; tauto|].
    apply in_app_or in Hc as [Hc|[<-|[<-|Hc]]]; [now apply (P2 h)|apply B; cbn; tauto|apply B; cbn; tauto|now apply (D1 d)].
Qed.

(** The texts that could be taken for a scheme cannot start an address. *)
Lemma no_scheme : forall h p t r, listen_text h p t -> (r = [] \/ exists q, r = SLASH :: q \/ r = QMARK :: q) ->
  forall sch, In sch [bs "http://"; bs "https://"] -> starts_with sch (t ++ r) = false.
Proof.
  intros h p t r H R sch Hs.
  assert (G : forall n, n = bs "http" \/ n = bs "https" -> starts_with (n ++ COLON_ :: bs "//") (t ++ r) = false).
  { intros n Hn. destruct (starts_with (n ++ COLON_ :: bs "//") (t ++ r)) eqn:E; [|easy]. exfalso.
    apply starts_with_iff in E as (u & E). rewrite <- app_assoc in E. cbn [Datatypes.app] in E.
    assert (Nc : ~ In COLON_ n) by (destruct Hn as [-> | ->]; cbn; intuition discriminate).
    assert (Rc : hd_error r <> Some COLON_).
    { destruct R as [-> | (q & [-> | ->])]; discriminate. }
    destruct H as [h P|h d P D Nd|h P|h d P D].
    - assert (Hc : ~ In COLON_ h) by (apply (plain_no h _ P); cbn; tauto).
      apply app_eq_app in E as (l & [(E1 & E2)|(E1 & E2)]).
      + destruct l as [|x l]; cbn in E2; [apply Rc; now rewrite <- E2|].
        injection E2 as <- _. apply Hc. rewrite E1. apply in_or_app. right. now left.
      + destruct l as [|x l]; [apply Rc; now rewrite E2|].
        assert (X : In x n) by (rewrite E1; apply in_or_app; right; now left).
        rewrite E2 in R. destruct R as [R | (q & [R | R])]; [discriminate| |]; injection R as -> _;
          destruct Hn as [-> | ->]; cbn in X; intuition discriminate.
    - assert (Hc : ~ In COLON_ h) by (apply (plain_no h _ P); cbn; tauto).
      rewrite <- app_assoc in E. cbn [Datatypes.app] in E.
      assert (C : cut_at COLON_ (h ++ COLON_ :: d ++ r) = cut_at COLON_ (n ++ COLON_ :: bs "//" ++ u)) by now rewrite E.
      rewrite !cut_at_app in C by easy. injection C as Eh C. destruct d as [|x d]; [destruct Nd as [Nd|Nd]; [now apply Nd|apply Nd; rewrite Eh; destruct Hn as [-> | ->]; cbn; auto]|].
      injection C as -> _. specialize (D SLASH (or_introl eq_refl)). discriminate.
    - destruct Hn as [-> | ->]; discriminate.
    - destruct Hn as [-> | ->]; discriminate. }
  destruct Hs as [<-|[<-|[]]].
  - apply (G (bs "http")). now left.
  - apply (G (bs "https")). now right.
Qed.

Definition listen_start (sch addr port : bstr) : lopts :=
  Build_lopts sch addr port [] [] (bs "/mcp/rpc") (bs "/mcp/notify") [] [].

Lemma listen_config_run : forall w sch s addr port a path l q w',
  spaces w -> spaces w' -> scheme_text sch s -> listen_text addr port a -> path_part path -> query_part l q ->
  (forall c, hd_error (rev (path ++ q)) = Some c -> is_space c = false) ->
  listen_config (w ++ (s ++ a ++ path ++ q) ++ w') = run _ lo_set l (listen_start sch addr port).
Proof.
  intros w sch s addr port a path l q w' W W' Sc L P Q End.
  destruct (listen_text_chars _ _ _ L) as [Na Ca].
  assert (Ns : s ++ a ++ path ++ q <> []).
  { intros E. apply app_eq_nil in E as [_ E]. apply app_eq_nil in E as [E _]. contradiction. }
  unfold listen_config. rewrite trim_ends; [|easy|easy| |exact Ns].
  2: { intros c [H|H].
       - destruct Sc; cbn [Datatypes.app bs list_ascii_of_string hd_error] in H.
         + destruct a as [|x a]; [congruence|]. injection H as <-. now apply Ca; left.
         + injection H as <-. reflexivity.
         + injection H as <-. reflexivity.
       - rewrite !rev_app_distr, <- !app_assoc in H. destruct (rev q ++ rev path) as [|x y] eqn:E.
         + apply app_eq_nil in E as [E1 E2]. rewrite E1, E2 in H. cbn [Datatypes.app] in H.
           destruct (rev a) as [|z b] eqn:Ea; [now apply (f_equal (@rev ascii)) in Ea; rewrite rev_involutive in Ea|].
           injection H as <-. apply Ca. apply in_rev. rewrite Ea. now left.
         + rewrite app_assoc, E in H. injection H as <-. apply End. now rewrite rev_app_distr, E. }
  set (rest := a ++ path ++ q).
  assert (NS : forall x, In x [bs "http://"; bs "https://"] -> starts_with x rest = false).
  { intros x Hx. unfold rest. apply (no_scheme addr port a (path ++ q) L); [|easy].
    destruct P as [-> | (r & -> & Hr)]; [|right; exists (r ++ q); now left].
    destruct Q as [_ [[-> ->] | ->]]; [now left|right; exists (query l); now right]. }
  assert (SR : (if starts_with (bs "http://") (s ++ rest) then (bs "http", skipn 7 (s ++ rest))
                else if starts_with (bs "https://") (s ++ rest) then (bs "https", skipn 8 (s ++ rest))
                else (bs "http", s ++ rest)) = (sch, rest)).
  { destruct Sc.
    - cbn [Datatypes.app]. rewrite !NS by (cbn; tauto). easy.
    - rewrite starts_with_app. reflexivity.
    - reflexivity. }
  match goal with |- (let (_, _) := ?X in _) = _ => replace X with (sch, rest) by (symmetry; exact SR) end.
  assert (Nq : ~ In QMARK (a ++ path)).
  { intros H. apply in_app_or in H as [H|H]; [now apply (Ca QMARK)|].
    destruct P as [-> | (r & -> & Hr)]; [destruct H|]. destruct H as [H|H]; [discriminate|contradiction]. }
  unfold rest. rewrite app_assoc. destruct (cut_query (a ++ path) l q Nq Q) as (t & E & ->). rewrite E.
  assert (Hp : trim (match cut_at SLASH (a ++ path) with Some (x, _) => x | None => a ++ path end) = a).
  { assert (Sa : ~ In SLASH a) by (intros H; destruct (Ca SLASH H) as (_ & X & _); now apply X).
    replace (match cut_at SLASH (a ++ path) with Some (x, _) => x | None => a ++ path end) with a.
    - apply trim_nospace. intros c Hc. now apply Ca.
    - destruct P as [-> | (r & -> & Hr)]; [now rewrite app_nil_r, cut_at_none|now rewrite cut_at_app]. }
  rewrite Hp, (listen_at_text _ _ _ L). fold (listen_start sch addr port).
  change (fun c => Ascii.eqb c AMP) with amp.
  apply query_run; [|intros o k v Hk; unfold listen_piece; now rewrite cut_at_app|apply Q].
  intros []. reflexivity.
Qed.
