(** Proofs about the reading of numbers: the rounded value is the nearest double. *)
From Coq Require Import Ascii String List Arith NArith ZArith Bool Lia ZifyBool ZifyNat ZifyN.
From Verif Require Import StrModel StrProofs DoubleModel JsonModel JsonSpec DoubleProofs TextSpec TextNum.
Import ListNotations.
Local Open Scope Z_scope.

Lemma some_inj : forall (A : Type) (a b : A), Some a = Some b -> a = b.
Proof. congruence. Qed.

Lemma grid_any : forall d' u' e, dbl_canonical d' -> units d' = Some u' -> -1074 <= e ->
  let U := 2 ^ (e + 1074) in
  (exists k, u' = k * U /\ (Z.odd k = true -> ~ even_mantissa d')) \/ (u' < 2 ^ 52 * U /\ e <> -1074).
Proof.
  intros d' u' e C Hu He. cbv zeta.
  assert (0 < 2 ^ (e + 1074)) as HU by (apply Z.pow_pos_nonneg; lia).
  destruct d' as [s | s m e' | s | s]; cbn [units] in Hu; try discriminate; apply some_inj in Hu; subst u'.
  - left. exists 0. split; [easy|]. discriminate.
  - pose proof (units_grid s m e' e C He) as G. cbv zeta in G.
    assert (0 < 2 ^ (e' + 1074)) as HU' by (cbn in C; apply Z.pow_pos_nonneg; lia).
    destruct G as [(k & E & O) | (L & N)].
    + left. exists ((if s then -1 else 1) * k). rewrite E. split; [ring|].
      rewrite Z.odd_mul. intros Ho. apply andb_true_iff in Ho as [_ Ho].
      destruct (O Ho) as [-> Hm]. cbn [even_mantissa]. rewrite Hm.
      rewrite <- Z.negb_odd, Ho. discriminate.
    + right. split; [|easy]. destruct s; [|lia].
      assert (0 < Zpos m * 2 ^ (e' + 1074)) by nia. lia.
Qed.

Section Round.
Variables num den : positive.
Let e := e_of num den.
Let U := 2 ^ (e + 1074).
Let n := Z.of_N (n_of num den).
Let d := Z.of_N (d_of num den).
Let m := Z.of_N (div_rne (n_of num den) (d_of num den)).

Lemma dist_scaled : forall k, d * dist (Zpos num) (Zpos den) (k * U) = U * Zpos den * Z.abs (k * d - n).
Proof.
  intros k. unfold dist. pose proof (scaled num den) as Sc. fold e n d in Sc. fold U in Sc.
  assert (0 < U) as HU by (unfold U, e, e_of; apply Z.pow_pos_nonneg; lia).
  assert (0 < d) as Hd by (pose proof (d_of_pos num den); unfold d; lia).
  set (A := Zpos num * 2 ^ 1074) in *.
  assert (forall p x, 0 < p -> p * Z.abs x = Z.abs (p * x)) as K.
  { intros p x Hp. rewrite Z.abs_mul, (Z.abs_eq p); lia. }
  rewrite K by exact Hd. rewrite K by nia. f_equal. rewrite Z.mul_sub_distr_l, <- Sc. ring.
Qed.

Lemma best : forall d' u', dbl_canonical d' -> units d' = Some u' ->
  dist (Zpos num) (Zpos den) (m * U) <= dist (Zpos num) (Zpos den) u' /\
  (u' <> m * U -> dist (Zpos num) (Zpos den) (m * U) = dist (Zpos num) (Zpos den) u' ->
   Z.even m = true /\ ~ even_mantissa d').
Proof.
  intros d' u' C Hu.
  assert (-1074 <= e) as He by (unfold e, e_of; lia).
  assert (0 < U) as HU by (unfold U; apply Z.pow_pos_nonneg; lia).
  assert (0 < d) as Hd by (pose proof (d_of_pos num den); unfold d; lia).
  pose proof (div_rne_spec (n_of num den) (d_of num den) (d_of_pos num den)) as R. cbv zeta in R.
  fold m n d in R. destruct R as [R1 R2].
  assert (forall k, k <> m ->
    dist (Zpos num) (Zpos den) (m * U) <= dist (Zpos num) (Zpos den) (k * U) /\
    (dist (Zpos num) (Zpos den) (m * U) = dist (Zpos num) (Zpos den) (k * U) ->
     Z.even m = true /\ Z.odd k = true)) as Int.
  { intros k Hk. destruct (rne_best m d n k Hd R1 Hk) as [B1 B2].
    pose proof (dist_scaled m) as D1. pose proof (dist_scaled k) as D2.
    assert (0 < U * Zpos den) as HP by nia.
    split.
    - apply mul_le_cancel with d; [easy|]. rewrite D1, D2. apply Z.mul_le_mono_nonneg_l; lia.
    - intros E. rewrite E in D1. rewrite D1 in D2. apply Z.mul_reg_l in D2; [|lia].
      destruct (B2 D2) as [B3 B4]. pose proof (R2 B3) as V. split; [easy|].
      rewrite <- Z.negb_even. destruct B4 as [-> | ->].
      + rewrite Z.even_add, V. reflexivity.
      + rewrite Z.even_sub, V. reflexivity. }
  destruct (grid_any d' u' e C Hu He) as [(k & E & O) | (L & N)].
  - fold U in E. subst u'. destruct (Z.eq_dec k m) as [-> | Hk].
    + split; [lia|]. intros H. now destruct H.
    + destruct (Int k Hk) as [I1 I2]. split; [easy|]. intros _ Eq. destruct (I2 Eq). auto.
  - fold U in L.
    assert (dist (Zpos num) (Zpos den) (m * U) < dist (Zpos num) (Zpos den) u') as S0.
    { apply Z.le_lt_trans with (dist (Zpos num) (Zpos den) (2 ^ 52 * U)).
      - destruct (Z.eq_dec (2 ^ 52) m) as [-> | Hk]; [lia|]. now apply Int.
      - pose proof (window num den) as [_ W]. specialize (W N). fold n d in W.
        pose proof (scaled num den) as Sc. fold e n d in Sc. fold U in Sc.
        unfold dist. set (A := Zpos num * 2 ^ 1074) in *. set (w := 2 ^ 52) in *.
        assert (w * U * Zpos den <= A) as B.
        { apply mul_le_cancel with d; [easy|]. rewrite <- Sc.
          replace (d * (w * U * Zpos den)) with (w * d * (U * Zpos den)) by ring.
          apply Z.mul_le_mono_nonneg_r; [nia|easy]. }
        assert (u' * Zpos den < w * U * Zpos den) by (apply Z.mul_lt_mono_pos_r; lia).
        lia. }
    split; [lia|]. intros _ Eq. lia.
Qed.

Lemma m_window : 0 <= m <= 2 ^ 53 /\ (e <> -1074 -> 2 ^ 52 <= m).
Proof.
  assert (0 < d) as Hd by (pose proof (d_of_pos num den); unfold d; lia).
  pose proof (div_rne_spec (n_of num den) (d_of num den) (d_of_pos num den)) as R. cbv zeta in R.
  fold m n d in R. destruct R as [R1 _].
  pose proof (window num den) as [W1 W2]. fold n d in W1, W2. fold e in W2.
  set (a := 2 ^ 53) in *. set (b := 2 ^ 52) in *.
  split; [split; [unfold m; lia|]|].
  - assert (m < a + 1); [|lia]. apply Z.nle_gt. intros H.
    assert ((a + 1) * d <= m * d) by (apply Z.mul_le_mono_nonneg_r; lia). lia.
  - intros N. specialize (W2 N). assert (b - 1 < m); [|lia]. apply Z.nle_gt. intros H.
    assert (m * d <= (b - 1) * d) by (apply Z.mul_le_mono_nonneg_r; lia). lia.
Qed.

Lemma A_lt : forall c k, 0 < k -> k * n < c * d -> k * (Zpos num * 2 ^ 1074) < c * (U * Zpos den).
Proof.
  intros c k Hk H. pose proof (scaled num den) as Sc. fold e n d in Sc. fold U in Sc.
  assert (0 < U) as HU by (unfold U, e, e_of; apply Z.pow_pos_nonneg; lia).
  assert (0 < d) as Hd by (pose proof (d_of_pos num den); unfold d; lia).
  apply mul_lt_cancel with d; [easy|].
  replace (d * (k * (Zpos num * 2 ^ 1074))) with (k * n * (U * Zpos den))
    by (rewrite <- Z.mul_assoc, Sc; ring).
  replace (d * (c * (U * Zpos den))) with (c * d * (U * Zpos den)) by ring.
  apply Z.mul_lt_mono_pos_r; nia.
Qed.

Lemma A_ge : forall c k, 0 < k -> c * d <= k * n -> c * (U * Zpos den) <= k * (Zpos num * 2 ^ 1074).
Proof.
  intros c k Hk H. pose proof (scaled num den) as Sc. fold e n d in Sc. fold U in Sc.
  assert (0 < U) as HU by (unfold U, e, e_of; apply Z.pow_pos_nonneg; lia).
  assert (0 < d) as Hd by (pose proof (d_of_pos num den); unfold d; lia).
  apply mul_le_cancel with d; [easy|].
  replace (d * (k * (Zpos num * 2 ^ 1074))) with (k * n * (U * Zpos den))
    by (rewrite <- Z.mul_assoc, Sc; ring).
  replace (d * (c * (U * Zpos den))) with (c * d * (U * Zpos den)) by ring.
  apply Z.mul_le_mono_nonneg_r; nia.
Qed.

(** Below the overflow threshold. *)
Lemma small_enough : e < 971 \/ (e = 971 /\ m <> 2 ^ 53) -> Zpos num < Zpos den * (2 ^ 1024 - 2 ^ 970).
Proof.
  intros H.
  assert (2 * n < (2 ^ 54 - 1) * d /\ e = 971 \/ e < 971) as [(W & E) | E].
  { destruct H as [H | [H1 H2]]; [auto|left]. split; [|easy].
    assert (0 < d) as Hd by (pose proof (d_of_pos num den); unfold d; lia).
    pose proof (div_rne_spec (n_of num den) (d_of num den) (d_of_pos num den)) as R. cbv zeta in R.
    fold m n d in R. destruct R as [R1 R2]. pose proof m_window as [[M0 M1] _].
    replace (2 ^ 54) with (2 * 2 ^ 53) by reflexivity.
    assert (m = 2 ^ 53 - 1 -> 2 * Z.abs (m * d - n) <> d) as T.
    { intros -> Hx. apply R2 in Hx. discriminate Hx. }
    set (a := 2 ^ 53) in *.
    destruct (Z.eq_dec m (a - 1)) as [Em | Em].
    - specialize (T Em). rewrite Em in *. lia.
    - assert (m * d <= (a - 2) * d) by (apply Z.mul_le_mono_nonneg_r; lia). lia. }
  - apply A_lt in W; [|lia]. unfold U in W. rewrite E in W.
    change (2 ^ (971 + 1074)) with (2 ^ 971 * 2 ^ 1074) in W.
    change (2 ^ 1024) with (2 ^ 54 * 2 ^ 970). change (2 ^ 971) with (2 * 2 ^ 970) in W.
    assert (0 < 2 ^ 1074) as P by reflexivity.
    set (P74 := 2 ^ 1074) in *. set (a := 2 ^ 54) in *. set (b := 2 ^ 970) in *.
    apply mul_lt_cancel with (2 * P74); [lia|]. lia.
  - pose proof (window num den) as [W _]. fold n d in W.
    assert (1 * n < 2 ^ 53 * d) as W' by lia. clear W.
    apply A_lt in W'; [|lia].
    assert (U <= 2 ^ 970 * 2 ^ 1074) as B.
    { unfold U. rewrite <- Z.pow_add_r by lia. apply Z.pow_le_mono_r; lia. }
    change (2 ^ 1024) with (2 ^ 53 * 2 ^ 970 + 2 ^ 53 * 2 ^ 970).
    assert (0 < 2 ^ 1074) as P by reflexivity. assert (0 < 2 ^ 970) as Pb by reflexivity.
    assert (0 < 2 ^ 53) as Pa by reflexivity.
    set (P74 := 2 ^ 1074) in *. set (a := 2 ^ 53) in *. set (b := 2 ^ 970) in *.
    apply mul_lt_cancel with P74; [lia|].
    assert (a * (U * Zpos den) <= a * (b * P74 * Zpos den)) as C.
    { apply Z.mul_le_mono_nonneg_l; [lia|]. apply Z.mul_le_mono_nonneg_r; lia. }
    assert (b * Zpos den * P74 <= a * (b * P74 * Zpos den)) as D1.
    { replace (a * (b * P74 * Zpos den)) with (a * (b * Zpos den * P74)) by ring.
      assert (0 <= b * Zpos den * P74) by (apply Z.mul_nonneg_nonneg; [apply Z.mul_nonneg_nonneg|]; lia). nia. }
    lia.
Qed.

Lemma too_great_of : 971 < e \/ (e = 971 /\ m = 2 ^ 53) -> too_great (Zpos num) (Zpos den).
Proof.
  intros H. unfold too_great.
  assert (0 < 2 ^ 1074) as P by reflexivity.
  destruct H as [H | [E Em]].
  - pose proof (window num den) as [_ W]. fold n d e in W. specialize (W ltac:(lia)).
    assert (2 ^ 52 * d <= 1 * n) as W' by lia. clear W. apply A_ge in W'; [|lia].
    assert (2 ^ 972 * 2 ^ 1074 <= U) as B.
    { unfold U. rewrite <- Z.pow_add_r by lia. apply Z.pow_le_mono_r; lia. }
    change (2 ^ 1024) with (2 ^ 52 * 2 ^ 972).
    assert (0 < 2 ^ 972) as Pb by reflexivity. assert (0 < 2 ^ 970) as Pc by reflexivity.
    assert (0 < 2 ^ 52) as Pa by reflexivity.
    set (P74 := 2 ^ 1074) in *. set (a := 2 ^ 52) in *. set (b := 2 ^ 972) in *. set (c := 2 ^ 970) in *.
    apply mul_le_cancel with P74; [lia|].
    assert (a * (b * P74 * Zpos den) <= a * (U * Zpos den)) as C.
    { apply Z.mul_le_mono_nonneg_l; [lia|]. apply Z.mul_le_mono_nonneg_r; lia. }
    assert (0 <= Zpos den * c * P74) by (apply Z.mul_nonneg_nonneg; [apply Z.mul_nonneg_nonneg|]; lia). lia.
  - assert (0 < d) as Hd by (pose proof (d_of_pos num den); unfold d; lia).
    pose proof (div_rne_spec (n_of num den) (d_of num den) (d_of_pos num den)) as R. cbv zeta in R.
    fold m n d in R. destruct R as [R1 _]. rewrite Em in R1.
    assert ((2 ^ 54 - 1) * d <= 2 * n) as W.
    { replace (2 ^ 54) with (2 * 2 ^ 53) by reflexivity. set (a := 2 ^ 53) in *. lia. }
    apply A_ge in W; [|lia]. unfold U in W. rewrite E in W.
    change (2 ^ (971 + 1074)) with (2 ^ 971 * 2 ^ 1074) in W.
    change (2 ^ 1024) with (2 ^ 54 * 2 ^ 970). change (2 ^ 971) with (2 * 2 ^ 970) in W.
    set (P74 := 2 ^ 1074) in *. set (a := 2 ^ 54) in *. set (b := 2 ^ 970) in *.
    apply mul_le_cancel with (2 * P74); [lia|]. lia.
Qed.

Lemma too_small_of : m < 2 ^ 52 -> (n_of num den mod d_of num den)%N <> 0%N ->
  too_small (Zpos num) (Zpos den).
Proof.
  intros Hm Hx. pose proof m_window as [_ W].
  assert (e = -1074) as E by (destruct (Z.eq_dec e (-1074)); [easy|]; specialize (W n0); lia).
  assert (0 < d) as Hd by (pose proof (d_of_pos num den); unfold d; lia).
  pose proof (div_rne_spec (n_of num den) (d_of num den) (d_of_pos num den)) as R. cbv zeta in R.
  fold m n d in R. destruct R as [R1 _].
  assert (U = 1) as HU by (unfold U; rewrite E; reflexivity).
  split.
  - assert (1 * n < 2 ^ 52 * d) as L.
    { set (b := 2 ^ 52) in *. assert (m * d <= (b - 1) * d) by (apply Z.mul_le_mono_nonneg_r; lia). lia. }
    apply A_lt in L; [|lia]. rewrite HU in L. change (2 ^ 1074) with (2 ^ 1022 * 2 ^ 52) in L.
    set (a := 2 ^ 1022) in *. assert (0 < 2 ^ 52) by reflexivity. set (b := 2 ^ 52) in *.
    apply mul_lt_cancel with b; [lia|]. lia.
  - intros f u _ _ Eq. apply Hx.
    pose proof (scaled num den) as Sc. fold e n d in Sc. fold U in Sc. rewrite HU, <- Eq in Sc.
    assert (n = u * d) as En by (apply Z.mul_reg_r with (Zpos den); [lia|]; lia).
    apply N2Z.inj. rewrite N2Z.inj_mod. fold n d. rewrite En. now rewrite Z.mod_mul by lia.
Qed.

Lemma round_ratio_pos : forall s,
  match round_ratio s num den with
  | Some f => dbl_canonical f /\ negative f = s /\ Zpos num < Zpos den * (2 ^ 1024 - 2 ^ 970) /\
      units f = Some ((if s then -1 else 1) * (m * U)) /\ (Z.even m = true -> even_mantissa f)
  | None => too_great (Zpos num) (Zpos den) \/ too_small (Zpos num) (Zpos den)
  end.
Proof.
  intros s. rewrite round_ratio_alt. cbv zeta. fold e.
  pose proof m_window as [[M0 M1] M2].
  assert (-1074 <= e) as He by (unfold e, e_of; lia).
  assert (m = Z.of_N (div_rne (n_of num den) (d_of num den))) as Em by reflexivity.
  set (q := div_rne (n_of num den) (d_of num den)) in *.
  pose proof small_enough as SE. pose proof too_great_of as TG. pose proof too_small_of as TS.
  destruct ((q <? 2 ^ 52) && negb (n_of num den mod d_of num den =? 0))%N%bool eqn:T.
  { right. apply andb_true_iff in T as [T1 T2]. apply TS; lia. }
  clear TS T. destruct (N.eqb_spec q (2 ^ 53)) as [Q | Q].
  - assert (m = 2 ^ 53) as Hm by (rewrite Em, Q; reflexivity).
    destruct (Z.ltb_spec 971 (e + 1)) as [X | X].
    + left. apply TG. lia.
    + refine (conj _ (conj eq_refl (conj (SE _) (conj _ _)))).
      * cbn. lia.
      * lia.
      * cbn [units]. f_equal. rewrite Hm. change (Z.pos (2 ^ 52)) with (2 ^ 52).
        replace (e + 1 + 1074) with (Z.succ (e + 1074)) by lia. rewrite Z.pow_succ_r by lia. fold U.
        change (2 ^ 53) with (2 ^ 52 * 2). ring.
      * intros _. reflexivity.
  - assert (m <> 2 ^ 53) as Hm by (intros X; apply Q; lia).
    destruct (Z.ltb_spec 971 e) as [X | X].
    + left. apply TG. lia.
    + destruct q as [| p].
      * refine (conj I (conj eq_refl (conj (SE _) (conj _ _)))); [lia| |intros _; exact I].
        cbn [units]. rewrite Em. cbn. destruct s; reflexivity.
      * refine (conj _ (conj eq_refl (conj (SE _) (conj _ _)))).
        -- cbn [dbl_canonical]. cbn [Z.of_N] in Em. rewrite <- Em. lia.
        -- lia.
        -- cbn [units]. rewrite Em. cbn [Z.of_N]. reflexivity.
        -- intros V. cbn [even_mantissa]. rewrite Em in V. exact V.
Qed.
End Round.

Definition flip (f : dbl) : dbl :=
  match f with
  | DZero s => DZero (negb s) | DFin s m e => DFin (negb s) m e
  | DInf s => DInf (negb s) | DNaN s => DNaN (negb s)
  end.

Lemma flip_units : forall f u, units f = Some u -> units (flip f) = Some (- u).
Proof.
  intros [s | s m e | s | s] u H; cbn [units flip] in *; try discriminate; apply some_inj in H; subst u; [easy|].
  f_equal. destruct s; cbn [negb]; ring.
Qed.

Lemma dist_neg : forall a b u, dist (- a) b u = dist a b (- u).
Proof. intros. unfold dist. replace (- u * b - a * 2 ^ 1074) with (- (u * b - - a * 2 ^ 1074)) by ring. now rewrite Z.abs_opp. Qed.

(** [round_ratio] gives the nearest double, or nothing outside the range. *)
Lemma round_ratio_spec : forall s num den,
  match round_ratio s num den with
  | Some f => nearest s (Zpos num) (Zpos den) f
  | None => too_great (Zpos num) (Zpos den) \/ too_small (Zpos num) (Zpos den)
  end.
Proof.
  intros s num den. pose proof (round_ratio_pos num den s) as H.
  destruct (round_ratio s num den) as [f |]; [|exact H].
  destruct H as (C & Ng & B & Hu & V). refine (conj C (conj Ng (conj B _))).
  eexists. split; [exact Hu|]. cbv zeta. intros d' u' C' Hu'.
  pose proof (best num den) as Be. destruct s.
  - rewrite !dist_neg.
    replace (- (-1 * _)) with
      (Z.of_N (div_rne (n_of num den) (d_of num den)) * 2 ^ (e_of num den + 1074)) by ring.
    destruct (Be (flip d') (- u')) as [B1 B2].
    + now destruct d'.
    + now apply flip_units.
    + split; [exact B1|]. intros Hne Eq. apply V, B2; [lia|exact Eq].
  - rewrite Z.mul_1_l in *. destruct (Be d' u' C' Hu') as [B1 B2].
    split; [exact B1|]. intros Hne Eq. apply V, B2; assumption.
Qed.

(** There is one nearest double. *)
Lemma units_inj : forall f g u, dbl_canonical f -> dbl_canonical g -> units f = Some u -> units g = Some u ->
  negative f = negative g -> f = g.
Proof.
  intros f g u Cf Cg Hf Hg Hn.
  destruct f as [s | s m e | s | s], g as [s' | s' m' e' | s' | s']; cbn [units negative] in *; try discriminate;
    subst s'; apply some_inj in Hf, Hg; subst u; rename Hg into E.
  - reflexivity.
  - exfalso. assert (0 < 2 ^ (e' + 1074)) by (cbn in Cg; apply Z.pow_pos_nonneg; lia).
    assert (0 < Zpos m' * 2 ^ (e' + 1074)) by (apply Z.mul_pos_pos; lia). destruct s; lia.
  - exfalso. assert (0 < 2 ^ (e + 1074)) by (cbn in Cf; apply Z.pow_pos_nonneg; lia).
    assert (0 < Zpos m * 2 ^ (e + 1074)) by (apply Z.mul_pos_pos; lia). destruct s; lia.
  - assert (Zpos m' * 2 ^ (e' + 1074) = Zpos m * 2 ^ (e + 1074)) as E' by (destruct s; lia). clear E.
    cbn in Cf, Cg. destruct Cf as (F1 & F2 & F3), Cg as (G1 & G2 & G3).
    assert (forall a b x y, -1074 <= x < y -> 2 ^ 52 <= b \/ y = -1074 -> a < 2 ^ 53 ->
              a * 2 ^ (x + 1074) = b * 2 ^ (y + 1074) -> False) as K.
    { intros a b x y R Rb Ra Eq. destruct Rb as [Rb | Rb]; [|lia].
      replace (y + 1074) with ((y - x) + (x + 1074)) in Eq by lia. 
      rewrite (Z.pow_add_r 2 (y - x)), Z.mul_assoc in Eq by lia.
      assert (0 < 2 ^ (x + 1074)) by (apply Z.pow_pos_nonneg; lia).
      apply Z.mul_reg_r in Eq; [|lia]. subst a.
      assert (2 ^ 1 <= 2 ^ (y - x)) as P by (apply Z.pow_le_mono_r; lia). change (2 ^ 1) with 2 in P.
      replace (2 ^ 53) with (2 ^ 52 * 2) in Ra by reflexivity.
      assert (0 < 2 ^ 52) by reflexivity. set (w := 2 ^ 52) in *. nia. }
    assert (e = e') as <-.
    { destruct (Z.lt_trichotomy e e') as [L | [L | L]]; [exfalso|exact L|exfalso].
      - apply (K (Zpos m) (Zpos m') e e'); [lia|exact G3|exact F2|lia].
      - apply (K (Zpos m') (Zpos m) e' e); [lia|exact F3|exact G2|lia]. }
    apply Z.mul_reg_r in E'; [|assert (0 < 2 ^ (e + 1074)) by (apply Z.pow_pos_nonneg; lia); lia].
    now injection E' as ->.
Qed.

Lemma nearest_unique : forall s num den f g,
  round_ratio s num den = Some f -> nearest s (Zpos num) (Zpos den) g -> g = f.
Proof.
  intros s num den f g Hf (Cg & Ng & _ & u & Hu & G).
  pose proof (round_ratio_pos num den s) as H. rewrite Hf in H.
  destruct H as (C & Nf & _ & Hm & V). pose proof (best num den) as Be.
  set (v := Z.of_N (div_rne (n_of num den) (d_of num den)) * 2 ^ (e_of num den + 1074)) in *.
  apply units_inj with u; try assumption; [|congruence].
  rewrite Hm. f_equal. destruct (Z.eq_dec ((if s then -1 else 1) * v) u) as [Eq | Ne]; [exact Eq|exfalso].
  destruct (G f _ C Hm) as [G1 G2].
  assert (dist (if s then - Zpos num else Zpos num) (Zpos den) ((if s then -1 else 1) * v) <=
          dist (if s then - Zpos num else Zpos num) (Zpos den) u) as L.
  { destruct s.
    - rewrite !dist_neg. replace (- (-1 * v)) with v by ring.
      apply (Be (flip g) (- u)); [now destruct g|now apply flip_units].
    - rewrite Z.mul_1_l. now apply (Be g u). }
  assert (dist (if s then - Zpos num else Zpos num) (Zpos den) u =
          dist (if s then - Zpos num else Zpos num) (Zpos den) ((if s then -1 else 1) * v)) as Eq
    by (apply Z.le_antisymm; assumption).
  specialize (G2 Ne Eq).
  destruct s.
  - rewrite !dist_neg in Eq. replace (- (-1 * v)) with v in Eq by ring.
    destruct (Be (flip g) (- u)) as [_ B2]; [now destruct g|now apply flip_units|].
    destruct B2 as [_ B2]; [intro X; apply Ne; lia|congruence|]. apply B2. now destruct g.
  - rewrite Z.mul_1_l in *. destruct (Be g u Cg Hu) as [_ B2].
    destruct B2 as [_ B2]; [intro X; apply Ne; lia|congruence|]. now apply B2.
Qed.
