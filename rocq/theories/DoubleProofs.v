From Coq Require Import Ascii String List Arith NArith ZArith Bool Lia ZifyBool ZifyNat ZifyN.
From Verif Require Import StrModel StrProofs DoubleModel JsonModel JsonSpec.
Import ListNotations.
Local Open Scope Z_scope.

Lemma div_rne_exact : forall m d, (0 < d)%N -> div_rne (m * d) d = m.
Proof.
  intros m d H. unfold div_rne.
  destruct (N.div_eucl (m * d) d) as [q r] eqn:E.
  assert (q = m /\ r = 0)%N as [-> ->].
  { pose proof (N.div_mod (m * d) d ltac:(lia)) as K.
    assert ((m * d) / d = q)%N by (unfold N.div; now rewrite E).
    assert ((m * d) mod d = r)%N by (unfold N.modulo; now rewrite E).
    rewrite N.div_mul in H0 by lia. rewrite N.mod_mul in H1 by lia. auto. }
  destruct (N.compare_spec (2 * 0) d); try easy; lia.
Qed.

Lemma pow_split : forall x K, 0 <= x + K -> 0 <= K ->
  (0 <= x -> 2 ^ (x + K) = 2 ^ x * 2 ^ K) /\ (x < 0 -> 2 ^ (x + K) * 2 ^ (- x) = 2 ^ K).
Proof.
  intros x K H HK. split; intro Hx.
  - now rewrite Z.pow_add_r by lia.
  - rewrite <- Z.pow_add_r by lia. f_equal. lia.
Qed.

Lemma log2_bounds : forall p, 2 ^ Z.of_N (N.log2 (Npos p)) <= Zpos p < 2 ^ (Z.of_N (N.log2 (Npos p)) + 1).
Proof.
  intro p. pose proof (N.log2_spec (Npos p) ltac:(lia)) as [H1 H2].
  split.
  - apply N2Z.inj_le in H1. rewrite N2Z.inj_pow in H1. exact H1.
  - apply N2Z.inj_lt in H2. rewrite N2Z.inj_pow, N2Z.inj_succ in H2. exact H2.
Qed.

Lemma pow_lt_inv : forall a b, 0 <= b -> 2 ^ a < 2 ^ b -> a < b.
Proof. intros a b H1 H2. apply Z.pow_lt_mono_r_iff with 2; lia. Qed.

Lemma le_scale : forall d x y, 0 < d -> d * x <= y * d -> x <= y.
Proof. intros d x y H1 H2. apply Z.mul_le_mono_pos_l with d; [easy|]. lia. Qed.
Lemma lt_scale_l : forall d x y, 0 < d -> d * x < y * d -> x < y.
Proof. intros d x y H1 H2. apply Z.mul_lt_mono_pos_l with d; [easy|]. lia. Qed.
Lemma lt_scale_r : forall d x y, 0 < d -> y * d < d * x -> y < x.
Proof. intros d x y H1 H2. apply Z.mul_lt_mono_pos_l with d; [easy|]. lia. Qed.

Lemma round_ratio_exact : forall s num den m e,
  dbl_canonical (DFin s m e) ->
  (Npos num * 2 ^ Z.to_N (- e) = Npos m * (Npos den * 2 ^ Z.to_N e))%N ->
  round_ratio s num den = Some (DFin s m e).
Proof.
  intros s num den m e Hcan Hval. cbn in Hcan. destruct Hcan as (He & Hm & Hc).
  unfold round_ratio.
  pose proof (log2_bounds num) as Hnum. pose proof (log2_bounds den) as Hden.
  set (a := Z.of_N (N.log2 (N.pos num))) in *. set (b := Z.of_N (N.log2 (N.pos den))) in *.
  assert (0 <= a) by lia. assert (0 <= b) by lia.
  set (l := a - b).
  set (K := 1075 + a + b).
  (* the value equation, scaled *)
  assert (Zpos num * 2 ^ K = Zpos m * 2 ^ (e + K) * Zpos den) as HV.
  { apply (f_equal Z.of_N) in Hval. rewrite !N2Z.inj_mul, !N2Z.inj_pow in Hval.
    change (Z.of_N 2) with 2 in Hval.
    cbn [Z.of_N] in Hval.
    destruct (pow_split e K ltac:(unfold K; lia) ltac:(unfold K; lia)) as [P1 P2].
    destruct (Z.lt_ge_cases e 0) as [Hneg|Hpos].
    - specialize (P2 Hneg). rewrite <- P2.
      rewrite (Z2N.id (- e)) in Hval by lia.
      replace (Z.to_N e) with 0%N in Hval by lia.
      change (2 ^ Z.of_N 0) with 1 in Hval.
      replace (Zpos num * (2 ^ (e + K) * 2 ^ (- e))) with (2 ^ (e + K) * (Zpos num * 2 ^ (- e))) by ring.
      rewrite Hval. ring.
    - specialize (P1 Hpos). rewrite P1.
      rewrite (Z2N.id e) in Hval by lia.
      replace (Z.to_N (- e)) with 0%N in Hval by lia.
      change (2 ^ Z.of_N 0) with 1 in Hval.
      replace (Zpos num * 2 ^ K) with (Zpos num * 1 * 2 ^ K) by ring.
      rewrite Hval. ring. }
  match goal with |- context [if ?g then l else l - 1] => set (ge := g) end.
  assert (ge = true <-> Zpos den * 2 ^ (l + K) <= Zpos num * 2 ^ K) as Hge.
  { subst ge. destruct (pow_split l K ltac:(unfold l, K; lia) ltac:(unfold K; lia)) as [P1 P2].
    destruct (Z.leb_spec 0 l) as [Hl|Hl].
    - rewrite Z.leb_le. rewrite (P1 Hl).
      assert (0 < 2 ^ K) by (apply Z.pow_pos_nonneg; unfold K; lia).
      rewrite Z.mul_assoc. apply Z.mul_le_mono_pos_r; assumption.
    - rewrite Z.leb_le. rewrite <- (P2 ltac:(lia)).
      assert (0 < 2 ^ (l + K)) by (apply Z.pow_pos_nonneg; unfold l, K; lia).
      replace (Zpos num * (2 ^ (l + K) * 2 ^ (- l))) with (Zpos num * 2 ^ (- l) * 2 ^ (l + K)) by ring.
      apply Z.mul_le_mono_pos_r; assumption. }
  assert (0 < 2 ^ K) as HK by (apply Z.pow_pos_nonneg; unfold K; lia).
  assert (Z.max (-1074) ((if ge then l else l - 1) - 52) = e) as Hexp.
  { (* fl bounds, scaled: 2^(fl+K) <= m 2^(e+K) < 2^(fl+1+K) *)
    assert (forall fl, fl = (if ge then l else l - 1) ->
      2 ^ (fl + K) <= Zpos m * 2 ^ (e + K) < 2 ^ (fl + 1 + K)) as Hfl.
    { intros fl Hf.
      assert (Zpos num * 2 ^ K < Zpos den * 2 ^ (l + 1 + K)) as Hup.
      { replace (l + 1 + K) with ((a + 1) + (K - b)) by (unfold l; lia).
        rewrite Z.pow_add_r by (unfold K; lia).
        assert (2 ^ K = 2 ^ b * 2 ^ (K - b)) as ->.
        { rewrite <- Z.pow_add_r by (unfold K; lia). f_equal; lia. }
        assert (0 < 2 ^ (K - b)) by (apply Z.pow_pos_nonneg; unfold K; lia).
        assert (0 < 2 ^ b) by (apply Z.pow_pos_nonneg; lia).
        assert (Zpos num * 2 ^ b < Zpos den * 2 ^ (a + 1)).
        { apply Z.lt_le_trans with (2 ^ (a + 1) * 2 ^ b).
          - apply Z.mul_lt_mono_pos_r; [assumption|exact (proj2 Hnum)].
          - rewrite (Z.mul_comm (Zpos den)). apply Z.mul_le_mono_nonneg_l; [|exact (proj1 Hden)].
            apply Z.pow_nonneg; lia. }
        rewrite !Z.mul_assoc. apply Z.mul_lt_mono_pos_r; assumption. }
      assert (Zpos den * 2 ^ (l - 1 + K) < Zpos num * 2 ^ K) as Hlo.
      { assert (2 ^ K = 2 ^ (b + 1) * 2 ^ (K - b - 1)) as ->.
        { rewrite <- Z.pow_add_r by (unfold K; lia). f_equal; lia. }
        replace (l - 1 + K) with (a + (K - b - 1)) by (unfold l; lia).
        rewrite Z.pow_add_r by (unfold K; lia).
        assert (0 < 2 ^ (K - b - 1)) by (apply Z.pow_pos_nonneg; unfold K; lia).
        assert (0 < 2 ^ a) by (apply Z.pow_pos_nonneg; lia).
        assert (Zpos den * 2 ^ a < Zpos num * 2 ^ (b + 1)).
        { apply Z.lt_le_trans with (2 ^ (b + 1) * 2 ^ a).
          - apply Z.mul_lt_mono_pos_r; [assumption|exact (proj2 Hden)].
          - rewrite (Z.mul_comm (Zpos num)). apply Z.mul_le_mono_nonneg_l; [|exact (proj1 Hnum)].
            apply Z.pow_nonneg; lia. }
        rewrite !Z.mul_assoc. apply Z.mul_lt_mono_pos_r; assumption. }
      rewrite HV in *.
      assert (0 < Zpos den) by lia.
      destruct ge.
      - subst fl. pose proof (proj1 Hge eq_refl) as Hy. split.
        + now apply (le_scale (Zpos den)).
        + now apply (lt_scale_r (Zpos den)).
      - subst fl. split; [apply Z.lt_le_incl; now apply (lt_scale_l (Zpos den))|].
        assert (~ Zpos den * 2 ^ (l + K) <= Zpos m * 2 ^ (e + K) * Zpos den) as Hn
          by (intro Hx; pose proof (proj2 Hge Hx) as Hy; discriminate Hy).
        replace (l - 1 + 1 + K) with (l + K) by lia. apply (lt_scale_r (Zpos den)); lia. }
    set (fl := if ge then l else l - 1) in *. specialize (Hfl fl eq_refl).
    assert (-1074 - 2000 < fl + K) by (subst fl; unfold l, K; destruct ge; lia).
    assert (0 <= fl + K) by (subst fl; unfold l, K; destruct ge; lia).
    assert (0 < 2 ^ (e + K)) by (apply Z.pow_pos_nonneg; unfold K; lia).
    assert (fl < e + 53) as HA.
    { assert (fl + K < 53 + (e + K)); [|lia]. apply pow_lt_inv; [unfold K; lia|].
      rewrite (Z.pow_add_r 2 53) by (unfold K; lia).
      apply Z.le_lt_trans with (1 := proj1 Hfl). apply Z.mul_lt_mono_pos_r; [easy|exact Hm]. }
    destruct Hc as [Hc|Hc].
    - assert (e + 52 < fl + 1); [|lia].
      assert (52 + (e + K) < fl + 1 + K); [|lia]. apply pow_lt_inv; [lia|].
      rewrite (Z.pow_add_r 2 52) by (unfold K; lia).
      apply Z.le_lt_trans with (2 := proj2 Hfl). apply Z.mul_le_mono_nonneg_r; [lia|exact Hc].
    - lia. }
  rewrite Hexp.
  rewrite Hval.
  assert (0 < N.pos den * 2 ^ Z.to_N e)%N as Hd.
  { assert (2 ^ Z.to_N e <> 0)%N by (apply N.pow_nonzero; lia). lia. }
  rewrite div_rne_exact by easy. rewrite N.mod_mul by lia. change (N.eqb 0 0) with true. cbn [negb]. rewrite andb_false_r.
  destruct (N.eqb_spec (N.pos m) (2 ^ 53)) as [Hx|_]; [exfalso; lia|].
  cbn iota beta. destruct (Z.ltb_spec 971 e); [lia|]. reflexivity.
Qed.

Lemma pad_digits_spec : forall k n, (n < 10 ^ N.of_nat k)%N ->
  digits_val (pad_digits k n) = n /\ forallb is_digit (pad_digits k n) = true /\
  length (pad_digits k n) = k.
Proof.
  induction k as [|k IH]; intros n H.
  - cbn in *. repeat split. change (10 ^ 0)%N with 1%N in H. unfold digits_val. cbn. lia.
  - cbn [pad_digits]. rewrite Nat2N.inj_succ, N.pow_succ_r' in H.
    destruct (IH (n / 10)%N) as (H1 & H2 & H3).
    { apply N.div_lt_upper_bound; lia. }
    assert (n mod 10 < 10)%N as Hm by (apply N.mod_lt; lia).
    rewrite digits_val_snoc, H1, digit_val_digit, forallb_app, H2, app_length, H3 by easy.
    split; [|split].
    + pose proof (N.div_mod n 10 ltac:(lia)) as Hdm. lia.
    + cbn [forallb andb]. now rewrite digit_is_digit.
    + cbn [length]. lia.
Qed.

Lemma digits_val_app : forall a b,
  digits_val (a ++ b) = (digits_val a * 10 ^ N.of_nat (length b) + digits_val b)%N.
Proof.
  intros a b. revert a. induction b as [|c b IH] using rev_ind; intros a.
  - rewrite app_nil_r. change (digits_val []) with 0%N. cbn [length]. change (10 ^ N.of_nat 0)%N with 1%N. lia.
  - rewrite app_assoc, !digits_val_snoc, IH, app_length. cbn [length].
    rewrite Nat2N.inj_add. change (N.of_nat 1) with 1%N. rewrite N.pow_add_r. lia.
Qed.

(** micros is exact for exact doubles. *)
Lemma micros_exact : forall s m e, exact_double (DFin s m e) ->
  (micros m e * 2 ^ Z.to_N (- e) = Npos m * (1000000 * 2 ^ Z.to_N e))%N.
Proof.
  intros s m e [_ H]. unfold micros. destruct e as [|p|p].
  - cbn. lia.
  - change (Z.to_N (- Zpos p)) with 0%N. cbn [Z.to_N]. lia.
  - destruct H as [H|[k H]]; [lia|].
    cbn [Z.to_N Z.opp] in *.
    assert (0 < 2 ^ N.pos p)%N as Hp.
    { assert (2 ^ N.pos p <> 0)%N by (apply N.pow_nonzero; lia). lia. }
    assert (0 < k) as Hk.
    { assert (0 < 2 ^ Z.pos p) by (apply Z.pow_pos_nonneg; lia). nia. }
    assert (N.pos m * 1000000 = Z.to_N k * 2 ^ N.pos p)%N as Heq.
    { apply N2Z.inj. rewrite !N2Z.inj_mul, N2Z.inj_pow.
      rewrite Z2N.id by lia. cbn [Z.of_N]. rewrite <- H. reflexivity. }
    rewrite Heq, div_rne_exact by easy. change (2 ^ 0)%N with 1%N. lia.
Qed.

Lemma micros_pos : forall s m e, exact_double (DFin s m e) -> (0 < micros m e)%N.
Proof.
  intros s m e H. pose proof (micros_exact s m e H) as K.
  assert (2 ^ Z.to_N e <> 0)%N by (apply N.pow_nonzero; lia).
  assert (micros m e <> 0%N) by (intro Z0; rewrite Z0 in K; nia). lia.
Qed.

Definition dbl_sign (d : dbl) : bool :=
  match d with DZero s | DFin s _ _ | DInf s | DNaN s => s end.

(** Shape of a printed exact double. *)
Lemma print_double_shape : forall d, exact_double d ->
  exists ip fp, print_double d = sign_text (dbl_sign d) ++ ip ++ [chr 46] ++ fp /\
    ip <> [] /\ forallb is_digit ip = true /\ forallb is_digit fp = true /\ length fp = 6%nat /\
    dec_to_double (dbl_sign d) (digits_val (ip ++ fp)) (-6) = Some d.
Proof.
  intros d H. destruct d as [s|s m e|s|s]; try contradiction.
  - exists (bs "0"), (bs "000000"). repeat split; easy.
  - cbn [print_double dbl_sign]. set (q := micros m e).
    exists (print_N (q / 1000000)), (pad_digits 6 (q mod 1000000)).
    destruct (print_N_spec (q / 1000000)) as (A1 & A2 & A3).
    destruct (pad_digits_spec 6 (q mod 1000000)) as (B1 & B2 & B3); [apply N.mod_lt; lia|].
    split; [reflexivity|]. split; [exact A3|]. split; [exact A2|]. split; [exact B2|].
    split; [exact B3|].
    rewrite digits_val_app, A1, B1, B3.
    change (10 ^ N.of_nat 6)%N with 1000000%N.
    rewrite <- (N.mul_comm 1000000), <- N.div_mod by lia.
    pose proof (micros_pos s m e H) as Hq. fold q in Hq.
    pose proof (micros_exact s m e H) as Hx. fold q in Hx.
    unfold dec_to_double. destruct q as [|qp]; [lia|].
    apply round_ratio_exact; [apply H|].
    change (N.pos (10 ^ 6)) with 1000000%N. exact Hx.
Qed.

Lemma stod_print : forall d, exact_double d -> stod (print_double d) = Some d.
Proof.
  intros d H. destruct (print_double_shape d H) as (ip & fp & E & H1 & H2 & H3 & H4 & H5).
  rewrite E. unfold stod.
  destruct ip as [|i0 ip]; [easy|].
  assert (is_digit i0 = true) as Hi by (cbn in H2; now apply andb_true_iff in H2).
  assert (split_sign (drop_while is_space (sign_text (dbl_sign d) ++ (i0 :: ip) ++ [chr 46] ++ fp))
          = (dbl_sign d, (i0 :: ip) ++ [chr 46] ++ fp)) as ->.
  { destruct (dbl_sign d); cbn [sign_text app].
    - reflexivity.
    - cbn [drop_while]. rewrite digit_not_space by easy. unfold split_sign.
      now rewrite (digit_neq i0 (chr 45) Hi eq_refl), (digit_neq i0 (chr 43) Hi eq_refl). }
  rewrite span_all by easy. cbn [app]. rewrite eqb_refl.
  pose proof (span_all is_digit fp [] H3 I) as K. rewrite app_nil_r in K. rewrite K.
  cbn [app] in H5. rewrite H4. cbn [scan_exp]. exact H5.
Qed.

(** Every multiple of 1/64 is exact. *)
Lemma exact_of_64 : forall s m e, dbl_canonical (DFin s m e) -> -6 <= e -> exact_double (DFin s m e).
Proof.
  intros s m e Hc He. split; [easy|].
  destruct (Z.le_gt_cases 0 e); [now left|right].
  exists (Zpos m * 15625 * 2 ^ (6 + e)).
  rewrite <- !Z.mul_assoc, <- Z.pow_add_r by lia. replace (6 + e + - e) with 6 by lia. lia.
Qed.
