(** Proofs about the reading of numbers: correct rounding of [round_ratio]. *)
From Coq Require Import Ascii String List Arith NArith ZArith Bool Lia ZifyBool ZifyNat ZifyN.
From Verif Require Import StrModel StrProofs DoubleModel JsonModel JsonSpec DoubleProofs TextSpec.
Import ListNotations.
Local Open Scope Z_scope.

Lemma div_rne_spec : forall n d : N, (0 < d)%N ->
  let m := Z.of_N (div_rne n d) in
  2 * Z.abs (m * Z.of_N d - Z.of_N n) <= Z.of_N d /\
  (2 * Z.abs (m * Z.of_N d - Z.of_N n) = Z.of_N d -> Z.even m = true).
Proof.
  intros n d H. unfold div_rne.
  destruct (N.div_eucl n d) as [q r] eqn:E.
  assert (n = d * q + r /\ r < d)%N as [K1 K2].
  { pose proof (N.div_mod n d ltac:(lia)) as K. pose proof (N.mod_lt n d ltac:(lia)) as K3.
    unfold N.div, N.modulo in *. rewrite E in *. cbn [fst snd] in *. auto. }
  assert (Z.of_N n = Z.of_N d * Z.of_N q + Z.of_N r) as K3 by lia.
  cbv zeta.
  destruct (N.compare_spec (2 * r) d) as [C | C | C].
  - destruct (N.even q) eqn:V.
    + split; [nia|]. intros _. rewrite <- V. apply N.even_spec in V as [j ->].
      rewrite N2Z.inj_mul. cbn [Z.of_N]. now rewrite Z.even_mul, N.even_mul.
    + split; [nia|]. intros _. rewrite N2Z.inj_add. change (Z.of_N 1) with 1.
      rewrite Z.even_add. cbn. assert (Z.even (Z.of_N q) = N.even q) as ->; [|now rewrite V].
      destruct q as [| [p | p |]]; reflexivity.
  - split; nia.
  - split; [nia|]. intros K. exfalso. nia.
Qed.

(** Nothing nearer than the rounded quotient among the integers. *)
Lemma rne_best : forall m d n k, 0 < d -> 2 * Z.abs (m * d - n) <= d -> k <> m ->
  Z.abs (m * d - n) <= Z.abs (k * d - n) /\
  (Z.abs (m * d - n) = Z.abs (k * d - n) -> 2 * Z.abs (m * d - n) = d /\ (k = m + 1 \/ k = m - 1)).
Proof.
  intros m d n k Hd H Hk.
  assert (d <= Z.abs (k * d - m * d)) as A.
  { rewrite <- Z.mul_sub_distr_r, Z.abs_mul. rewrite (Z.abs_eq d) by lia.
    assert (1 <= Z.abs (k - m)) by lia. nia. }
  split; [lia|]. intros E.
  assert (Z.abs (k * d - m * d) <= d) as B by lia.
  split; [lia|].
  rewrite <- Z.mul_sub_distr_r, Z.abs_mul, (Z.abs_eq d) in B by lia.
  assert (Z.abs (k - m) <= 1) by nia. lia.
Qed.

(** Canonical doubles: multiples of 2^e, or below 2^(e+52). *)
Lemma units_grid : forall s m e' e, dbl_canonical (DFin s m e') -> -1074 <= e ->
  let u := Zpos m * 2 ^ (e' + 1074) in let U := 2 ^ (e + 1074) in
  (exists k, u = k * U /\ (Z.odd k = true -> e' = e /\ Zpos m = k)) \/
  (u < 2 ^ 52 * U /\ e <> -1074).
Proof.
  intros s m e' e (C1 & C2 & C3) He. cbv zeta.
  destruct (Z.lt_trichotomy e' e) as [L | [-> | L]].
  - right. split; [|lia].
    assert (2 ^ (e' + 1074) * 2 <= 2 ^ (e + 1074)) as A.
    { replace (2 ^ (e' + 1074) * 2) with (2 ^ (e' + 1 + 1074)).
      - apply Z.pow_le_mono_r; lia.
      - replace (e' + 1 + 1074) with (Z.succ (e' + 1074)) by lia. rewrite Z.pow_succ_r by lia. lia. }
    assert (0 < 2 ^ (e' + 1074)) by (apply Z.pow_pos_nonneg; lia).
    replace (2 ^ 53) with (2 ^ 52 * 2) in C2 by reflexivity.
    set (x := 2 ^ (e' + 1074)) in *. set (y := 2 ^ (e + 1074)) in *. set (w := 2 ^ 52) in *.
    assert (0 < w) by (unfold w; lia).
    apply Z.lt_le_trans with (w * 2 * x); [nia|nia].
  - left. exists (Zpos m). split; [easy|]. auto.
  - left. exists (Zpos m * 2 ^ (e' - e)). split.
    + rewrite <- Z.mul_assoc, <- Z.pow_add_r by lia. do 2 f_equal. lia.
    + intros O. exfalso. rewrite Z.odd_mul in O. apply andb_true_iff in O as [_ O].
      replace (e' - e) with (Z.succ (e' - e - 1)) in O by lia.
      rewrite Z.pow_succ_r, Z.odd_mul in O by lia. discriminate.
Qed.

Definition fl_of (num den : positive) : Z :=
  let l := (Z.of_N (N.log2 (Npos num)) - Z.of_N (N.log2 (Npos den)))%Z in
  let ge := if (0 <=? l)%Z then (Zpos den * 2 ^ l <=? Zpos num)%Z
            else (Zpos den <=? Zpos num * 2 ^ (- l))%Z in
  if ge then l else (l - 1)%Z.

Lemma fl_bounds : forall num den K, 0 <= K -> 0 <= fl_of num den + K ->
  Zpos den * 2 ^ (fl_of num den + K) <= Zpos num * 2 ^ K < Zpos den * 2 ^ (fl_of num den + 1 + K).
Proof.
  intros num den K HK.
  pose proof (log2_bounds num) as [Hn1 Hn2]. pose proof (log2_bounds den) as [Hd1 Hd2].
  unfold fl_of.
  set (a := Z.of_N (N.log2 (N.pos num))) in *. set (b := Z.of_N (N.log2 (N.pos den))) in *.
  assert (0 <= a) as Ha by lia. assert (0 <= b) as Hb by lia. set (l := a - b).
  set (ge := if (0 <=? l)%Z then (Zpos den * 2 ^ l <=? Zpos num)%Z
            else (Zpos den <=? Zpos num * 2 ^ (- l))%Z).
  assert (0 < 2 ^ K) as P by (apply Z.pow_pos_nonneg; lia).
  (* num < den * 2^(l+1), and den * 2^(l-1) < num, scaled *)
  assert (0 <= l + 1 + K -> Zpos num * 2 ^ K < Zpos den * 2 ^ (l + 1 + K)) as U.
  { intros G. apply Z.lt_le_trans with (2 ^ (a + 1) * 2 ^ K).
    - apply Z.mul_lt_mono_pos_r; lia.
    - rewrite <- Z.pow_add_r by lia. replace (a + 1 + K) with (b + (l + 1 + K)) by lia.
      rewrite Z.pow_add_r by lia. apply Z.mul_le_mono_nonneg_r; [|easy]. apply Z.pow_nonneg; lia. }
  assert (0 <= l - 1 + K -> Zpos den * 2 ^ (l - 1 + K) <= Zpos num * 2 ^ K) as L.
  { intros G. apply Z.le_trans with (2 ^ (b + 1) * 2 ^ (l - 1 + K)).
    - apply Z.mul_le_mono_nonneg_r; [apply Z.pow_nonneg; lia|lia].
    - rewrite <- Z.pow_add_r by lia. replace (b + 1 + (l - 1 + K)) with (a + K) by lia.
      rewrite Z.pow_add_r by lia. apply Z.mul_le_mono_nonneg_r; lia. }
  assert (0 <= l + K -> (ge = true -> Zpos den * 2 ^ (l + K) <= Zpos num * 2 ^ K) /\
                        (ge = false -> Zpos num * 2 ^ K < Zpos den * 2 ^ (l + K))) as M.
  { intros G. unfold ge. destruct (Z.leb_spec 0 l) as [S0 | S0].
    - rewrite Z.pow_add_r by lia. split; intros E.
      + apply Z.leb_le in E. rewrite Z.mul_assoc. apply Z.mul_le_mono_nonneg_r; lia.
      + apply Z.leb_gt in E. rewrite Z.mul_assoc. apply Z.mul_lt_mono_pos_r; lia.
    - assert (2 ^ K = 2 ^ (- l) * 2 ^ (l + K)) as ->.
      { rewrite <- Z.pow_add_r by lia. f_equal. lia. }
      assert (0 < 2 ^ (l + K)) by (apply Z.pow_pos_nonneg; lia).
      rewrite Z.mul_assoc. split; intros E.
      + apply Z.leb_le in E. apply Z.mul_le_mono_nonneg_r; lia.
      + apply Z.leb_gt in E. apply Z.mul_lt_mono_pos_r; lia. }
  destruct ge; intros G.
  - split; [apply M; [lia|easy]|apply U; lia].
  - split; [apply L; lia|]. replace (l - 1 + 1 + K) with (l + K) by lia. apply M; [lia|easy].
Qed.

(** The exponent [round_ratio] chooses, the scaled fraction n'/d' and the rounded mantissa. *)
Definition e_of (num den : positive) : Z := Z.max (-1074) (fl_of num den - 52).
Definition n_of (num den : positive) : N := (Npos num * 2 ^ Z.to_N (- e_of num den))%N.
Definition d_of (num den : positive) : N := (Npos den * 2 ^ Z.to_N (e_of num den))%N.

Lemma round_ratio_alt : forall s num den,
  round_ratio s num den =
  (let m := div_rne (n_of num den) (d_of num den) in
   if (N.ltb m (2 ^ 52) && negb (N.eqb (n_of num den mod d_of num den) 0))%bool then None
   else if N.eqb m (2 ^ 53) then
     if (971 <? e_of num den + 1)%Z then None else Some (DFin s (2 ^ 52) (e_of num den + 1))
   else if (971 <? e_of num den)%Z then None
   else match m with N0 => Some (DZero s) | Npos p => Some (DFin s p (e_of num den)) end).
Proof.
  intros s num den. unfold round_ratio, n_of, d_of, e_of, fl_of. cbv zeta.
  match goal with |- context [div_rne ?n ?d] => set (m := div_rne n d) end.
  destruct (_ && _)%bool; [easy|].
  destruct (N.eqb m (2 ^ 53)); [reflexivity|].
  destruct (971 <? _); [easy|].
  destruct m; reflexivity.
Qed.

Lemma scaled : forall num den,
  Z.of_N (n_of num den) * (2 ^ (e_of num den + 1074) * Zpos den) =
  Z.of_N (d_of num den) * (Zpos num * 2 ^ 1074).
Proof.
  intros num den. unfold n_of, d_of. assert (-1074 <= e_of num den) as H by (unfold e_of; lia).
  set (e := e_of num den) in *. rewrite !N2Z.inj_mul, !N2Z.inj_pow. cbn [Z.of_N].
  destruct (Z.le_gt_cases 0 e) as [S0 | S0].
  - replace (Z.to_N (- e)) with 0%N by lia. cbn [Z.of_N]. rewrite Z.pow_0_r.
    replace (Z.of_N (Z.to_N e)) with e by lia. rewrite Z.pow_add_r by lia. ring.
  - replace (Z.to_N e) with 0%N by lia. cbn [Z.of_N]. rewrite Z.pow_0_r.
    replace (Z.of_N (Z.to_N (- e))) with (- e) by lia.
    replace (2 ^ 1074) with (2 ^ (- e) * 2 ^ (e + 1074)) by (rewrite <- Z.pow_add_r by lia; f_equal; lia).
    ring.
Qed.

Lemma d_of_pos : forall num den, (0 < d_of num den)%N.
Proof.
  intros. unfold d_of. assert (0 < 2 ^ Z.to_N (e_of num den))%N; [|lia].
  apply N.neq_0_lt_0, N.pow_nonzero. lia.
Qed.

Lemma mul_lt_cancel : forall p a b, 0 < p -> p * a < p * b -> a < b.
Proof. intros p a b H. apply Z.mul_lt_mono_pos_l. exact H. Qed.
Lemma mul_le_cancel : forall p a b, 0 < p -> p * a <= p * b -> a <= b.
Proof. intros p a b H. apply Z.mul_le_mono_pos_l. exact H. Qed.

Lemma window : forall num den,
  let n := Z.of_N (n_of num den) in let d := Z.of_N (d_of num den) in
  n < 2 ^ 53 * d /\ (e_of num den <> -1074 -> 2 ^ 52 * d <= n).
Proof.
  intros num den. cbv zeta.
  pose proof (scaled num den) as Sc. pose proof (d_of_pos num den) as Hd.
  assert (-1074 <= e_of num den) as He by (unfold e_of; lia).
  assert (0 < 2 ^ (e_of num den + 1074)) as HU by (apply Z.pow_pos_nonneg; lia).
  set (U := 2 ^ (e_of num den + 1074)) in *.
  set (n := Z.of_N (n_of num den)) in *. set (d := Z.of_N (d_of num den)) in *.
  assert (0 < d) as Hd' by (unfold d; lia). clear Hd.
  assert (Zpos num * 2 ^ 1074 < Zpos den * (2 ^ 53 * U)) as A.
  { set (f := fl_of num den).
    set (K := 1074 + Z.abs f).
    pose proof (fl_bounds num den K ltac:(lia) ltac:(fold f; lia)) as [_ B]. fold f in B.
    apply mul_lt_cancel with (2 ^ Z.abs f); [apply Z.pow_pos_nonneg; lia|].
    replace (2 ^ Z.abs f * (Z.pos num * 2 ^ 1074)) with (Z.pos num * 2 ^ K)
      by (unfold K; rewrite (Z.pow_add_r 2 1074) by lia; ring).
    eapply Z.lt_le_trans; [exact B|].
    unfold U. rewrite (Z.mul_comm (2 ^ Z.abs f)), <- !Z.mul_assoc.
    rewrite <- !Z.pow_add_r by lia. apply Z.mul_le_mono_nonneg_l; [lia|].
    apply Z.pow_le_mono_r; [lia|]. unfold K, e_of. fold f. lia. }
  split.
  - apply mul_lt_cancel with (U * Zpos den); [nia|].
    replace (U * Zpos den * n) with (d * (Zpos num * 2 ^ 1074)) by (rewrite <- Sc; ring).
    replace (U * Zpos den * (2 ^ 53 * d)) with (d * (Zpos den * (2 ^ 53 * U))) by ring.
    apply Z.mul_lt_mono_pos_l; assumption.
  - intros N.
    assert (fl_of num den = e_of num den + 52) as F by (unfold e_of in *; lia).
    pose proof (fl_bounds num den 1074 ltac:(lia) ltac:(lia)) as [B _].
    rewrite F in B. replace (e_of num den + 52 + 1074) with (52 + (e_of num den + 1074)) in B by lia.
    rewrite Z.pow_add_r in B by lia. fold U in B.
    apply mul_le_cancel with (U * Zpos den); [nia|].
    replace (U * Zpos den * n) with (d * (Zpos num * 2 ^ 1074)) by (rewrite <- Sc; ring).
    replace (U * Zpos den * (2 ^ 52 * d)) with (d * (Zpos den * (2 ^ 52 * U))) by ring.
    apply Z.mul_le_mono_nonneg_l; [lia|assumption].
Qed.
