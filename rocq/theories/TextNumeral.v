(** Proofs about the reading of numbers: numerals of the JSON grammar. *)
From Coq Require Import Ascii String List Arith NArith ZArith Bool Lia ZifyBool ZifyNat ZifyN.
From Verif Require Import StrModel StrProofs DoubleModel JsonModel JsonSpec DoubleProofs JsonProofs
  TextSpec TextNum TextRound.
Import ListNotations.
Local Open Scope Z_scope.

Lemma dec_spec : forall s D k num den, (num, den) = frac10 (Z.of_N D) k ->
  match dec_to_double s D k with
  | Some f => nearest s num den f /\ (forall g, nearest s num den g -> g = f)
  | None => too_great num den \/ too_small num den
  end.
Proof.
  intros s D k num den E. destruct D as [| p].
  - cbn [dec_to_double].
    assert (num = 0 /\ 0 < den) as [-> Hd].
    { unfold frac10 in E. destruct (Z.leb_spec 0 k); injection E as -> ->; [lia|].
      split; [easy|]. apply Z.pow_pos_nonneg; lia. }
    assert ((if s then - 0 else 0) = 0) as Z0 by now destruct s.
    split.
    + refine (conj I (conj eq_refl (conj _ _))).
      * assert (0 < 2 ^ 1024 - 2 ^ 970) by reflexivity. set (a := 2 ^ 1024 - 2 ^ 970) in *. nia.
      * exists 0. split; [easy|]. cbv zeta. rewrite Z0. intros d' u' _ _. split; [|easy].
        unfold dist. rewrite !Z.mul_0_l. lia.
    + intros g (C & N & _ & u & Hu & G). cbv zeta in G. rewrite Z0 in G.
      destruct (G (DZero s) 0 I eq_refl) as [G1 _]. unfold dist in G1. rewrite !Z.mul_0_l in G1.
      assert (u = 0) as -> by nia.
      apply units_inj with 0; try easy.
  - assert (exists np dp, dec_to_double s (Npos p) k = round_ratio s np dp /\ num = Zpos np /\ den = Zpos dp)
      as (np & dp & -> & -> & ->).
    { unfold frac10 in E. cbn [Z.of_N] in E. destruct k as [| q | q]; cbn [dec_to_double].
      - exists p, 1%positive. cbn in E. injection E as -> ->. repeat split. lia.
      - exists (p * 10 ^ q)%positive, 1%positive. change (0 <=? Zpos q) with true in E. cbn iota in E.
        injection E as -> ->. repeat split. now rewrite Pos2Z.inj_mul, Pos2Z.inj_pow.
      - exists p, (10 ^ q)%positive. change (0 <=? Zneg q) with false in E. cbn iota in E.
        injection E as -> ->. repeat split. now rewrite Pos2Z.inj_pow. }
    pose proof (round_ratio_spec s np dp) as R.
    destruct (round_ratio s np dp) as [f |] eqn:F; [|exact R].
    split; [exact R|]. intros g. now apply nearest_unique.
Qed.

Lemma decimals_digits : forall t, decimals t -> t <> [] /\ forallb is_digit t = true.
Proof.
  intros t [H1 H2]. split; [easy|]. apply forallb_forall. rewrite Forall_forall in H2.
  intros c Hc. specialize (H2 c Hc). cbn in H2.
  repeat (destruct H2 as [<- | H2]; [reflexivity|]). contradiction.
Qed.

Lemma val10_N : forall t, forallb is_digit t = true -> val10 t = Z.of_N (digits_val t).
Proof.
  intros t. unfold val10, digits_val.
  assert (forall a, forallb is_digit t = true ->
    fold_left (fun a c => 10 * a + (Z.of_N (N_of_ascii c) - 48)) t (Z.of_N a) =
    Z.of_N (fold_left (fun acc c => (10 * acc + digit_val c)%N) t a)) as K.
  { induction t as [| c t IH]; intros a H; [reflexivity|]. cbn [fold_left forallb] in *.
    apply andb_true_iff in H as [H1 H2]. rewrite <- (IH _ H2). f_equal.
    apply is_digit_code in H1. unfold digit_val, code in *. lia. }
  intros H. apply (K 0%N H).
Qed.

Lemma digits_app : forall a b, forallb is_digit a = true -> forallb is_digit b = true ->
  forallb is_digit (a ++ b) = true.
Proof. intros. rewrite forallb_app. now rewrite H, H0. Qed.

Lemma fraction_digits : forall f fp, fraction f fp -> forallb is_digit fp = true.
Proof. intros f fp [| fp' D]; [reflexivity|]. now apply decimals_digits. Qed.

(** What [take1], [span] and [scan_exp] make of the parts. *)
Lemma take_minus : forall neg c r, is_digit c = true ->
  take1 is_sign (minus neg ++ c :: r) = (minus neg, c :: r) /\
  split_sign (drop_while is_space (minus neg ++ c :: r)) = (neg, c :: r).
Proof.
  intros neg c r H. destruct neg.
  - split; reflexivity.
  - change (minus false) with (@nil ascii). cbn [List.app]. split.
    + cbn [take1]. unfold is_sign.
      now rewrite (digit_neq c (chr 45) H eq_refl), (digit_neq c (chr 43) H eq_refl).
    + cbn [drop_while]. rewrite digit_not_space by easy. unfold split_sign.
      now rewrite (digit_neq c (chr 45) H eq_refl), (digit_neq c (chr 43) H eq_refl).
Qed.

Lemma exponent_shape : forall ex x, exponent ex x ->
  ex = [] /\ x = 0 \/
  exists c sg ds, ex = c :: sg ++ ds /\ is_e c = true /\ is_digit c = false /\ Ascii.eqb c (chr 46) = false /\
    ds <> [] /\ forallb is_digit ds = true /\ (sg = [] \/ exists s, sg = [s] /\ is_sign s = true) /\
    (forall r, nodigit_head r -> scan_exp (ex ++ r) = x).
Proof.
  intros ex x [| c sg ds y Hc D S]; [now left|right].
  exists c, sg, ds. apply decimals_digits in D as [D1 D2].
  assert (c = "e"%char \/ c = "E"%char) as Ec by (cbn in Hc; intuition).
  refine (conj eq_refl _).
  assert (is_e c = true) as Ie by (destruct Ec as [-> | ->]; reflexivity).
  refine (conj Ie _).
  split; [destruct Ec as [-> | ->]; reflexivity|]. split; [destruct Ec as [-> | ->]; reflexivity|].
  split; [exact D1|]. split; [exact D2|]. split.
  { destruct S as [[-> _] | [[-> _] | [-> _]]]; [now left|right; exists "+"%char; now split|right; exists "-"%char; now split]. }
  intros r Hr. cbn [List.app scan_exp]. rewrite Ie. rewrite <- app_assoc.
  destruct ds as [| d0 ds]; [easy|].
  assert (is_digit d0 = true) as Hd0 by (cbn in D2; now apply andb_true_iff in D2).
  assert (span is_digit ((d0 :: ds) ++ r) = (d0 :: ds, r)) as Sp by (apply span_all; easy).
  rewrite (val10_N _ D2) in S.
  destruct S as [[-> ->] | [[-> ->] | [-> ->]]].
  - cbn [List.app]. unfold split_sign at 1.
    rewrite (digit_neq d0 (chr 45) Hd0 eq_refl), (digit_neq d0 (chr 43) Hd0 eq_refl).
    cbn [List.app] in Sp. rewrite Sp. reflexivity.
  - change (split_sign (bs "+" ++ (d0 :: ds) ++ r)) with (false, (d0 :: ds) ++ r). cbv iota. rewrite Sp. reflexivity.
  - change (split_sign (bs "-" ++ (d0 :: ds) ++ r)) with (true, (d0 :: ds) ++ r). cbv iota. rewrite Sp. reflexivity.
Qed.

Lemma take1_no : forall p r, (match r with [] => True | c :: _ => p c = false end) -> take1 p r = ([], r).
Proof. intros p [| c r] H; [easy|]. cbn [take1]. now rewrite H. Qed.

Lemma value_end_e : forall r, value_end r -> (match r with [] => True | c :: _ => is_e c = false end).
Proof. intros [| c r] H; [easy|]. cbn in H. now apply is_e_false. Qed.

Lemma value_end_dot : forall r, value_end r -> (match r with [] => True | c :: _ => Ascii.eqb c (chr 46) = false end).
Proof.
  intros [| c r] H; [easy|]. cbn in H. apply Ascii.eqb_neq. tauto.
Qed.

(** A numeral is scanned whole. *)
Lemma scan_numeral : forall neg ip f fp ex x rest, decimals ip -> fraction f fp -> exponent ex x ->
  value_end rest ->
  scan_number ((minus neg ++ ip ++ f ++ ex) ++ rest) =
    (minus neg ++ ip ++ f ++ ex, match f ++ ex with [] => false | _ => true end, rest) /\
  (f ++ ex <> [] -> stod (minus neg ++ ip ++ f ++ ex) =
     dec_to_double neg (digits_val (ip ++ fp)) (x - Z.of_nat (length fp))).
Proof.
  intros neg ip f fp ex x rest Hip Hf Hex Hr.
  apply decimals_digits in Hip as [I1 I2]. destruct ip as [| i0 ip]; [easy|].
  assert (is_digit i0 = true) as Hi by (cbn in I2; now apply andb_true_iff in I2).
  pose proof (exponent_shape ex x Hex) as X.
  (* heads of what follows *)
  assert (forall r, value_end r -> nodigit_head (ex ++ r) /\
     (match ex ++ r with [] => True | c :: _ => Ascii.eqb c (chr 46) = false end)) as HdE.
  { intros r Hv. destruct X as [[-> _] | (c & sg & ds & -> & A1 & A2 & A3 & _)].
    - split; [now apply value_end_nodigit|now apply value_end_dot].
    - now split. }
  assert (forall r, value_end r ->
     nodigit_head (f ++ ex ++ r)) as HdF.
  { intros r Hv. destruct Hf as [| fp D]; [now apply HdE|reflexivity]. }
  assert (forall r, value_end r -> take1 is_e (ex ++ r) =
      (match ex with [] => [] | c :: _ => [c] end, match ex with [] => r | _ :: t => t ++ r end)) as TE.
  { intros r Hv. destruct X as [[-> _] | (c & sg & ds & -> & A1 & _)].
    - apply take1_no. now apply value_end_e.
    - cbn [List.app take1]. now rewrite A1. }
  split.
  - unfold scan_number.
    rewrite <- app_assoc. cbn [List.app]. rewrite (proj1 (take_minus neg i0 _ Hi)).
    change (i0 :: (ip ++ f ++ ex) ++ rest) with ((i0 :: ip ++ f ++ ex) ++ rest).
    replace ((i0 :: ip ++ f ++ ex) ++ rest) with ((i0 :: ip) ++ (f ++ ex ++ rest))
      by (cbn [List.app]; now rewrite <- !app_assoc).
    rewrite (span_all is_digit (i0 :: ip) (f ++ ex ++ rest) I2 (HdF rest Hr)).
    destruct Hf as [| fp D].
    + cbn [List.app]. rewrite take1_no by (apply HdE; assumption). cbv iota. rewrite TE by assumption.
      destruct X as [[-> _] | (c & sg & ds & -> & A1 & A2 & A3 & A4 & A5 & A6 & _)].
      * cbn [List.app]. now rewrite !app_nil_r.
      * cbv iota.
        assert (take1 is_sign ((sg ++ ds) ++ rest) = (sg, ds ++ rest)) as ->.
        { rewrite <- app_assoc. destruct A6 as [-> | (s0 & -> & Hs)].
          - destruct ds as [| d0 ds]; [easy|]. apply take1_no. cbn [List.app].
            assert (is_digit d0 = true) as Hd0 by (cbn in A5; now apply andb_true_iff in A5).
            unfold is_sign. now rewrite (digit_neq d0 (chr 45) Hd0 eq_refl), (digit_neq d0 (chr 43) Hd0 eq_refl).
          - cbn [List.app take1]. now rewrite Hs. }
        rewrite (span_all is_digit ds rest A5 (value_end_nodigit _ Hr)). reflexivity.
    + apply decimals_digits in D as [D1 D2]. cbn [List.app take1].
      change (Ascii.eqb "." (chr 46)) with true. cbv iota.
      rewrite (span_all is_digit fp (ex ++ rest) D2) by (apply HdE; assumption).
      rewrite TE by assumption.
      destruct X as [[-> _] | (c & sg & ds & -> & A1 & A2 & A3 & A4 & A5 & A6 & _)].
      * cbn [List.app]. now rewrite !app_nil_r.
      * cbv iota.
        assert (take1 is_sign ((sg ++ ds) ++ rest) = (sg, ds ++ rest)) as ->.
        { rewrite <- app_assoc. destruct A6 as [-> | (s0 & -> & Hs)].
          - destruct ds as [| d0 ds]; [easy|]. apply take1_no. cbn [List.app].
            assert (is_digit d0 = true) as Hd0 by (cbn in A5; now apply andb_true_iff in A5).
            unfold is_sign. now rewrite (digit_neq d0 (chr 45) Hd0 eq_refl), (digit_neq d0 (chr 43) Hd0 eq_refl).
          - cbn [List.app take1]. now rewrite Hs. }
        rewrite (span_all is_digit ds rest A5 (value_end_nodigit _ Hr)). reflexivity.
  - intros Hne. unfold stod. cbn [List.app]. rewrite (proj2 (take_minus neg i0 _ Hi)).
    change (i0 :: ip ++ f ++ ex) with ((i0 :: ip) ++ (f ++ ex)).
    pose proof (HdF [] I) as HF. rewrite app_nil_r in HF.
    rewrite (span_all is_digit (i0 :: ip) (f ++ ex) I2 HF).
    destruct Hf as [| fp D].
    + cbn [List.app] in *. destruct X as [[-> _] | (c & sg & ds & -> & A1 & A2 & A3 & A4 & A5 & A6 & A7)]; [easy|].
      rewrite A3. cbn [List.app length]. rewrite app_nil_r.
      pose proof (A7 [] I) as A8. rewrite app_nil_r in A8. rewrite A8.
      f_equal.
    + apply decimals_digits in D as [D1 D2]. cbn [List.app].
      change (Ascii.eqb "." (chr 46)) with true. cbv iota.
      pose proof (HdE [] I) as [HE _]. rewrite app_nil_r in HE.
      rewrite (span_all is_digit fp ex D2 HE). cbn [List.app].
      assert (scan_exp ex = x) as ->; [|reflexivity].
      destruct X as [[-> ->] | (c & sg & ds & -> & A1 & A2 & A3 & A4 & A5 & A6 & A7)]; [reflexivity|].
      pose proof (A7 [] I) as A8. now rewrite app_nil_r in A8.
Qed.

(** The number of the text, or null. *)
Lemma read_real : forall t neg num den rest, real_text t neg num den -> value_end rest ->
  exists o, parse_number (t ++ rest) = (match o with Some f => JDbl f | None => JNull end, rest) /\
    match o with
    | Some f => nearest neg num den f /\ (forall g, nearest neg num den g -> g = f)
    | None => too_great num den \/ too_small num den
    end.
Proof.
  intros t neg num den rest (ip & f & fp & ex & x & -> & [Hip _] & Hf & Hex & Hne & E) Hr.
  destruct (scan_numeral neg ip f fp ex x rest Hip Hf Hex Hr) as [S1 S2].
  exists (dec_to_double neg (digits_val (ip ++ fp)) (x - Z.of_nat (length fp))). split.
  - unfold parse_number.
    assert (skip_ws ((minus neg ++ ip ++ f ++ ex) ++ rest) = (minus neg ++ ip ++ f ++ ex) ++ rest) as ->.
    { apply decimals_digits in Hip as [I1 I2]. destruct ip as [| i0 ip]; [easy|].
      destruct neg; [reflexivity|]. cbn [minus List.app]. apply skip_ws_head.
      apply num_head_props. right. cbn in I2. now apply andb_true_iff in I2. }
    rewrite S1. destruct (f ++ ex) eqn:Q; [easy|]. rewrite <- Q in *. now rewrite S2.
  - apply dec_spec. rewrite E. f_equal. apply val10_N.
    apply digits_app; [now apply decimals_digits|now apply fraction_digits with f].
Qed.

Lemma read_int : forall t z rest, int_text t z -> value_end rest ->
  parse_number (t ++ rest) =
    (if ((- 2 ^ 63 <=? z) && (z <? 2 ^ 63))%bool then JInt z else JNull, rest).
Proof.
  intros t z rest (neg & ip & -> & [Hip _] & Hz) Hr.
  destruct (scan_numeral neg ip [] [] [] 0 rest Hip fr_none ex_none Hr) as [S1 _].
  rewrite !app_nil_r in S1.
  apply decimals_digits in Hip as [I1 I2]. destruct ip as [| i0 ip]; [easy|].
  assert (is_digit i0 = true) as Hi by (cbn in I2; now apply andb_true_iff in I2).
  unfold parse_number.
  assert (skip_ws ((minus neg ++ i0 :: ip) ++ rest) = (minus neg ++ i0 :: ip) ++ rest) as ->.
  { destruct neg; [reflexivity|]. cbn [minus List.app]. apply skip_ws_head.
    apply num_head_props. now right. }
  rewrite S1. cbn [List.app]. f_equal. unfold stoll, scan_int.
  rewrite (proj2 (take_minus neg i0 ip Hi)).
  pose proof (span_all is_digit (i0 :: ip) [] I2 I) as Sp. rewrite app_nil_r in Sp. rewrite Sp. cbn [fst].
  rewrite <- (val10_N (i0 :: ip) I2), <- Hz. unfold two63.
  change (2 ^ 63) with 9223372036854775808.
  destruct (_ && _)%bool; reflexivity.
Qed.

Lemma number_head : forall t rest, (exists neg num den, real_text t neg num den) \/ (exists z, int_text t z) ->
  exists c r, t = c :: r /\ num_head c /\ forall f, parse_value (S f) (t ++ rest) = number_or (t ++ rest).
Proof.
  intros t rest H.
  assert (exists neg ip r, t = minus neg ++ ip ++ r /\ decimals ip) as (neg & ip & r & -> & D).
  { destruct H as [(neg & num & den & ip & f & fp & ex & x & E & [W _] & _) | (z & neg & ip & E & [W _] & _)].
    - exists neg, ip, (f ++ ex). now split.
    - exists neg, ip, []. rewrite app_nil_r. now split. }
  apply decimals_digits in D as [I1 I2]. destruct ip as [| i0 ip]; [easy|].
  assert (is_digit i0 = true) as Hi by (cbn in I2; now apply andb_true_iff in I2).
  destruct neg; cbn [minus List.app bs list_ascii_of_string].
  - eexists _, _. split; [reflexivity|]. split; [now left|]. intros f. apply parse_value_number. now left.
  - eexists _, _. split; [reflexivity|]. split; [now right|]. intros f. apply parse_value_number. now right.
Qed.
