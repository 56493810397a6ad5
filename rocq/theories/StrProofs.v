(** Lemmas about byte strings. *)
From Coq Require Import Ascii String List Arith NArith ZArith Bool Lia ZifyBool ZifyNat ZifyN.
From Verif Require Import StrModel.
Import ListNotations.
Local Open Scope nat_scope.

Lemma eqb_eq : forall a b, Ascii.eqb a b = true <-> a = b.
Proof. exact Ascii.eqb_eq. Qed.

Lemma eqb_neq : forall a b, Ascii.eqb a b = false <-> a <> b.
Proof. exact Ascii.eqb_neq. Qed.

Lemma eqb_refl : forall a, Ascii.eqb a a = true.
Proof. exact Ascii.eqb_refl. Qed.

Lemma beq_eq : forall a b, beq a b = true <-> a = b.
Proof.
  induction a as [|x a IH]; destruct b as [|y b]; cbn; split; intro H; try easy.
  - apply andb_true_iff in H as [H1 H2]. apply eqb_eq in H1. apply IH in H2. congruence.
  - injection H as -> ->. now rewrite eqb_refl, (proj2 (IH b) eq_refl).
Qed.

Lemma beq_refl : forall a, beq a a = true.
Proof. intro a. now apply beq_eq. Qed.

Lemma beq_neq : forall a b, beq a b = false <-> a <> b.
Proof.
  intros a b. split; intro H.
  - intros ->. now rewrite beq_refl in H.
  - destruct (beq a b) eqn:E; [|easy]. now apply beq_eq in E.
Qed.

Lemma bstr_eq_dec : forall a b : bstr, {a = b} + {a <> b}.
Proof. intros. apply list_eq_dec, ascii_dec. Defined.

Lemma starts_with_iff : forall p s, starts_with p s = true <-> exists r, s = p ++ r.
Proof.
  induction p as [|x p IH]; intros s; cbn.
  - split; [intros _; now exists s|easy].
  - destruct s as [|y s].
    + split; [easy|]. intros [r H]; discriminate.
    + rewrite andb_true_iff, eqb_eq, IH. split.
      * intros [-> [r ->]]. now exists r.
      * intros [r H]. injection H as -> ->. split; [easy|now exists r].
Qed.

Lemma starts_with_app : forall p r, starts_with p (p ++ r) = true.
Proof. intros. apply starts_with_iff. now exists r. Qed.

Lemma find_sub_some : forall p s k,
  find_sub p s = Some k ->
  (exists r, skipn k s = p ++ r) /\ k + length p <= length s /\
  (forall j, j < k -> starts_with p (skipn j s) = false).
Proof.
  intros p s. induction s as [|c s IH]; intros k H; cbn in H.
  - destruct (starts_with p []) eqn:E; [|discriminate]. injection H as <-.
    apply starts_with_iff in E as [r E]. destruct p; [|discriminate].
    repeat split; cbn; [now exists []|lia|lia].
  - change (match p with [] => true | x :: p' => Ascii.eqb x c && starts_with p' s end)
      with (starts_with p (c :: s)) in H.
    destruct (starts_with p (c :: s)) eqn:E.
    + injection H as <-. apply starts_with_iff in E as [r E]. repeat split.
      * exists r. easy.
      * rewrite E, app_length. lia.
      * lia.
    + destruct (find_sub p s) as [j|] eqn:F; [|discriminate]. injection H as <-.
      destruct (IH _ eq_refl) as ([r Hr] & Hl & Hn). repeat split.
      * now exists r.
      * cbn. lia.
      * intros [|j'] Hj; [exact E|]. cbn. apply Hn. lia.
Qed.

Lemma find_sub_none : forall p s, find_sub p s = None ->
  forall j, j <= length s -> starts_with p (skipn j s) = false.
Proof.
  intros p s. induction s as [|c s IH]; intros H j Hj.
  - cbn in Hj. assert (j = 0) as -> by lia. cbn in *. destruct (starts_with p []); easy.
  - cbn [find_sub] in H. destruct (starts_with p (c :: s)) eqn:E; [discriminate|].
    destruct (find_sub p s) eqn:F; [discriminate|].
    destruct j as [|j]; [exact E|]. cbn. apply IH; [easy|]. cbn in Hj. lia.
Qed.

Lemma find_sub_intro : forall p s k,
  starts_with p (skipn k s) = true -> k <= length s ->
  (forall j, j < k -> starts_with p (skipn j s) = false) ->
  find_sub p s = Some k.
Proof.
  intros p s. induction s as [|c s IH]; intros k H1 Hk H2.
  - cbn in Hk. assert (k = 0) as -> by lia. cbn in *. now rewrite H1.
  - cbn [find_sub]. destruct k as [|k].
    + cbn [skipn] in H1. now rewrite H1.
    + pose proof (H2 0 ltac:(lia)) as H0. cbn [skipn] in H0, H1. rewrite H0. cbn in Hk.
      rewrite (IH k); [easy|easy|lia|]. intros j Hj. apply (H2 (S j)). lia.
Qed.

Lemma find_sub_none_intro : forall p s,
  (forall j, j <= length s -> starts_with p (skipn j s) = false) -> find_sub p s = None.
Proof.
  intros p s H. destruct (find_sub p s) as [k|] eqn:E; [|easy].
  apply find_sub_some in E as ([r E] & Hl & _).
  assert (k <= length s) as Hk by lia.
  specialize (H k Hk). now rewrite E, starts_with_app in H.
Qed.

Lemma find_sub_least : forall p s k j,
  find_sub p s = Some k -> starts_with p (skipn j s) = true -> k <= j.
Proof.
  intros p s k j H1 H2. destruct (le_lt_dec k j) as [|Hlt]; [easy|].
  apply find_sub_some in H1 as (_ & _ & H1). now rewrite H1 in H2.
Qed.

(** A hit is stable when bytes are appended. *)
Lemma starts_with_app_r : forall p s t, starts_with p s = true -> starts_with p (s ++ t) = true.
Proof.
  intros p s t H. apply starts_with_iff in H as [r ->].
  apply starts_with_iff. exists (r ++ t). now rewrite app_assoc.
Qed.

Lemma starts_with_app_long : forall p s t, length p <= length s ->
  starts_with p (s ++ t) = starts_with p s.
Proof.
  induction p as [|x p IH]; intros s t H; [easy|].
  destruct s as [|y s]; cbn in *; [lia|]. f_equal. apply IH. lia.
Qed.

Lemma find_sub_app : forall p s t k,
  find_sub p s = Some k -> find_sub p (s ++ t) = Some k.
Proof.
  intros p s. induction s as [|c s IH]; intros t k H.
  - cbn in H. destruct (starts_with p []) eqn:E; [|discriminate]. injection H as <-.
    destruct p; [|discriminate]. now destruct t.
  - cbn [find_sub app] in *. destruct (starts_with p (c :: s)) eqn:E.
    + change (c :: s ++ t) with ((c :: s) ++ t). rewrite starts_with_app_r by easy. easy.
    + destruct (find_sub p s) as [j|] eqn:F; [|discriminate]. injection H as <-.
      change (c :: s ++ t) with ((c :: s) ++ t).
      rewrite starts_with_app_long.
      * rewrite E. now rewrite (IH t j eq_refl).
      * apply find_sub_some in F as (_ & F & _). cbn. lia.
Qed.

(** find_char *)
Lemma find_char_some : forall c s k, find_char c s = Some k ->
  exists a b, s = a ++ c :: b /\ length a = k /\ ~ In c a.
Proof.
  intros c s. induction s as [|x s IH]; intros k H; [discriminate|]. cbn in H.
  destruct (Ascii.eqb x c) eqn:E.
  - injection H as <-. apply eqb_eq in E as ->. now exists [], s.
  - destruct (find_char c s) as [j|]; [|discriminate]. injection H as <-.
    destruct (IH _ eq_refl) as (a & b & -> & Hl & Hn).
    exists (x :: a), b. cbn. repeat split; [congruence|].
    intros [->|Hi]; [now rewrite eqb_refl in E|easy].
Qed.

Lemma find_char_app : forall c a b, ~ In c a -> find_char c (a ++ c :: b) = Some (length a).
Proof.
  induction a as [|x a IH]; intros b H; cbn.
  - now rewrite eqb_refl.
  - destruct (Ascii.eqb x c) eqn:E; [apply eqb_eq in E; subst; cbn in H; tauto|].
    rewrite IH; [easy|]. cbn in H; tauto.
Qed.

Lemma find_char_none : forall c s, find_char c s = None <-> ~ In c s.
Proof.
  induction s as [|x s IH]; cbn; [easy|].
  destruct (Ascii.eqb x c) eqn:E.
  - apply eqb_eq in E as ->. split; [easy|tauto].
  - apply eqb_neq in E. destruct (find_char c s); cbn; split; intro H; try easy.
    + exfalso. apply H. right. apply Decidable.not_not; [|intro K; apply IH in K; discriminate].
      unfold Decidable.decidable. destruct (in_dec ascii_dec c s); tauto.
    + intros [->|K]; [easy|]. now apply IH in K.
Qed.

(** span, drop_while *)
Lemma span_app : forall p s, let (a, b) := span p s in
  s = a ++ b /\ forallb p a = true /\ (match b with [] => True | c :: _ => p c = false end).
Proof.
  intros p s. induction s as [|c s IH]; cbn; [easy|].
  destruct (p c) eqn:E.
  - destruct (span p s) as [a b]. destruct IH as (-> & H1 & H2). cbn. now rewrite E.
  - cbn. easy.
Qed.

Lemma span_all : forall p a b, forallb p a = true ->
  (match b with [] => True | c :: _ => p c = false end) -> span p (a ++ b) = (a, b).
Proof.
  intros p a b H1 H2. induction a as [|c a IH]; cbn in *.
  - destruct b as [|c b]; [easy|]. cbn. now rewrite H2.
  - apply andb_true_iff in H1 as [-> H1]. now rewrite IH.
Qed.

Lemma drop_while_all : forall p a b, forallb p a = true ->
  (match b with [] => True | c :: _ => p c = false end) -> drop_while p (a ++ b) = b.
Proof.
  intros p a b H1 H2. induction a as [|c a IH]; cbn in *.
  - destruct b as [|c b]; [easy|]. cbn. now rewrite H2.
  - apply andb_true_iff in H1 as [-> H1]. now rewrite IH.
Qed.

Lemma drop_while_suffix : forall p s, exists a, s = a ++ drop_while p s /\ forallb p a = true.
Proof.
  intros p s. induction s as [|c s [a [IH1 IH2]]]; cbn; [now exists []|].
  destruct (p c) eqn:E; [|now exists []].
  exists (c :: a). cbn. now rewrite E, <- IH1.
Qed.

Lemma drop_while_length : forall p s, length (drop_while p s) <= length s.
Proof.
  intros p s. destruct (drop_while_suffix p s) as [a [H _]]. rewrite H at 2.
  rewrite app_length. lia.
Qed.

Lemma drop_while_idem : forall p s, drop_while p (drop_while p s) = drop_while p s.
Proof.
  intros p s. induction s as [|c s IH]; cbn; [easy|].
  destruct (p c) eqn:E; [easy|]. cbn. now rewrite E.
Qed.

(** Codes *)
Lemma code_bound : forall c, (code c < 256)%N.
Proof. intro c. apply N_ascii_bounded. Qed.

Lemma chr_code : forall c, chr (code c) = c.
Proof. exact ascii_N_embedding. Qed.

Lemma code_chr : forall n, (n < 256)%N -> code (chr n) = n.
Proof. exact N_ascii_embedding. Qed.

Lemma code_inj : forall a b, code a = code b -> a = b.
Proof. intros a b H. now rewrite <- (chr_code a), <- (chr_code b), H. Qed.

Lemma digit_is_digit : forall n, (n < 10)%N -> is_digit (digit n) = true.
Proof. intros n H. unfold is_digit, in_range, digit. rewrite code_chr; lia. Qed.

Lemma digit_val_digit : forall n, (n < 10)%N -> digit_val (digit n) = n.
Proof. intros n H. unfold digit_val, digit. rewrite code_chr; lia. Qed.

(** Decimal printing *)
Lemma log2_div10 : forall n, (10 <= n)%N -> (N.log2 (n / 10) < N.log2 n)%N.
Proof.
  intros n H. apply N.log2_lt_pow2.
  - assert (1 <= n / 10)%N; [|lia]. apply N.div_le_lower_bound; lia.
  - apply N.div_lt_upper_bound; [lia|].
    pose proof (N.log2_spec n ltac:(lia)) as [_ H2]. rewrite N.pow_succ_r' in H2. lia.
Qed.

Lemma digits_val_snoc : forall s c, digits_val (s ++ [c]) = (10 * digits_val s + digit_val c)%N.
Proof. intros. unfold digits_val. now rewrite fold_left_app. Qed.

Lemma dec_fuel_spec : forall fuel n, (N.to_nat (N.log2 n) < fuel) ->
  digits_val (dec_fuel fuel n) = n /\ forallb is_digit (dec_fuel fuel n) = true /\
  dec_fuel fuel n <> [].
Proof.
  induction fuel as [|f IH]; intros n H; [lia|]. cbn [dec_fuel].
  assert (n mod 10 < 10)%N as Hm by (apply N.mod_lt; lia).
  destruct (N.ltb_spec n 10) as [Hn|Hn].
  - rewrite N.mod_small by easy. cbn [app]. repeat split.
    + unfold digits_val; cbn [fold_left]. rewrite digit_val_digit by easy. lia.
    + cbn. now rewrite digit_is_digit.
    + easy.
  - pose proof (log2_div10 n Hn). destruct (IH (n / 10)%N ltac:(lia)) as (H1 & H2 & H3).
    repeat split.
    + rewrite digits_val_snoc, H1, digit_val_digit by easy.
      rewrite (N.div_mod n 10) at 3 by lia. lia.
    + rewrite forallb_app, H2. cbn. now rewrite digit_is_digit.
    + intro E. apply app_eq_nil in E as [_ E]. discriminate.
Qed.

Lemma print_N_spec : forall n, digits_val (print_N n) = n /\
  forallb is_digit (print_N n) = true /\ print_N n <> [].
Proof. intro n. apply dec_fuel_spec. lia. Qed.

Lemma print_N_inj : forall a b, print_N a = print_N b -> a = b.
Proof.
  intros a b H. rewrite <- (proj1 (print_N_spec a)), <- (proj1 (print_N_spec b)). now rewrite H.
Qed.

Lemma is_digit_code : forall c, is_digit c = true <-> (48 <= code c <= 57)%N.
Proof. intro c. unfold is_digit, in_range. lia. Qed.

Lemma digit_not_space : forall c, is_digit c = true -> is_space c = false.
Proof. intros c H. apply is_digit_code in H. unfold is_space, in_range. lia. Qed.

Lemma digit_neq : forall c d, is_digit c = true -> is_digit d = false -> Ascii.eqb c d = false.
Proof. intros c d H1 H2. apply eqb_neq. intros ->. congruence. Qed.

Definition nodigit_head (s : bstr) : Prop :=
  match s with [] => True | c :: _ => is_digit c = false end.

Lemma print_N_head : forall n, exists d ds, print_N n = d :: ds /\ is_digit d = true.
Proof.
  intro n. destruct (print_N_spec n) as (_ & H2 & H3).
  destruct (print_N n) as [|d ds]; [easy|]. exists d, ds. split; [easy|].
  cbn in H2. now apply andb_true_iff in H2.
Qed.

Lemma scan_int_print_N : forall n r, nodigit_head r ->
  scan_int (print_N n ++ r) = Some (false, n).
Proof.
  intros n r Hr. unfold scan_int.
  destruct (print_N_spec n) as (H1 & H2 & H3).
  destruct (print_N_head n) as (d & ds & E & Hd).
  assert (drop_while is_space (print_N n ++ r) = print_N n ++ r) as ->.
  { rewrite E. cbn. now rewrite digit_not_space. }
  assert (split_sign (print_N n ++ r) = (false, print_N n ++ r)) as ->.
  { rewrite E. unfold split_sign. cbn [app].
    now rewrite (digit_neq d (chr 45) Hd eq_refl), (digit_neq d (chr 43) Hd eq_refl). }
  rewrite span_all by easy. cbn [fst].
  destruct (print_N n); [easy|]. now rewrite H1.
Qed.

Lemma stoull_print_N : forall n r, nodigit_head r -> (n < two64)%N ->
  stoull (print_N n ++ r) = Some n.
Proof.
  intros n r Hr Hn. unfold stoull. rewrite scan_int_print_N by easy.
  destruct (N.leb_spec two64 n); [lia|easy].
Qed.

Lemma scan_int_print_Z : forall z r, nodigit_head r ->
  scan_int (print_Z z ++ r) = Some (Z.ltb z 0, Z.abs_N z).
Proof.
  intros z r Hr. unfold print_Z. destruct (Z.ltb_spec z 0) as [H|H].
  - unfold scan_int. cbn [app drop_while].
    change (is_space (chr 45)) with false. cbn iota.
    unfold split_sign. rewrite eqb_refl.
    destruct (print_N_spec (Z.to_N (- z))) as (H1 & H2 & H3).
    rewrite span_all by easy. cbn [fst].
    destruct (print_N (Z.to_N (- z))); [easy|]. rewrite H1. f_equal. f_equal. lia.
  - rewrite scan_int_print_N by easy. f_equal. f_equal. lia.
Qed.

Lemma stoll_print_Z : forall z r, nodigit_head r -> int64 z -> stoll (print_Z z ++ r) = Some z.
Proof.
  intros z r Hr Hz. unfold stoll. rewrite scan_int_print_Z by easy.
  unfold int64 in Hz.
  destruct (Z.ltb_spec z 0); cbn iota.
  - replace (- Z.of_N (Z.abs_N z))%Z with z by lia.
    destruct (Z.leb_spec (- two63) z), (Z.ltb_spec z two63); cbn; try easy; lia.
  - replace (Z.of_N (Z.abs_N z))%Z with z by lia.
    destruct (Z.leb_spec (- two63) z), (Z.ltb_spec z two63); cbn; try easy; lia.
Qed.

Lemma print_Z_inj : forall a b, print_Z a = print_Z b -> a = b.
Proof.
  intros a b H.
  pose proof (scan_int_print_Z a [] I) as Ha. pose proof (scan_int_print_Z b [] I) as Hb.
  rewrite H in Ha. rewrite Ha in Hb. injection Hb as H1 H2. lia.
Qed.

Lemma print_Z_head : forall z, exists d ds, print_Z z = d :: ds /\ (d = chr 45 \/ is_digit d = true).
Proof.
  intro z. unfold print_Z. destruct (Z.ltb z 0).
  - eexists _, _. split; [reflexivity|now left].
  - destruct (print_N_head (Z.to_N z)) as (d & ds & H1 & H2). exists d, ds. auto.
Qed.

(** Misc list facts *)
Lemma skipn_app_len : forall (A : Type) (a b : list A), skipn (length a) (a ++ b) = b.
Proof. induction a; cbn; auto. Qed.

Lemma firstn_app_len : forall (A : Type) (a b : list A), firstn (length a) (a ++ b) = a.
Proof. induction a; intros; cbn; [easy|]. now f_equal. Qed.

Lemma skipn_skipn_add : forall (A : Type) x y (l : list A), skipn x (skipn y l) = skipn (y + x) l.
Proof.
  intros A x y. induction y as [|y IH]; intros l; [easy|].
  destruct l; cbn; [now rewrite skipn_nil|apply IH].
Qed.
