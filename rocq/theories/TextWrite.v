(** Proofs: what the serializer writes is JSON that denotes the value. *)
From Coq Require Import Ascii String List Arith NArith ZArith Bool Lia ZifyBool ZifyNat ZifyN.
From Verif Require Import StrModel StrProofs DoubleModel JsonModel JsonSpec DoubleProofs JsonProofs
  TextSpec TextNum TextRound TextNumeral TextRead.
Import ListNotations.
Local Open Scope nat_scope.

Lemma hexit_digit : forall k, (k < 16)%N -> hexit (hex_digit k) (N.to_nat k).
Proof.
  intros k H. left. apply (upto_in 16) in H. cbn [upto List.app N.of_nat] in H.
  cbn in H. repeat (destruct H as [<- | H]; [reflexivity|]). contradiction.
Qed.

Lemma chars_esc_char : forall c t s, chars t s -> chars (esc_char c ++ t) (c :: s).
Proof.
  intros c t s H. unfold esc_char, code.
  assert (ascii_of_N (N_of_ascii c) = c) as Ec by apply ascii_N_embedding.
  set (n := N_of_ascii c) in *.
  assert (forall x n', In (x, n') LETTERS -> n = n' -> chars (BACKSLASH :: x :: t) (c :: s)) as L.
  { intros x n' Hi E. rewrite <- Ec, E. now apply ch_letter. }
  destruct (N.eqb_spec n 34) as [E | N34]; [apply (L _ 34%N); [cbn; tauto|exact E]|].
  destruct (N.eqb_spec n 92) as [E | N92]; [apply (L _ 92%N); [cbn; tauto|exact E]|].
  destruct (N.eqb_spec n 8) as [E | N8]; [apply (L _ 8%N); [cbn; tauto|exact E]|].
  destruct (N.eqb_spec n 12) as [E | N12]; [apply (L _ 12%N); [cbn; tauto|exact E]|].
  destruct (N.eqb_spec n 10) as [E | N10]; [apply (L _ 10%N); [cbn; tauto|exact E]|].
  destruct (N.eqb_spec n 13) as [E | N13]; [apply (L _ 13%N); [cbn; tauto|exact E]|].
  destruct (N.eqb_spec n 9) as [E | N9]; [apply (L _ 9%N); [cbn; tauto|exact E]|].
  destruct (N.ltb_spec n 32) as [Lt | Ge].
  - assert (quad [chr 48; chr 48; hex_digit (n / 16); hex_digit (n mod 16)] n) as Q.
    { pose proof (N.mod_lt n 16 ltac:(lia)). assert (n / 16 < 16)%N by (apply N.div_lt_upper_bound; lia).
      exists (chr 48), (chr 48), (hex_digit (n / 16)), (hex_digit (n mod 16)),
        0, 0, (N.to_nat (n / 16)), (N.to_nat (n mod 16)).
      repeat split; try (now apply hexit_digit); try (left; reflexivity).
      rewrite !N2Nat.id. pose proof (N.div_mod n 16 ltac:(lia)). lia. }
    replace (c :: s) with (utf8_of n ++ s).
    + apply (ch_code [chr 48; chr 48; hex_digit (n / 16); hex_digit (n mod 16)]); [exact Q|lia|exact H].
    + unfold utf8_of. replace (n <? 128)%N with true by (symmetry; apply N.ltb_lt; lia).
      cbn [map List.app]. now rewrite Ec.
  - cbn [List.app]. apply ch_raw; [exact Ge| | |exact H].
    + intros ->. now apply N34.
    + intros ->. now apply N92.
Qed.

Lemma chars_esc : forall s, chars (esc s) s.
Proof.
  induction s as [| c s IH]; [constructor|]. cbn [esc flat_map]. fold (esc s). now apply chars_esc_char.
Qed.

Lemma chars_clean : forall k, clean_name k -> chars k k.
Proof. induction 1 as [| c k (H1 & H2 & H3) _ IH]; constructor; assumption. Qed.

Lemma digits_decimals : forall t, t <> [] -> forallb is_digit t = true -> decimals t.
Proof.
  intros t H1 H2. split; [exact H1|]. apply Forall_forall. intros c Hc.
  rewrite forallb_forall in H2. specialize (H2 c Hc). apply is_digit_code in H2. unfold code in H2.
  rewrite <- (ascii_N_embedding c). set (n := N_of_ascii c) in *. clearbody n.
  assert (In n (upto 58)) as Hi by (apply upto_in; lia).
  assert (forallb (fun n => (N.ltb n 48 || existsb (Ascii.eqb (ascii_of_N n)) (bs "0123456789"))%bool) (upto 58) = true)
    as K by (vm_compute; reflexivity).
  rewrite forallb_forall in K. specialize (K n Hi). apply orb_true_iff in K as [K | K]; [apply N.ltb_lt in K; lia|].
  now apply existsb_in.
Qed.

Lemma dec_fuel_head : forall f n, (0 < n)%N -> N.to_nat (N.log2 n) < f ->
  hd_error (dec_fuel f n) <> Some "0"%char /\ dec_fuel f n <> [].
Proof.
  induction f as [| f IH]; intros n Hn Hf; [lia|]. cbn [dec_fuel].
  destruct (N.ltb_spec n 10) as [L | L].
  - cbn [List.app hd_error]. rewrite N.mod_small by exact L. split; [|discriminate].
    apply (upto_in 10) in L. cbn in L.
    repeat (destruct L as [<- | L]; [first [lia | (cbv; discriminate)]|]). contradiction.
  - pose proof (log2_div10 n L). destruct (IH (n / 10)%N) as [H1 H2].
    + apply N.div_str_pos. lia.
    + lia.
    + destruct (dec_fuel f (n / 10)) as [| c t]; [easy|]. cbn [List.app]. split; [exact H1|discriminate].
Qed.

Lemma whole_print : forall n, whole (print_N n).
Proof.
  intros n. destruct (print_N_spec n) as (_ & H2 & H3). split; [now apply digits_decimals|].
  intros H. destruct n as [| p]; [reflexivity|].
  destruct (dec_fuel_head (S (N.to_nat (N.log2 (N.pos p)))) (N.pos p)) as [H1 _]; [lia|lia|]. contradiction.
Qed.

Lemma int_text_print : forall z, int_text (print_Z z) z.
Proof.
  intros z. unfold print_Z. destruct (Z.ltb_spec z 0) as [L | L].
  - exists true, (print_N (Z.to_N (- z))). split; [reflexivity|]. split; [apply whole_print|].
    destruct (print_N_spec (Z.to_N (- z))) as (H1 & H2 & _). rewrite val10_N, H1 by exact H2. lia.
  - exists false, (print_N (Z.to_N z)). split; [reflexivity|]. split; [apply whole_print|].
    destruct (print_N_spec (Z.to_N z)) as (H1 & H2 & _). rewrite val10_N, H1 by exact H2. lia.
Qed.

Lemma print_double_whole : forall d, exact_double d ->
  exists ip fp, print_double d = minus (dbl_sign d) ++ ip ++ [chr 46] ++ fp /\
    whole ip /\ decimals fp /\ length fp = 6 /\
    dec_to_double (dbl_sign d) (digits_val (ip ++ fp)) (-6) = Some d.
Proof.
  intros d H. destruct (print_double_shape d H) as (ip & fp & E & H1 & H2 & H3 & H4 & H5).
  assert (forall s, sign_text s = minus s) as M by (intros []; reflexivity).
  exists ip, fp. rewrite M in E. split; [exact E|].
  assert (fp <> []) as Hfp by (destruct fp; [discriminate|discriminate]).
  refine (conj _ (conj (digits_decimals fp Hfp H3) (conj H4 H5))).
  destruct d as [s | s m e | s | s]; try contradiction.
  - cbn [print_double dbl_sign] in E. rewrite M in E. apply app_inv_head in E.
    destruct ip as [| a ip]; [easy|]. cbn in E. injection E as <- E.
    destruct ip as [| b ip]; [split; [now apply digits_decimals|reflexivity]|].
    exfalso. cbn [List.app] in E. injection E as <- _. cbn in H2. discriminate.
  - cbn [print_double dbl_sign] in E. rewrite M in E. apply app_inv_head in E.
    set (q := (micros m e / 1000000)%N) in *.
    assert (ip = print_N q) as ->; [|apply whole_print].
    destruct (print_N_spec q) as (_ & G2 & _).
    apply (f_equal (span is_digit)) in E.
    rewrite (span_all is_digit (print_N q)) in E by (exact G2 || reflexivity).
    rewrite (span_all is_digit ip) in E by (exact H2 || reflexivity). congruence.
Qed.

Lemma real_text_print : forall d, exact_double d ->
  exists neg num den, real_text (print_double d) neg num den /\ nearest neg num den d /\ ~ too_small num den.
Proof.
  intros d H. destruct (print_double_whole d H) as (ip & fp & E & W & D & L & F).
  assert (forallb is_digit (ip ++ fp) = true) as Hd.
  { apply digits_app; [apply decimals_digits; apply W|now apply decimals_digits]. }
  exists (dbl_sign d), (val10 (ip ++ fp)), (10 ^ 6)%Z.
  assert ((val10 (ip ++ fp), (10 ^ 6)%Z) = frac10 (val10 (ip ++ fp)) (0 - Z.of_nat (length fp))) as Fr
    by (rewrite L; reflexivity).
  split; [|split].
  - exists ip, ("."%char :: fp), fp, [], 0%Z. rewrite app_nil_r.
    repeat split; try apply W; [exact E|now constructor|constructor|discriminate|exact Fr].
  - pose proof (dec_spec (dbl_sign d) (digits_val (ip ++ fp)) (-6) (val10 (ip ++ fp)) (10 ^ 6)%Z) as S0.
    rewrite F in S0. apply S0. rewrite <- (val10_N _ Hd). reflexivity.
  - intros [T1 T2]. assert (0 <= val10 (ip ++ fp))%Z as P by (rewrite (val10_N _ Hd); lia).
    assert (val10 (ip ++ fp) = 0)%Z as Z0.
    { assert (10 ^ 6 < 2 ^ 1022)%Z as B by reflexivity. set (a := (10 ^ 6)%Z) in *. set (b := (2 ^ 1022)%Z) in *.
      assert (0 < a)%Z by (unfold a; lia). nia. }
    apply (T2 (DZero false) 0%Z I eq_refl). now rewrite Z0.
Qed.

Lemma ser_text : forall v, writable v -> text (ser v) v.
Proof.
  induction v as [| b | z | d | s | l IH | l IH] using json_ind'; intros [Hok Hk].
  - constructor.
  - destruct b; constructor.
  - apply tx_int; [apply int_text_print|]. now inversion Hok.
  - assert (exact_double d) as Hd by now inversion Hok.
    destruct (real_text_print d Hd) as (neg & num & den & H1 & H2 & H3). now apply tx_real with neg num den.
  - cbn [ser]. unfold ser_str. change (QUOTE :: esc s ++ [QUOTE]) with (bs """" ++ esc s ++ bs """").
    apply tx_str, chars_esc.
  - cbn [ser]. change (LBRACK :: join [COMMA] (map ser l) ++ [RBRACK]) with (bs "[" ++ join [COMMA] (map ser l) ++ bs "]").
    inversion Hok as [| | | | | l' Hl |]; subst.
    assert (Forall (fun v => text (ser v) v) l) as T.
    { rewrite Forall_forall in *. intros v Hv. apply IH; [exact Hv|]. split; [now apply Hl|].
      intros k Hi. apply Hk. now apply key_arr with v. }
    destruct l as [| v l]; [apply (tx_arr0 []); constructor|]. apply tx_arr.
    clear - T. revert v T. induction l as [| v' l IHl]; intros v T.
    + cbn [map join]. pose proof (it_one [] (ser v) [] v (Forall_nil _) (Forall_nil _) (Forall_inv T)) as P.
      cbn [List.app] in P. now rewrite app_nil_r in P.
    + cbn [map]. change (join [COMMA] (ser v :: ser v' :: map ser l))
        with ([] ++ ser v ++ [] ++ bs "," ++ join [COMMA] (map ser (v' :: l))).
      apply it_more; [constructor|constructor|apply (Forall_inv T)|]. apply IHl. apply (Forall_inv_tail T).
  - cbn [ser]. set (f := fun kv : bstr * json => ser_member (fst kv) (ser (snd kv))).
    change (LBRACE :: join [COMMA] (map f l) ++ [RBRACE]) with (bs "{" ++ join [COMMA] (map f l) ++ bs "}").
    inversion Hok as [| | | | | | l' Hn Hp Hl]; subst.
    assert (Forall (fun kv => text (ser (snd kv)) (snd kv) /\ chars (fst kv) (fst kv)) l) as T.
    { rewrite Forall_forall in *. intros [k v] Hv. cbn [fst snd].
      assert (In v (map snd l)) as Hv' by (apply in_map_iff; exists (k, v); auto).
      split.
      - apply IH; [exact Hv'|]. split; [now apply Hl|]. intros k' Hi. apply Hk. now apply key_obj with v.
      - apply chars_clean, Hk, key_here, in_map_iff. exists (k, v). auto. }
    destruct l as [| kv l]; [apply (tx_obj0 []); constructor|]. apply tx_obj; [|exact Hn].
    clear - T. revert kv T.
    assert (forall k v, f (k, v) = [] ++ bs """" ++ k ++ bs """" ++ [] ++ bs ":" ++ [] ++ ser v ++ []) as Ef.
    { intros k v. unfold f, ser_member. cbn [fst snd List.app]. rewrite app_nil_r. reflexivity. }
    induction l as [| kv' l IHl]; intros [k v] T.
    + cbn [map join]. rewrite Ef. apply me_one; try constructor; apply (Forall_inv T).
    + cbn [map]. change (join [COMMA] (f (k, v) :: f kv' :: map f l))
        with (f (k, v) ++ bs "," ++ join [COMMA] (map f (kv' :: l))).
      rewrite Ef. rewrite <- !app_assoc.
      apply me_more; try (constructor; fail); [apply (Forall_inv T)|apply (Forall_inv T)|].
      apply IHl. apply (Forall_inv_tail T).
Qed.

(** A text the parser does not read whole is not JSON. *)
Lemma not_text : forall t, (forall v, parse_json t <> POk v []) -> forall v, ~ text t v.
Proof.
  intros t H v T. apply (H v). pose proof (reads_text [] t v [] (Forall_nil _) T I) as P.
  cbn [List.app] in P. now rewrite app_nil_r in P.
Qed.
