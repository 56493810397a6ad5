(** Proofs: what the parser accepts is JSON up to the liberties of [near]. *)
From Coq Require Import Ascii String List Arith NArith ZArith Bool Lia ZifyBool ZifyNat ZifyN.
From Verif Require Import StrModel StrProofs DoubleModel JsonModel JsonSpec DoubleProofs JsonProofs ObjProofs
  TextSpec TextNum TextRound TextNumeral TextRead TextWrite.
Import ListNotations.
Local Open Scope nat_scope.

(** Strings *)
Definition hex_back (c : ascii) : bool :=
  match hex_val c with
  | Some n => (match nth_error (bs "0123456789abcdef") (N.to_nat n) with Some x => Ascii.eqb x c | None => false end ||
               match nth_error (bs "0123456789ABCDEF") (N.to_nat n) with Some x => Ascii.eqb x c | None => false end)%bool
  | None => true
  end.

Lemma hex_back_ok : forall c, hex_back c = true.
Proof. apply all_ascii. vm_compute. reflexivity. Qed.

Lemma hexit_of : forall c n, hex_val c = Some n -> hexit c (N.to_nat n).
Proof.
  intros c n H. pose proof (hex_back_ok c) as K. unfold hex_back in K. rewrite H in K.
  apply orb_true_iff in K as [K | K]; [left|right];
    (destruct (nth_error _ _) as [x |]; [|discriminate]; apply Ascii.eqb_eq in K; now subst).
Qed.

Lemma hex4_quad : forall a b c d v, hex4 a b c d = Some v -> quad [a; b; c; d] v.
Proof.
  intros a b c d v H. unfold hex4 in H.
  destruct (hex_val a) as [w |] eqn:A; [|discriminate]. destruct (hex_val b) as [x |] eqn:B; [|discriminate].
  destruct (hex_val c) as [y |] eqn:C; [|discriminate]. destruct (hex_val d) as [z |] eqn:D; [|discriminate].
  assert (v = ((w * 16 + x) * 16 + y) * 16 + z)%N as -> by congruence.
  exists a, b, c, d, (N.to_nat w), (N.to_nat x), (N.to_nat y), (N.to_nat z).
  repeat split; try (now apply hexit_of). rewrite !N2Nat.id. lia.
Qed.

Definition escape_back (c : ascii) : bool :=
  match simple_escape c with
  | Some x => existsb (fun kv => Ascii.eqb c (fst kv) && Ascii.eqb x (ascii_of_N (snd kv)))%bool LETTERS
  | None => true
  end.

Lemma escape_letter : forall c x, simple_escape c = Some x -> exists n, In (c, n) LETTERS /\ x = ascii_of_N n.
Proof.
  intros c x H. assert (escape_back c = true) as K by (revert c H; intros c _; revert c; apply all_ascii; vm_compute; reflexivity).
  unfold escape_back in K. rewrite H in K. apply existsb_exists in K as ([k n] & Hi & K).
  apply andb_true_iff in K as [K1 K2]. cbn [fst snd] in *. apply Ascii.eqb_eq in K1, K2. subst k. eauto.
Qed.

Lemma str_body_near : forall n s acc x r, length s <= n -> str_body s acc = POk x r ->
  exists t y, near_chars t y /\ x = rev acc ++ y /\ (s = t ++ QUOTE :: r \/ (s = t /\ r = [])).
Proof.
  induction n as [| n IH]; intros s acc x r L H.
  - destruct s; [|cbn in L; lia]. cbn in H. injection H as <- <-. exists [], []. rewrite app_nil_r.
    repeat split; [constructor|now right].
  - destruct s as [| c s]; [cbn in H; injection H as <- <-; exists [], []; rewrite app_nil_r;
      repeat split; [constructor|now right]|].
    cbn [str_body length] in *. destruct (Ascii.eqb c QUOTE) eqn:Q.
    { apply Ascii.eqb_eq in Q as ->. injection H as <- <-. exists [], []. rewrite app_nil_r.
      repeat split; [constructor|now left]. }
    destruct (Ascii.eqb c BACKSLASH) eqn:B.
    + apply Ascii.eqb_eq in B as ->. destruct s as [| e s]; [discriminate|]. cbn [length] in L.
      destruct (Ascii.eqb e (chr 117)) eqn:U.
      * apply Ascii.eqb_eq in U as ->. destruct s as [| h1 [| h2 [| h3 [| h4 s]]]]; try discriminate.
        cbn [length] in L. destruct (hex4 h1 h2 h3 h4) as [v |] eqn:Hh; [|discriminate].
        apply IH in H; [|lia]. destruct H as (t & y & H1 & H2 & H3).
        pose proof (hex4_quad _ _ _ _ _ Hh) as Hq.
        assert (v < 65536)%N as Lv by (destruct (quad_hex4 _ _ [] Hq) as (? & ? & ? & ? & _ & _ & K); exact K).
        exists (BACKSLASH :: chr 117 :: [h1; h2; h3; h4] ++ t), (utf8_of v ++ y). split; [|split].
        -- now apply (nc_code [h1; h2; h3; h4]).
        -- rewrite H2, rev_app_distr, rev_involutive, utf8_same by exact Lv. now rewrite <- app_assoc.
        -- destruct H3 as [-> | [-> ->]]; [now left|now right].
      * destruct (simple_escape e) as [z |] eqn:Se; [|discriminate].
        apply IH in H; [|lia]. destruct H as (t & y & H1 & H2 & H3).
        destruct (escape_letter e z Se) as (k & Hi & ->).
        exists (BACKSLASH :: e :: t), (ascii_of_N k :: y). split; [|split].
        -- now apply nc_letter.
        -- rewrite H2. cbn [rev]. now rewrite <- app_assoc.
        -- destruct H3 as [-> | [-> ->]]; [now left|now right].
    + apply IH in H; [|lia]. destruct H as (t & y & H1 & H2 & H3).
      exists (c :: t), (c :: y). split; [|split].
      * apply nc_raw; [|  |exact H1]; now apply Ascii.eqb_neq.
      * rewrite H2. cbn [rev]. now rewrite <- app_assoc.
      * destruct H3 as [-> | [-> ->]]; [now left|now right].
Qed.

(** White space *)
Lemma ws_blank : forall w, forallb is_ws w = true -> blank w.
Proof.
  intros w H. apply Forall_forall. intros c Hc. rewrite forallb_forall in H. specialize (H c Hc).
  unfold is_ws in H. rewrite !orb_true_iff, !Ascii.eqb_eq in H. cbn [In].
  destruct H as [[[-> | ->] | ->] | ->]; vm_compute; tauto.
Qed.

Lemma skip_split : forall s, exists w, s = w ++ skip_ws s /\ blank w.
Proof.
  intros s. destruct (drop_while_suffix is_ws s) as (w & E & Hw). exists w. split; [exact E|now apply ws_blank].
Qed.

Lemma match_split : forall c s r, match_char c s = Some r -> exists w, s = w ++ c :: r /\ blank w.
Proof.
  intros c s r H. unfold match_char in H. destruct (skip_split s) as (w & E & Hw).
  destruct (skip_ws s) as [| x t]; [discriminate|]. destruct (Ascii.eqb x c) eqn:X; [|discriminate].
  apply Ascii.eqb_eq in X. injection H as ->. subst x. eauto.
Qed.

Lemma string_near : forall s x r, parse_string s = POk x r ->
  exists w t, blank w /\ near_chars t x /\ (s = w ++ QUOTE :: t ++ QUOTE :: r \/ (s = w ++ QUOTE :: t /\ r = [])).
Proof.
  intros s x r H. unfold parse_string in H. destruct (skip_split s) as (w & E & Hw).
  destruct (skip_ws s) as [| c u]; [discriminate|]. destruct (Ascii.eqb c QUOTE) eqn:Q; [|discriminate].
  apply Ascii.eqb_eq in Q. subst c.
  apply (str_body_near (length u)) in H; [|lia]. destruct H as (t & y & H1 & -> & H2).
  exists w, t. refine (conj Hw (conj H1 _)). rewrite E. destruct H2 as [-> | [-> ->]]; [now left|now right].
Qed.

(** Numbers *)
Lemma digits_maybe : forall t, forallb is_digit t = true -> maybe_digits t.
Proof.
  intros t H. destruct t as [| c t]; [constructor|]. apply digits_decimals; [discriminate|exact H].
Qed.

Lemma maybe_is : forall t, maybe_digits t -> forallb is_digit t = true.
Proof. intros [| c t] H; [reflexivity|]. apply decimals_digits. split; [discriminate|exact H]. Qed.

Lemma sign_near : forall sg s s1, take1 is_sign s = (sg, s1) -> exists neg, near_sign sg neg.
Proof.
  intros sg [| c s] s1 H; cbn in H; [injection H as <- <-; exists false; constructor|].
  destruct (is_sign c) eqn:E; injection H as <- _; [|exists false; constructor].
  unfold is_sign in E. apply orb_true_iff in E as [E | E]; apply Ascii.eqb_eq in E; subst c;
    [exists true|exists false]; constructor.
Qed.

(** First byte of a rest: not a sign, not white space. *)
Definition calm (s : bstr) : Prop :=
  match s with [] => True | c :: _ => is_sign c = false /\ is_space c = false end.

Lemma split_near : forall sg neg r, near_sign sg neg -> calm r ->
  split_sign (drop_while is_space (sg ++ r)) = (neg, r) /\ split_sign (sg ++ r) = (neg, r).
Proof.
  intros sg neg r [| |] C; try (split; reflexivity). cbn [List.app].
  assert (drop_while is_space r = r) as ->.
  { destruct r as [| c r]; [reflexivity|]. cbn in C |- *. now rewrite (proj2 C). }
  assert (split_sign r = (false, r)) as ->; [|easy].
  destruct r as [| c r]; [reflexivity|]. cbn in C. destruct C as [C _]. unfold is_sign in C.
  apply orb_false_iff in C as [C1 C2]. cbn [split_sign]. now rewrite C1, C2.
Qed.

Lemma calm_digit : forall c r, is_digit c = true -> calm (c :: r).
Proof.
  intros c r H. split; [|now apply digit_not_space]. unfold is_sign.
  now rewrite (digit_neq c (chr 45) H eq_refl), (digit_neq c (chr 43) H eq_refl).
Qed.

Lemma calm_e : forall c r, is_e c = true -> calm (c :: r).
Proof.
  intros c r H. unfold is_e in H. apply orb_true_iff in H as [H | H]; apply Ascii.eqb_eq in H; subst c; now split.
Qed.

Lemma exp_near : forall ex x, near_exponent ex x -> calm ex /\ nodigit_head ex /\
  (match ex with [] => True | c :: _ => Ascii.eqb c (chr 46) = false end) /\ scan_exp ex = x.
Proof.
  intros ex x [| c sg neg ds Hc Hd Hs]; [repeat split|].
  assert (c = "e"%char \/ c = "E"%char) as Ec by (cbn in Hc; intuition).
  assert (is_e c = true) as Ie by (destruct Ec as [-> | ->]; reflexivity).
  split; [now apply calm_e|]. split; [destruct Ec as [-> | ->]; reflexivity|].
  split; [destruct Ec as [-> | ->]; reflexivity|].
  cbn [scan_exp]. rewrite Ie. apply maybe_is in Hd.
  assert (calm ds) as Cd by (destruct ds as [| d ds]; [exact I|]; cbn in Hd; apply andb_true_iff in Hd as [Hd _]; now apply calm_digit).
  rewrite (proj2 (split_near sg neg ds Hs Cd)).
  pose proof (span_all is_digit ds [] Hd I) as Sp. rewrite app_nil_r in Sp. rewrite Sp. cbn [fst].
  rewrite (val10_N ds Hd). destruct ds; [destruct neg; reflexivity|reflexivity].
Qed.

Lemma stod_near : forall sg neg ip f fp ex x, near_sign sg neg -> maybe_digits ip -> near_fraction f fp ->
  near_exponent ex x ->
  stod (sg ++ ip ++ f ++ ex) =
  match ip ++ fp with
  | [] => None
  | ds => dec_to_double neg (digits_val ds) (x - Z.of_nat (length fp))
  end.
Proof.
  intros sg neg ip f fp ex x Hs Hi Hf Hex. apply maybe_is in Hi.
  destruct (exp_near ex x Hex) as (E1 & E2 & E3 & E4).
  assert (calm (ip ++ f ++ ex)) as C.
  { destruct ip as [| c ip].
    - destruct Hf; [exact E1|]. split; reflexivity.
    - cbn in Hi. apply andb_true_iff in Hi as [Hi _]. now apply calm_digit. }
  unfold stod. rewrite (proj1 (split_near sg neg _ Hs C)).
  rewrite (span_all is_digit ip (f ++ ex) Hi) by (destruct Hf; [exact E2|reflexivity]).
  destruct Hf as [| fp Hfp].
  - cbn [List.app length]. rewrite app_nil_r. destruct ex as [| c ex].
    + cbn [scan_exp] in E4. subst x. rewrite app_nil_r. reflexivity.
    + rewrite E3, E4. rewrite app_nil_r. reflexivity.
  - apply maybe_is in Hfp. cbn [List.app]. change (Ascii.eqb "." (chr 46)) with true. cbv iota.
    rewrite (span_all is_digit fp ex Hfp) by (destruct ex; [exact I|exact E2]). rewrite E4. reflexivity.
Qed.

Definition numeral_byte (c : ascii) : Prop := In c (bs "+-0123456789.eE").

Lemma bytes_sign : forall sg neg, near_sign sg neg -> Forall numeral_byte sg.
Proof. intros sg neg []; repeat constructor; cbn; tauto. Qed.
Lemma bytes_digits : forall t, maybe_digits t -> Forall numeral_byte t.
Proof.
  intros t H. eapply Forall_impl; [|exact H]. intros c Hc. cbn in Hc |- *.
  repeat (destruct Hc as [<- | Hc]; [tauto|]). contradiction.
Qed.

Lemma scan_near : forall s num fl rest, scan_number s = (num, fl, rest) ->
  s = num ++ rest /\
  exists sg neg ip f fp ex x, num = sg ++ ip ++ f ++ ex /\ near_sign sg neg /\ maybe_digits ip /\
    near_fraction f fp /\ near_exponent ex x /\ (fl = false -> f ++ ex = []) /\ (fl = true -> f ++ ex <> []).
Proof.
  intros s num fl rest H. split; [now apply scan_number_app in H|]. unfold scan_number in H.
  destruct (take1 is_sign s) as [sg s1] eqn:E1. destruct (sign_near _ _ _ E1) as [neg Hs].
  destruct (span is_digit s1) as [ip s2] eqn:E2.
  assert (maybe_digits ip) as Hip.
  { pose proof (span_app is_digit s1) as K. rewrite E2 in K. apply digits_maybe. apply K. }
  destruct (take1 (fun c => Ascii.eqb c (chr 46)) s2) as [dot s3] eqn:E3.
  assert (dot = [] \/ dot = ["."%char]) as Hdot.
  { destruct s2 as [| c s2]; cbn [take1] in E3; [left; congruence|].
    destruct (Ascii.eqb c (chr 46)) eqn:X; [right|left; congruence].
    assert (dot = [c]) as -> by congruence. apply Ascii.eqb_eq in X. now subst. }
  destruct (match dot with [] => ([], s3) | _ => span is_digit s3 end) as [fp s4] eqn:E4.
  assert (near_fraction (dot ++ fp) fp) as Hf.
  { destruct Hdot as [-> | ->].
    - injection E4 as <- _. constructor.
    - cbn [List.app]. constructor. pose proof (span_app is_digit s3) as K. rewrite E4 in K. apply digits_maybe. apply K. }
  destruct (take1 is_e s4) as [ee s5] eqn:E5.
  assert (ee = [] \/ exists c, ee = [c] /\ In c (bs "eE")) as Hee.
  { destruct s4 as [| c s4]; cbn [take1] in E5; [left; congruence|].
    destruct (is_e c) eqn:X; [right|left; congruence].
    exists c. split; [congruence|]. unfold is_e in X. apply orb_true_iff in X as [X | X];
      apply Ascii.eqb_eq in X; subst c; cbn; tauto. }
  destruct (match ee with [] => ([], s5) | _ => take1 is_sign s5 end) as [es s6] eqn:E6.
  destruct (match ee with [] => ([], s6) | _ => span is_digit s6 end) as [ed s7] eqn:E7.
  assert (exists x, near_exponent (ee ++ es ++ ed) x) as [x Hex].
  { destruct Hee as [-> | (c & -> & Hc)].
    - injection E6 as <- <-. injection E7 as <- _. exists 0%Z. constructor.
    - destruct (sign_near _ _ _ E6) as [ng Hes]. cbn [List.app].
      eexists. apply ne_some; [exact Hc| |exact Hes].
      pose proof (span_app is_digit s6) as K. rewrite E7 in K. apply digits_maybe. apply K. }
  exists sg, neg, ip, (dot ++ fp), fp, (ee ++ es ++ ed), x.
  injection H as Hn Hfl _. rewrite <- Hn, <- Hfl. rewrite <- !app_assoc.
  refine (conj eq_refl (conj Hs (conj Hip (conj Hf (conj Hex _))))).
  destruct Hdot as [-> | ->]; [|split; [discriminate|discriminate]].
  injection E4 as <- _. destruct Hee as [-> | (c & -> & _)]; [|split; discriminate].
  injection E6 as <- <-. injection E7 as <- _. split; [reflexivity|discriminate].
Qed.

Lemma number_near : forall s v r, parse_number s = (v, r) ->
  exists w t, s = w ++ t ++ r /\ blank w /\ near t v.
Proof.
  intros s v r H. unfold parse_number in H. destruct (skip_split s) as (w & E & Hw).
  destruct (scan_number (skip_ws s)) as [[num fl] rest] eqn:Sc.
  destruct (scan_near _ _ _ _ Sc) as (E2 & sg & neg & ip & f & fp & ex & x & En & Hs & Hip & Hf & Hex & F0 & F1).
  exists w, num.
  assert (near num JNull) as Un.
  { apply nr_unread. rewrite En. apply Forall_app. split; [now apply bytes_sign with neg|].
    apply Forall_app. split; [now apply bytes_digits|]. apply Forall_app. split.
    - destruct Hf as [| fp Hfp]; constructor; [cbn; tauto|now apply bytes_digits].
    - destruct Hex as [| c sg' ng ds Hc Hd Hg]; [constructor|]. constructor.
      + cbn in Hc |- *. tauto.
      + apply Forall_app. split; [now apply bytes_sign with ng|now apply bytes_digits]. }
  destruct fl; injection H as <- <-.
  - split; [rewrite E, E2; reflexivity|]. split; [exact Hw|].
    destruct (stod num) as [d |] eqn:D; [|exact Un].
    rewrite En in D |- *. rewrite (stod_near sg neg ip f fp ex x Hs Hip Hf Hex) in D.
    destruct (ip ++ fp) as [| d0 ds] eqn:Ds; [discriminate|]. rewrite <- Ds in D.
    assert (forallb is_digit (ip ++ fp) = true) as Dg.
    { apply digits_app; [now apply maybe_is|]. destruct Hf as [| fp Hfp]; [reflexivity|now apply maybe_is]. }
    destruct (frac10 (val10 (ip ++ fp)) (x - Z.of_nat (length fp))) as [num' den'] eqn:Fr.
    apply (nr_real sg neg ip f fp ex x num' den' d); try assumption.
    + now apply F1.
    + rewrite Ds. discriminate.
    + now symmetry.
    + pose proof (dec_spec neg (digits_val (ip ++ fp)) (x - Z.of_nat (length fp)) num' den') as S0.
      rewrite D in S0. apply S0. rewrite <- (val10_N _ Dg). now symmetry.
  - split; [rewrite E, E2; reflexivity|]. split; [exact Hw|].
    specialize (F0 eq_refl). apply app_eq_nil in F0 as [-> ->].
    destruct (stoll num) as [z |] eqn:D; [|exact Un].
    rewrite !app_nil_r in En. subst num. unfold stoll, scan_int in D.
    assert (calm ip) as C.
    { pose proof (maybe_is ip Hip) as Hm. destruct ip as [| c ip]; [exact I|].
      cbn in Hm. apply andb_true_iff in Hm as [Hm _]. now apply calm_digit. }
    rewrite (proj1 (split_near sg neg ip Hs C)) in D.
    pose proof (maybe_is ip Hip) as Hm.
    pose proof (span_all is_digit ip [] Hm I) as Sp. rewrite app_nil_r in Sp. rewrite Sp in D. cbn [fst] in D.
    destruct ip as [| i0 ip]; [discriminate|].
    rewrite <- (val10_N _ Hm) in D. unfold two63 in D.
    set (y := (if neg then - val10 (i0 :: ip) else val10 (i0 :: ip))%Z) in *.
    destruct (_ && _)%bool eqn:R in D; [|discriminate]. injection D as <-.
    apply nr_int; [exact Hs| |].
    + split; [discriminate|exact Hip].
    + fold y. change (2 ^ 63)%Z with 9223372036854775808%Z. lia.
Qed.

Lemma put_all_nodup : forall ms o, NoDup (map fst o) -> NoDup (map fst (put_all ms o)).
Proof.
  induction ms as [| [k v] ms IH]; intros o H; [exact H|]. cbn [put_all fold_left fst snd].
  apply IH. now apply nodup_set.
Qed.

(** A string the end of the input cut short. *)
Definition cut_string (t : bstr) (v : json) (r : bstr) : Prop :=
  r = [] /\ exists t' y, t = bs """" ++ t' /\ near_chars t' y /\ v = JStr y.

Lemma parse_near : forall f,
  (forall s v r, parse_value f s = POk v r ->
     exists w t, s = w ++ t ++ r /\ blank w /\ (near t v \/ cut_string t v r)) /\
  (forall s acc v r, arr_loop f s acc = POk v r ->
     exists t l, s = t ++ RBRACK :: r /\ near_items t l /\ v = JArr (acc ++ l)) /\
  (forall s acc v r, obj_loop f s acc = POk v r ->
     exists t ms, s = t ++ RBRACE :: r /\ near_members t ms /\ v = JObj (put_all ms acc)).
Proof.
  induction f as [| f (IHv & IHa & IHo)]; [repeat split; discriminate|]. split; [|split].
  - intros s v r H. cbn [parse_value] in H. destruct (skip_split s) as (w & E & Hw).
    destruct (skip_ws s) as [| c u] eqn:Sk; [discriminate|].
    destruct (Ascii.eqb c QUOTE) eqn:Q.
    { destruct (parse_string (c :: u)) as [x r' | |] eqn:P; try discriminate.
      injection H as <- <-. apply string_near in P as (w' & t & Hw' & Ht & P).
      exists (w ++ w'). destruct P as [P | [P ->]].
      - exists (bs """" ++ t ++ bs """"). split; [|split; [|left; now apply nr_str]].
        + rewrite E, P. rewrite <- !app_assoc. reflexivity.
        + apply Forall_app. now split.
      - exists (bs """" ++ t). split; [|split; [|right]].
        + rewrite E, P. rewrite <- !app_assoc, app_nil_r. reflexivity.
        + apply Forall_app. now split.
        + split; [reflexivity|]. exists t, x. now repeat split. }
    destruct (Ascii.eqb c LBRACE) eqn:B.
    { apply Ascii.eqb_eq in B. subst c. destruct (match_char RBRACE u) as [r' |] eqn:M.
      - injection H as <- <-. apply match_split in M as (w' & -> & Hw').
        exists w, (bs "{" ++ w' ++ bs "}"). split; [|split; [exact Hw|left; now apply nr_obj0]].
        rewrite E. rewrite <- !app_assoc. reflexivity.
      - apply IHo in H as (t & ms & -> & Ht & ->). exists w, (bs "{" ++ t ++ bs "}").
        split; [rewrite E, <- !app_assoc; reflexivity|]. split; [exact Hw|left].
        apply (nr_obj t ms); [exact Ht|apply put_all_nodup; constructor|apply put_all_last]. }
    destruct (Ascii.eqb c LBRACK) eqn:K.
    { apply Ascii.eqb_eq in K. subst c. destruct (match_char RBRACK u) as [r' |] eqn:M.
      - injection H as <- <-. apply match_split in M as (w' & -> & Hw').
        exists w, (bs "[" ++ w' ++ bs "]"). split; [|split; [exact Hw|left; now apply nr_arr0]].
        rewrite E. rewrite <- !app_assoc. reflexivity.
      - apply IHa in H as (t & l & -> & Ht & ->). exists w, (bs "[" ++ t ++ bs "]").
        split; [rewrite E, <- !app_assoc; reflexivity|]. split; [exact Hw|left]. now apply nr_arr. }
    destruct (starts_with (bs "true") (c :: u)) eqn:T1.
    { apply starts_with_iff in T1 as [r' T1]. rewrite T1 in H. injection H as <- <-.
      exists w, (bs "true"). rewrite E, T1. split; [reflexivity|]. split; [exact Hw|left; constructor]. }
    destruct (starts_with (bs "false") (c :: u)) eqn:T2.
    { apply starts_with_iff in T2 as [r' T2]. rewrite T2 in H. injection H as <- <-.
      exists w, (bs "false"). rewrite E, T2. split; [reflexivity|]. split; [exact Hw|left; constructor]. }
    destruct (starts_with (bs "null") (c :: u)) eqn:T3.
    { apply starts_with_iff in T3 as [r' T3]. rewrite T3 in H. injection H as <- <-.
      exists w, (bs "null"). rewrite E, T3. split; [reflexivity|]. split; [exact Hw|left; constructor]. }
    unfold number_or in H. destruct (parse_number (c :: u)) as [v' r'] eqn:P. injection H as <- <-.
    apply number_near in P as (w' & t & P & Hw' & Ht). exists (w ++ w'), t.
    rewrite E, P, <- app_assoc. split; [reflexivity|]. split; [apply Forall_app; now split|now left].
  - intros s acc v r H. cbn [arr_loop] in H.
    destruct (parse_value f s) as [x u | |] eqn:P; try discriminate.
    apply IHv in P as (w & t & -> & Hw & Ht).
    destruct (match_char RBRACK u) as [r' |] eqn:M.
    + injection H as <- <-. apply match_split in M as (w' & -> & Hw').
      destruct Ht as [Ht | [Z _]]; [|now destruct w'].
      exists (w ++ t ++ w'), [x]. split; [now rewrite <- !app_assoc|]. split; [now apply ni_one|reflexivity].
    + destruct (match_char COMMA u) as [r' |] eqn:M2; [|discriminate].
      apply match_split in M2 as (w' & -> & Hw'). destruct Ht as [Ht | [Z _]]; [|now destruct w'].
      apply IHa in H as (t' & l & -> & Hl & ->).
      exists (w ++ t ++ w' ++ bs "," ++ t'), (x :: l). split; [now rewrite <- !app_assoc|].
      split; [now apply ni_more|]. now rewrite <- app_assoc.
  - intros s acc v r H. cbn [obj_loop] in H.
    destruct (parse_string s) as [k u0 | |] eqn:Ps; try discriminate.
    apply string_near in Ps as (w1 & kt & Hw1 & Hk & Ps).
    destruct (match_char COLON u0) as [u1 |] eqn:Mc; [|discriminate].
    apply match_split in Mc as (w2 & -> & Hw2). destruct Ps as [-> | [_ Z]]; [|now destruct w2].
    destruct (parse_value f u1) as [x u | |] eqn:P; try discriminate.
    apply IHv in P as (w3 & t & -> & Hw3 & Ht).
    destruct (match_char RBRACE u) as [r' |] eqn:M.
    + injection H as <- <-. apply match_split in M as (w4 & -> & Hw4).
      destruct Ht as [Ht | [Z _]]; [|now destruct w4].
      exists (w1 ++ bs """" ++ kt ++ bs """" ++ w2 ++ bs ":" ++ w3 ++ t ++ w4), [(k, x)].
      split; [rewrite <- !app_assoc; reflexivity|]. split; [now apply nm_one|reflexivity].
    + destruct (match_char COMMA u) as [r' |] eqn:M2; [|discriminate].
      apply match_split in M2 as (w4 & -> & Hw4). destruct Ht as [Ht | [Z _]]; [|now destruct w4].
      apply IHo in H as (t' & ms & -> & Hms & ->).
      exists (w1 ++ bs """" ++ kt ++ bs """" ++ w2 ++ bs ":" ++ w3 ++ t ++ w4 ++ bs "," ++ t'), ((k, x) :: ms).
      split; [rewrite <- !app_assoc; reflexivity|]. split; [now apply nm_more|reflexivity].
Qed.

Lemma json_near : forall s v r, parse_json s = POk v r ->
  exists w t, s = w ++ t ++ r /\ blank w /\
    (near t v \/ (r = [] /\ exists t' y, t = bs """" ++ t' /\ near_chars t' y /\ v = JStr y)).
Proof. intros s v r H. exact (proj1 (parse_near _) s v r H). Qed.

(** Conversely such strings are read. *)
Lemma near_chars_read : forall t s, near_chars t s -> forall r acc,
  str_body (t ++ QUOTE :: r) acc = POk (rev acc ++ s) r.
Proof.
  induction 1 as [| c t s H2 H3 _ IH | c n t s Hc _ IH | q v t s Hq _ IH]; intros r acc.
  - cbn. now rewrite app_nil_r.
  - cbn [List.app str_body].
    assert (Ascii.eqb c QUOTE = false) as -> by (apply Ascii.eqb_neq; exact H2).
    assert (Ascii.eqb c BACKSLASH = false) as -> by (apply Ascii.eqb_neq; exact H3).
    rewrite IH. cbn [rev]. now rewrite <- app_assoc.
  - cbn [List.app].
    assert (str_body ("\"%char :: c :: t ++ QUOTE :: r) acc = str_body (t ++ QUOTE :: r) (ascii_of_N n :: acc)) as ->.
    { cbn [In LETTERS] in Hc. repeat (destruct Hc as [Hc | Hc]; [injection Hc as <- <-; reflexivity|]). contradiction. }
    rewrite IH. cbn [rev]. now rewrite <- app_assoc.
  - cbn [List.app]. rewrite <- app_assoc.
    destruct (quad_hex4 q v (t ++ QUOTE :: r) Hq) as (a & b & c & d & -> & Hh & Hl).
    cbn [str_body]. change (Ascii.eqb "\"%char QUOTE) with false. change (Ascii.eqb "\"%char BACKSLASH) with true.
    change (Ascii.eqb "u"%char (chr 117)) with true. cbv iota. rewrite Hh, utf8_same by exact Hl.
    rewrite IH. rewrite rev_app_distr, rev_involutive. now rewrite <- app_assoc.
Qed.

Lemma pair_misread : forall t v rest, surrogates t v -> exists s,
  parse_json (bs """" ++ t ++ bs """" ++ rest) = POk (JStr s) rest /\ length s = 6 /\
  length (utf8_of v) = 4.
Proof.
  intros t v rest (p & q & hi & lo & -> & Hp & Hq & Rh & Rl & ->).
  exists (utf8_of hi ++ utf8_of lo ++ []).
  assert (near_chars ("\"%char :: "u"%char :: p ++ "\"%char :: "u"%char :: q) (utf8_of hi ++ utf8_of lo ++ [])) as N.
  { apply nc_code; [exact Hp|]. rewrite <- (app_nil_r q). apply nc_code; [exact Hq|constructor]. }
  split; [|split].
  - unfold parse_json. rewrite Nat.add_1_r. cbn [parse_value].
    change (bs """") with [QUOTE]. cbn [List.app]. rewrite skip_ws_head by reflexivity.
    change (Ascii.eqb QUOTE QUOTE) with true. cbv iota. unfold parse_string. rewrite skip_ws_head by reflexivity.
    change (Ascii.eqb QUOTE QUOTE) with true. cbv iota.
    pose proof (near_chars_read _ _ N rest []) as R. cbn [List.app rev] in R. now rewrite R.
  - rewrite app_nil_r, app_length. unfold utf8_of.
    replace (hi <? 128)%N with false by (symmetry; apply N.ltb_ge; lia).
    replace (hi <? 2048)%N with false by (symmetry; apply N.ltb_ge; lia).
    replace (hi <? 65536)%N with true by (symmetry; apply N.ltb_lt; lia).
    replace (lo <? 128)%N with false by (symmetry; apply N.ltb_ge; lia).
    replace (lo <? 2048)%N with false by (symmetry; apply N.ltb_ge; lia).
    replace (lo <? 65536)%N with true by (symmetry; apply N.ltb_lt; lia). reflexivity.
  - unfold utf8_of. set (v := (65536 + 1024 * (hi - 55296) + (lo - 56320))%N).
    assert (65536 <= v)%N by (unfold v; lia).
    replace (v <? 128)%N with false by (symmetry; apply N.ltb_ge; lia).
    replace (v <? 2048)%N with false by (symmetry; apply N.ltb_ge; lia).
    replace (v <? 65536)%N with false by (symmetry; apply N.ltb_ge; lia). reflexivity.
Qed.
