From Coq Require Import Ascii String List Arith NArith ZArith Bool Lia ZifyBool ZifyNat ZifyN.
From Verif Require Import StrModel StrProofs DoubleModel JsonModel JsonSpec DoubleProofs.
Import ListNotations.
Local Open Scope nat_scope.

(** Induction over nested values. *)
Lemma json_ind' : forall (P : json -> Prop),
  P JNull -> (forall b, P (JBool b)) -> (forall z, P (JInt z)) -> (forall d, P (JDbl d)) ->
  (forall s, P (JStr s)) -> (forall l, Forall P l -> P (JArr l)) ->
  (forall l, Forall P (map snd l) -> P (JObj l)) -> forall v, P v.
Proof.
  intros P Hn Hb Hi Hd Hs Ha Ho. fix IH 1. intros v.
  destruct v as [|b|z|d|s|l|l]; [exact Hn|apply Hb|apply Hi|apply Hd|apply Hs| |].
  - apply Ha. induction l as [|x l IHl]; constructor; [apply IH|exact IHl].
  - apply Ho. induction l as [|[k x] l IHl]; constructor; [apply IH|exact IHl].
Qed.

Ltac len := repeat (progress (rewrite ?app_length in *; cbn [length] in *)); try lia.

(** Strings *)
Lemma all_ascii : forall (P : ascii -> bool),
  forallb P (map chr (map N.of_nat (seq 0 256))) = true -> forall c, P c = true.
Proof.
  intros P H c. rewrite forallb_forall in H. apply H.
  rewrite <- (chr_code c). apply in_map. apply in_map_iff.
  exists (N.to_nat (code c)). split; [lia|]. apply in_seq. pose proof (code_bound c). lia.
Qed.

(** What str_body does with an escaped byte. *)
Definition esc_step_ok (c : ascii) : bool :=
  match esc_char c with
  | [x] => (Ascii.eqb x c && negb (Ascii.eqb x QUOTE) && negb (Ascii.eqb x BACKSLASH))%bool
  | [b; e] => (Ascii.eqb b BACKSLASH && negb (Ascii.eqb e (chr 117)) &&
               match simple_escape e with Some y => Ascii.eqb y c | None => false end)%bool
  | [b; u; h1; h2; h3; h4] =>
      (Ascii.eqb b BACKSLASH && Ascii.eqb u (chr 117) &&
       match hex4 h1 h2 h3 h4 with
       | Some cp => beq (utf8 cp) [c]
       | None => false
       end)%bool
  | _ => false
  end.

Lemma esc_step : forall c, esc_step_ok c = true.
Proof. apply all_ascii. vm_compute. reflexivity. Qed.

Lemma str_body_esc_char : forall c r acc, str_body (esc_char c ++ r) acc = str_body r (c :: acc).
Proof.
  intros c r acc. pose proof (esc_step c) as H. unfold esc_step_ok in H.
  destruct (esc_char c) as [|x1 [|x2 [|x3 [|x4 [|x5 [|x6 [|x7 l]]]]]]]; try discriminate.
  - apply andb_true_iff in H as [H H3]. apply andb_true_iff in H as [H1 H2].
    apply eqb_eq in H1 as ->. apply negb_true_iff in H2, H3. cbn [app str_body]. now rewrite H2, H3.
  - apply andb_true_iff in H as [H H3]. apply andb_true_iff in H as [H1 H2].
    apply eqb_eq in H1 as ->. apply negb_true_iff in H2.
    destruct (simple_escape x2) as [y|] eqn:E; [|discriminate]. apply eqb_eq in H3 as ->.
    cbn [app str_body]. change (Ascii.eqb BACKSLASH QUOTE) with false. rewrite eqb_refl, H2, E. easy.
  - apply andb_true_iff in H as [H H3]. apply andb_true_iff in H as [H1 H2].
    apply eqb_eq in H1 as ->. apply eqb_eq in H2 as ->.
    destruct (hex4 x3 x4 x5 x6) as [cp|] eqn:E; [|discriminate]. apply beq_eq in H3.
    cbn [app str_body]. change (Ascii.eqb BACKSLASH QUOTE) with false. rewrite !eqb_refl, E, H3. easy.
Qed.

Lemma str_body_esc : forall s r acc,
  str_body (esc s ++ QUOTE :: r) acc = POk (rev acc ++ s) r.
Proof.
  induction s as [|c s IH]; intros r acc.
  - cbn [esc flat_map app str_body]. rewrite eqb_refl. now rewrite app_nil_r.
  - cbn [esc flat_map]. rewrite <- app_assoc, str_body_esc_char. fold (esc s).
    rewrite IH. cbn [rev]. now rewrite <- app_assoc.
Qed.

Lemma parse_string_ser : forall s r, parse_string (ser_str s ++ r) = POk s r.
Proof.
  intros s r. unfold parse_string, ser_str, skip_ws. cbn [app drop_while].
  change (is_ws QUOTE) with false. cbn iota. rewrite eqb_refl.
  rewrite <- app_assoc. cbn [app]. now rewrite str_body_esc.
Qed.

Lemma plain_iff : forall s, plain s <-> (~ In QUOTE s /\ ~ In BACKSLASH s).
Proof. easy. Qed.

Lemma str_body_plain : forall k r acc, plain k -> str_body (k ++ QUOTE :: r) acc = POk (rev acc ++ k) r.
Proof.
  induction k as [|c k IH]; intros r acc [H1 H2].
  - cbn [app str_body]. rewrite eqb_refl. now rewrite app_nil_r.
  - cbn [app str_body].
    change (""""%char) with QUOTE in *. change ("\"%char) with BACKSLASH in *.
    destruct (Ascii.eqb c QUOTE) eqn:E1; [apply eqb_eq in E1; subst; cbn in H1; tauto|].
    destruct (Ascii.eqb c BACKSLASH) eqn:E2; [apply eqb_eq in E2; subst; cbn in H2; tauto|].
    rewrite IH. { cbn [rev]. now rewrite <- app_assoc. }
    split; cbn in *; tauto.
Qed.

Lemma parse_string_plain : forall k r, plain k -> parse_string (QUOTE :: k ++ QUOTE :: r) = POk k r.
Proof.
  intros k r H. unfold parse_string, skip_ws. cbn [drop_while].
  change (is_ws QUOTE) with false. cbn iota. rewrite eqb_refl. now rewrite str_body_plain.
Qed.

(** Parsers consume. *)
Lemma str_body_len : forall n s acc x r, length s <= n -> str_body s acc = POk x r -> length r <= length s.
Proof.
  induction n as [|n IH]; intros s acc x r Hn H.
  - destruct s; [|cbn in Hn; lia]. cbn in H. injection H as <- <-. easy.
  - destruct s as [|c s]; [cbn in H; injection H as <- <-; easy|].
    cbn [str_body] in H. cbn [length] in *.
    destruct (Ascii.eqb c QUOTE). { injection H as <- <-. lia. }
    destruct (Ascii.eqb c BACKSLASH).
    + destruct s as [|e s]; [discriminate|]. cbn [length] in *.
      destruct (Ascii.eqb e (chr 117)).
      * destruct s as [|h1 [|h2 [|h3 [|h4 s]]]]; try discriminate. cbn [length] in *.
        destruct (hex4 h1 h2 h3 h4); [|discriminate]. apply IH in H; lia.
      * destruct (simple_escape e); [|discriminate]. apply IH in H; lia.
    + apply IH in H; lia.
Qed.

Lemma str_body_not_fuel : forall n s acc, length s <= n -> str_body s acc <> PFuel.
Proof.
  induction n as [|n IH]; intros s acc Hn H.
  - destruct s; [|cbn in Hn; lia]. cbn in H. discriminate.
  - destruct s as [|c s]; [discriminate|].
    cbn [str_body] in H. cbn [length] in *.
    destruct (Ascii.eqb c QUOTE); [discriminate|].
    destruct (Ascii.eqb c BACKSLASH).
    + destruct s as [|e s]; [discriminate|]. cbn [length] in *.
      destruct (Ascii.eqb e (chr 117)).
      * destruct s as [|h1 [|h2 [|h3 [|h4 s]]]]; try discriminate. cbn [length] in *.
        destruct (hex4 h1 h2 h3 h4); [|discriminate]. apply IH in H; [easy|lia].
      * destruct (simple_escape e); [|discriminate]. apply IH in H; [easy|lia].
    + apply IH in H; [easy|lia].
Qed.

Lemma parse_string_len : forall s x r, parse_string s = POk x r -> length r < length s.
Proof.
  intros s x r H. unfold parse_string in H.
  pose proof (drop_while_length is_ws s) as K. unfold skip_ws in H.
  destruct (drop_while is_ws s) as [|c s1]; [discriminate|].
  destruct (Ascii.eqb c QUOTE); [|discriminate].
  apply (str_body_len (length s1)) in H; [|lia]. cbn in K. lia.
Qed.

Lemma parse_string_not_fuel : forall s, parse_string s <> PFuel.
Proof.
  intros s H. unfold parse_string in H. destruct (skip_ws s) as [|c s1]; [discriminate|].
  destruct (Ascii.eqb c QUOTE); [|discriminate].
  now apply (str_body_not_fuel (length s1)) in H.
Qed.

Lemma match_char_len : forall c s r, match_char c s = Some r -> length r < length s.
Proof.
  intros c s r H. unfold match_char, skip_ws in H.
  pose proof (drop_while_length is_ws s) as K.
  destruct (drop_while is_ws s) as [|x s1]; [discriminate|].
  destruct (Ascii.eqb x c); [|discriminate]. injection H as <-. cbn in K. lia.
Qed.

Lemma skipn_len : forall n (s : bstr), length (skipn n s) <= length s.
Proof. intros. rewrite skipn_length. lia. Qed.

Lemma take1_app : forall p s a b, take1 p s = (a, b) -> s = a ++ b.
Proof.
  intros p [|c s] a b H; cbn in H; [now injection H as <- <-|].
  destruct (p c); now injection H as <- <-.
Qed.

Lemma span_app' : forall p s a b, span p s = (a, b) -> s = a ++ b.
Proof. intros p s a b H. pose proof (span_app p s) as K. rewrite H in K. tauto. Qed.

Lemma scan_number_app : forall s num fl rest, scan_number s = (num, fl, rest) -> s = num ++ rest.
Proof.
  intros s num fl rest H. unfold scan_number in H.
  destruct (take1 is_sign s) as [sg s1] eqn:E1. apply take1_app in E1 as ->.
  destruct (span is_digit s1) as [ip s2] eqn:E2. apply span_app' in E2 as ->.
  destruct (take1 _ s2) as [dot s3] eqn:E3. apply take1_app in E3 as ->.
  destruct (match dot with [] => ([], s3) | _ => span is_digit s3 end) as [fp s4] eqn:E4.
  assert (s3 = fp ++ s4) as ->.
  { destruct dot; [now injection E4 as <- <-|now apply span_app' in E4]. }
  destruct (take1 is_e s4) as [ee s5] eqn:E5. apply take1_app in E5 as ->.
  destruct (match ee with [] => ([], s5) | _ => take1 is_sign s5 end) as [es s6] eqn:E6.
  assert (s5 = es ++ s6) as ->.
  { destruct ee; [now injection E6 as <- <-|now apply take1_app in E6]. }
  destruct (match ee with [] => ([], s6) | _ => span is_digit s6 end) as [ed s7] eqn:E7.
  assert (s6 = ed ++ s7) as ->.
  { destruct ee; [now injection E7 as <- <-|now apply span_app' in E7]. }
  injection H as <- _ <-. rewrite <- !app_assoc. reflexivity.
Qed.

Lemma parse_number_len : forall s v r, parse_number s = (v, r) -> length r <= length s.
Proof.
  intros s v r H. unfold parse_number in H.
  destruct (scan_number (skip_ws s)) as [[num fl] rest] eqn:E.
  apply scan_number_app in E. pose proof (drop_while_length is_ws s) as K. fold (skip_ws s) in K.
  rewrite E, app_length in K.
  destruct fl; injection H as _ <-; lia.
Qed.

(** Totality: the fuel given is enough, on every input. *)
Lemma parse_fuel : forall n,
  (forall s, length s <= n -> forall f, 2 * length s + 1 <= f ->
     parse_value f s <> PFuel /\ (forall v r, parse_value f s = POk v r -> length r <= length s)) /\
  (forall s, length s <= n -> forall f acc, 2 * length s + 2 <= f ->
     arr_loop f s acc <> PFuel /\ (forall v r, arr_loop f s acc = POk v r -> length r < length s)) /\
  (forall s, length s <= n -> forall f acc, 2 * length s + 2 <= f ->
     obj_loop f s acc <> PFuel /\ (forall v r, obj_loop f s acc = POk v r -> length r < length s)).
Proof.
  induction n as [n IHn] using lt_wf_ind.
  assert (HV : forall s, length s <= n -> forall f, 2 * length s + 1 <= f ->
     parse_value f s <> PFuel /\ (forall v r, parse_value f s = POk v r -> length r <= length s)).
  { intros s Hs f Hf. destruct f as [|f]; [lia|]. cbn [parse_value].
    pose proof (drop_while_length is_ws s) as Hd. fold (skip_ws s) in Hd.
    destruct (skip_ws s) as [|c r0] eqn:Es; [easy|]. cbn [length] in Hd.
    destruct (Ascii.eqb c QUOTE).
    { destruct (parse_string (c :: r0)) as [x r'| |] eqn:E.
      - split; [easy|]. intros v r [= <- <-]. apply parse_string_len in E. cbn in E. lia.
      - easy.
      - now apply parse_string_not_fuel in E. }
    destruct (Ascii.eqb c LBRACE).
    { destruct (match_char RBRACE r0) as [r'|] eqn:E.
      - split; [easy|]. intros v r [= <- <-]. apply match_char_len in E. lia.
      - destruct (IHn (length r0)) as (_ & _ & HO); [lia|].
        destruct (HO r0 ltac:(lia) f [] ltac:(lia)) as [H1 H2]. split; [easy|].
        intros v r H. apply H2 in H. lia. }
    destruct (Ascii.eqb c LBRACK).
    { destruct (match_char RBRACK r0) as [r'|] eqn:E.
      - split; [easy|]. intros v r [= <- <-]. apply match_char_len in E. lia.
      - destruct (IHn (length r0)) as (_ & HA & _); [lia|].
        destruct (HA r0 ltac:(lia) f [] ltac:(lia)) as [H1 H2]. split; [easy|].
        intros v r H. apply H2 in H. lia. }
    destruct (starts_with (bs "true") (c :: r0)).
    { split; [easy|]. intros v r [= <- <-]. exact (Nat.le_trans _ _ _ (skipn_len 4 (c :: r0)) Hd). }
    destruct (starts_with (bs "false") (c :: r0)).
    { split; [easy|]. intros v r [= <- <-]. exact (Nat.le_trans _ _ _ (skipn_len 5 (c :: r0)) Hd). }
    destruct (starts_with (bs "null") (c :: r0)).
    { split; [easy|]. intros v r [= <- <-]. exact (Nat.le_trans _ _ _ (skipn_len 4 (c :: r0)) Hd). }
    unfold number_or. destruct (parse_number (c :: r0)) as [v0 r1] eqn:E.
    split; [easy|]. intros v r [= <- <-]. apply parse_number_len in E. cbn in E. lia. }
  split; [exact HV|]. split.
  - intros s Hs f acc Hf. destruct f as [|f]; [lia|]. cbn [arr_loop].
    destruct (HV s Hs f ltac:(lia)) as [H1 H2].
    destruct (parse_value f s) as [v r| |] eqn:E; [|easy|easy].
    specialize (H2 _ _ eq_refl).
    destruct (match_char RBRACK r) as [r'|] eqn:E2.
    { split; [easy|]. intros v' r2 [= <- <-]. apply match_char_len in E2. lia. }
    destruct (match_char COMMA r) as [r'|] eqn:E3; [|easy].
    apply match_char_len in E3.
    destruct (IHn (length r')) as (_ & HA & _); [lia|].
    destruct (HA r' ltac:(lia) f (acc ++ [v]) ltac:(lia)) as [H3 H4]. split; [easy|].
    intros v' r2 H. apply H4 in H. lia.
  - intros s Hs f acc Hf. destruct f as [|f]; [lia|]. cbn [obj_loop].
    destruct (parse_string s) as [key r0| |] eqn:E0.
    2:{ easy. }
    2:{ now apply parse_string_not_fuel in E0. }
    apply parse_string_len in E0.
    destruct (match_char COLON r0) as [r1|] eqn:E1; [|easy]. apply match_char_len in E1.
    destruct (HV r1 ltac:(lia) f ltac:(lia)) as [H1 H2].
    destruct (parse_value f r1) as [v r| |] eqn:E; [|easy|easy].
    specialize (H2 _ _ eq_refl).
    destruct (match_char RBRACE r) as [r'|] eqn:E2.
    { split; [easy|]. intros v' r2 [= <- <-]. apply match_char_len in E2. lia. }
    destruct (match_char COMMA r) as [r'|] eqn:E3; [|easy].
    apply match_char_len in E3.
    destruct (IHn (length r')) as (_ & _ & HO); [lia|].
    destruct (HO r' ltac:(lia) f (obj_set key v acc) ltac:(lia)) as [H3 H4]. split; [easy|].
    intros v' r2 H. apply H4 in H. lia.
Qed.

Lemma parse_json_total : forall s,
  (exists v r, parse_json s = POk v r /\ length r <= length s) \/ parse_json s = PThrow.
Proof.
  intros s. unfold parse_json.
  destruct (parse_fuel (length s)) as (H & _ & _).
  destruct (H s (le_n _) (2 * length s + 1) (le_n _)) as [H1 H2].
  destruct (parse_value (2 * length s + 1) s) as [v r| |]; [left|now right|easy].
  exists v, r. split; [reflexivity|]. now apply (H2 v r).
Qed.

(** Numbers *)
Lemma value_end_nodigit : forall r, value_end r -> nodigit_head r.
Proof. intros [|c r] H; [easy|]. cbn in *. tauto. Qed.

Lemma is_e_false : forall c, c <> "e"%char -> c <> "E"%char -> is_e c = false.
Proof.
  intros c H1 H2. unfold is_e. apply orb_false_iff. split; apply eqb_neq; assumption.
Qed.

Lemma scan_number_int : forall z r, value_end r ->
  scan_number (print_Z z ++ r) = (print_Z z, false, r).
Proof.
  intros z r Hr.
  assert (forall n, span is_digit (print_N n ++ r) = (print_N n, r)) as Hspan.
  { intro n. destruct (print_N_spec n) as (_ & H & _). apply span_all; [easy|].
    now apply value_end_nodigit in Hr. }
  assert (take1 (fun c => Ascii.eqb c (chr 46)) r = ([], r)) as Hdot.
  { destruct r as [|c r]; [easy|]. cbn in Hr. cbn [take1].
    destruct (Ascii.eqb c (chr 46)) eqn:E; [|easy]. apply eqb_eq in E. tauto. }
  assert (take1 is_e r = ([], r)) as He.
  { destruct r as [|c r]; [easy|]. cbn in Hr. cbn [take1]. now rewrite is_e_false. }
  unfold print_Z. destruct (Z.ltb z 0).
  - unfold scan_number. cbn [app take1].
    change (is_sign (chr 45)) with true. cbn iota.
    rewrite Hspan, Hdot, He. rewrite !app_nil_r. reflexivity.
  - unfold scan_number.
    destruct (print_N_head (Z.to_N z)) as (d & ds & E & Hd).
    assert (take1 is_sign (print_N (Z.to_N z) ++ r) = ([], print_N (Z.to_N z) ++ r)) as ->.
    { rewrite E. cbn [app take1]. unfold is_sign.
      now rewrite (digit_neq d (chr 45) Hd eq_refl), (digit_neq d (chr 43) Hd eq_refl). }
    rewrite Hspan, Hdot, He. rewrite !app_nil_r. reflexivity.
Qed.

Lemma scan_number_dbl : forall d r, exact_double d -> value_end r ->
  scan_number (print_double d ++ r) = (print_double d, true, r).
Proof.
  intros d r Hx Hr. destruct (print_double_shape d Hx) as (ip & fp & E & H1 & H2 & H3 & H4 & _).
  rewrite E. unfold scan_number.
  destruct ip as [|i0 ip]; [easy|].
  assert (is_digit i0 = true) as Hi by (cbn in H2; now apply andb_true_iff in H2).
  assert (take1 is_sign ((sign_text (dbl_sign d) ++ (i0 :: ip) ++ [chr 46] ++ fp) ++ r)
          = (sign_text (dbl_sign d), (i0 :: ip) ++ [chr 46] ++ fp ++ r)) as ->.
  { rewrite <- !app_assoc. destruct (dbl_sign d); cbn [sign_text app take1]; [reflexivity|].
    unfold is_sign.
    now rewrite (digit_neq i0 (chr 45) Hi eq_refl), (digit_neq i0 (chr 43) Hi eq_refl). }
  rewrite span_all by easy. cbn [app take1]. rewrite eqb_refl.
  rewrite span_all; [|easy|now apply value_end_nodigit in Hr].
  assert (take1 is_e r = ([], r)) as ->.
  { destruct r as [|c r]; [easy|]. cbn in Hr. cbn [take1]. now rewrite is_e_false. }
  rewrite !app_nil_r. reflexivity.
Qed.

Definition num_head (c : ascii) : Prop := c = chr 45 \/ is_digit c = true.

Lemma num_head_props : forall c, num_head c ->
  is_ws c = false /\ Ascii.eqb c QUOTE = false /\ Ascii.eqb c LBRACE = false /\
  Ascii.eqb c LBRACK = false /\ Ascii.eqb (chr 116) c = false /\ Ascii.eqb (chr 102) c = false /\
  Ascii.eqb (chr 110) c = false.
Proof.
  intros c [->|H]; [repeat split|].
  assert (forall d, is_digit d = false -> Ascii.eqb c d = false) as K by (intros; now apply digit_neq).
  assert (forall d, is_digit d = false -> Ascii.eqb d c = false) as K'.
  { intros d Hd. rewrite Ascii.eqb_sym. now apply digit_neq. }
  repeat split; try (apply K; reflexivity); try (apply K'; reflexivity).
  unfold is_ws. now rewrite !K.
Qed.

Lemma parse_value_number : forall f c s, num_head c ->
  parse_value (S f) (c :: s) = number_or (c :: s).
Proof.
  intros f c s Hc. apply num_head_props in Hc as (H1 & H2 & H3 & H4 & H5 & H6 & H7).
  cbn [parse_value skip_ws drop_while]. unfold skip_ws. cbn [drop_while]. rewrite H1. rewrite H2, H3, H4.
  assert (starts_with (bs "true") (c :: s) = false) as ->.
  { change (starts_with (bs "true") (c :: s)) with (Ascii.eqb (chr 116) c && starts_with (bs "rue") s)%bool.
    now rewrite H5. }
  assert (starts_with (bs "false") (c :: s) = false) as ->.
  { change (starts_with (bs "false") (c :: s)) with (Ascii.eqb (chr 102) c && starts_with (bs "alse") s)%bool.
    now rewrite H6. }
  assert (starts_with (bs "null") (c :: s) = false) as ->.
  { change (starts_with (bs "null") (c :: s)) with (Ascii.eqb (chr 110) c && starts_with (bs "ull") s)%bool.
    now rewrite H7. }
  reflexivity.
Qed.

Lemma skip_ws_head : forall c s, is_ws c = false -> skip_ws (c :: s) = c :: s.
Proof. intros c s H. unfold skip_ws. cbn. now rewrite H. Qed.

Lemma match_char_head : forall c s, is_ws c = false -> match_char c (c :: s) = Some s.
Proof. intros c s H. unfold match_char. rewrite skip_ws_head by easy. now rewrite eqb_refl. Qed.

Lemma match_char_other : forall c d s, is_ws d = false -> Ascii.eqb d c = false -> match_char c (d :: s) = None.
Proof. intros c d s H1 H2. unfold match_char. rewrite skip_ws_head by easy. now rewrite H2. Qed.

(** First byte of a serialized value. *)
Lemma ser_head : forall v, ok v -> exists c s, ser v = c :: s /\ is_ws c = false /\
  Ascii.eqb c RBRACK = false /\ Ascii.eqb c RBRACE = false.
Proof.
  assert (forall c s, num_head c -> exists c' s', c :: s = c' :: s' /\ is_ws c' = false /\
     Ascii.eqb c' RBRACK = false /\ Ascii.eqb c' RBRACE = false) as Hnum.
  { intros c s Hc. exists c, s. split; [easy|]. destruct Hc as [->|Hc]; [repeat split|].
    assert (num_head c) as K by now right. apply num_head_props in K. split; [tauto|].
    split; apply digit_neq; easy. }
  intros v Hv. destruct Hv as [|[|]|z Hz|d Hd|s|l Hl|l H1 H2 H3]; cbn [ser];
    try (eexists _, _; repeat split; reflexivity).
  - destruct (print_Z_head z) as (c & s & -> & Hc). now apply Hnum.
  - destruct (print_double_shape d Hd) as (ip & fp & E & G1 & G2 & _). rewrite E.
    destruct ip as [|i ip]; [easy|].
    destruct (dbl_sign d); cbn [sign_text app].
    + apply Hnum. now left.
    + apply Hnum. right. cbn in G2. now apply andb_true_iff in G2.
Qed.

Lemma obj_set_new : forall k v o, ~ In k (map fst o) -> obj_set k v o = o ++ [(k, v)].
Proof.
  intros k v o. induction o as [|[k' v'] o IH]; intros H; [easy|]. cbn.
  destruct (beq k k') eqn:E; [apply beq_eq in E; subst; cbn in H; tauto|].
  rewrite IH; [easy|]. cbn in H; tauto.
Qed.

Lemma value_end_delim : forall c r, In c [COMMA; RBRACK; RBRACE] -> value_end (c :: r).
Proof. intros c r [<-|[<-|[<-|[]]]]; repeat split; discriminate. Qed.

(** Main round trip. *)
Lemma parse_ser : forall v, ok v -> forall f rest, value_end rest ->
  2 * length (ser v ++ rest) + 1 <= f -> parse_value f (ser v ++ rest) = POk v rest.
Proof.
  induction v as [| b | z | d | s | l IH | l IH] using json_ind'; intros Hok f rest Hend Hf;
    (destruct f as [|f]; [lia|]).
  - reflexivity.
  - destruct b; reflexivity.
  - inversion Hok; subst. cbn [ser] in *.
    destruct (print_Z_head z) as (c & ds & E & Hc).
    assert (print_Z z ++ rest = c :: (ds ++ rest)) as E2 by (rewrite E; reflexivity).
    rewrite E2, parse_value_number by easy. unfold number_or, parse_number.
    rewrite skip_ws_head by (apply num_head_props in Hc; tauto).
    rewrite <- E2, scan_number_int by easy.
    rewrite <- (app_nil_r (print_Z z)). rewrite stoll_print_Z; easy.
  - inversion Hok; subst. cbn [ser] in *.
    destruct (print_double_shape d H0) as (ip & fp & E & G1 & G2 & _).
    destruct ip as [|i ip]; [easy|].
    assert (exists c ds, print_double d = c :: ds /\ num_head c) as (c & ds & E1 & Hc).
    { rewrite E. destruct (dbl_sign d); cbn [sign_text app]; eexists _, _; split; try reflexivity.
      - now left.
      - right. cbn in G2. now apply andb_true_iff in G2. }
    assert (print_double d ++ rest = c :: (ds ++ rest)) as E2 by (rewrite E1; reflexivity).
    rewrite E2, parse_value_number by easy. unfold number_or, parse_number.
    rewrite skip_ws_head by (apply num_head_props in Hc; tauto).
    rewrite <- E2, scan_number_dbl by easy.
    rewrite stod_print by easy. reflexivity.
  - cbn [parse_value ser].
    pose proof (parse_string_ser s rest) as K. unfold ser_str in *. cbn [app] in *.
    rewrite skip_ws_head by reflexivity. rewrite eqb_refl. now rewrite K.
  - inversion Hok as [| | | | |? Hl|]; subst. cbn [parse_value ser].
    cbn [app]. rewrite skip_ws_head by reflexivity.
    change (Ascii.eqb LBRACK QUOTE) with false. change (Ascii.eqb LBRACK LBRACE) with false.
    rewrite eqb_refl. cbn iota.
    destruct l as [|v0 l0].
    + cbn [map join app]. now rewrite match_char_head.
    + assert (forall l acc f, l <> [] -> Forall ok l ->
        Forall (fun v => ok v -> forall f rest, value_end rest ->
           2 * length (ser v ++ rest) + 1 <= f -> parse_value f (ser v ++ rest) = POk v rest) l ->
        2 * length (join [COMMA] (map ser l) ++ [RBRACK] ++ rest) + 2 <= f ->
        arr_loop f (join [COMMA] (map ser l) ++ [RBRACK] ++ rest) acc = POk (JArr (acc ++ l)) rest) as Hloop.
      { clear. induction l as [|v l IHl]; intros acc f Hne Hok HI Hf; [easy|].
        inversion Hok; subst. inversion HI; subst.
        destruct f as [|f]; [lia|]. cbn [arr_loop].
        destruct l as [|v2 l].
        - cbn [map join] in *. rewrite H3; [|easy|apply value_end_delim; cbn; auto|lia].
          cbn [app]. now rewrite match_char_head.
        - change (join [COMMA] (map ser (v :: v2 :: l)))
            with (ser v ++ [COMMA] ++ join [COMMA] (map ser (v2 :: l))) in *.
          rewrite <- !app_assoc in *.
          rewrite H3; [|easy|apply value_end_delim; cbn; auto|lia].
          set (J := join [COMMA] (map ser (v2 :: l)) ++ [RBRACK] ++ rest).
          cbn [app]. rewrite match_char_other by reflexivity. rewrite match_char_head by reflexivity.
          unfold J. rewrite (IHl (acc ++ [v]) f); [|easy|easy|easy|].
          + now rewrite <- app_assoc.
          + rewrite !app_length in *. cbn [length] in *. lia. }
      cbn [ser] in Hf. cbn [app length] in Hf.
      rewrite <- app_assoc in *.
      assert (match_char RBRACK (join [COMMA] (map ser (v0 :: l0)) ++ [RBRACK] ++ rest) = None) as ->.
      { inversion Hl; subst. destruct (ser_head v0 H1) as (c & s & E & W & B1 & B2).
        assert (exists t, join [COMMA] (map ser (v0 :: l0)) ++ [RBRACK] ++ rest = c :: t) as [t ->].
        { cbn [map join]. rewrite E. destruct (map ser l0); cbn [app]; eauto. }
        now apply match_char_other. }
      rewrite Hloop; [easy|easy|easy|easy|lia].
  - inversion Hok as [| | | | | |? Hnd Hpl Hl]; subst. cbn [parse_value ser].
    cbn [app]. rewrite skip_ws_head by reflexivity.
    change (Ascii.eqb LBRACE QUOTE) with false.
    rewrite eqb_refl. cbn iota.
    set (mem := fun kv : bstr * json => ser_member (fst kv) (ser (snd kv))) in *.
    destruct l as [|[k0 v0] l0].
    + cbn [map join app]. now rewrite match_char_head.
    + assert (forall l acc f, l <> [] -> NoDup (map fst (acc ++ l)) -> Forall plain (map fst l) ->
        Forall ok (map snd l) ->
        Forall (fun v => ok v -> forall f rest, value_end rest ->
           2 * length (ser v ++ rest) + 1 <= f -> parse_value f (ser v ++ rest) = POk v rest) (map snd l) ->
        2 * length (join [COMMA] (map mem l) ++ [RBRACE] ++ rest) + 2 <= f ->
        obj_loop f (join [COMMA] (map mem l) ++ [RBRACE] ++ rest) acc = POk (JObj (acc ++ l)) rest) as Hloop.
      { clear. induction l as [|[k v] l IHl]; intros acc f Hne Hnd Hpl Hok HI Hf; [easy|].
        cbn [map fst snd] in Hpl, Hok, HI.
        inversion Hok; subst. inversion HI; subst. inversion Hpl; subst.
        destruct f as [|f]; [lia|]. cbn [obj_loop].
        assert (~ In k (map fst acc)) as Hnew.
        { rewrite map_app in Hnd. cbn [map fst] in Hnd. apply NoDup_remove_2 in Hnd.
          intro Hin. apply Hnd. apply in_or_app. now left. }
        destruct l as [|kv2 l].
        - cbn [map join] in *. unfold mem, ser_member in *. cbn [fst snd] in *.
          assert (((QUOTE :: k ++ [QUOTE; COLON] ++ ser v) ++ [RBRACE] ++ rest)
                  = QUOTE :: k ++ QUOTE :: COLON :: ser v ++ [RBRACE] ++ rest) as HE
            by (cbn [app]; rewrite <- app_assoc; reflexivity).
          rewrite HE in *. rewrite parse_string_plain by easy.
          rewrite match_char_head by reflexivity.
          rewrite H3; [|easy|apply value_end_delim; cbn; auto|].
          + cbn [app]. rewrite match_char_head by reflexivity. now rewrite obj_set_new.
          + len.
        - change (join [COMMA] (map mem ((k, v) :: kv2 :: l)))
            with (mem (k, v) ++ [COMMA] ++ join [COMMA] (map mem (kv2 :: l))) in *.
          set (J := join [COMMA] (map mem (kv2 :: l))) in *.
          assert (((mem (k, v) ++ [COMMA] ++ J) ++ [RBRACE] ++ rest)
                  = QUOTE :: k ++ QUOTE :: COLON :: ser v ++ [COMMA] ++ J ++ [RBRACE] ++ rest) as HE
            by (unfold mem, ser_member; cbn [app fst snd]; rewrite <- !app_assoc; reflexivity).
          rewrite HE in *. rewrite parse_string_plain by easy.
          rewrite match_char_head by reflexivity.
          rewrite H3; [|easy|apply value_end_delim; cbn; auto|].
          + set (JJ := J ++ [RBRACE] ++ rest).
            cbn [app]. rewrite match_char_other by reflexivity. rewrite match_char_head by reflexivity.
            rewrite obj_set_new by easy. unfold JJ. rewrite (IHl (acc ++ [(k, v)]) f); [|easy| |easy|easy|easy|].
            * now rewrite <- app_assoc.
            * now rewrite <- app_assoc.
            * fold J. len.
          + len. }
      cbn [ser] in Hf. fold mem in Hf. cbn [app length] in Hf.
      rewrite <- app_assoc in *.
      assert (match_char RBRACE (join [COMMA] (map mem ((k0, v0) :: l0)) ++ [RBRACE] ++ rest) = None) as ->.
      { assert (exists t, join [COMMA] (map mem ((k0, v0) :: l0)) ++ [RBRACE] ++ rest = QUOTE :: t) as [t ->].
        { cbn [map join]. destruct (map mem l0); unfold mem, ser_member; cbn [fst snd app]; eexists; reflexivity. }
        now apply match_char_other. }
      rewrite Hloop; [easy|easy|easy|easy|easy|easy|lia].
Qed.

Lemma parse_json_ser : forall v rest, ok v -> value_end rest -> parse_json (ser v ++ rest) = POk v rest.
Proof. intros v rest H1 H2. apply parse_ser; [easy|easy|]. lia. Qed.

(** More fuel never changes an outcome. *)
Lemma fuel_mono : forall f g, f <= g ->
  (forall s, parse_value f s <> PFuel -> parse_value g s = parse_value f s) /\
  (forall s acc, arr_loop f s acc <> PFuel -> arr_loop g s acc = arr_loop f s acc) /\
  (forall s acc, obj_loop f s acc <> PFuel -> obj_loop g s acc = obj_loop f s acc).
Proof.
  induction f as [|f IH]; intros g Hg; [easy|]. destruct g as [|g]; [lia|].
  destruct (IH g ltac:(lia)) as (IHv & IHa & IHo). split; [|split].
  - intros s H. cbn [parse_value] in *.
    destruct (skip_ws s) as [|c r]; [reflexivity|].
    destruct (Ascii.eqb c QUOTE); [reflexivity|].
    destruct (Ascii.eqb c LBRACE).
    { destruct (match_char RBRACE r); [reflexivity|]. now apply IHo. }
    destruct (Ascii.eqb c LBRACK).
    { destruct (match_char RBRACK r); [reflexivity|]. now apply IHa. }
    reflexivity.
  - intros s acc H. cbn [arr_loop] in *.
    assert (parse_value f s <> PFuel) as Hv by (intro E; rewrite E in H; easy).
    rewrite (IHv s Hv). destruct (parse_value f s) as [v r| |]; [|reflexivity|reflexivity].
    destruct (match_char RBRACK r); [reflexivity|].
    destruct (match_char COMMA r); [|reflexivity]. now apply IHa.
  - intros s acc H. cbn [obj_loop] in *.
    destruct (parse_string s) as [key r0| |]; [|reflexivity|reflexivity].
    destruct (match_char COLON r0) as [r1|]; [|reflexivity].
    assert (parse_value f r1 <> PFuel) as Hv by (intro E; rewrite E in H; easy).
    rewrite (IHv r1 Hv). destruct (parse_value f r1) as [v r| |]; [|reflexivity|reflexivity].
    destruct (match_char RBRACE r); [reflexivity|].
    destruct (match_char COMMA r); [|reflexivity]. now apply IHo.
Qed.

Lemma parse_fuel_irrelevant : forall s f, 2 * length s + 1 <= f -> parse_value f s = parse_json s.
Proof.
  intros s f H. unfold parse_json. apply (fuel_mono (2 * length s + 1) f H).
  destruct (parse_fuel (length s)) as (K & _ & _). apply K; lia.
Qed.

(** What is left is a suffix of the input. *)
Definition suffix (r s : bstr) : Prop := exists p, s = p ++ r.

Lemma suffix_refl : forall s, suffix s s.
Proof. intro s. now exists []. Qed.
Lemma suffix_trans : forall a b c, suffix a b -> suffix b c -> suffix a c.
Proof. intros a b c [p ->] [q ->]. exists (q ++ p). now rewrite app_assoc. Qed.
Lemma suffix_cons : forall c a b, suffix (c :: a) b -> suffix a b.
Proof. intros c a b [p ->]. exists (p ++ [c]). now rewrite <- app_assoc. Qed.
Lemma suffix_skip_ws : forall s, suffix (skip_ws s) s.
Proof. intro s. destruct (drop_while_suffix is_ws s) as (a & H & _). now exists a. Qed.
Lemma suffix_skipn : forall n s, suffix (skipn n s) s.
Proof. intros n s. exists (firstn n s). now rewrite firstn_skipn. Qed.
Lemma suffix_match_char : forall c s r, match_char c s = Some r -> suffix r s.
Proof.
  intros c s r H. unfold match_char in H. pose proof (suffix_skip_ws s) as K.
  destruct (skip_ws s) as [|x s1]; [discriminate|].
  destruct (Ascii.eqb x c); [|discriminate]. injection H as <-. now apply suffix_cons in K.
Qed.
Lemma suffix_str_body : forall n s acc x r, length s <= n -> str_body s acc = POk x r -> suffix r s.
Proof.
  induction n as [|n IH]; intros s acc x r Hn H.
  - destruct s; [|cbn in Hn; lia]. cbn in H. injection H as <- <-. apply suffix_refl.
  - destruct s as [|c s]; [cbn in H; injection H as <- <-; apply suffix_refl|].
    cbn [str_body] in H. cbn [length] in *.
    destruct (Ascii.eqb c QUOTE). { injection H as <- <-. now exists [c]. }
    destruct (Ascii.eqb c BACKSLASH).
    + destruct s as [|e s]; [discriminate|]. cbn [length] in *.
      destruct (Ascii.eqb e (chr 117)).
      * destruct s as [|h1 [|h2 [|h3 [|h4 s]]]]; try discriminate. cbn [length] in *.
        destruct (hex4 h1 h2 h3 h4); [|discriminate]. apply IH in H; [|lia].
        eapply suffix_trans; [exact H|]. now exists [c; e; h1; h2; h3; h4].
      * destruct (simple_escape e); [|discriminate]. apply IH in H; [|lia].
        eapply suffix_trans; [exact H|]. now exists [c; e].
    + apply IH in H; [|lia]. eapply suffix_trans; [exact H|]. now exists [c].
Qed.
Lemma suffix_parse_string : forall s x r, parse_string s = POk x r -> suffix r s.
Proof.
  intros s x r H. unfold parse_string in H. pose proof (suffix_skip_ws s) as K.
  destruct (skip_ws s) as [|c s1]; [discriminate|].
  destruct (Ascii.eqb c QUOTE); [|discriminate].
  apply (suffix_str_body (length s1)) in H; [|lia]. apply suffix_cons in K.
  eapply suffix_trans; eassumption.
Qed.
Lemma suffix_parse_number : forall s v r, parse_number s = (v, r) -> suffix r s.
Proof.
  intros s v r H. unfold parse_number in H.
  destruct (scan_number (skip_ws s)) as [[num fl] rest] eqn:E.
  apply scan_number_app in E. pose proof (suffix_skip_ws s) as K. rewrite E in K.
  assert (suffix rest s) as K2 by (eapply suffix_trans; [|exact K]; now exists num).
  destruct fl; injection H as _ <-; exact K2.
Qed.

Lemma parse_suffix : forall f,
  (forall s v r, parse_value f s = POk v r -> suffix r s) /\
  (forall s acc v r, arr_loop f s acc = POk v r -> suffix r s) /\
  (forall s acc v r, obj_loop f s acc = POk v r -> suffix r s).
Proof.
  induction f as [|f (IHv & IHa & IHo)]; [easy|]. split; [|split].
  - intros s v r H. cbn [parse_value] in H. pose proof (suffix_skip_ws s) as K.
    destruct (skip_ws s) as [|c r0] eqn:E; [discriminate|].
    destruct (Ascii.eqb c QUOTE).
    { destruct (parse_string (c :: r0)) as [x r'| |] eqn:E2; try discriminate.
      injection H as <- <-. apply suffix_parse_string in E2. eapply suffix_trans; eassumption. }
    destruct (Ascii.eqb c LBRACE).
    { apply suffix_cons in K. destruct (match_char RBRACE r0) eqn:E2.
      - injection H as <- <-. apply suffix_match_char in E2. eapply suffix_trans; eassumption.
      - apply IHo in H. eapply suffix_trans; eassumption. }
    destruct (Ascii.eqb c LBRACK).
    { apply suffix_cons in K. destruct (match_char RBRACK r0) eqn:E2.
      - injection H as <- <-. apply suffix_match_char in E2. eapply suffix_trans; eassumption.
      - apply IHa in H. eapply suffix_trans; eassumption. }
    destruct (starts_with (bs "true") (c :: r0)).
    { assert (r = skipn 4 (c :: r0)) as -> by congruence.
      eapply suffix_trans; [apply suffix_skipn|exact K]. }
    destruct (starts_with (bs "false") (c :: r0)).
    { assert (r = skipn 5 (c :: r0)) as -> by congruence.
      eapply suffix_trans; [apply suffix_skipn|exact K]. }
    destruct (starts_with (bs "null") (c :: r0)).
    { assert (r = skipn 4 (c :: r0)) as -> by congruence.
      eapply suffix_trans; [apply suffix_skipn|exact K]. }
    unfold number_or in H. destruct (parse_number (c :: r0)) as [v1 r1] eqn:E2.
    injection H as <- <-. apply suffix_parse_number in E2. eapply suffix_trans; eassumption.
  - intros s acc v r H. cbn [arr_loop] in H.
    destruct (parse_value f s) as [v1 r1| |] eqn:E; try discriminate. apply IHv in E.
    destruct (match_char RBRACK r1) eqn:E2.
    { injection H as <- <-. apply suffix_match_char in E2. eapply suffix_trans; eassumption. }
    destruct (match_char COMMA r1) eqn:E3; [|discriminate]. apply suffix_match_char in E3.
    apply IHa in H. eapply suffix_trans; [exact H|]. eapply suffix_trans; eassumption.
  - intros s acc v r H. cbn [obj_loop] in H.
    destruct (parse_string s) as [key r0| |] eqn:E0; try discriminate. apply suffix_parse_string in E0.
    destruct (match_char COLON r0) as [r1|] eqn:E1; [|discriminate]. apply suffix_match_char in E1.
    destruct (parse_value f r1) as [v1 r2| |] eqn:E; try discriminate. apply IHv in E.
    assert (suffix r2 s) as K by (repeat (eapply suffix_trans; [eassumption|]); apply suffix_refl).
    destruct (match_char RBRACE r2) eqn:E2.
    { injection H as <- <-. apply suffix_match_char in E2. eapply suffix_trans; eassumption. }
    destruct (match_char COMMA r2) eqn:E3; [|discriminate]. apply suffix_match_char in E3.
    apply IHo in H. eapply suffix_trans; [exact H|]. eapply suffix_trans; eassumption.
Qed.

Lemma parse_json_outcomes : forall s,
  (exists v pre rest, s = pre ++ rest /\ parse_json s = POk v rest) \/ parse_json s = PThrow.
Proof.
  intro s. destruct (parse_json_total s) as [(v & r & H & _)|H]; [left|now right].
  destruct (parse_suffix (2 * length s + 1)) as (K & _ & _). destruct (K s v r H) as [p Hp].
  exists v, p, r. now split.
Qed.

(** The text of a string value. *)
Definition esc_text_ok (c : ascii) : bool :=
  match esc_char c with
  | [x] => (N.leb 32 (code x) && negb (Ascii.eqb x QUOTE) && negb (Ascii.eqb x BACKSLASH))%bool
  | [b; e] => (Ascii.eqb b BACKSLASH && existsb (Ascii.eqb e) (bs """\bfnrt"))%bool
  | [b; u; h1; h2; h3; h4] =>
      (Ascii.eqb b BACKSLASH && Ascii.eqb u (chr 117) &&
       forallb (fun h => existsb (Ascii.eqb h) (bs "0123456789abcdef")) [h1; h2; h3; h4])%bool
  | _ => false
  end.
Lemma esc_text : forall c, esc_text_ok c = true.
Proof. apply all_ascii. vm_compute. reflexivity. Qed.

Lemma existsb_in : forall x l, existsb (Ascii.eqb x) l = true -> In x l.
Proof. intros x l H. apply existsb_exists in H as (y & H1 & H2). apply eqb_eq in H2. now subst. Qed.

Lemma esc_json_text : forall s, json_text (esc s).
Proof.
  induction s as [|c s IH]; [constructor|]. cbn [esc flat_map]. fold (esc s).
  pose proof (esc_text c) as H. unfold esc_text_ok in H.
  destruct (esc_char c) as [|x1 [|x2 [|x3 [|x4 [|x5 [|x6 [|x7 l]]]]]]]; try discriminate; cbn [app].
  - apply andb_true_iff in H as [H H3]. apply andb_true_iff in H as [H1 H2].
    apply negb_true_iff, eqb_neq in H2, H3. apply N.leb_le in H1. now apply jt_char.
  - apply andb_true_iff in H as [H1 H2]. apply eqb_eq in H1 as ->. apply jt_esc; [|easy].
    now apply existsb_in.
  - apply andb_true_iff in H as [H H3]. apply andb_true_iff in H as [H1 H2].
    apply eqb_eq in H1 as ->. apply eqb_eq in H2 as ->.
    cbn [forallb] in H3. repeat rewrite andb_true_iff in H3. destruct H3 as (A & B & C & D & _).
    apply jt_u; try now apply existsb_in. easy.
Qed.

Lemma string_text : forall s, exists body, ser (JStr s) = QUOTE :: body ++ [QUOTE] /\ json_text body.
Proof. intro s. exists (esc s). split; [reflexivity|apply esc_json_text]. Qed.

(** A decision procedure for [ok], used in examples. *)
Definition plainb (s : bstr) : bool :=
  forallb (fun c => negb (Ascii.eqb c QUOTE || Ascii.eqb c BACKSLASH)) s.
Lemma plainb_plain : forall s, plainb s = true -> plain s.
Proof. intros s H. unfold plainb in H. rewrite forallb_forall in H. split; intro Hi; apply H in Hi; discriminate Hi. Qed.

Fixpoint nodupb (l : list bstr) : bool :=
  match l with [] => true | x :: l => (negb (existsb (beq x) l) && nodupb l)%bool end.
Lemma nodupb_nodup : forall l, nodupb l = true -> NoDup l.
Proof.
  induction l as [|x l IH]; intro H; [constructor|]. cbn [nodupb] in H.
  apply andb_true_iff in H as [H1 H2]. constructor; [|now apply IH].
  intro Hi. apply negb_true_iff in H1.
  assert (existsb (beq x) l = true) as K by (apply existsb_exists; exists x; split; [easy|apply beq_refl]).
  congruence.
Qed.

Definition exactb (d : dbl) : bool :=
  match d with
  | DZero _ => true
  | DFin _ m e =>
      ((-1074 <=? e) && (e <=? 971) && (Zpos m <? 2 ^ 53) && (2 ^ 52 <=? Zpos m) &&
       ((0 <=? e) || ((Zpos m * 10 ^ 6) mod (2 ^ (- e)) =? 0)))%Z%bool
  | _ => false
  end.
Lemma exactb_exact : forall d, exactb d = true -> exact_double d.
Proof.
  intros [s|s m e|s|s] H; try easy. cbn [exactb] in H.
  apply andb_true_iff in H as [H H2]. split; [cbn [dbl_canonical]; lia|].
  destruct (Z.leb_spec 0 e) as [He|He]; [now left|right]. cbn [orb] in H2.
  apply Z.eqb_eq in H2. exists ((Zpos m * 10 ^ 6) / 2 ^ (- e))%Z.
  assert (2 ^ (- e) <> 0)%Z as Hn by (apply Z.pow_nonzero; lia).
  pose proof (Z.div_mod (Zpos m * 10 ^ 6) (2 ^ (- e)) Hn) as K. rewrite H2, Z.add_0_r in K.
  rewrite K at 1. apply Z.mul_comm.
Qed.

Fixpoint okb (v : json) : bool :=
  match v with
  | JNull | JBool _ | JStr _ => true
  | JInt z => ((- two63 <=? z) && (z <? two63))%Z%bool
  | JDbl d => exactb d
  | JArr l => forallb okb l
  | JObj l => (nodupb (map fst l) && forallb plainb (map fst l) && forallb (fun kv => okb (snd kv)) l)%bool
  end.
Lemma okb_ok : forall v, okb v = true -> ok v.
Proof.
  induction v as [| b | z | d | s | l IH | l IH] using json_ind'; intro H; cbn [okb] in H; try constructor.
  - change (2 ^ 63)%Z with two63. lia.
  - now apply exactb_exact.
  - rewrite forallb_forall in H. rewrite Forall_forall in *. auto.
  - apply andb_true_iff in H as [H _]. apply andb_true_iff in H as [H _]. now apply nodupb_nodup.
  - apply andb_true_iff in H as [H _]. apply andb_true_iff in H as [_ H].
    rewrite forallb_forall in H. apply Forall_forall. intros k Hk. apply plainb_plain. auto.
  - apply andb_true_iff in H as [_ H]. rewrite forallb_forall in H. rewrite Forall_forall in *.
    intros x Hx. apply IH; [easy|]. apply in_map_iff in Hx as (kv & <- & Hkv). auto.
Qed.
