(** Properties C179-C182: JSON texts of other programs, and what other programs read. *)
From Coq Require Import Ascii String List Arith NArith ZArith Bool Lia ZifyBool ZifyNat ZifyN.
From Verif Require Import StrModel StrProofs DoubleModel JsonModel JsonSpec DoubleProofs JsonProofs
  TextSpec TextNum TextRound TextNumeral TextRead TextWrite TextNear.
Import ListNotations.
Local Open Scope nat_scope.

(** C179: every text of the JSON grammar, however it is spelled (white space, escapes, case of
    hexadecimal digits, spelling of numbers), is read as the value it denotes, and what follows it
    is left. Missing: escapes of surrogates, integers beyond 64 bits, numbers below 2^-1022 that
    are no doubles (refuted below), and objects with a name that occurs again (next theorem). *)
Theorem C179_reads_partial : forall (w t : bstr) (v : json) (rest : bstr),
  blank w -> text t v -> value_end rest -> parse_json (w ++ t ++ rest) = POk v rest.
Proof. exact reads_text. Qed.
Print Assumptions C179_reads_partial.

(** C179: of members with the same name the last counts. *)
Theorem C179_last_partial : forall (w t : bstr) (ms : list (bstr * json)) (rest : bstr),
  blank w -> members t ms -> value_end rest ->
  exists o, parse_json (w ++ bs "{" ++ t ++ bs "}" ++ rest) = POk (JObj o) rest /\
    (forall k v, obj_get k o = Some v <->
       exists before after, ms = before ++ (k, v) :: after /\ ~ In k (map fst after)).
Proof. exact reads_members. Qed.
Print Assumptions C179_last_partial.

(** The grammar is unambiguous: a text denotes one value. *)
Theorem C179_one_meaning : forall t v v', text t v -> text t v' -> v = v'.
Proof.
  intros t v v' H H'. pose proof (reads_text [] t v [] (Forall_nil _) H I) as E.
  rewrite (reads_text [] t v' [] (Forall_nil _) H' I) in E. congruence.
Qed.
Print Assumptions C179_one_meaning.

(** C179 fails for every code point above 65535 written as a pair of escapes, as most JSON libraries
    do: the string read has six bytes (two encoded surrogates: not UTF-8) instead of the four of the
    code point. *)
Theorem C179_pairs_refuted : forall t v rest, surrogates t v -> exists s,
  parse_json (bs """" ++ t ++ bs """" ++ rest) = POk (JStr s) rest /\ length s = 6 /\
  length (utf8_of v) = 4.
Proof. exact pair_misread. Qed.
Print Assumptions C179_pairs_refuted.

(** C179 fails for every integer outside the 64-bit range: it is read as null. *)
Theorem C179_integers_refuted : forall t z rest, int_text t z -> ~ (- 2 ^ 63 <= z < 2 ^ 63)%Z ->
  value_end rest -> parse_json (t ++ rest) = POk JNull rest.
Proof.
  intros t z rest H R Hr. rewrite (reads_int t z rest H Hr).
  destruct ((- 2 ^ 63 <=? z) && (z <? 2 ^ 63))%Z%bool eqn:B; [|reflexivity].
  exfalso. apply R. apply andb_true_iff in B as [B1 B2]. apply Z.leb_le in B1. apply Z.ltb_lt in B2. now split.
Qed.
Print Assumptions C179_integers_refuted.

Lemma one_tenth : nearest false 1 10 (DFin false 7205759403792794 (-56)).
Proof.
  pose proof (dec_spec false 1 (-1) 1 10 eq_refl) as S0.
  replace (dec_to_double false 1 (-1)) with (Some (DFin false 7205759403792794 (-56))) in S0
    by (vm_compute; reflexivity). apply S0.
Qed.

Lemma one_tenth_not_small : ~ too_small 1 10.
Proof. intros [H _]. vm_compute in H. discriminate. Qed.

Ltac blanks := repeat constructor; cbn; tauto.

(** A text with white space, escapes in both cases and a number: a name and an array. *)
Example C179_ex :
  let t := bs "{ ""\u0061\t"" :" ++ [LF] ++ bs "[0.1 ,""\u00C9\u20ac\/"", -7,true ] }" in
  let v := JObj [(bs "a" ++ [TAB], JArr [JDbl (DFin false 7205759403792794 (-56));
              JStr (map ascii_of_N [195; 137; 226; 130; 172; 47]%N); JInt (-7); JBool true])] in
  text t v /\ parse_json ([SPACE] ++ t ++ bs ", more") = POk v (bs ", more").
Proof.
  cbv zeta.
  match goal with |- ?A /\ ?B => assert A as T end.
  { assert (forall a b c d, hexit a 0 -> hexit b 0 -> hexit c 6 -> hexit d 1 -> quad [a; b; c; d] 97%N) as Q1.
    { intros a b c d A1 A2 A3 A4. exists a, b, c, d, 0, 0, 6, 1. now repeat split. }
    pose proof (tx_obj (bs " " ++ bs """" ++ bs "\u0061\t" ++ bs """" ++ bs " " ++ bs ":" ++ [LF] ++
        (bs "[" ++ bs "0.1 ,""\u00C9\u20ac\/"", -7,true " ++ bs "]") ++ bs " ")) as T. cbn in T |- *.
    apply T; [|repeat constructor; intros []].
    apply (me_one (bs " ") (bs "\u0061\t") (bs "a" ++ [TAB]) (bs " ") [LF]
      (bs "[" ++ bs "0.1 ,""\u00C9\u20ac\/"", -7,true " ++ bs "]") (bs " ")); try blanks.
    - apply (ch_code (bs "0061") 97%N (bs "\t") [TAB]); [|lia|].
      + apply Q1; left; reflexivity.
      + apply (ch_letter "t"%char 9%N [] []); [cbn; tauto|constructor].
    - apply tx_arr.
      apply (it_more [] (bs "0.1") (bs " ") _ (bs """\u00C9\u20ac\/"", -7,true ")); try blanks.
      + apply (tx_real (bs "0.1") false 1 10); [|exact one_tenth|exact one_tenth_not_small].
        exists (bs "0"), (bs ".1"), (bs "1"), [], 0%Z. repeat split; try blanks; try discriminate.
        constructor. split; [discriminate|blanks].
      + apply (it_more [] (bs """" ++ bs "\u00C9\u20ac\/" ++ bs """") [] _ (bs " -7,true ")); try (constructor; fail).
        * apply tx_str.
          apply (ch_code (bs "00C9") 201%N (bs "\u20ac\/") (map ascii_of_N [226; 130; 172; 47]%N)); [|lia|].
          { exists "0"%char, "0"%char, "C"%char, "9"%char, 0, 0, 12, 9.
            repeat split; first [left; reflexivity | right; reflexivity]. }
          apply (ch_code (bs "20ac") 8364%N (bs "\/") (map ascii_of_N [47]%N)); [|lia|].
          { exists "2"%char, "0"%char, "a"%char, "c"%char, 2, 0, 10, 12.
            repeat split; left; reflexivity. }
          apply (ch_letter "/"%char 47%N [] []); [cbn; tauto|constructor].
        * apply (it_more (bs " ") (bs "-7") [] _ (bs "true ")); try blanks.
          -- apply tx_int; [|lia]. exists true, (bs "7"). repeat split; try blanks; discriminate.
          -- apply (it_one [] (bs "true") (bs " ")); try blanks. }
  split; [exact T|]. apply reads_text; [blanks|exact T|repeat split; discriminate].
Qed.

(** A pair of escapes exists: U+1F600. *)
Example C179_pairs_ex : surrogates (bs "\ud83d\uDE00") 128512.
Proof.
  exists (bs "d83d"), (bs "DE00"), 55357%N, 56832%N. repeat split; try lia.
  - exists "d"%char, "8"%char, "3"%char, "d"%char, 13, 8, 3, 13. repeat split; left; reflexivity.
  - exists "D"%char, "E"%char, "0"%char, "0"%char, 13, 14, 0, 0. repeat split; first [left; reflexivity | right; reflexivity].
Qed.

Example C179_integers_ex : int_text (bs "9223372036854775808") (2 ^ 63) /\
  parse_json (bs "9223372036854775808") = POk JNull [].
Proof.
  split; [|reflexivity]. exists false, (bs "9223372036854775808").
  split; [reflexivity|]. split; [|reflexivity]. split; [|discriminate].
  split; [discriminate|]. repeat (constructor; [cbn; tauto|]). constructor.
Qed.

(** C180: a number with a point or an exponent is read as the nearest double, of two equally near
    ones the one with the even mantissa; an integer as itself. Missing: numbers out of range, which
    are read as null (refuted below). *)
Theorem C180_nearest_partial : forall (t : bstr) (neg : bool) (num den : Z) (rest : bstr),
  real_text t neg num den -> value_end rest ->
  (exists d, parse_json (t ++ rest) = POk (JDbl d) rest /\ nearest neg num den d) \/
  (parse_json (t ++ rest) = POk JNull rest /\ (too_great num den \/ too_small num den)).
Proof. exact reads_real. Qed.
Print Assumptions C180_nearest_partial.

Theorem C180_integer_partial : forall (t : bstr) (z : Z) (rest : bstr),
  int_text t z -> (- 2 ^ 63 <= z < 2 ^ 63)%Z -> value_end rest ->
  parse_json (t ++ rest) = POk (JInt z) rest.
Proof.
  intros t z rest H R Hr.
  exact (reads_text [] t (JInt z) rest (Forall_nil _) (tx_int t z H R) Hr).
Qed.
Print Assumptions C180_integer_partial.

(** There is only one nearest double. *)
Theorem C180_one_nearest : forall (t : bstr) (neg : bool) (num den : Z) (d d' : dbl),
  real_text t neg num den -> ~ too_small num den -> nearest neg num den d -> nearest neg num den d' -> d = d'.
Proof.
  intros t neg num den d d' H S0 N N'.
  pose proof (C179_one_meaning t (JDbl d) (JDbl d') (tx_real t neg num den d H N S0) (tx_real t neg num den d' H N' S0)).
  congruence.
Qed.
Print Assumptions C180_one_nearest.

(** C180 fails: 10^-320 has a nearest double, but is read as null. *)
Theorem C180_small_refuted : exists t num den,
  real_text t false num den /\ (0 < num)%Z /\ ~ too_great num den /\ parse_json t = POk JNull [].
Proof.
  exists (bs "1e-320"), 1%Z, (10 ^ 320)%Z. split; [|split; [reflexivity|split]].
  - exists (bs "1"), [], [], (bs "e-320"), (-320)%Z. repeat split; try blanks; try discriminate; try constructor.
    apply (ex_some "e"%char (bs "-") (bs "320")); [cbn; tauto| |].
    + split; [discriminate|blanks].
    + right. right. split; reflexivity.
  - intros H. vm_compute in H. now apply H.
  - vm_compute. reflexivity.
Qed.
Print Assumptions C180_small_refuted.

(** C180 fails: 10^400 is read as null, not refused and not as a number. *)
Theorem C180_great_refuted : exists t num den,
  real_text t false num den /\ too_great num den /\ parse_json t = POk JNull [].
Proof.
  exists (bs "1E+400"), (1 * 10 ^ 400)%Z, 1%Z. split; [|split].
  - exists (bs "1"), [], [], (bs "E+400"), 400%Z. repeat split; try blanks; try discriminate; try constructor.
    apply (ex_some "E"%char (bs "+") (bs "400")); [cbn; tauto| |].
    + split; [discriminate|blanks].
    + right. left. split; reflexivity.
  - intros H. vm_compute in H. discriminate H.
  - vm_compute. reflexivity.
Qed.
Print Assumptions C180_great_refuted.

(** 0.1, minus fifteen, and 2^53 + 1, which lies in the middle between two doubles. *)
Example C180_ex :
  real_text (bs "-1.5e1") true 15 1 /\
  parse_json (bs "-1.5e1,") = POk (JDbl (DFin true 8444249301319680 (-49))) (bs ",") /\
  parse_json (bs "0.1") = POk (JDbl (DFin false 7205759403792794 (-56))) [] /\
  nearest false 1 10 (DFin false 7205759403792794 (-56)) /\
  parse_json (bs "9007199254740993.0") = POk (JDbl (DFin false 4503599627370496 1)) [].
Proof.
  split; [|split; [vm_compute; reflexivity|split; [vm_compute; reflexivity|
    split; [exact one_tenth|vm_compute; reflexivity]]]].
  exists (bs "1"), (bs ".5"), (bs "5"), (bs "e1"), 1%Z. repeat split; try blanks; try discriminate.
  - constructor. split; [discriminate|blanks].
  - apply (ex_some "e"%char [] (bs "1")); [cbn; tauto| |left; split; reflexivity]. split; [discriminate|blanks].
Qed.

(** C181: what is written is a JSON text that denotes the value, for any reader that follows the
    standard. Missing: names that need an escape, doubles that are no multiples of a millionth,
    infinities and not-a-numbers (refuted below). *)
Theorem C181_writes_partial : forall v : json, writable v -> text (ser v) v.
Proof. exact ser_text. Qed.
Print Assumptions C181_writes_partial.

(** C181 fails: there is an object whose text is no JSON text of anything: a name with a backslash. *)
Theorem C181_names_refuted : exists k, forall v, ~ text (ser (JObj [(k, JNull)])) v.
Proof. exists (bs "\x"). apply not_text. intros v. vm_compute. discriminate. Qed.
Print Assumptions C181_names_refuted.

(** C181 fails: a double that is not a number, and an infinite one, are written as no JSON. *)
Theorem C181_nan_refuted : forall s v, ~ text (ser (JDbl (DNaN s))) v /\ ~ text (ser (JDbl (DInf s))) v.
Proof.
  intros s v. split; revert v; apply not_text; intros v; destruct s; vm_compute; discriminate.
Qed.
Print Assumptions C181_nan_refuted.

(** C181 fails: a finite double is written as a text that denotes another one. *)
Theorem C181_digits_refuted : exists m e,
  dbl_canonical (DFin false m e) /\ text (ser (JDbl (DFin false m e))) (JDbl (DZero false)).
Proof.
  exists 4503599627370496%positive, (-82)%Z. split; [cbn; lia|].
  change (ser (JDbl (DFin false 4503599627370496 (-82)))) with (ser (JDbl (DZero false))).
  apply ser_text. split; [constructor; exact I|]. intros k H. inversion H.
Qed.
Print Assumptions C181_digits_refuted.

Example C181_ex :
  let v := JObj [(bs "a b", JArr [JInt (-5); JDbl (DFin true 6755399441055744 (-52)); JStr (bs "x""y" ++ [LF; chr 1])]);
                 (bs "c", JObj [])] in
  writable v /\ ser v = bs "{""a b"":[-5,-1.500000,""x\""y\n\u0001""],""c"":{}}".
Proof.
  cbv zeta. split; [|vm_compute; reflexivity]. split; [apply okb_ok; reflexivity|].
  intros k H. inversion H as [l Hi E | l v Hi Hk E | ]; subst.
  - cbn in Hi. destruct Hi as [<- | [<- | []]]; repeat constructor; try discriminate; vm_compute; discriminate.
  - cbn in Hi. destruct Hi as [<- | [<- | []]].
    + inversion Hk as [ | | l v Hi Hk' E]; subst. cbn in Hi.
      destruct Hi as [<- | [<- | [<- | []]]]; inversion Hk'.
    + inversion Hk as [l Hi E | l v Hi Hk' E |]; subst; destruct Hi.
Qed.

(** C182: whatever is accepted is, after white space, a JSON text of the value up to the liberties
    listed in the specification: bytes below 32 and single surrogates in strings, signs, leading
    zeros and missing digits in numbers, null for a number that cannot be read, the last of equal
    names, a string ended by the end of the input. *)
Theorem C182_accepts_partial : forall (s : bstr) (v : json) (r : bstr), parse_json s = POk v r ->
  exists w t, s = w ++ t ++ r /\ blank w /\
    (near t v \/ (r = [] /\ exists t' y, t = bs """" ++ t' /\ near_chars t' y /\ v = JStr y)).
Proof. exact json_near. Qed.
Print Assumptions C182_accepts_partial.

(** C182 fails: none of these texts is JSON, and all are accepted. *)
Theorem C182_liberties_refuted :
  parse_json (bs "+5") = POk (JInt 5) [] /\ parse_json (bs "007") = POk (JInt 7) [] /\
  parse_json (bs "[1.,.5e]") = POk (JArr [JDbl (DFin false 4503599627370496 (-52)); JDbl (DFin false 4503599627370496 (-53))]) [] /\
  parse_json (bs "[-]") = POk (JArr [JNull]) [] /\ parse_json (bs "[,]") = POk (JArr [JNull; JNull]) [] /\
  parse_json (bs "{""a"":}") = POk (JObj [(bs "a", JNull)]) [] /\
  parse_json (bs """abc") = POk (JStr (bs "abc")) [] /\
  parse_json (bs "hello") = POk JNull (bs "hello").
Proof. repeat split; vm_compute; reflexivity. Qed.
Print Assumptions C182_liberties_refuted.

Example C182_ex : parse_json (bs " [,{""a"":1,""a"":2}]x") = POk (JArr [JNull; JObj [(bs "a", JInt 2)]]) (bs "x").
Proof. vm_compute. reflexivity. Qed.
