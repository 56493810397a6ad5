(** Properties C05-C08: JSON values. *)
From Coq Require Import Ascii String List Arith NArith ZArith Bool Lia ZifyBool ZifyNat ZifyN.
From Verif Require Import StrModel DoubleModel JsonModel JsonSpec DoubleProofs JsonProofs.
Import ListNotations.
Local Open Scope nat_scope.

(** C05: any byte string survives, whatever follows it in the text. *)
Theorem C05_string_roundtrip : forall (s rest : bstr),
  parse_string (ser (JStr s) ++ rest) = POk s rest.
Proof. exact parse_string_ser. Qed.
Print Assumptions C05_string_roundtrip.

(** C05: the serialized form is a quoted text of the JSON grammar. *)
Theorem C05_string_wellformed : forall s : bstr,
  exists body, ser (JStr s) = QUOTE :: body ++ [QUOTE] /\ json_text body.
Proof. exact string_text. Qed.
Print Assumptions C05_string_wellformed.

Example C05_ex :
  ser (JStr (chr 0 :: bs "a""\" ++ [LF; chr 255])) = bs """\u0000a\""\\\n" ++ [chr 255; QUOTE] /\
  parse_string (bs """\u0000a\""\\\n" ++ [chr 255; QUOTE] ++ bs "]") = POk (chr 0 :: bs "a""\" ++ [LF; chr 255]) (bs "]").
Proof. split; reflexivity. Qed.

(** C06: also for doubles that are multiples of a millionth, and in any context that
    does not continue the number. *)
Theorem C06_value_roundtrip : forall (v : json) (rest : bstr),
  ok v -> value_end rest -> parse_json (ser v ++ rest) = POk v rest.
Proof. exact parse_json_ser. Qed.
Print Assumptions C06_value_roundtrip.

Example C06_ex :
  let v := JObj [(bs "a", JArr [JInt (-5); JNull; JDbl (DFin true 6755399441055744 (-52)); JObj []]);
                 (bs "", JStr (bs "x""y")); (bs "b c", JBool false)] in
  ok v /\ parse_json (ser v) = POk v [] /\
  ser v = bs "{""a"":[-5,null,-1.500000,{}],"""":""x\""y"",""b c"":false}".
Proof.
  cbv zeta. split; [apply okb_ok; reflexivity|split; reflexivity].
Qed.

(** C06 is exact about doubles: one that is not a multiple of a millionth is not
    preserved (2^-30 prints as 0.000000). *)
Theorem C06_doubles_refuted : exists d,
  dbl_canonical d /\ (exists m e, d = DFin false m e) /\
  parse_json (ser (JDbl d)) = POk (JDbl (DZero false)) [].
Proof.
  exists (DFin false 4503599627370496 (-82)). split; [cbn; lia|]. split; [eauto|]. reflexivity.
Qed.
Print Assumptions C06_doubles_refuted.

(** C07 fails: keys are written without escaping; one key becomes two. *)
Theorem C07_keys_refuted : exists (k : bstr) (v : json),
  parse_json (ser (JObj [(k, v)])) = POk (JObj [(bs "a", JInt 1); (bs "admin", JBool true)]) [].
Proof. exists (bs "a"":1,""admin"), (JBool true). reflexivity. Qed.
Print Assumptions C07_keys_refuted.

(** C07: a backslash in a key changes the key or makes the text unparsable. *)
Theorem C07_backslash_refuted : exists k1 k2,
  parse_json (ser (JObj [(k1, JNull)])) = POk (JObj [([LF], JNull)]) [] /\ k1 <> [LF] /\
  parse_json (ser (JObj [(k2, JNull)])) = PThrow.
Proof. exists (bs "\n"), (bs "\x"). repeat split; discriminate. Qed.
Print Assumptions C07_backslash_refuted.

(** C08: every input gives a value and a rest that is a suffix of the input, or a
    failure; it is not an artefact of the fuel, which bounds the recursion depth. *)
Theorem C08_parse_total : forall s : bstr,
  (exists v pre rest, s = pre ++ rest /\ parse_json s = POk v rest) \/ parse_json s = PThrow.
Proof. exact parse_json_outcomes. Qed.
Print Assumptions C08_parse_total.

Theorem C08_depth_bounded : forall (s : bstr) (depth : nat),
  2 * length s + 1 <= depth -> parse_value depth s = parse_json s.
Proof. exact parse_fuel_irrelevant. Qed.
Print Assumptions C08_depth_bounded.

Example C08_ex :
  parse_json (bs "[[[{""a"":") = PThrow /\ parse_json (bs "[1,2] tail") = POk (JArr [JInt 1; JInt 2]) (bs " tail") /\
  parse_json (bs "[x]") = PThrow.
Proof. repeat split. Qed.
