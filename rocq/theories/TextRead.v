(** Proofs: the parser reads a JSON text as the value it denotes. *)
From Coq Require Import Ascii String List Arith NArith ZArith Bool Lia ZifyBool ZifyNat ZifyN.
From Verif Require Import StrModel StrProofs DoubleModel JsonModel JsonSpec DoubleProofs JsonProofs
  TextSpec TextNum TextRound TextNumeral.
Import ListNotations.
Local Open Scope nat_scope.

Lemma hexit_val : forall c v, hexit c v -> hex_val c = Some (N.of_nat v) /\ v < 16.
Proof.
  intros c v H.
  assert (v < 16) as L.
  { destruct H as [H | H].
    - assert (nth_error (bs "0123456789abcdef") v <> None) as H' by (rewrite H; discriminate).
      apply nth_error_Some in H'. exact H'.
    - assert (nth_error (bs "0123456789ABCDEF") v <> None) as H' by (rewrite H; discriminate).
      apply nth_error_Some in H'. exact H'. }
  split; [|exact L].
  do 16 (destruct v as [| v]; [destruct H as [H | H]; cbn in H; injection H as <-; reflexivity|]). lia.
Qed.

Lemma quad_hex4 : forall t v r, quad t v -> exists a b c d, t ++ r = a :: b :: c :: d :: r /\
  hex4 a b c d = Some v /\ (v < 65536)%N.
Proof.
  intros t v r (a & b & c & d & w & x & y & z & -> & Ha & Hb & Hc & Hd & ->).
  exists a, b, c, d. split; [reflexivity|].
  apply hexit_val in Ha as [Ha La], Hb as [Hb Lb], Hc as [Hc Lc], Hd as [Hd Ld].
  unfold hex4. rewrite Ha, Hb, Hc, Hd. split; [f_equal; lia|lia].
Qed.

Fixpoint upto (n : nat) : list N := match n with O => [] | S k => upto k ++ [N.of_nat k] end.

Lemma upto_in : forall n v, (v < N.of_nat n)%N -> In v (upto n).
Proof.
  induction n as [| n IH]; intros v H; [lia|]. cbn [upto]. apply in_or_app.
  destruct (N.eq_dec v (N.of_nat n)) as [-> | Hn]; [right; now left|left; apply IH; lia].
Qed.

Lemma lor_add : forall v, (v < 64)%N -> N.lor 128 v = (128 + v)%N /\
  (v < 32 -> N.lor 192 v = 192 + v)%N /\ (v < 16 -> N.lor 224 v = 224 + v)%N.
Proof.
  intros v H.
  assert (forallb (fun v => N.eqb (N.lor 128 v) (128 + v) && (negb (N.ltb v 32) || N.eqb (N.lor 192 v) (192 + v)) &&
     (negb (N.ltb v 16) || N.eqb (N.lor 224 v) (224 + v)))%bool (upto 64) = true) as K by (vm_compute; reflexivity).
  rewrite forallb_forall in K. specialize (K v (upto_in 64 v H)). lia.
Qed.

Lemma utf8_same : forall v, (v < 65536)%N -> utf8 v = utf8_of v.
Proof.
  intros v H. unfold utf8, utf8_of.
  assert (forall x, N.land x 63 = x mod 64)%N as L6 by (intro; apply (N.land_ones x 6)).
  assert (forall x, N.land x 31 = x mod 32)%N as L5 by (intro; apply (N.land_ones x 5)).
  assert (forall x, N.land x 15 = x mod 16)%N as L4 by (intro; apply (N.land_ones x 4)).
  assert (forall x, N.land x 127 = x mod 128)%N as L7 by (intro; apply (N.land_ones x 7)).
  rewrite !N.shiftr_div_pow2, L6, L7. change (2 ^ 6)%N with 64%N. change (2 ^ 12)%N with 4096%N.
  rewrite L5, L4, L6.
  destruct (N.leb_spec v 127) as [A | A].
  { replace (v <? 128)%N with true by (symmetry; apply N.ltb_lt; lia). cbn [map].
    now rewrite N.mod_small by lia. }
  replace (v <? 128)%N with false by (symmetry; apply N.ltb_ge; lia).
  destruct (N.leb_spec v 2047) as [B | B].
  { replace (v <? 2048)%N with true by (symmetry; apply N.ltb_lt; lia). cbn [map].
    assert (v / 64 < 32)%N by (apply N.div_lt_upper_bound; lia).
    rewrite (N.mod_small (v / 64)) by lia.
    pose proof (N.mod_lt v 64 ltac:(lia)).
    destruct (lor_add (v / 64) ltac:(lia)) as (_ & -> & _); [|lia].
    destruct (lor_add (v mod 64) ltac:(lia)) as (-> & _). reflexivity. }
  replace (v <? 2048)%N with false by (symmetry; apply N.ltb_ge; lia).
  replace (v <? 65536)%N with true by (symmetry; apply N.ltb_lt; lia). cbn [map].
  assert (v / 4096 < 16)%N by (apply N.div_lt_upper_bound; lia).
  rewrite (N.mod_small (v / 4096)) by lia.
  pose proof (N.mod_lt v 64 ltac:(lia)). pose proof (N.mod_lt (v / 64) 64 ltac:(lia)).
  destruct (lor_add (v / 4096) ltac:(lia)) as (_ & _ & ->); [|lia].
  destruct (lor_add (v / 64 mod 64) ltac:(lia)) as (-> & _).
  destruct (lor_add (v mod 64) ltac:(lia)) as (-> & _). reflexivity.
Qed.

Lemma str_body_chars : forall t s, chars t s -> forall r acc,
  str_body (t ++ QUOTE :: r) acc = POk (rev acc ++ s) r.
Proof.
  induction 1 as [| c t s H1 H2 H3 _ IH | c n t s Hc _ IH | q v t s Hq Hv _ IH]; intros r acc.
  - cbn. now rewrite app_nil_r.
  - cbn [List.app str_body].
    assert (Ascii.eqb c QUOTE = false) as -> by (apply Ascii.eqb_neq; exact H2).
    assert (Ascii.eqb c BACKSLASH = false) as -> by (apply Ascii.eqb_neq; exact H3).
    rewrite IH. cbn [rev]. now rewrite <- app_assoc.
  - cbn [List.app].
    assert (str_body ("\"%char :: c :: t ++ QUOTE :: r) acc = str_body (t ++ QUOTE :: r) (ascii_of_N n :: acc)) as ->.
    { cbn [In LETTERS] in Hc. repeat (destruct Hc as [Hc | Hc]; [injection Hc as <- <-; reflexivity|]). contradiction. }
    rewrite IH. cbn [rev]. now rewrite <- app_assoc.
  - cbn [List.app]. rewrite <- app_assoc.
    destruct (quad_hex4 q v (t ++ QUOTE :: r) Hq) as (a & b & c & d & -> & Hh & Hl).
    cbn [str_body]. change (Ascii.eqb "\"%char QUOTE) with false. change (Ascii.eqb "\"%char BACKSLASH) with true.
    change (Ascii.eqb "u"%char (chr 117)) with true. cbv iota. rewrite Hh, utf8_same by exact Hl.
    rewrite IH. rewrite rev_app_distr, rev_involutive. now rewrite <- app_assoc.
Qed.

Lemma parse_string_chars : forall t s w r, blank w -> chars t s ->
  parse_string (w ++ bs """" ++ t ++ bs """" ++ r) = POk s r.
Proof.
  intros t s w r Hw H. unfold parse_string.
  assert (skip_ws (w ++ bs """" ++ t ++ bs """" ++ r) = QUOTE :: t ++ QUOTE :: r) as ->.
  { unfold skip_ws. induction Hw as [| c w Hc Hw IH]; [reflexivity|].
    cbn [List.app drop_while].
    assert (is_ws c = true) as ->; [|exact IH].
    cbn [In] in Hc. unfold is_ws.
    destruct Hc as [Hc | [Hc | [Hc | [Hc | []]]]];
      rewrite <- (ascii_N_embedding c), <- Hc; reflexivity. }
  change (Ascii.eqb QUOTE QUOTE) with true. cbv iota. now rewrite (str_body_chars t s H).
Qed.

Lemma blank_ws : forall w, blank w -> forallb is_ws w = true.
Proof.
  intros w H. apply forallb_forall. unfold blank in H. rewrite Forall_forall in H. intros c Hc.
  specialize (H c Hc). cbn [In] in H. unfold is_ws.
  destruct H as [H | [H | [H | [H | []]]]]; rewrite <- (ascii_N_embedding c), <- H; reflexivity.
Qed.

Lemma skip_blank : forall w s, blank w -> skip_ws (w ++ s) = skip_ws s.
Proof.
  intros w s H. apply blank_ws in H. unfold skip_ws.
  induction w as [| c w IH]; [reflexivity|]. cbn [forallb List.app drop_while] in *.
  apply andb_true_iff in H as [-> H]. now apply IH.
Qed.

Lemma match_blank : forall c w s, blank w -> match_char c (w ++ s) = match_char c s.
Proof. intros. unfold match_char. now rewrite skip_blank. Qed.

Lemma match_hit : forall c w s, blank w -> is_ws c = false -> match_char c (w ++ c :: s) = Some s.
Proof. intros. rewrite match_blank by assumption. now apply match_char_head. Qed.

Lemma match_miss : forall c d w s, blank w -> is_ws d = false -> Ascii.eqb d c = false ->
  match_char c (w ++ d :: s) = None.
Proof. intros. rewrite match_blank by assumption. now apply match_char_other. Qed.

Lemma value_blank : forall f w s, blank w -> parse_value f (w ++ s) = parse_value f s.
Proof.
  intros f w s H. destruct f as [| f]; [reflexivity|]. cbn [parse_value]. now rewrite skip_blank.
Qed.

Lemma blank_end : forall w c r, blank w -> value_end (c :: r) -> value_end (w ++ c :: r).
Proof.
  intros w c r Hw Hc. destruct Hw as [| d w Hd Hw]; [exact Hc|]. cbn [List.app value_end].
  cbn [In] in Hd. rewrite <- (ascii_N_embedding d).
  destruct Hd as [Hd | [Hd | [Hd | [Hd | []]]]]; rewrite <- Hd; repeat split; discriminate.
Qed.

(** The first byte of a text: not white space, and not a closing bracket. *)
Lemma text_head : forall t v, text t v -> exists c r, t = c :: r /\ is_ws c = false /\
  Ascii.eqb c RBRACK = false /\ Ascii.eqb c RBRACE = false.
Proof.
  intros t v H. destruct H as [ | | | t z Hi _ | t neg num den d Hr _ _ | t s _ | w _ | t l _ | w _ | t ms _ _];
    try (eexists _, _; split; [reflexivity|repeat split; reflexivity]).
  - destruct (number_head t [] (or_intror (ex_intro _ z Hi))) as (c & r & -> & Hn & _).
    exists c, r. split; [easy|]. pose proof (num_head_props c Hn) as P. split; [apply P|].
    destruct Hn as [-> | Hn]; [split; reflexivity|]. split; now apply digit_neq.
  - destruct (number_head t []) as (c & r & -> & Hn & _); [left; eauto|].
    exists c, r. split; [easy|]. pose proof (num_head_props c Hn) as P. split; [apply P|].
    destruct Hn as [-> | Hn]; [split; reflexivity|]. split; now apply digit_neq.
Qed.

Definition put_all (ms : list (bstr * json)) (o : obj) : obj :=
  fold_left (fun o kv => obj_set (fst kv) (snd kv) o) ms o.

Lemma put_all_new : forall ms o, NoDup (map fst o ++ map fst ms) -> put_all ms o = o ++ ms.
Proof.
  induction ms as [| [k v] ms IH]; intros o H; [cbn; now rewrite app_nil_r|].
  cbn [map fst snd put_all fold_left] in *. fold (put_all ms (obj_set k v o)).
  assert (~ In k (map fst o)) as Hk.
  { intros Hi. apply NoDup_remove_2 in H. apply H. apply in_or_app. now left. }
  rewrite (obj_set_new k v o Hk). rewrite IH.
  - now rewrite <- app_assoc.
  - rewrite map_app. cbn [map fst]. rewrite <- app_assoc. exact H.
Qed.

Scheme text_mut := Induction for text Sort Prop
  with items_mut := Induction for items Sort Prop
  with members_mut := Induction for members Sort Prop.

Definition Pt (t : bstr) (v : json) : Prop :=
  forall rest, value_end rest -> exists f, forall g, f <= g -> parse_value g (t ++ rest) = POk v rest.
Definition Pi (t : bstr) (l : list json) : Prop :=
  forall rest acc, exists f, forall g, f <= g ->
    arr_loop g (t ++ RBRACK :: rest) acc = POk (JArr (acc ++ l)) rest.
Definition Pm (t : bstr) (ms : list (bstr * json)) : Prop :=
  forall rest acc, exists f, forall g, f <= g ->
    obj_loop g (t ++ RBRACE :: rest) acc = POk (JObj (put_all ms acc)) rest.

Lemma items_head : forall t l, items t l -> exists w c r, t = w ++ c :: r /\ blank w /\ is_ws c = false /\
  Ascii.eqb c RBRACK = false.
Proof.
  intros t l H. destruct H as [w1 t w2 v H1 H2 Ht | w1 t w2 v t' l H1 H2 Ht _];
    destruct (text_head t v Ht) as (c & r & -> & A1 & A2 & _).
  - exists w1, c, (r ++ w2). now repeat split.
  - exists w1, c, (r ++ w2 ++ bs "," ++ t'). now repeat split.
Qed.

Lemma members_head : forall t ms, members t ms -> exists w r, t = w ++ QUOTE :: r /\ blank w.
Proof.
  intros t ms H. destruct H; exists w1; (eexists; split; [reflexivity|assumption]).
Qed.

Lemma obj_step : forall g w1 k k' w2 w3 t w4 v c s acc,
  blank w1 -> blank w2 -> blank w3 -> blank w4 -> chars k k' -> value_end (c :: s) ->
  parse_value g (t ++ w4 ++ c :: s) = POk v (w4 ++ c :: s) ->
  obj_loop (S g) ((w1 ++ bs """" ++ k ++ bs """" ++ w2 ++ bs ":" ++ w3 ++ t ++ w4) ++ c :: s) acc =
    match match_char RBRACE (w4 ++ c :: s) with
    | Some r' => POk (JObj (obj_set k' v acc)) r'
    | None => match match_char COMMA (w4 ++ c :: s) with
              | Some r' => obj_loop g r' (obj_set k' v acc)
              | None => PThrow
              end
    end.
Proof.
  intros g w1 k k' w2 w3 t w4 v c s acc H1 H2 H3 H4 Hk Hc Hv. cbn [obj_loop].
  rewrite <- !app_assoc. rewrite (parse_string_chars k k' w1) by assumption.
  change (bs ":") with [COLON]. cbn [List.app].
  rewrite (match_hit COLON w2) by (assumption || reflexivity).
  rewrite value_blank by assumption. rewrite Hv. reflexivity.
Qed.

Lemma step_null : Pt (bs "null") JNull.
Proof. intros rest _. exists 1. intros [| g] Hg; [lia|]. reflexivity. Qed.
Lemma step_true : Pt (bs "true") (JBool true).
Proof. intros rest _. exists 1. intros [| g] Hg; [lia|]. reflexivity. Qed.
Lemma step_false : Pt (bs "false") (JBool false).
Proof. intros rest _. exists 1. intros [| g] Hg; [lia|]. reflexivity. Qed.

Lemma step_int : forall t z, int_text t z -> (- 2 ^ 63 <= z < 2 ^ 63)%Z -> Pt t (JInt z).
Proof.
  intros t z H R rest Hr. exists 1. intros [| g] Hg; [lia|].
  destruct (number_head t rest (or_intror (ex_intro _ z H))) as (c & r & _ & _ & ->).
  unfold number_or. rewrite (read_int t z rest H Hr).
  replace ((- 2 ^ 63 <=? z) && (z <? 2 ^ 63))%Z%bool with true; [reflexivity|].
  symmetry. apply andb_true_iff. split; [apply Z.leb_le|apply Z.ltb_lt]; apply R.
Qed.

Lemma step_real : forall t neg num den d, real_text t neg num den -> nearest neg num den d ->
  ~ too_small num den -> Pt t (JDbl d).
Proof.
  intros t neg num den d H N S0 rest Hr. exists 1. intros [| g] Hg; [lia|].
  destruct (number_head t rest) as (c & r & _ & _ & ->); [left; eauto|].
  unfold number_or. destruct (read_real t neg num den rest H Hr) as (o & -> & Ho).
  destruct o as [f |].
  - destruct Ho as [_ Ho]. now rewrite <- (Ho d N).
  - exfalso. destruct Ho as [Ho | Ho]; [|contradiction].
    destruct N as (_ & _ & N & _). unfold too_great in Ho.
    apply (Z.lt_irrefl num). eapply Z.lt_le_trans; eassumption.
Qed.

Lemma step_str : forall t s, chars t s -> Pt (bs """" ++ t ++ bs """") (JStr s).
Proof.
  intros t s H rest Hr. exists 1. intros [| g] Hg; [lia|]. cbn [parse_value].
  rewrite <- !app_assoc. change (bs """") with [QUOTE]. cbn [List.app].
  rewrite skip_ws_head by reflexivity. change (Ascii.eqb QUOTE QUOTE) with true. cbv iota.
  pose proof (parse_string_chars t s [] rest (Forall_nil _) H) as P.
  change (bs """") with [QUOTE] in P. cbn [List.app] in P. now rewrite P.
Qed.

Lemma open_arr : forall g s, parse_value (S g) (LBRACK :: s) =
  match match_char RBRACK s with Some r' => POk (JArr []) r' | None => arr_loop g s [] end.
Proof. reflexivity. Qed.

Lemma open_obj : forall g s, parse_value (S g) (LBRACE :: s) =
  match match_char RBRACE s with Some r' => POk (JObj []) r' | None => obj_loop g s [] end.
Proof. reflexivity. Qed.

Lemma step_arr0 : forall w, blank w -> Pt (bs "[" ++ w ++ bs "]") (JArr []).
Proof.
  intros w H rest _. exists 1. intros [| g] Hg; [lia|].
  change (bs "[") with [LBRACK]. change (bs "]") with [RBRACK]. cbn [List.app]. rewrite open_arr, <- app_assoc.
  cbn [List.app]. now rewrite match_hit.
Qed.

Lemma step_obj0 : forall w, blank w -> Pt (bs "{" ++ w ++ bs "}") (JObj []).
Proof.
  intros w H rest _. exists 1. intros [| g] Hg; [lia|].
  change (bs "{") with [LBRACE]. change (bs "}") with [RBRACE]. cbn [List.app]. rewrite open_obj, <- app_assoc.
  cbn [List.app]. now rewrite match_hit.
Qed.

Lemma step_arr : forall t l, items t l -> Pi t l -> Pt (bs "[" ++ t ++ bs "]") (JArr l).
Proof.
  intros t l Hi H rest _. destruct (H rest []) as [f Hf]. exists (S f). intros [| g] Hg; [lia|].
  change (bs "[") with [LBRACK]. change (bs "]") with [RBRACK]. cbn [List.app]. rewrite open_arr, <- app_assoc.
  cbn [List.app]. destruct (items_head t l Hi) as (w & c & r & -> & Hw & H1 & H2).
  assert (match_char RBRACK ((w ++ c :: r) ++ RBRACK :: rest) = None) as ->.
  { rewrite <- app_assoc. cbn [List.app]. now apply match_miss. }
  rewrite Hf by lia. reflexivity.
Qed.

Lemma obj_reads : forall t ms, members t ms -> Pm t ms ->
  Pt (bs "{" ++ t ++ bs "}") (JObj (put_all ms [])).
Proof.
  intros t ms Hi H rest _. destruct (H rest []) as [f Hf]. exists (S f). intros [| g] Hg; [lia|].
  change (bs "{") with [LBRACE]. change (bs "}") with [RBRACE]. cbn [List.app]. rewrite open_obj, <- app_assoc.
  cbn [List.app]. destruct (members_head t ms Hi) as (w & r & -> & Hw).
  assert (match_char RBRACE ((w ++ QUOTE :: r) ++ RBRACE :: rest) = None) as ->.
  { rewrite <- app_assoc. cbn [List.app]. now apply match_miss. }
  rewrite Hf by lia. reflexivity.
Qed.

Lemma step_obj : forall t ms, members t ms -> Pm t ms -> NoDup (map fst ms) ->
  Pt (bs "{" ++ t ++ bs "}") (JObj ms).
Proof.
  intros t ms Hi H N. pose proof (obj_reads t ms Hi H) as P. now rewrite (put_all_new ms [] N) in P.
Qed.

Lemma end_comma : forall r, value_end (COMMA :: r). Proof. intros. apply value_end_delim. cbn; auto. Qed.
Lemma end_rbrack : forall r, value_end (RBRACK :: r). Proof. intros. apply value_end_delim. cbn; auto. Qed.
Lemma end_rbrace : forall r, value_end (RBRACE :: r). Proof. intros. apply value_end_delim. cbn; auto. Qed.

Lemma step_one : forall w1 t w2 v, blank w1 -> blank w2 -> Pt t v -> Pi (w1 ++ t ++ w2) [v].
Proof.
  intros w1 t w2 v H1 H2 H rest acc.
  destruct (H (w2 ++ RBRACK :: rest) (blank_end _ _ _ H2 (end_rbrack _))) as [f Hf].
  exists (S f). intros [| g] Hg; [lia|]. cbn [arr_loop]. rewrite <- !app_assoc, value_blank by assumption.
  rewrite Hf by lia. rewrite (match_hit RBRACK w2) by (assumption || reflexivity). reflexivity.
Qed.

Lemma step_more : forall w1 t w2 v t' l, blank w1 -> blank w2 -> Pt t v -> Pi t' l ->
  Pi (w1 ++ t ++ w2 ++ bs "," ++ t') (v :: l).
Proof.
  intros w1 t w2 v t' l H1 H2 H H' rest acc.
  destruct (H (w2 ++ COMMA :: t' ++ RBRACK :: rest) (blank_end _ _ _ H2 (end_comma _))) as [f Hf].
  destruct (H' rest (acc ++ [v])) as [f' Hf'].
  exists (S (f + f')). intros [| g] Hg; [lia|]. cbn [arr_loop]. rewrite <- !app_assoc, value_blank by assumption.
  change (bs ",") with [COMMA]. cbn [List.app].
  rewrite Hf by lia. rewrite (match_miss RBRACK COMMA w2) by (assumption || reflexivity).
  rewrite (match_hit COMMA w2) by (assumption || reflexivity). rewrite Hf' by lia.
  now rewrite <- app_assoc.
Qed.

Lemma step_mone : forall w1 k k' w2 w3 t w4 v, blank w1 -> blank w2 -> blank w3 -> blank w4 -> chars k k' ->
  Pt t v -> Pm (w1 ++ bs """" ++ k ++ bs """" ++ w2 ++ bs ":" ++ w3 ++ t ++ w4) [(k', v)].
Proof.
  intros w1 k k' w2 w3 t w4 v H1 H2 H3 H4 Hk H rest acc.
  destruct (H (w4 ++ RBRACE :: rest) (blank_end _ _ _ H4 (end_rbrace _))) as [f Hf].
  exists (S f). intros [| g] Hg; [lia|].
  rewrite (obj_step g w1 k k' w2 w3 t w4 v RBRACE rest acc); try assumption; [|apply end_rbrace|apply Hf; lia].
  rewrite (match_hit RBRACE w4) by (assumption || reflexivity). reflexivity.
Qed.

Lemma step_mmore : forall w1 k k' w2 w3 t w4 v t' ms, blank w1 -> blank w2 -> blank w3 -> blank w4 ->
  chars k k' -> Pt t v -> Pm t' ms ->
  Pm (w1 ++ bs """" ++ k ++ bs """" ++ w2 ++ bs ":" ++ w3 ++ t ++ w4 ++ bs "," ++ t') ((k', v) :: ms).
Proof.
  intros w1 k k' w2 w3 t w4 v t' ms H1 H2 H3 H4 Hk H H' rest acc.
  destruct (H (w4 ++ COMMA :: t' ++ RBRACE :: rest) (blank_end _ _ _ H4 (end_comma _))) as [f Hf].
  destruct (H' rest (obj_set k' v acc)) as [f' Hf'].
  exists (S (f + f')). intros [| g] Hg; [lia|].
  pose proof (obj_step g w1 k k' w2 w3 t w4 v COMMA (t' ++ RBRACE :: rest) acc H1 H2 H3 H4 Hk (end_comma _)
    (Hf g ltac:(lia))) as E.
  replace ((w1 ++ bs """" ++ k ++ bs """" ++ w2 ++ bs ":" ++ w3 ++ t ++ w4 ++ bs "," ++ t') ++ RBRACE :: rest)
    with ((w1 ++ bs """" ++ k ++ bs """" ++ w2 ++ bs ":" ++ w3 ++ t ++ w4) ++ COMMA :: t' ++ RBRACE :: rest)
    by (rewrite <- !app_assoc; reflexivity).
  rewrite E. rewrite (match_miss RBRACE COMMA w4) by (assumption || reflexivity).
  rewrite (match_hit COMMA w4) by (assumption || reflexivity). rewrite Hf' by lia. reflexivity.
Qed.

Lemma text_reads : forall t v, text t v -> Pt t v.
Proof.
  apply (text_mut (fun t v _ => Pt t v) (fun t l _ => Pi t l) (fun t ms _ => Pm t ms));
    eauto using step_null, step_true, step_false, step_int, step_real, step_str, step_arr0, step_arr,
      step_obj0, step_obj, step_one, step_more, step_mone, step_mmore.
Qed.

Lemma members_read : forall t ms, members t ms -> Pm t ms.
Proof.
  apply (members_mut (fun t v _ => Pt t v) (fun t l _ => Pi t l) (fun t ms _ => Pm t ms));
    eauto using step_null, step_true, step_false, step_int, step_real, step_str, step_arr0, step_arr,
      step_obj0, step_obj, step_one, step_more, step_mone, step_mmore.
Qed.

Lemma enough : forall s v rest, (exists f, forall g, f <= g -> parse_value g s = POk v rest) ->
  parse_json s = POk v rest.
Proof.
  intros s v rest [f Hf]. rewrite <- (parse_fuel_irrelevant s (f + (2 * length s + 1))) by lia.
  apply Hf. lia.
Qed.

Lemma reads_text : forall w t v rest, blank w -> text t v -> value_end rest ->
  parse_json (w ++ t ++ rest) = POk v rest.
Proof.
  intros w t v rest Hw H Hr. apply enough. destruct (text_reads t v H rest Hr) as [f Hf].
  exists f. intros g Hg. rewrite value_blank by assumption. now apply Hf.
Qed.

Lemma reads_real : forall t neg num den rest, real_text t neg num den -> value_end rest ->
  (exists d, parse_json (t ++ rest) = POk (JDbl d) rest /\ nearest neg num den d) \/
  (parse_json (t ++ rest) = POk JNull rest /\ (too_great num den \/ too_small num den)).
Proof.
  intros t neg num den rest H Hr.
  assert (parse_json (t ++ rest) = number_or (t ++ rest)) as ->.
  { unfold parse_json. rewrite Nat.add_1_r.
    destruct (number_head t rest) as (c & r & _ & _ & E); [left; eauto|]. apply E. }
  unfold number_or. destruct (read_real t neg num den rest H Hr) as ([f |] & -> & Ho).
  - left. exists f. split; [reflexivity|]. apply Ho.
  - right. split; [reflexivity|exact Ho].
Qed.

Lemma reads_int : forall t z rest, int_text t z -> value_end rest ->
  parse_json (t ++ rest) = POk (if ((- 2 ^ 63 <=? z) && (z <? 2 ^ 63))%Z%bool then JInt z else JNull) rest.
Proof.
  intros t z rest H Hr.
  assert (parse_json (t ++ rest) = number_or (t ++ rest)) as ->.
  { unfold parse_json. rewrite Nat.add_1_r.
    destruct (number_head t rest) as (c & r & _ & _ & E); [right; eauto|]. apply E. }
  unfold number_or. now rewrite (read_int t z rest H Hr).
Qed.

(** Names that occur again: the last one counts. *)
Lemma put_all_get : forall ms o k,
  obj_get k (put_all ms o) =
  match find (fun kv => beq k (fst kv)) (rev ms) with Some kv => Some (snd kv) | None => obj_get k o end.
Proof.
  intros ms. induction ms as [| [k' v] ms IH] using rev_ind; intros o k; [reflexivity|].
  unfold put_all. rewrite fold_left_app, rev_app_distr. cbn [fold_left rev List.app find fst snd].
  fold (put_all ms o). specialize (IH o k). set (p := put_all ms o) in *.
  destruct (beq k k') eqn:E.
  - clear IH. apply beq_eq in E. subst k'. induction p as [| [a b] p IH]; cbn [obj_set obj_get].
    + now rewrite beq_refl.
    + destruct (beq k a) eqn:Ea; cbn [obj_get]; [now rewrite beq_refl|]. now rewrite Ea.
  - rewrite <- IH. clear IH. induction p as [| [a b] p IH]; cbn [obj_set obj_get].
    + now rewrite E.
    + destruct (beq k' a) eqn:Ea; cbn [obj_get].
      * apply beq_eq in Ea. subst a. now rewrite E.
      * destruct (beq k a); [reflexivity|]. exact IH.
Qed.

Lemma put_all_last : forall ms k v,
  obj_get k (put_all ms []) = Some v <->
  exists before after, ms = before ++ (k, v) :: after /\ ~ In k (map fst after).
Proof.
  intros ms k v. rewrite put_all_get. cbn [obj_get]. split.
  - destruct (find (fun kv => beq k (fst kv)) (rev ms)) as [[k' v'] |] eqn:F; [|discriminate].
    cbn [snd]. intros E. injection E as ->.
    assert (exists a b, rev ms = a ++ (k', v) :: b /\ forallb (fun kv => negb (beq k (fst kv))) a = true /\ beq k k' = true)
      as (a & b & Er & Ha & Hk).
    { revert F. generalize (rev ms). intro l. induction l as [| x l IH]; [discriminate|].
      cbn [find]. destruct (beq k (fst x)) eqn:Ex.
      - intros E. injection E as ->. exists [], l. now repeat split.
      - intros E. destruct (IH E) as (a & b & -> & Ha & Hk). exists (x :: a), b. repeat split; [|exact Hk].
        cbn. now rewrite Ex. }
    apply beq_eq in Hk. subst k'. exists (rev b), (rev a). split.
    + rewrite <- (rev_involutive ms), Er, rev_app_distr. cbn. now rewrite <- app_assoc.
    + rewrite map_rev, <- in_rev. intros Hi. apply in_map_iff in Hi as ([x y] & Ex & Hi). cbn in Ex. subst x.
      rewrite forallb_forall in Ha. specialize (Ha _ Hi). cbn in Ha. now rewrite beq_refl in Ha.
  - intros (before & after & -> & N). rewrite rev_app_distr. cbn [rev]. rewrite <- app_assoc. cbn [List.app].
    assert (find (fun kv => beq k (fst kv)) (rev after ++ (k, v) :: rev before) = Some (k, v)) as ->; [|reflexivity].
    assert (~ In k (map fst (rev after))) as N' by (rewrite map_rev, <- in_rev; exact N).
    induction (rev after) as [| [x y] l IH]; cbn [List.app find fst].
    + now rewrite beq_refl.
    + destruct (beq k x) eqn:E.
      * apply beq_eq in E. subst x. exfalso. apply N'. now left.
      * apply IH. intros Hi. apply N'. now right.
Qed.

Lemma reads_members : forall w t ms rest, blank w -> members t ms -> value_end rest ->
  exists o, parse_json (w ++ bs "{" ++ t ++ bs "}" ++ rest) = POk (JObj o) rest /\
    (forall k v, obj_get k o = Some v <->
       exists before after, ms = before ++ (k, v) :: after /\ ~ In k (map fst after)).
Proof.
  intros w t ms rest Hw H Hr. exists (put_all ms []). split; [|apply put_all_last].
  apply enough. destruct (obj_reads t ms H (members_read t ms H) rest Hr) as [f Hf].
  exists f. intros g Hg. rewrite value_blank by assumption. specialize (Hf g Hg).
  now rewrite <- !app_assoc in Hf.
Qed.
