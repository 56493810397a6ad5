From Coq Require Import Ascii String List Permutation Arith NArith ZArith Bool Lia ZifyBool ZifyNat ZifyN.
From Verif Require Import StrModel StrProofs DoubleModel JsonModel JsonSpec DoubleProofs JsonProofs RpcModel RpcSpec RpcProofs RouterModel.
Import ListNotations.
Local Open Scope nat_scope.

(** Bytes that do not matter between tokens. *)
Definition dull (c : ascii) : bool :=
  negb (Ascii.eqb c QUOTE || Ascii.eqb c LBRACE || Ascii.eqb c RBRACE).

Lemma scan_dull1 : forall k d c r, dull c = true -> top_scan k d Out (c :: r) = top_scan k d Out r.
Proof.
  intros k d c r H. unfold dull in H. apply negb_true_iff in H.
  apply orb_false_iff in H as [H H3]. apply orb_false_iff in H as [H1 H2].
  cbn [top_scan]. unfold scan_out. now rewrite H1, H2, H3.
Qed.

Lemma scan_dull : forall k d t r, forallb dull t = true -> top_scan k d Out (t ++ r) = top_scan k d Out r.
Proof.
  intros k d t r. induction t as [|c t IH]; intro H; [reflexivity|].
  cbn [forallb] in H. apply andb_true_iff in H as [H1 H2]. cbn [app]. rewrite scan_dull1 by easy. auto.
Qed.

Lemma digit_dull : forall c, is_digit c = true -> dull c = true.
Proof.
  intros c H. unfold dull. rewrite !(digit_neq c) by easy. reflexivity.
Qed.

Lemma print_N_dull : forall n, forallb dull (print_N n) = true.
Proof.
  intro n. destruct (print_N_spec n) as (_ & H & _). rewrite forallb_forall in *.
  intros c Hc. apply digit_dull. auto.
Qed.

Lemma print_Z_dull : forall z, forallb dull (print_Z z) = true.
Proof.
  intro z. unfold print_Z. destruct (Z.ltb z 0); [|apply print_N_dull]. cbn [forallb]. now rewrite print_N_dull.
Qed.

Lemma pad_dull : forall k n, forallb dull (pad_digits k n) = true.
Proof.
  induction k as [|k IH]; intros n; cbn [pad_digits]; [reflexivity|].
  rewrite forallb_app, IH. cbn [forallb]. rewrite digit_dull; [reflexivity|].
  apply digit_is_digit. apply N.mod_lt. lia.
Qed.

Lemma print_double_dull : forall d, forallb dull (print_double d) = true.
Proof.
  assert (forall s, forallb dull (sign_text s) = true) as Hs by (intros [|]; reflexivity).
  intros [s|s m e|s|s]; cbn [print_double]; rewrite ?forallb_app, Hs; try reflexivity.
  rewrite print_N_dull, pad_dull. reflexivity.
Qed.

Lemma scan_key_plain : forall k d w r acc, plain w ->
  top_scan k d (InKey false acc) (w ++ QUOTE :: r) = top_scan k d (AfterKey (rev acc ++ w)) r.
Proof.
  intros k d w r. induction w as [|c w IH]; intros acc [H1 H2].
  - cbn [app top_scan]. change (Ascii.eqb QUOTE BACKSLASH) with false. rewrite eqb_refl, app_nil_r. reflexivity.
  - cbn [app top_scan].
    destruct (Ascii.eqb c BACKSLASH) eqn:E1; [apply eqb_eq in E1; subst; exfalso; apply H2; now left|].
    destruct (Ascii.eqb c QUOTE) eqn:E2; [apply eqb_eq in E2; subst; exfalso; apply H1; now left|].
    rewrite IH.
    + cbn [rev]. rewrite <- app_assoc. reflexivity.
    + split; cbn in *; tauto.
Qed.

Lemma scan_key_esc : forall k d s r acc,
  exists w, top_scan k d (InKey false acc) (esc s ++ QUOTE :: r) = top_scan k d (AfterKey w) r.
Proof.
  intros k d s r. induction s as [|c s IH]; intros acc.
  - exists (rev acc). reflexivity.
  - cbn [esc flat_map]. fold (esc s). rewrite <- app_assoc.
    pose proof (esc_step c) as H. unfold esc_step_ok in H.
    destruct (esc_char c) as [|x1 [|x2 [|x3 [|x4 [|x5 [|x6 [|x7 l]]]]]]]; try discriminate.
    + apply andb_true_iff in H as [H H3]. apply andb_true_iff in H as [_ H2].
      apply negb_true_iff in H2, H3. cbn [app top_scan]. rewrite H3, H2. apply IH.
    + apply andb_true_iff in H as [H _]. apply andb_true_iff in H as [H _]. apply eqb_eq in H as ->.
      cbn [app top_scan]. rewrite eqb_refl. apply IH.
    + apply andb_true_iff in H as [H H3]. apply andb_true_iff in H as [H H2].
      apply eqb_eq in H as ->. apply eqb_eq in H2 as ->.
      cbn [app top_scan]. rewrite eqb_refl. change (Ascii.eqb (chr 117) BACKSLASH) with false.
      assert (forall h, hex_val h <> None -> Ascii.eqb h BACKSLASH = false /\ Ascii.eqb h QUOTE = false) as Hh.
      { intros h Hh. split; apply eqb_neq; intros ->; apply Hh; reflexivity. }
      unfold hex4 in H3.
      destruct (hex_val x3) eqn:E3; [|discriminate]. destruct (hex_val x4) eqn:E4; [|discriminate].
      destruct (hex_val x5) eqn:E5; [|discriminate]. destruct (hex_val x6) eqn:E6; [|discriminate].
      destruct (Hh x3) as [-> ->]; [congruence|]. destruct (Hh x4) as [-> ->]; [congruence|].
      destruct (Hh x5) as [-> ->]; [congruence|]. destruct (Hh x6) as [-> ->]; [congruence|].
      apply IH.
Qed.

Lemma scan_after_delim : forall k d w r, delim r -> top_scan k d (AfterKey w) r = top_scan k d Out r.
Proof.
  intros k d w [|c r] H; [reflexivity|]. cbn [top_scan].
  cbn in H. destruct H as [<-|[<-|[<-|[]]]]; reflexivity.
Qed.

Lemma scan_quote : forall k d r, top_scan k d Out (QUOTE :: r) = top_scan k d (InKey false []) r.
Proof. reflexivity. Qed.

Lemma scan_colon : forall k d w r, top_scan k d (AfterKey w) (COLON :: r) =
  if (Nat.eqb d 1 && beq w k)%bool then true else top_scan k d Out r.
Proof. reflexivity. Qed.

(** A text the scanner passes over at any depth. *)
Definition passes (t : bstr) : Prop :=
  forall k d r, delim r -> top_scan k (S d) Out (t ++ r) = top_scan k (S d) Out r.

Lemma passes_dull : forall t, forallb dull t = true -> passes t.
Proof. intros t H k d r _. now apply scan_dull. Qed.

Lemma passes_quoted : forall w, plain w -> passes (QUOTE :: w ++ [QUOTE]).
Proof.
  intros w Hw k d r Hr. cbn [app]. rewrite <- app_assoc. cbn [app].
  rewrite scan_quote, scan_key_plain by easy. now apply scan_after_delim.
Qed.

Lemma passes_str : forall s, passes (ser_str s).
Proof.
  intros s k d r Hr. unfold ser_str. cbn [app]. rewrite <- app_assoc. cbn [app].
  rewrite scan_quote. destruct (scan_key_esc k (S d) s r []) as [w ->]. now apply scan_after_delim.
Qed.

Lemma scan_join : forall k d ts r, delim r ->
  (forall t, In t ts -> forall r, delim r -> top_scan k (S d) Out (t ++ r) = top_scan k (S d) Out r) ->
  top_scan k (S d) Out (join [COMMA] ts ++ r) = top_scan k (S d) Out r.
Proof.
  intros k d ts r Hr H. induction ts as [|t ts IH]; [reflexivity|]. destruct ts as [|t2 ts].
  - cbn [join]. apply H; [now left|easy].
  - change (join [COMMA] (t :: t2 :: ts)) with (t ++ [COMMA] ++ join [COMMA] (t2 :: ts)).
    rewrite <- !app_assoc. rewrite (H t) by (cbn; auto). cbn [app]. rewrite scan_dull1 by reflexivity.
    apply IH. intros x Hx. apply H. now right.
Qed.

(** A member inside a nested object. *)
Lemma scan_member_deep : forall k d w t r, plain w ->
  top_scan k (S (S d)) Out (ser_member w t ++ r) = top_scan k (S (S d)) Out (t ++ r).
Proof.
  intros k d w t r Hw. unfold ser_member.
  replace ((QUOTE :: w ++ [QUOTE; COLON] ++ t) ++ r) with (QUOTE :: w ++ QUOTE :: COLON :: t ++ r)
    by (cbn [app]; rewrite <- app_assoc; reflexivity).
  rewrite scan_quote, scan_key_plain by easy. rewrite scan_colon. reflexivity.
Qed.

Inductive keys_plain : json -> Prop :=
| kp_null : keys_plain JNull
| kp_bool b : keys_plain (JBool b)
| kp_int z : keys_plain (JInt z)
| kp_dbl d : keys_plain (JDbl d)
| kp_str s : keys_plain (JStr s)
| kp_arr l : Forall keys_plain l -> keys_plain (JArr l)
| kp_obj l : Forall plain (map fst l) -> Forall keys_plain (map snd l) -> keys_plain (JObj l).

Lemma ok_keys_plain : forall v, ok v -> keys_plain v.
Proof.
  induction v as [| b | z | d | s | l IH | l IH] using json_ind'; intro H; inversion H; subst; constructor.
  - rewrite Forall_forall in *. auto.
  - assumption.
  - rewrite Forall_forall in *. auto.
Qed.

Lemma passes_ser : forall v, keys_plain v -> passes (ser v).
Proof.
  induction v as [| b | z | d | s | l IH | l IH] using json_ind'; intro Ho; cbn [ser].
  - now apply passes_dull.
  - apply passes_dull. now destruct b.
  - apply passes_dull, print_Z_dull.
  - apply passes_dull, print_double_dull.
  - apply passes_str.
  - inversion Ho; subst. intros k d r Hr. cbn [app]. rewrite scan_dull1 by reflexivity.
    rewrite <- app_assoc. rewrite scan_join; [|apply delim_brack|].
    + cbn [app]. now rewrite scan_dull1.
    + rewrite Forall_forall in *. intros t Ht r' Hr'. apply in_map_iff in Ht as (x & <- & Hx).
      apply IH; auto.
  - inversion Ho; subst. intros k d r Hr. cbn [app].
    match goal with |- top_scan k (S d) Out (LBRACE :: ?x) = _ =>
      change (top_scan k (S d) Out (LBRACE :: x)) with (top_scan k (S (S d)) Out x) end.
    rewrite <- app_assoc. rewrite scan_join; [reflexivity|apply delim_brace|].
    rewrite Forall_forall in *. intros t Ht r' Hr'. apply in_map_iff in Ht as ([k1 x] & <- & Hx).
    cbn [fst snd].
    assert (In k1 (map fst l)) as Hk1 by (apply in_map_iff; now exists (k1, x)).
    assert (In x (map snd l)) as Hx1 by (apply in_map_iff; now exists (k1, x)).
    rewrite scan_member_deep by auto. apply IH; auto.
Qed.

(** Members of the top-level object. *)
Lemma scan_members : forall k l r, delim r -> Forall (fun m => plain (fst m)) l ->
  Forall (fun m => passes (snd m)) l ->
  top_scan k 1 Out (join [COMMA] (map member_text l) ++ r) =
  (existsb (fun m => beq (fst m) k) l || top_scan k 1 Out r)%bool.
Proof.
  intros k l r Hr H1 H2. induction l as [|[k1 t1] l IH]; [reflexivity|].
  inversion H1; subst. inversion H2; subst. cbn [fst snd] in *.
  assert (exists r1, join [COMMA] (map member_text ((k1, t1) :: l)) ++ r
            = QUOTE :: k1 ++ QUOTE :: COLON :: t1 ++ r1 /\ delim r1 /\
            top_scan k 1 Out r1 = top_scan k 1 Out (join [COMMA] (map member_text l) ++ r)) as (r1 & E & D & A).
  { cbn [map join]. destruct (map member_text l) as [|m2 ms] eqn:Em.
    - exists r. split; [|split; [easy|reflexivity]]. unfold member_text. cbn [fst snd app]. now rewrite <- !app_assoc.
    - exists ([COMMA] ++ join [COMMA] (m2 :: ms) ++ r). split; [|split].
      + unfold member_text at 1. cbn [fst snd app]. rewrite <- !app_assoc. reflexivity.
      + apply delim_comma.
      + cbn [app]. now apply scan_dull1. }
  rewrite E, scan_quote, scan_key_plain by easy. rewrite scan_colon. cbn [rev app existsb Nat.eqb andb fst].
  destruct (beq k1 k); [reflexivity|]. cbn [orb].
  match goal with H : passes t1 |- _ => rewrite H by easy end. rewrite A. now apply IH.
Qed.

Lemma has_top_key_message : forall k l, Forall (fun m => plain (fst m)) l ->
  Forall (fun m => passes (snd m)) l ->
  has_top_key k (message l) = existsb (fun m => beq (fst m) k) l.
Proof.
  intros k l H1 H2. unfold has_top_key, message. cbn [drop_while].
  change (is_ws LBRACE) with false. cbn iota. rewrite eqb_refl.
  rewrite scan_members; [|apply delim_brace|easy|easy]. apply orb_false_r.
Qed.

Lemma has_top_key_obj : forall k l, keys_plain (JObj l) ->
  has_top_key k (ser (JObj l)) = existsb (fun m => beq (fst m) k) l.
Proof.
  intros k l H. rewrite ser_obj_message. inversion H; subst. rewrite has_top_key_message.
  - induction l as [|[k1 v1] l IH]; [reflexivity|]. cbn [map existsb fst]. f_equal. apply IH.
    + constructor; [now inversion H1|now inversion H2].
    + now inversion H1.
    + now inversion H2.
  - rewrite Forall_forall in *. intros m Hm. apply in_map_iff in Hm as (kv & <- & Hkv). cbn.
    apply H1. now apply in_map.
  - rewrite Forall_forall in *. intros m Hm. apply in_map_iff in Hm as (kv & <- & Hkv). cbn.
    apply passes_ser. apply H2. now apply in_map.
Qed.

(** contains *)
Lemma contains_app : forall p a b, contains p (a ++ p ++ b) = true.
Proof.
  intros p a b. unfold contains. destruct (find_sub p (a ++ p ++ b)) eqn:E; [reflexivity|].
  pose proof (find_sub_none _ _ E (length a)) as H.
  specialize (H ltac:(rewrite !app_length; lia)). rewrite skipn_app_len, starts_with_app in H. discriminate.
Qed.

Lemma passes_id : forall i, (forall s, i = IdStr s -> plain s) -> passes (ser_id i).
Proof.
  intros [s|z|] H; cbn [ser_id].
  - apply passes_quoted. now apply H.
  - apply passes_dull, print_Z_dull.
  - now apply passes_dull.
Qed.

Lemma passes_version : passes (bs """2.0""").
Proof. apply (passes_quoted (bs "2.0")). now apply plainb_plain. Qed.

Lemma forall_opt_plain : forall k v, plainb k = true -> Forall (fun m : bstr * bstr => plain (fst m)) (opt_list k v).
Proof. intros k [v|] H; cbn [opt_list]; [apply Forall_cons; [now apply plainb_plain|]|]; apply Forall_nil. Qed.

Lemma forall_opt_passes : forall k v, (forall p, v = Some p -> ok p) -> Forall (fun m => passes (snd m)) (opt_list k v).
Proof.
  intros k [v|] H; cbn [opt_list]; [apply Forall_cons|]; try apply Forall_nil.
  apply passes_ser, ok_keys_plain. now apply H.
Qed.

Lemma top_key_request : forall r k, (forall s, rq_id r = IdStr s -> plain s) -> plain (rq_method r) ->
  (forall p, rq_params r = Some p -> ok p) ->
  has_top_key k (ser_request r) = existsb (fun m => beq (fst m) k) (rq_members r).
Proof.
  intros r k Hi Hm Hp. rewrite ser_request_message. apply has_top_key_message; unfold rq_members.
  - repeat (apply Forall_cons; [now apply plainb_plain|]). cbn [app]. now apply forall_opt_plain.
  - apply Forall_cons; [apply passes_version|]. apply Forall_cons; [now apply passes_id|].
    apply Forall_cons; [now apply passes_quoted|]. cbn [app]. now apply forall_opt_passes.
Qed.

Lemma top_key_notification : forall n k, plain (nt_method n) ->
  (forall p, nt_params n = Some p -> ok p) ->
  has_top_key k (ser_notification n) = existsb (fun m => beq (fst m) k) (nt_members n).
Proof.
  intros r k Hm Hp. rewrite ser_notification_message. apply has_top_key_message; unfold nt_members.
  - repeat (apply Forall_cons; [now apply plainb_plain|]). cbn [app]. now apply forall_opt_plain.
  - apply Forall_cons; [apply passes_version|].
    apply Forall_cons; [now apply passes_quoted|]. cbn [app]. now apply forall_opt_passes.
Qed.

Lemma top_key_response : forall r k, (forall s, rs_id r = IdStr s -> plain s) ->
  (forall p, rs_result r = Some p \/ rs_error r = Some p -> ok p) ->
  has_top_key k (ser_response r) = existsb (fun m => beq (fst m) k) (rs_members r).
Proof.
  intros r k Hi Hp. rewrite ser_response_message. apply has_top_key_message; unfold rs_members.
  - repeat (apply Forall_cons; [now apply plainb_plain|]). cbn [app].
    apply Forall_app. split; now apply forall_opt_plain.
  - apply Forall_cons; [apply passes_version|]. apply Forall_cons; [now apply passes_id|].
    cbn [app]. apply Forall_app. split; apply forall_opt_passes; auto.
Qed.

Lemma request_contains_method : forall r, contains (bs """method""") (ser_request r) = true.
Proof.
  intro r. unfold ser_request.
  change (bs ",""method"":""") with (COMMA :: bs """method""" ++ [COLON; QUOTE]).
  replace (HEAD ++ bs ",""id"":" ++ ser_id (rq_id r) ++ (COMMA :: bs """method""" ++ [COLON; QUOTE])
     ++ rq_method r ++ [QUOTE] ++ opt_member (bs "params") (rq_params r) ++ [RBRACE])
    with ((HEAD ++ bs ",""id"":" ++ ser_id (rq_id r) ++ [COMMA]) ++ bs """method""" ++ ([COLON; QUOTE]
     ++ rq_method r ++ [QUOTE] ++ opt_member (bs "params") (rq_params r) ++ [RBRACE])).
  - apply contains_app.
  - repeat rewrite <- app_assoc. cbn [app]. repeat rewrite <- app_assoc. reflexivity.
Qed.

Lemma notification_contains_method : forall n, contains (bs """method""") (ser_notification n) = true.
Proof.
  intro n. unfold ser_notification.
  change (bs ",""method"":""") with (COMMA :: bs """method""" ++ [COLON; QUOTE]).
  replace (HEAD ++ (COMMA :: bs """method""" ++ [COLON; QUOTE])
     ++ nt_method n ++ [QUOTE] ++ opt_member (bs "params") (nt_params n) ++ [RBRACE])
    with ((HEAD ++ [COMMA]) ++ bs """method""" ++ ([COLON; QUOTE]
     ++ nt_method n ++ [QUOTE] ++ opt_member (bs "params") (nt_params n) ++ [RBRACE])).
  - apply contains_app.
  - repeat rewrite <- app_assoc. cbn [app]. repeat rewrite <- app_assoc. reflexivity.
Qed.

Lemma classify_request : forall r, (forall s, rq_id r = IdStr s -> plain s) -> plain (rq_method r) ->
  (forall p, rq_params r = Some p -> ok p) -> classify (ser_request r) = KRequest.
Proof.
  intros r Hi Hm Hp. unfold classify. rewrite !top_key_request by easy. rewrite request_contains_method.
  unfold rq_members. destruct (rq_params r); reflexivity.
Qed.

Lemma classify_notification : forall n, plain (nt_method n) ->
  (forall p, nt_params n = Some p -> ok p) -> classify (ser_notification n) = KNotification.
Proof.
  intros n Hm Hp. unfold classify. rewrite !top_key_notification by easy. rewrite notification_contains_method.
  unfold nt_members. destruct (nt_params n); reflexivity.
Qed.

Lemma classify_response : forall r, (forall s, rs_id r = IdStr s -> plain s) ->
  (forall p, rs_result r = Some p \/ rs_error r = Some p -> ok p) ->
  rs_result r <> None \/ rs_error r <> None -> classify (ser_response r) = KResponse.
Proof.
  intros r Hi Hp Hne. unfold classify. rewrite !top_key_response by easy.
  unfold rs_members. destruct (rs_result r), (rs_error r); try reflexivity. destruct Hne; easy.
Qed.

Lemma existsb_key : forall k (l : obj), existsb (fun m => beq (fst m) k) l = true <-> In k (map fst l).
Proof.
  intros k l. rewrite existsb_exists, in_map_iff. split.
  - intros (m & Hm & E). apply beq_eq in E. now exists m.
  - intros (m & E & Hm). exists m. split; [easy|]. now apply beq_eq.
Qed.

Lemma has_top_key_iff : forall k l, ok (JObj l) -> has_top_key k (ser (JObj l)) = true <-> In k (map fst l).
Proof.
  intros k l H. rewrite has_top_key_obj by now apply ok_keys_plain. apply existsb_key.
Qed.

Lemma contains_ser_obj : forall k l, In k (map fst l) -> contains (QUOTE :: k ++ [QUOTE]) (ser (JObj l)) = true.
Proof.
  intros k l H. cbn [ser].
  assert (forall l r, In k (map fst l) -> exists a b,
    join [COMMA] (map (fun kv : bstr * json => ser_member (fst kv) (ser (snd kv))) l) ++ r = a ++ (QUOTE :: k ++ [QUOTE]) ++ b) as J.
  { clear. intros l. induction l as [|[k1 v1] l IH]; intros r Hk; [easy|].
    destruct Hk as [E|Hk].
    - cbn in E. subst k1. exists []. cbn [map join fst snd].
      destruct (map (fun kv : bstr * json => ser_member (fst kv) (ser (snd kv))) l) as [|m ms].
      + exists (COLON :: ser v1 ++ r). unfold ser_member. cbn [app]. rewrite <- !app_assoc. reflexivity.
      + eexists (COLON :: ser v1 ++ _). unfold ser_member at 1. cbn [app]. rewrite <- !app_assoc. cbn [app].
        repeat rewrite <- app_assoc. reflexivity.
    - destruct (IH r Hk) as (a & b & E). cbn [map join].
      destruct (map (fun kv : bstr * json => ser_member (fst kv) (ser (snd kv))) l) as [|m ms] eqn:Em.
      { destruct l; [destruct Hk|discriminate]. }
      exists (ser_member (fst (k1, v1)) (ser (snd (k1, v1))) ++ [COMMA] ++ a), b.
      rewrite <- !app_assoc. rewrite E. reflexivity. }
  destruct (J l [RBRACE] H) as (a & b & E). rewrite E.
  change (LBRACE :: a ++ (QUOTE :: k ++ [QUOTE]) ++ b) with ((LBRACE :: a) ++ (QUOTE :: k ++ [QUOTE]) ++ b).
  apply contains_app.
Qed.

Lemma classify_obj : forall l, ok (JObj l) ->
  (In (bs "result") (map fst l) \/ In (bs "error") (map fst l) -> classify (ser (JObj l)) = KResponse) /\
  (~ In (bs "result") (map fst l) -> ~ In (bs "error") (map fst l) -> In (bs "method") (map fst l) ->
   classify (ser (JObj l)) = if existsb (beq (bs "id")) (map fst l) then KRequest else KNotification).
Proof.
  intros l H. pose proof (fun k => has_top_key_iff k l H) as K. unfold classify. split.
  - intros [Hr|Hr]; apply K in Hr; rewrite Hr; [reflexivity|]. now rewrite orb_true_r.
  - intros H1 H2 H3.
    assert (has_top_key (bs "result") (ser (JObj l)) = false) as -> by (destruct (has_top_key _ _) eqn:E; [apply K in E; easy|easy]).
    assert (has_top_key (bs "error") (ser (JObj l)) = false) as -> by (destruct (has_top_key _ _) eqn:E; [apply K in E; easy|easy]).
    cbn [orb]. change (bs """method""") with (QUOTE :: bs "method" ++ [QUOTE]).
    rewrite (contains_ser_obj (bs "method") l H3).
    assert (has_top_key (bs "id") (ser (JObj l)) = existsb (beq (bs "id")) (map fst l)) as ->; [|reflexivity].
    destruct (existsb (beq (bs "id")) (map fst l)) eqn:E.
    + apply K. apply existsb_exists in E as (x & Hx & E). apply beq_eq in E. now subst.
    + destruct (has_top_key _ _) eqn:E2; [|reflexivity]. apply K in E2.
      rewrite <- E. symmetry. apply existsb_exists. exists (bs "id"). split; [easy|apply beq_refl].
Qed.

(** White space before the object and anything after it make no difference. *)
Lemma has_top_key_around : forall k ws l rest, forallb is_ws ws = true -> ok (JObj l) ->
  has_top_key k (ws ++ ser (JObj l) ++ rest) = has_top_key k (ser (JObj l)).
Proof.
  intros k ws l rest Hw H. apply ok_keys_plain in H. rewrite has_top_key_obj by easy.
  rewrite ser_obj_message. unfold message. inversion H; subst.
  assert (forall m, has_top_key k (ws ++ LBRACE :: m) = top_scan k 1 Out m) as A.
  { intro m. unfold has_top_key. induction ws as [|c ws IH]; [reflexivity|]. cbn in Hw. apply andb_true_iff in Hw as [W1 W2].
    cbn [app drop_while]. rewrite W1. now apply IH. }
  cbn [app]. rewrite A. rewrite <- app_assoc. rewrite scan_members.
  - assert (top_scan k 1 Out ([RBRACE] ++ rest) = false) as -> by reflexivity. rewrite orb_false_r. clear.
    induction l as [|[k1 v1] l IH]; [reflexivity|]. cbn [map existsb fst]. now rewrite IH.
  - apply delim_brace.
  - rewrite Forall_forall in *. intros m Hm. apply in_map_iff in Hm as (kv & <- & Hkv). cbn. apply H1. now apply in_map.
  - rewrite Forall_forall in *. intros m Hm. apply in_map_iff in Hm as (kv & <- & Hkv). cbn.
    apply passes_ser. apply H2. now apply in_map.
Qed.

Lemma contains_more : forall p a b c, contains p b = true -> contains p (a ++ b ++ c) = true.
Proof.
  intros p a b c H. unfold contains in H. destruct (find_sub p b) as [n|] eqn:E; [|discriminate].
  apply find_sub_some in E as ((r & E) & _). rewrite <- (firstn_skipn n b), E.
  rewrite <- !app_assoc. rewrite app_assoc. apply contains_app.
Qed.

Lemma classify_around : forall ws l rest, forallb is_ws ws = true -> ok (JObj l) ->
  In (bs "result") (map fst l) \/ In (bs "error") (map fst l) \/ In (bs "method") (map fst l) ->
  classify (ws ++ ser (JObj l) ++ rest) = classify (ser (JObj l)).
Proof.
  intros ws l rest Hw H K. unfold classify. rewrite !has_top_key_around by easy.
  destruct (has_top_key (bs "result") (ser (JObj l))) eqn:E1; [reflexivity|].
  destruct (has_top_key (bs "error") (ser (JObj l))) eqn:E2; [reflexivity|]. cbn [orb].
  destruct K as [K|[K|K]].
  - apply has_top_key_iff in K; [congruence|exact H].
  - apply has_top_key_iff in K; [congruence|exact H].
  - pose proof (contains_ser_obj (bs "method") l K) as C. change (bs """method""") with (QUOTE :: bs "method" ++ [QUOTE]).
    rewrite C, contains_more by exact C. reflexivity.
Qed.

(** Routing *)
Lemma route_request : forall h f r, h_request h = Some f ->
  id_ok (rq_id r) -> (forall s, rq_id r = IdStr s -> plain s) ->
  rq_method r <> [] -> plain (rq_method r) -> (forall p, rq_params r = Some p -> ok p) ->
  route h (ser_request r) = ([CRequest r], RReturn (Some (ser_response (reply (rq_id r) (f r))))).
Proof.
  intros h f r Hh Hi Hip Hm Hmp Hp. unfold route.
  destruct (deser_response response0 (ser_request r)) as [o0 r0].
  rewrite request_roundtrip; [|easy|easy|apply Hmp|easy]. rewrite Hh.
  rewrite !top_key_request by easy. rewrite request_contains_method.
  unfold rq_members. destruct (rq_params r); reflexivity.
Qed.

Lemma route_response : forall h r, id_ok (rs_id r) -> (forall s, rs_id r = IdStr s -> plain s) ->
  rs_result r <> None \/ rs_error r <> None ->
  (forall v, rs_result r = Some v -> ok v /\ ~ key_in (bs "error") v) ->
  (forall e, rs_error r = Some e -> ok e /\ (rs_result r = None -> ~ key_in (bs "result") e)) ->
  route h (ser_response r) = ([CResolve r], RReturn None).
Proof.
  intros h r Hi Hip Hne Hv He. unfold route. rewrite response_roundtrip by easy.
  assert (forall p, rs_result r = Some p \/ rs_error r = Some p -> ok p) as Hok.
  { intros p [Hx|Hx]; [now apply Hv|now apply He]. }
  rewrite !top_key_response by easy. unfold rs_members.
  destruct (rs_result r), (rs_error r); try reflexivity. destruct Hne; easy.
Qed.

Lemma route_notif : forall h n, nt_method n <> [] -> plain (nt_method n) ->
  (forall p, nt_params n = Some p -> ok p) ->
  route h (ser_notification n) =
  match h_notification h with
  | Some f => ([CNotification n], if f n then RReturn None else RThrow)
  | None => ([], RReturn None)
  end.
Proof.
  intros h n Hm Hmp Hp. unfold route.
  destruct (deser_response response0 (ser_notification n)) as [o0 r0].
  destruct (deser_request request0 (ser_notification n)) as [o1 r1].
  rewrite !top_key_notification by easy.
  assert (forall k, k <> bs "jsonrpc" -> k <> bs "method" -> k <> bs "params" ->
          existsb (fun m => beq (fst m) k) (nt_members n) = false) as K.
  { intros k H1 H2 H3. unfold nt_members.
    assert (forall a, k <> a -> beq a k = false) as B by (intros a Ha; apply beq_neq; congruence).
    destruct (nt_params n); cbn [opt_list app existsb fst]; rewrite !B by easy; reflexivity. }
  rewrite !K by discriminate. cbn [orb andb]. rewrite andb_false_r. cbn [andb].
  assert (route_notification h (ser_notification n) =
    match h_notification h with
    | Some f => ([CNotification n], if f n then RReturn None else RThrow)
    | None => ([], RReturn None)
    end) as R.
  { unfold route_notification. rewrite notification_roundtrip; [reflexivity|easy|apply Hmp|easy]. }
  destruct (h_request h); exact R.
Qed.

(** Any text whatsoever. *)
Lemma stoll_range : forall s z, stoll s = Some z -> (- 2 ^ 63 <= z < 2 ^ 63)%Z.
Proof.
  intros s z. unfold stoll. destruct (scan_int s) as [[neg m]|]; [|discriminate]. cbv zeta.
  set (w := if neg then _ else _). change (2 ^ 63)%Z with two63.
  destruct ((- two63 <=? w)%Z && (w <? two63)%Z)%bool eqn:E; [|discriminate].
  intros [= <-]. apply andb_true_iff in E as [E1 E2]. apply Z.leb_le in E1. apply Z.ltb_lt in E2. lia.
Qed.

Lemma until_quote_noq : forall s x, until_quote s = Some x -> ~ In QUOTE x.
Proof.
  intros s x H. unfold until_quote in H. destruct (find_char QUOTE s) as [e|] eqn:E; [|discriminate].
  cbn in H. injection H as <-. apply find_char_some in E. 
  destruct E as (a & b & -> & <- & Ha). now rewrite firstn_app_len.
Qed.

Lemma read_id_ok : forall s, id_ok (read_id (IdStr []) s).
Proof.
  intro s. unfold read_id. destruct (after (bs """id"":") s) as [t|]; [|cbn; auto].
  destruct (drop_while is_ws t) as [|c r]; [cbn; auto|].
  destruct (Ascii.eqb c QUOTE).
  - destruct (until_quote r) eqn:E; [|cbn; auto]. cbn. now apply until_quote_noq in E.
  - destruct (is_num_char c).
    + destruct (stoll _) eqn:E; [|exact I]. cbn [id_ok]. now apply stoll_range in E.
    + destruct (starts_with (bs "null") (c :: r)); cbn; auto.
Qed.

Lemma deser_request_id_ok : forall s, id_ok (rq_id (snd (deser_request request0 s))).
Proof.
  intro s. unfold deser_request.
  destruct (read_value (bs "params") s) as [[v r| |]|]; apply read_id_ok.
Qed.

Lemma response_id : forall r, id_ok (rs_id r) -> rs_id (snd (deser_response response0 (ser_response r))) = rs_id r.
Proof.
  intros r Hi. cbn [deser_response snd rs_id]. rewrite ser_response_message.
  assert (key_ok (bs "id")) as K by keyok. unfold message, rs_members.
  set (l := opt_list (bs "result") (rs_result r) ++ opt_list (bs "error") (rs_error r)).
  assert (exists r', LBRACE :: join [COMMA] (map member_text ([(bs "jsonrpc", bs """2.0"""); (bs "id", ser_id (rs_id r))] ++ l)) ++ [RBRACE]
     = LBRACE :: QUOTE :: bs "jsonrpc" ++ [QUOTE; COLON] ++ bs """2.0""" ++ COMMA :: QUOTE :: bs "id" ++ [QUOTE; COLON] ++ ser_id (rs_id r) ++ r' /\ delim r')
    as (r' & -> & D).
  { cbn [map app join]. destruct (map member_text l) as [|m ms].
    - exists [RBRACE]. split; [|apply delim_brace]. reflexivity.
    - exists ([COMMA] ++ join [COMMA] (m :: ms) ++ [RBRACE]). split; [|apply delim_comma].
      unfold member_text. cbn -[join ser_id]. rewrite <- !app_assoc. reflexivity. }
  apply read_id_msg with r'; [easy|easy|].
  rewrite after_one by discriminate. rewrite after_key_other; [|easy|now apply noq|discriminate].
  rewrite inert_version by (auto using delim_comma). rewrite after_one by discriminate.
  apply after_key_same.
Qed.

Lemma route_cases : forall h s,
  (exists r, route h s = ([CResolve r], RReturn None)) \/
  (exists f r, h_request h = Some f /\ id_ok (rq_id r) /\
     route h s = ([CRequest r], RReturn (Some (ser_response (reply (rq_id r) (f r)))))) \/
  (exists n f, h_notification h = Some f /\
     route h s = ([CNotification n], if f n then RReturn None else RThrow)) \/
  (h_notification h = None /\ route h s = ([], RReturn None)) \/
  (route h s = (if h_error h then [CError (bs "Router: unrecognized JSON-RPC message")] else [], RReturn None)).
Proof.
  intros h s. unfold route.
  destruct (deser_response response0 s) as [o0 r0]. pose proof (deser_request_id_ok s) as Hid.
  destruct (deser_request request0 s) as [o1 r1].
  destruct ((has_top_key (bs "result") s || has_top_key (bs "error") s) && o0)%bool; [left; now exists r0|right].
  assert (forall P : list call * routed -> Prop, P (route_notification h s) ->
    (exists n f, h_notification h = Some f /\ P ([CNotification n], if f n then RReturn None else RThrow)) \/
    (h_notification h = None /\ P ([], RReturn None)) \/
    P (if h_error h then [CError (bs "Router: unrecognized JSON-RPC message")] else [], RReturn None)) as N.
  { intros P HP. unfold route_notification in HP. destruct (deser_notification notification0 s) as [[|] n].
    - destruct (h_notification h) as [f|]; [left; now exists n, f|right; now left].
    - right. now right. }
  destruct (h_request h) as [f|] eqn:Ef.
  - destruct (contains (bs """method""") s && has_top_key (bs "id") s && o1)%bool.
    + left. exists f, r1. auto.
    + right. exact (N (fun x => route_notification h s = x) eq_refl).
  - right. exact (N (fun x => route_notification h s = x) eq_refl).
Qed.

Lemma reply_id : forall i x, rs_id (reply i x) = i.
Proof. intros i [r| |w]; reflexivity. Qed.

Lemma route_answer : forall h s calls out, route h s = (calls, RReturn (Some out)) ->
  exists f r, h_request h = Some f /\ calls = [CRequest r] /\
    out = ser_response (reply (rq_id r) (f r)) /\
    rs_id (snd (deser_response response0 out)) = rq_id r.
Proof.
  intros h s calls out H. destruct (route_cases h s) as [(r & E)|[(f & r & Hf & Hi & E)|[(n & f & Hf & E)|[(Hf & E)|E]]]];
    rewrite E in H; try discriminate.
  - injection H as <- <-. exists f, r. repeat split; auto. rewrite response_id; rewrite reply_id; easy.
  - destruct (f n); discriminate.
Qed.

Lemma route_one_call : forall h s, length (fst (route h s)) <= 1.
Proof.
  intros h s. destruct (route_cases h s) as [(r & E)|[(f & r & Hf & Hi & E)|[(n & f & Hf & E)|[(Hf & E)|E]]]];
    rewrite E; cbn; try lia. destruct (h_error h); cbn; lia.
Qed.
