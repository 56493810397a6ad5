From Coq Require Import Ascii String List Permutation Arith NArith ZArith Bool Lia ZifyBool ZifyNat ZifyN.
From Verif Require Import StrModel StrProofs DoubleModel JsonModel JsonSpec DoubleProofs JsonProofs RpcModel RpcSpec RpcProofs FramerSpec OauthModel OauthSpec LayoutSpec LayoutProofs.
Import ListNotations.
Local Open Scope nat_scope.

(** ** Form encoding *)

Definition byte_ok (c : ascii) : bool :=
  match form_byte c with
  | [x] => if Ascii.eqb x "+" then Ascii.eqb c " "
           else (negb (Ascii.eqb x "%") && Ascii.eqb c x)%bool
  | [p; h; l] => (Ascii.eqb p "%" &&
                  match unhex h, unhex l with
                  | Some a, Some b => Ascii.eqb (ascii_of_N (16 * a + b)) c
                  | _, _ => false
                  end)%bool
  | _ => false
  end.

Lemma byte_ok_all : forall c, byte_ok c = true.
Proof. apply all_ascii. vm_compute. reflexivity. Qed.

Lemma decode_encode : forall s, form_decode (url_encode_form s) = Some s.
Proof.
  induction s as [|c s IH]; [reflexivity|].
  unfold url_encode_form. cbn [map concat]. fold (url_encode_form s).
  pose proof (byte_ok_all c) as H. unfold byte_ok in H.
  destruct (form_byte c) as [|x [|h [|l [|]]]]; try discriminate.
  - cbn [app form_decode]. destruct (Ascii.eqb x "+") eqn:E1.
    + apply eqb_eq in H. subst c. now rewrite IH.
    + apply andb_true_iff in H as [H1 H2]. apply negb_true_iff in H1. rewrite H1.
      apply eqb_eq in H2. subst x. now rewrite IH.
  - apply andb_true_iff in H as [H1 H2]. apply eqb_eq in H1. subst x.
    cbn [app form_decode]. change (Ascii.eqb "%" "+") with false. change (Ascii.eqb "%" "%") with true.
    cbn iota. destruct (unhex h) as [a|]; [|discriminate]. destruct (unhex l) as [b|]; [|discriminate].
    apply eqb_eq in H2. rewrite IH. cbn [option_map]. now rewrite H2.
Qed.

Definition safe_b (c : ascii) : bool :=
  existsb (Ascii.eqb c) (bs "ABCDEFGHIJKLMNOPQRSTUVWXYZabcdefghijklmnopqrstuvwxyz0123456789-_.~+%").

Lemma safe_byte : forall c, forallb safe_b (form_byte c) = true.
Proof. apply (all_ascii (fun c => forallb safe_b (form_byte c))). vm_compute. reflexivity. Qed.

Lemma encode_safe : forall s, Forall form_safe (url_encode_form s).
Proof.
  intro s. rewrite Forall_forall. intros x Hx. unfold url_encode_form in Hx.
  apply in_concat in Hx as (w & Hw & Hx). apply in_map_iff in Hw as (c & <- & _).
  pose proof (safe_byte c) as H. rewrite forallb_forall in H. apply H in Hx. unfold safe_b in Hx.
  apply existsb_exists in Hx as (y & Hy & E). apply eqb_eq in E. subst. exact Hy.
Qed.

Lemma safe_not : forall c, form_safe c -> c <> "&"%char /\ c <> "="%char.
Proof. intros c H. unfold form_safe in H. split; intros ->; cbn in H; intuition discriminate. Qed.

Lemma encode_no : forall s, ~ In "&"%char (url_encode_form s) /\ ~ In "="%char (url_encode_form s).
Proof.
  intro s. pose proof (encode_safe s) as H. rewrite Forall_forall in H.
  split; intro K; apply H, safe_not in K; tauto.
Qed.

Lemma cut_none : forall sep s, ~ In sep s -> cut sep s = [s].
Proof.
  intros sep s. induction s as [|c s IH]; intro H; [reflexivity|]. cbn [cut].
  destruct (Ascii.eqb c sep) eqn:E; [apply eqb_eq in E; subst; exfalso; apply H; now left|].
  rewrite IH; [reflexivity|]. intro K. apply H. now right.
Qed.

Lemma cut_app : forall sep a b, ~ In sep a -> cut sep (a ++ sep :: b) = a :: cut sep b.
Proof.
  intros sep a b. induction a as [|c a IH]; intro H.
  - cbn [app cut]. now rewrite eqb_refl.
  - cbn [app cut]. destruct (Ascii.eqb c sep) eqn:E; [apply eqb_eq in E; subst; exfalso; apply H; now left|].
    rewrite IH; [reflexivity|]. intro K. apply H. now right.
Qed.

(** One optional field, at the end of a body. *)
Lemma field_last : forall label name v, label = "&"%char :: name ++ ["="%char] ->
  ~ In "&"%char name -> forall a rest, ~ In "&"%char a ->
  (rest = [] \/ exists r, rest = "&"%char :: r) ->
  map form_pair (cut "&" (a ++ form_field label v ++ rest)) =
  form_pair a ::
  (match v with [] => [] | _ => [form_pair (name ++ "="%char :: url_encode_form v)] end) ++
  (match rest with [] => [] | _ :: r => map form_pair (cut "&" r) end).
Proof.
  intros label name v -> Hn a rest Ha Hr.
  destruct v as [|c v].
  - cbn [form_field app]. destruct Hr as [-> | [r ->]].
    + rewrite app_nil_r, cut_none by easy. reflexivity.
    + rewrite cut_app by easy. reflexivity.
  - unfold form_field. cbn [app]. rewrite cut_app by easy. cbn [map]. f_equal.
    rewrite <- !app_assoc. cbn [app].
    set (w := url_encode_form (c :: v)).
    assert (~ In "&"%char (name ++ "="%char :: w)) as Hw.
    { rewrite in_app_iff. intros [K|[K|K]]; [easy|discriminate|]. now apply encode_no in K. }
    replace (name ++ "="%char :: w ++ rest) with ((name ++ "="%char :: w) ++ rest) by now rewrite <- app_assoc.
    destruct Hr as [-> | [r ->]].
    + rewrite app_nil_r, cut_none by easy. reflexivity.
    + rewrite cut_app by easy. reflexivity.
Qed.

Lemma pair_field : forall name v, ~ In "="%char name -> form_decode name = Some name ->
  form_pair (name ++ "="%char :: url_encode_form v) = Some (name, v).
Proof.
  intros name v Hn Hd. unfold form_pair. rewrite cut_app by easy. rewrite cut_none by apply encode_no.
  now rewrite Hd, decode_encode.
Qed.

Lemma field_rest : forall label v rest, (exists r, label = "&"%char :: r) ->
  (rest = [] \/ exists r, rest = "&"%char :: r) ->
  form_field label v ++ rest = [] \/ exists r, form_field label v ++ rest = "&"%char :: r.
Proof.
  intros label v rest [l ->] Hr. destruct v as [|c v]; [exact Hr|]. right. cbn [form_field app]. eauto.
Qed.

Lemma token_form_fields : forall c, form_fields (token_form c) = Some (grant_fields c).
Proof.
  intros [i s sc k]. unfold form_fields, token_form, grant_fields. cbn [oc_id oc_secret oc_scope].
  rewrite <- (app_nil_r (form_field (bs "&scope=") sc)).
  assert (~ In "&"%char (bs "grant_type=client_credentials")) as N0 by (cbn; intuition discriminate).
  set (G := bs "grant_type=client_credentials") in *.
  assert (form_pair G = Some (bs "grant_type", bs "client_credentials")) as P0 by (vm_compute; reflexivity).
  assert (forall v, form_pair (bs "client_id" ++ "="%char :: url_encode_form v) = Some (bs "client_id", v)) as P1.
  { intro v. apply pair_field; [cbn; intuition discriminate|reflexivity]. }
  assert (forall v, form_pair (bs "client_secret" ++ "="%char :: url_encode_form v) = Some (bs "client_secret", v)) as P2.
  { intro v. apply pair_field; [cbn; intuition discriminate|reflexivity]. }
  assert (forall v, form_pair (bs "scope" ++ "="%char :: url_encode_form v) = Some (bs "scope", v)) as P3.
  { intro v. apply pair_field; [cbn; intuition discriminate|reflexivity]. }
  assert (forall name v, ~ In "&"%char name -> ~ In "&"%char (name ++ "="%char :: url_encode_form v)) as NA.
  { intros name v H. rewrite in_app_iff. intros [K|[K|K]]; [easy|discriminate|]. now apply encode_no in K. }
  assert (~ In "&"%char (bs "client_id")) as N1 by (cbn; intuition discriminate).
  assert (~ In "&"%char (bs "client_secret")) as N2 by (cbn; intuition discriminate).
  assert (~ In "&"%char (bs "scope")) as N3 by (cbn; intuition discriminate).
  assert (map form_pair (cut "&" (G ++ form_field (bs "&client_id=") i ++ form_field (bs "&client_secret=") s ++
            form_field (bs "&scope=") sc ++ [])) =
          form_pair G ::
          (match i with [] => [] | _ => [form_pair (bs "client_id" ++ "="%char :: url_encode_form i)] end) ++
          (match s with [] => [] | _ => [form_pair (bs "client_secret" ++ "="%char :: url_encode_form s)] end) ++
          (match sc with [] => [] | _ => [form_pair (bs "scope" ++ "="%char :: url_encode_form sc)] end)) as ->.
  { assert (forall a, ~ In "&"%char a -> map form_pair (cut "&" (a ++ form_field (bs "&scope=") sc ++ [])) =
       form_pair a :: (match sc with [] => [] | _ => [form_pair (bs "scope" ++ "="%char :: url_encode_form sc)] end)) as S3.
    { intros a Ha. rewrite (field_last (bs "&scope=") (bs "scope") sc) by (auto || reflexivity). now rewrite app_nil_r. }
    assert (forall a, ~ In "&"%char a -> map form_pair (cut "&" (a ++ form_field (bs "&client_secret=") s ++ form_field (bs "&scope=") sc ++ [])) =
       form_pair a :: (match s with [] => [] | _ => [form_pair (bs "client_secret" ++ "="%char :: url_encode_form s)] end) ++
         (match sc with [] => [] | _ => [form_pair (bs "scope" ++ "="%char :: url_encode_form sc)] end)) as S2.
    { intros a Ha. destruct s as [|c0 s0]; [cbn [form_field app]; now apply S3|].
      unfold form_field at 1. change (bs "&client_secret=") with ("&"%char :: bs "client_secret" ++ ["="%char]).
      cbn [app]. rewrite cut_app by easy. cbn [map]. f_equal.
      rewrite <- !app_assoc. cbn [app].
      replace (bs "client_secret" ++ "="%char :: url_encode_form (c0 :: s0) ++ form_field (bs "&scope=") sc ++ [])
        with ((bs "client_secret" ++ "="%char :: url_encode_form (c0 :: s0)) ++ form_field (bs "&scope=") sc ++ [])
        by now rewrite <- app_assoc.
      apply S3. now apply NA. }
    destruct i as [|c0 i0]; [cbn [form_field app]; now apply S2|].
    unfold form_field at 1. change (bs "&client_id=") with ("&"%char :: bs "client_id" ++ ["="%char]).
    cbn [app]. rewrite cut_app by easy. cbn [map]. f_equal.
    rewrite <- !app_assoc. cbn [app].
    replace (bs "client_id" ++ "="%char :: url_encode_form (c0 :: i0) ++ form_field (bs "&client_secret=") s ++ form_field (bs "&scope=") sc ++ [])
      with ((bs "client_id" ++ "="%char :: url_encode_form (c0 :: i0)) ++ form_field (bs "&client_secret=") s ++ form_field (bs "&scope=") sc ++ [])
      by now rewrite <- app_assoc.
    apply S2. now apply NA. }
  rewrite P0. destruct i, s, sc; rewrite ?P1, ?P2, ?P3; reflexivity.
Qed.

Lemma token_form_inj : forall c c', token_form c = token_form c' ->
  oc_id c = oc_id c' /\ oc_secret c = oc_secret c' /\ oc_scope c = oc_scope c'.
Proof.
  intros c c' H. assert (Some (grant_fields c) = Some (grant_fields c')) as E.
  { rewrite <- !token_form_fields. now rewrite H. }
  injection E as E. unfold grant_fields in E. destruct c as [i s sc k], c' as [i' s' sc' k'].
  cbn [oc_id oc_secret oc_scope] in *. clear H.
  destruct i, s, sc, i', s', sc'; cbn in E; try discriminate; try (injection E; intros; subst); auto.
Qed.

(** ** Token cache *)

Lemma orun_app : forall c es1 es2 s,
  orun c (es1 ++ es2) s =
  (fst (orun c es2 (fst (orun c es1 s))), snd (orun c es1 s) ++ snd (orun c es2 (fst (orun c es1 s)))).
Proof.
  induction es1 as [|e es1 IH]; intros es2 s.
  - cbn [app orun fst snd]. now destruct (orun c es2 s).
  - cbn [app orun]. destruct (ostep c e s) as [s1 o]. rewrite IH.
    destruct (orun c es1 s1) as [s2 os]. reflexivity.
Qed.

Lemma string_field_nil : forall k, string_field [] k = None.
Proof. intro k. unfold string_field. rewrite after_nil by discriminate. reflexivity. Qed.

(** The state holds the last token read, or none. *)
Lemma cache_is_last : forall c es, possible c es ->
  let s := fst (orun c es oauth0) in
  (exists m life, issued es (ok_token s) m life /\ ok_expiry s = (m + life * SECOND)%Z) \/
  (ok_token s = [] /\ forall t m life, ~ issued es t m life).
Proof.
  intros c es. induction es as [|e es IH] using rev_ind; intro P.
  - right. split; [reflexivity|]. intros t m life (es1 & r & es2 & E & _). destruct es1; discriminate.
  - unfold possible in P. rewrite orun_app in P. cbn [snd] in P. rewrite in_app_iff in P.
    assert (possible c es) as P1 by (unfold possible; tauto). specialize (IH P1).
    rewrite orun_app. cbn [fst]. set (s := fst (orun c es oauth0)) in *.
    cbn [orun] in *. cbn zeta in *.
    assert (forall t m life, (match e with OReply r _ => string_field r (bs "access_token") = None | OCall _ => True end) ->
              (issued (es ++ [e]) t m life <-> issued es t m life)) as Keep.
    { intros t m life He. split.
      - intros (es1 & r & es2 & E & H1 & H2 & H3).
        destruct es2 as [|e2 es2] using rev_ind.
        + apply app_inj_tail in E as [-> ->]. congruence.
        + clear IHes2. rewrite app_comm_cons, app_assoc in E. apply app_inj_tail in E as [-> ->].
          exists es1, r, es2. apply Forall_app in H3 as [H3 _]. auto.
      - intros (es1 & r & es2 & -> & H1 & H2 & H3). exists es1, r, (es2 ++ [e]).
        split; [now rewrite <- app_assoc|]. split; [easy|]. split; [easy|]. apply Forall_app. auto. }
    destruct e as [now|resp now].
    + assert (ok_token (fst (ostep c (OCall now) s)) = ok_token s /\
              ok_expiry (fst (ostep c (OCall now) s)) = ok_expiry s) as [T1 T2].
      { cbn [ostep]. destruct (cached_ok c now s); split; reflexivity. }
      destruct (ostep c (OCall now) s) as [s1 o]. cbn [fst] in *. rewrite T1, T2.
      destruct IH as [(m & life & I1 & I2)|[I1 I2]]; [left|right].
      * exists m, life. split; [now apply Keep|easy].
      * split; [easy|]. intros t m life K. apply Keep in K; [|easy]. now apply I2 in K.
    + cbn [ostep] in *. destruct (ok_waiting s) as [|w] eqn:Ew.
      { exfalso. apply P. right. now left. }
      cbn [fst snd] in *. unfold on_reply.
      destruct resp as [|x resp].
      * cbn [ok_token ok_expiry]. pose proof (string_field_nil (bs "access_token")) as N.
        destruct IH as [(m & life & I1 & I2)|[I1 I2]]; [left|right].
        -- exists m, life. split; [now apply Keep|easy].
        -- split; [easy|]. intros t m life K. apply Keep in K; [|easy]. now apply I2 in K.
      * destruct (string_field (x :: resp) (bs "access_token")) as [t|] eqn:F; cbn [ok_token ok_expiry].
        -- left. exists now, (lifetime (x :: resp)). split; [|reflexivity].
           exists es, (x :: resp), []. repeat split; auto.
        -- destruct IH as [(m & life & I1 & I2)|[I1 I2]]; [left|right].
           ++ exists m, life. split; [now apply Keep|easy].
           ++ split; [easy|]. intros t m life K. apply Keep in K; [|easy]. now apply I2 in K.
Qed.

Lemma issued_unique : forall es t m life t' m' life', issued es t m life -> issued es t' m' life' ->
  t = t' /\ m = m' /\ life = life'.
Proof.
  induction es as [|e es IH] using rev_ind; intros t m life t' m' life' H H'.
  - destruct H as (es1 & r & es2 & E & _). destruct es1; discriminate.
  - destruct H as (es1 & r & es2 & E & H1 & H2 & H3), H' as (es1' & r' & es2' & E' & H1' & H2' & H3').
    destruct es2 as [|e2 es2 _] using rev_ind; destruct es2' as [|e2' es2' _] using rev_ind.
    + apply app_inj_tail in E as [-> ->]. apply app_inj_tail in E' as [_ E']. injection E'; intros; subst.
      rewrite H1 in H1'. injection H1'; intros; subst. auto.
    + apply app_inj_tail in E as [-> ->]. rewrite app_comm_cons, app_assoc in E'.
      apply app_inj_tail in E' as [_ <-]. apply Forall_app in H3' as [_ K]. inversion K; subst. congruence.
    + apply app_inj_tail in E' as [-> ->]. rewrite app_comm_cons, app_assoc in E.
      apply app_inj_tail in E as [_ <-]. apply Forall_app in H3 as [_ K]. inversion K; subst. congruence.
    + rewrite app_comm_cons, app_assoc in E, E'.
      apply app_inj_tail in E as [-> ->]. apply app_inj_tail in E' as [E' ->].
      apply Forall_app in H3 as [H3 _]. apply Forall_app in H3' as [H3' _].
      apply (IH t m life t' m' life').
      * exists es1, r, es2. auto.
      * exists es1', r', es2'. auto.
Qed.

Lemma call_cached : forall c es now, possible c es ->
  (snd (ostep c (OCall now) (fst (orun c es oauth0))) = OReturns <->
   exists t m life, issued es t m life /\ t <> [] /\
     (now + Z.of_N (oc_skew c) * 1000000000 < m + life * 1000000000)%Z).
Proof.
  intros c es now P. pose proof (cache_is_last c es P) as H. cbn zeta in H.
  set (s := fst (orun c es oauth0)) in *. cbn [ostep].
  assert (snd (if cached_ok c now s then (s, OReturns)
     else (mkTok (ok_token s) (ok_expiry s) (S (ok_waiting s)) (ok_errors s), OPosts (token_form c))) = OReturns
     <-> cached_ok c now s = true) as -> by (destruct (cached_ok c now s); cbn; split; congruence).
  unfold cached_ok. rewrite andb_true_iff, negb_true_iff, Z.ltb_lt.
  change SECOND with 1000000000%Z in *.
  destruct H as [(m & life & I & E)|[E I]].
  - rewrite E. split.
    + intros [K1 K2]. exists (ok_token s), m, life. split; [easy|]. split; [|easy].
      intro K. rewrite K in K1. discriminate.
    + intros (t & m' & life' & I' & K1 & K2). destruct (issued_unique es _ _ _ _ _ _ I I') as (<- & <- & <-).
      split; [|easy]. apply beq_neq. exact K1.
  - rewrite E. split.
    + intros [K _]. discriminate.
    + intros (t & m' & life' & I' & _). exfalso. now apply I in I'.
Qed.

Lemma call_posts : forall c es now,
  snd (ostep c (OCall now) (fst (orun c es oauth0))) = OReturns \/
  snd (ostep c (OCall now) (fst (orun c es oauth0))) = OPosts (token_form c).
Proof. intros. cbn [ostep]. destruct (cached_ok _ _ _); [now left|now right]. Qed.

Lemma header_last : forall c es v, possible c es ->
  (oauth_header (fst (orun c es oauth0)) = Some v <->
   exists t m life, issued es t m life /\ t <> [] /\ v = bs "Bearer " ++ t).
Proof.
  intros c es v P. pose proof (cache_is_last c es P) as H. cbn zeta in H.
  set (s := fst (orun c es oauth0)) in *. unfold oauth_header.
  destruct H as [(m & life & I & _)|[E I]].
  - split.
    + intro K. exists (ok_token s), m, life. split; [easy|].
      destruct (ok_token s) as [|x t]; [discriminate|]. injection K as K. split; [discriminate|now symmetry].
    + intros (t & m' & life' & I' & K1 & ->). destruct (issued_unique es _ _ _ _ _ _ I I') as (<- & _ & _).
      destruct (ok_token s); [easy|reflexivity].
  - rewrite E. split; [discriminate|]. intros (t & m' & life' & I' & _). exfalso. now apply I in I'.
Qed.

(** ** Reading the reply *)

Lemma after_char_blank : forall c b r, ~ In c b -> after [c] (b ++ c :: r) = Some r.
Proof.
  intros c b r. induction b as [|x b IH]; intro H.
  - cbn [app]. apply (after_here [c] r).
  - cbn [app]. rewrite after_step; [apply IH; intro K; apply H; now right|].
    cbn [starts_with]. destruct (Ascii.eqb c x) eqn:E; [|reflexivity].
    apply eqb_eq in E. subst. exfalso. apply H. now left.
Qed.

Lemma blank_not : forall c b, blank b -> ~ In c [" "%char; "009"%char; "013"%char; "010"%char] -> ~ In c b.
Proof. intros c b H Hc K. unfold blank in H. rewrite Forall_forall in H. now apply H in K. Qed.

Lemma text_raw : forall s t, str_text s t -> ~ In "\"%char t -> t = s /\ ~ In QUOTE t.
Proof.
  intros s t H. induction H as [|c s t H1 H2 H IH|e c s t He H IH|u x y z w s t Hh H IH]; intro N.
  - split; [reflexivity|easy].
  - destruct IH as [-> Q]; [intro K; apply N; now right|]. split; [reflexivity|].
    intros [K|K]; [now apply H1|easy].
  - exfalso. apply N. now left.
  - exfalso. apply N. now left.
Qed.

Lemma bare_quote_app : forall w p r, ~ In QUOTE w -> ~ In BACKSLASH w -> p <> BACKSLASH ->
  until_bare_quote p (w ++ QUOTE :: r) = Some w.
Proof.
  induction w as [|c w IH]; intros p r Hq Hb Hp; cbn [app until_bare_quote].
  - rewrite eqb_refl. destruct (Ascii.eqb p BACKSLASH) eqn:E; [apply eqb_eq in E; congruence|reflexivity].
  - assert (Ascii.eqb c QUOTE = false) as -> by (apply eqb_neq; intros ->; apply Hq; now left).
    cbn [andb]. rewrite IH; [reflexivity|intro K; apply Hq; now right|intro K; apply Hb; now right|].
    intros ->. apply Hb. now left.
Qed.

Lemma string_field_doc : forall k l t v, nkey k -> unmentioned k l -> writes (JObj l) t ->
  obj_get k l = Some (JStr v) -> ~ In "\"%char t -> string_field t k = Some v.
Proof.
  intros k l t v Hk Hm Hw Hg Hb. pose proof (after_doc k l t Hk Hm Hw) as H. rewrite Hg in H.
  destruct H as (b & c & u & r & A & B & C & W & T & p & E).
  assert (~ In "\"%char u) as Hu.
  { intro K. apply Hb. rewrite E. rewrite in_app_iff. right. right. rewrite in_app_iff. right. right.
    rewrite in_app_iff. right. right. rewrite in_app_iff. right. rewrite in_app_iff. now left. }
  clear E. inversion W as [| | | | |? t0 Hs| | | |]; subst.
  unfold string_field. rewrite A. change (":"%char) with COLON. change (chr 58) with COLON.
  rewrite after_char_blank by (apply blank_not; [easy|cbn; intuition discriminate]).
  cbn [app]. rewrite <- app_assoc. cbn [app]. change """"%char with QUOTE.
  rewrite after_char_blank by (apply blank_not; [easy|cbn; intuition discriminate]).
  assert (~ In "\"%char t0) as Ht0 by (intro K; apply Hu; right; rewrite in_app_iff; now left).
  destruct (text_raw v t0 Hs Ht0) as [-> Q].
  apply bare_quote_app; [easy|exact Ht0|discriminate].
Qed.

(** A literal without an escaped backslash is read as it is written. *)
Lemma bare_quote_text : forall v t, str_text v t -> (forall a b, t <> a ++ BACKSLASH :: BACKSLASH :: b) ->
  forall p r, p <> BACKSLASH -> until_bare_quote p (t ++ QUOTE :: r) = Some t.
Proof.
  intros v t H. induction H as [|c s t H1 H2 H IH|e c s t He H IH|u x y z w s t Hh H IH]; intros N p r Hp.
  - cbn [app until_bare_quote]. rewrite eqb_refl.
    destruct (Ascii.eqb p BACKSLASH) eqn:E; [apply eqb_eq in E; congruence|reflexivity].
  - cbn [app until_bare_quote]. assert (Ascii.eqb c QUOTE = false) as -> by now apply eqb_neq. cbn [andb].
    rewrite IH; [reflexivity| |easy]. intros a b E. apply (N (c :: a) b). now rewrite E.
  - cbn [app until_bare_quote]. change (Ascii.eqb "\" QUOTE) with false. cbn [andb].
    change (Ascii.eqb "\" BACKSLASH) with true. cbn [negb]. rewrite andb_false_r.
    rewrite IH; [reflexivity| |].
    + intros a b E. apply (N ("\"%char :: e :: a) b). now rewrite E.
    + intros ->. now apply (N [] t).
  - assert (forall h, In h (bs "0123456789abcdefABCDEF") -> Ascii.eqb h QUOTE = false /\ h <> BACKSLASH) as Q.
    { intros h Hi. cbn in Hi. repeat (destruct Hi as [<-|Hi]; [split; [reflexivity|discriminate]|]). destruct Hi. }
    rewrite Forall_forall in Hh. cbn [In] in Hh.
    cbn [app until_bare_quote]. change (Ascii.eqb "\" QUOTE) with false. change (Ascii.eqb "u" QUOTE) with false. cbn [andb].
    rewrite (proj1 (Q x (Hh x ltac:(tauto)))), (proj1 (Q y (Hh y ltac:(tauto)))),
            (proj1 (Q z (Hh z ltac:(tauto)))), (proj1 (Q w (Hh w ltac:(tauto)))). cbn [andb].
    rewrite IH; [reflexivity| |].
    + intros a b E. apply (N ("\"%char :: "u"%char :: x :: y :: z :: w :: a) b). now rewrite E.
    + apply Q, Hh. tauto.
Qed.

Lemma string_field_raw : forall k l t v, nkey k -> unmentioned k l -> writes (JObj l) t ->
  obj_get k l = Some (JStr v) -> exists raw, str_text v raw /\
    ((forall a b, raw <> a ++ BACKSLASH :: BACKSLASH :: b) -> string_field t k = Some raw).
Proof.
  intros k l t v Hk Hm Hw Hg. pose proof (after_doc k l t Hk Hm Hw) as H. rewrite Hg in H.
  destruct H as (b & c & u & r & A & B & C & W & T & p & E).
  clear E. inversion W as [| | | | |? t0 Hs| | | |]; subst. exists t0. split; [exact Hs|]. intros N.
  unfold string_field. rewrite A. change (":"%char) with COLON. change (chr 58) with COLON.
  rewrite after_char_blank by (apply blank_not; [easy|cbn; intuition discriminate]).
  cbn [app]. rewrite <- app_assoc. cbn [app]. change """"%char with QUOTE.
  rewrite after_char_blank by (apply blank_not; [easy|cbn; intuition discriminate]).
  now apply (bare_quote_text v).
Qed.

Lemma field_missing : forall k l t, nkey k -> unmentioned k l -> writes (JObj l) t ->
  obj_get k l = None -> string_field t k = None /\ int_field t k = None.
Proof.
  intros k l t Hk Hm Hw Hg. pose proof (after_doc k l t Hk Hm Hw) as H. rewrite Hg in H.
  unfold string_field, int_field. now rewrite H.
Qed.

Lemma print_Z_int_char : forall z, forallb int_char (print_Z z) = true.
Proof.
  intro z. assert (forall n, forallb int_char (print_N n) = true) as HN.
  { intro n. destruct (print_N_spec n) as (_ & H & _). rewrite forallb_forall in *. intros c Hc.
    unfold int_char. now rewrite (H c Hc). }
  unfold print_Z. destruct (Z.ltb z 0); [|apply HN]. cbn [forallb]. rewrite HN. reflexivity.
Qed.

Lemma span_app_stop : forall p a r, forallb p a = true ->
  (match r with [] => True | c :: _ => p c = false end) -> span p (a ++ r) = (a, r).
Proof.
  intros p a r Ha Hr. induction a as [|c a IH].
  - destruct r as [|c r]; [reflexivity|]. cbn [app span]. now rewrite Hr.
  - cbn [forallb] in Ha. apply andb_true_iff in Ha as [H1 H2]. cbn [app span]. rewrite H1, IH by easy. reflexivity.
Qed.

Lemma drop_blank : forall b r, blank b -> (match r with [] => True | c :: _ => is_ws c = false end) ->
  drop_while is_ws (b ++ r) = r.
Proof.
  intros b r H Hr. induction b as [|c b IH].
  - destruct r as [|c r]; [reflexivity|]. cbn [app drop_while]. now rewrite Hr.
  - inversion H as [|? ? Hc Hb]; subst. cbn [app drop_while].
    assert (is_ws c = true) as ->; [|now apply IH].
    cbn in Hc. destruct Hc as [<-|[<-|[<-|[<-|[]]]]]; reflexivity.
Qed.

Lemma print_Z_head : forall z, exists c t, print_Z z = c :: t /\ int_char c = true.
Proof.
  intro z. pose proof (print_Z_int_char z) as H. destruct (print_Z z) as [|c t] eqn:E.
  - exfalso. assert (exists c t, print_Z z = c :: t) as (c & t & K); [|congruence].
    unfold print_Z in *. destruct (Z.ltb z 0); [discriminate|].
    destruct (print_N_spec (Z.to_N z)) as (_ & _ & K). contradiction.
  - exists c, t. split; [reflexivity|]. cbn [forallb] in H. now apply andb_true_iff in H as [H _].
Qed.

Lemma int_char_ws : forall c, int_char c = true -> is_ws c = false.
Proof.
  intros c H. pose proof (all_ascii (fun c => implb (int_char c) (negb (is_ws c)))) as A.
  specialize (A ltac:(vm_compute; reflexivity) c). cbn beta in A. rewrite H in A. now destruct (is_ws c).
Qed.

Lemma tail_not_int : forall r, tail r -> match r with [] => True | c :: _ => int_char c = false end.
Proof.
  intros [|c r] H; [easy|]. cbn in H.
  destruct H as [<-|[<-|[<-|[<-|[<-|[<-|[<-|[<-|[]]]]]]]]]; reflexivity.
Qed.

Lemma int_field_doc : forall k l t z, nkey k -> unmentioned k l -> writes (JObj l) t ->
  obj_get k l = Some (JInt z) -> (- 2147483648 <= z <= 2147483647)%Z -> int_field t k = Some z.
Proof.
  intros k l t z Hk Hm Hw Hg Hz. pose proof (after_doc k l t Hk Hm Hw) as H. rewrite Hg in H.
  destruct H as (b & c & u & r & A & B & C & W & T & p & E).
  clear E. inversion W; subst.
  unfold int_field. rewrite A. change (":"%char) with COLON. change (chr 58) with COLON.
  rewrite after_char_blank by (apply blank_not; [easy|cbn; intuition discriminate]).
  destruct (print_Z_head z) as (d & ds & Ez & Hd).
  rewrite drop_blank; [|easy|rewrite Ez; cbn [app]; now apply int_char_ws].
  rewrite span_app_stop; [|apply print_Z_int_char|now apply tail_not_int].
  cbn [fst]. unfold stoi. rewrite <- (app_nil_r (print_Z z)). rewrite stoll_print_Z; [|easy|unfold int64, two63; lia].
  destruct (Z.leb_spec (-2147483648) z); [|lia]. destruct (Z.leb_spec z 2147483647); [|lia]. reflexivity.
Qed.
