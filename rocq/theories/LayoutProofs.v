From Coq Require Import Ascii String List Permutation Arith NArith ZArith Bool Lia ZifyBool ZifyNat ZifyN.
From Verif Require Import StrModel StrProofs DoubleModel JsonModel JsonSpec DoubleProofs JsonProofs RpcModel RpcSpec RpcProofs FramerSpec OauthModel LayoutSpec.
Import ListNotations.
Local Open Scope nat_scope.

(** What may stand right after a value, a key or a closing quote. *)
Definition TAIL : list ascii := [COLON; COMMA; RBRACE; RBRACK; SPACE; TAB; CR; LF].

Definition tail (r : bstr) : Prop := match r with [] => True | c :: _ => In c TAIL end.

(** A key the field readers search for. *)
Definition nkey (k : bstr) : Prop :=
  JsonSpec.plain k /\ exists c k', k = c :: k' /\ ~ In c TAIL.

Lemma nkey_dec : forall k, plainb k = true ->
  (match k with c :: _ => (97 <= code c)%N /\ (code c <= 122)%N | [] => False end) -> nkey k.
Proof.
  intros k H1 H2. split; [now apply plainb_plain|]. destruct k as [|c k]; [easy|].
  exists c, k. split; [reflexivity|]. unfold TAIL.
  intros [<-|[<-|[<-|[<-|[<-|[<-|[<-|[<-|[]]]]]]]]]; cbn in H2; lia.
Qed.

Ltac nkeyok := apply nkey_dec; [reflexivity|cbn; split; lia].

Lemma blank_noq : forall a, blank a -> ~ In QUOTE a.
Proof.
  intros a H Hi. unfold blank in H. rewrite Forall_forall in H. apply H in Hi.
  cbn in Hi. intuition discriminate.
Qed.

Lemma blank_tail : forall a r, blank a -> tail r -> tail (a ++ r).
Proof.
  intros [|c a] r H Hr; [exact Hr|]. inversion H; subst. cbn [app tail]. unfold TAIL.
  cbn in H2 |- *. intuition.
Qed.

Lemma after_needle_noq : forall k a b, ~ In QUOTE a -> after (needle k) (a ++ b) = after (needle k) b.
Proof. intros. unfold needle. now apply after_skip. Qed.

Lemma after_needle_one : forall k c r, c <> QUOTE -> after (needle k) (c :: r) = after (needle k) r.
Proof. intros k c r H. apply (after_needle_noq k [c] r). cbn. intuition. Qed.

(** A closing quote. *)
Lemma needle_close : forall k r, nkey k -> tail r -> after (needle k) (QUOTE :: r) = after (needle k) r.
Proof.
  intros k r (_ & c & k' & -> & Hc) Hr. apply after_step. unfold needle. cbn [starts_with app].
  rewrite eqb_refl. cbn [andb]. destruct r as [|d r]; [reflexivity|].
  destruct (Ascii.eqb c d) eqn:E; [|reflexivity]. apply eqb_eq in E. subst. contradiction.
Qed.

Lemma starts_needle : forall k w r, ~ In QUOTE k -> ~ In QUOTE w ->
  starts_with (k ++ [QUOTE]) (w ++ QUOTE :: r) = true -> k = w.
Proof.
  induction k as [|c k IH]; intros w r Hk Hw H.
  - destruct w as [|d w]; [reflexivity|].
    cbn [app starts_with] in H. apply andb_true_iff in H as [H _]. apply eqb_eq in H. subst. cbn in Hw. tauto.
  - destruct w as [|d w]; cbn [app starts_with] in H; apply andb_true_iff in H as [H1 H2]; apply eqb_eq in H1; subst.
    + cbn in Hk. tauto.
    + cbn in Hk, Hw. f_equal. apply (IH w r); tauto.
Qed.

(** A key in front of its colon. *)
Lemma needle_key_other : forall k w r, nkey k -> ~ In QUOTE w -> k <> w -> tail r ->
  after (needle k) (QUOTE :: w ++ QUOTE :: r) = after (needle k) r.
Proof.
  intros k w r Hk Hw Hne Hr. rewrite after_step.
  - rewrite after_needle_noq by easy. now apply needle_close.
  - unfold needle. cbn [starts_with]. rewrite eqb_refl. cbn [andb].
    destruct (starts_with (k ++ [QUOTE]) (w ++ QUOTE :: r)) eqn:E; [|reflexivity].
    apply starts_needle in E; [contradiction|apply Hk|easy].
Qed.

Lemma needle_key_same : forall k r, after (needle k) (QUOTE :: k ++ QUOTE :: r) = Some r.
Proof.
  intros k r. replace (QUOTE :: k ++ QUOTE :: r) with (needle k ++ r); [apply after_here|].
  unfold needle. cbn [app]. now rewrite <- app_assoc.
Qed.

(** A written string that starts with k and a quote is k. *)
Lemma starts_text : forall k s t r, JsonSpec.plain k -> str_text s t ->
  starts_with (k ++ [QUOTE]) (t ++ QUOTE :: r) = true -> s = k.
Proof.
  induction k as [|c k IH]; intros s t r Hk Ht H.
  - destruct Ht; [reflexivity| | |]; cbn [app starts_with] in H; apply andb_true_iff in H as [H _];
      apply eqb_eq in H; subst; try discriminate. now contradiction H0.
  - destruct Hk as [Hq Hb].
    destruct Ht as [|d s t Hd1 Hd2 Ht|e d s t He Ht|u x y z w s t Hh Ht]; cbn [app starts_with] in H;
      apply andb_true_iff in H as [H H2]; apply eqb_eq in H; subst.
    + exfalso. apply Hq. now left.
    + f_equal. apply (IH s t r); [|easy|easy]. split; intro K; [apply Hq|apply Hb]; now right.
    + exfalso. apply Hb. now left.
    + exfalso. apply Hb. now left.
Qed.

(** A string that does not end in a quote and k hides the needle. *)
Lemma after_text : forall k s t r, nkey k -> str_text s t -> ~ (exists a, s = a ++ QUOTE :: k) -> tail r ->
  after (needle k) (t ++ QUOTE :: r) = after (needle k) r.
Proof.
  intros k s t r Hk Ht. induction Ht as [|c s t Hc1 Hc2 Ht IH|e c s t He Ht IH|u x y z w s t Hh Ht IH]; intros Hn Hr.
  - cbn [app]. now apply needle_close.
  - cbn [app]. rewrite after_needle_one by exact Hc1. apply IH; [|easy].
    intros (a & ->). apply Hn. now exists (c :: a).
  - assert (~ (exists a, s = a ++ QUOTE :: k)) as Hs by (intros (a & ->); apply Hn; now exists (c :: a)).
    cbn [app]. rewrite after_needle_one by discriminate.
    destruct (ascii_dec e QUOTE) as [->|Ne].
    + rewrite after_step; [now apply IH|]. unfold needle. cbn [starts_with]. rewrite eqb_refl. cbn [andb].
      destruct (starts_with (k ++ [QUOTE]) (t ++ QUOTE :: r)) eqn:E; [|reflexivity].
      apply (starts_text k s t r) in E; [|apply Hk|easy]. subst. exfalso. apply Hn.
      inversion He; subst. now exists [].
    + rewrite after_needle_one by exact Ne. now apply IH.
  - change ("\"%char :: "u"%char :: x :: y :: z :: w :: t) with (["\"%char; "u"%char; x; y; z; w] ++ t).
    rewrite <- app_assoc. rewrite after_needle_noq.
    + apply IH; [|easy]. intros (a & ->). apply Hn. exists (u ++ a). now rewrite <- app_assoc.
    + assert (forall h, In h (bs "0123456789abcdefABCDEF") -> h <> QUOTE) as Hh'.
      { intros h Hi ->. cbn in Hi. intuition discriminate. }
      rewrite Forall_forall in Hh. intros [K|[K|K]]; try discriminate. apply (Hh' QUOTE); [now apply Hh|reflexivity].
Qed.

(** Texts in which the needle is not found, whatever delimits them. *)
Definition still (k t : bstr) : Prop := forall r, tail r -> after (needle k) (t ++ r) = after (needle k) r.

Lemma still_noq : forall k t, ~ In QUOTE t -> still k t.
Proof. intros k t H r _. now apply after_needle_noq. Qed.

Lemma still_join : forall k ts r, Forall (still k) ts -> tail r ->
  after (needle k) (join [COMMA] ts ++ r) = after (needle k) r.
Proof.
  intros k ts r H Hr. induction ts as [|t ts IH]; [reflexivity|].
  inversion H; subst. destruct ts as [|t2 ts].
  - cbn [join]. now apply H2.
  - change (join [COMMA] (t :: t2 :: ts)) with (t ++ [COMMA] ++ join [COMMA] (t2 :: ts)).
    rewrite <- !app_assoc. rewrite H2 by (cbn; auto). cbn [app].
    rewrite after_needle_one by discriminate. now apply IH.
Qed.

Lemma nice_tail : forall c r, In c TAIL -> tail (c :: r).
Proof. intros c r H. exact H. Qed.

Lemma still_pad : forall k a u b, blank a -> blank b -> still k u -> still k (a ++ u ++ b).
Proof.
  intros k a u b Ha Hb Hu r Hr. rewrite <- !app_assoc. rewrite after_needle_noq by now apply blank_noq.
  rewrite Hu by now apply blank_tail. apply after_needle_noq. now apply blank_noq.
Qed.

Lemma still_writes : forall k v t, nkey k -> writes v t -> ~ says k v -> still k t.
Proof.
  intros k v t Hk. revert t. induction v as [| b | z | d | s | l IH | l IH] using json_ind'; intros t Hw Hn.
  - inversion Hw; subst. apply still_noq. cbn. intuition discriminate.
  - inversion Hw; subst; apply still_noq; cbn; intuition discriminate.
  - inversion Hw; subst. apply still_noq, print_Z_no_quote.
  - inversion Hw as [| | | |? ? _ Hd| | | | |]; subst. apply still_noq. rewrite Forall_forall in Hd. intro K. apply Hd in K.
    cbn in K. intuition discriminate.
  - inversion Hw; subst. intros r Hr. cbn [app]. rewrite <- app_assoc. cbn [app].
    rewrite after_step; [apply (after_text k s); [easy|easy| |easy]; intro K; apply Hn; constructor; now right|].
    unfold needle. cbn [starts_with]. rewrite eqb_refl. cbn [andb].
    destruct (starts_with (k ++ [QUOTE]) (t0 ++ QUOTE :: r)) eqn:E.
    + apply (starts_text k s t0 r) in E; [|apply Hk|easy]. subst. exfalso. apply Hn. constructor. now left.
    + exact E.
  - inversion Hw as [| | | | | |a Ha|l' ts _ Hf| |]; subst; intros r Hr.
    + apply still_noq; [|easy]. cbn. rewrite in_app_iff. apply blank_noq in Ha. cbn. intuition discriminate.
    + cbn [app]. rewrite after_needle_one by discriminate. rewrite <- app_assoc.
      rewrite still_join; [cbn [app]; now apply after_needle_one|..|cbn; tauto].
      assert (forall v, In v l -> ~ says k v) as Hn' by (intros v Hv K; apply Hn; now apply says_elem with v).
      clear Hn Hw. induction Hf as [|v t l ts (a & u & b & -> & Ha & Hb & Hu) Hf IHf]; [constructor|].
      inversion IH; subst. constructor.
      * apply still_pad; try easy. apply H1; [easy|]. apply Hn'. now left.
      * apply IHf; [easy|]. intros w Hw. apply Hn'. now right.
  - inversion Hw as [| | | | | | | |a Ha|l' ts _ Hf]; subst; intros r Hr.
    + apply still_noq; [|easy]. cbn. rewrite in_app_iff. apply blank_noq in Ha. cbn. intuition discriminate.
    + cbn [app]. rewrite after_needle_one by discriminate. rewrite <- app_assoc.
      rewrite still_join; [cbn [app]; now apply after_needle_one|..|cbn; tauto].
      assert (forall v, In v (map snd l) -> ~ says k v) as Hn1 by (intros v Hv K; apply Hn; now apply says_val with v).
      assert (~ In k (map fst l)) as Hn2 by (intro K; apply Hn; now apply says_key).
      clear Hn Hw. induction Hf as [|[k1 v] t l ts (a & b & c & u & d & -> & Ha & Hb & Hc & Hd & Hp & Hu) Hf IHf]; [constructor|].
      cbn [map fst snd] in *. inversion IH; subst. constructor.
      * intros r' Hr'. repeat (cbn [app]; rewrite <- ?app_assoc). change """"%char with QUOTE.
        rewrite after_needle_noq by now apply blank_noq.
        rewrite needle_key_other.
        -- rewrite after_needle_noq by now apply blank_noq. rewrite after_needle_one by discriminate.
           pose proof (still_pad k c u d Hc Hd (H1 u Hu (Hn1 v (or_introl eq_refl))) r' Hr') as Q.
           rewrite <- !app_assoc in Q. exact Q.
        -- easy.
        -- apply Hp.
        -- intros ->. apply Hn2. now left.
        -- apply blank_tail; [easy|]. cbn. auto.
      * apply IHf; [easy| |]; intros; [apply Hn1; now right|]. intro K. apply Hn2. now right.
Qed.

(** Searching a whole document for a member. *)
Lemma after_doc : forall k l t, nkey k -> unmentioned k l -> writes (JObj l) t ->
  match obj_get k l with
  | Some v => exists b c u r, after (needle k) t = Some (b ++ ":"%char :: c ++ u ++ r) /\
                blank b /\ blank c /\ writes v u /\ tail r /\
                (exists p, t = p ++ QUOTE :: k ++ QUOTE :: b ++ ":"%char :: c ++ u ++ r)
  | None => after (needle k) t = None
  end.
Proof.
  intros k l t Hk Hm Hw.
  inversion Hw as [| | | | | | | |a Ha|l' ts _ Hf]; subst.
  { cbn [obj_get]. rewrite <- (app_nil_r ("{"%char :: a ++ ["}"%char])). rewrite after_needle_noq.
    - apply after_nil. discriminate.
    - cbn. rewrite in_app_iff. apply blank_noq in Ha. cbn. intuition discriminate. }
  rewrite after_needle_one by discriminate. unfold unmentioned in Hm.
  assert (forall r, tail r ->
    match obj_get k l with
    | Some v => exists b c u r', after (needle k) (join [COMMA] ts ++ r) = Some (b ++ ":"%char :: c ++ u ++ r') /\
                blank b /\ blank c /\ writes v u /\ tail r' /\
                (exists p, join [COMMA] ts ++ r = p ++ QUOTE :: k ++ QUOTE :: b ++ ":"%char :: c ++ u ++ r')
    | None => after (needle k) (join [COMMA] ts ++ r) = after (needle k) r
    end) as G.
  { clear Hw. intros r Hr. induction Hf as [|[k1 v] t l ts (a & b & c & u & d & -> & Ha & Hb & Hc & Hd & Hp & Hu) Hf IHf].
    { reflexivity. }
    cbn [map fst snd] in *. inversion Hm as [|? ? Hm1 Hm2]; subst. specialize (IHf Hm2).
    assert (exists r1, tail r1 /\
        join [COMMA] ((a ++ QUOTE :: k1 ++ QUOTE :: b ++ ":"%char :: c ++ u ++ d) :: ts) ++ r =
        a ++ QUOTE :: k1 ++ QUOTE :: b ++ ":"%char :: c ++ u ++ d ++ r1 /\
        after (needle k) r1 = after (needle k) (join [COMMA] ts ++ r) /\
        (exists p, r1 = p ++ join [COMMA] ts ++ r)) as (r1 & T1 & E & A & P).
    { destruct ts as [|t2 ts].
      - exists r. split; [easy|]. split; [|split; [reflexivity|now exists []]].
        cbn [join]. rewrite <- !app_assoc. cbn [app]. rewrite <- !app_assoc. cbn [app]. rewrite <- !app_assoc. cbn [app].
        now rewrite <- !app_assoc.
      - exists (COMMA :: join [COMMA] (t2 :: ts) ++ r). split; [cbn; auto|]. split; [|split].
        + change (join [COMMA] ((a ++ QUOTE :: k1 ++ QUOTE :: b ++ ":"%char :: c ++ u ++ d) :: t2 :: ts))
            with ((a ++ QUOTE :: k1 ++ QUOTE :: b ++ ":"%char :: c ++ u ++ d) ++ [COMMA] ++ join [COMMA] (t2 :: ts)).
          rewrite <- !app_assoc. cbn [app]. rewrite <- !app_assoc. cbn [app]. rewrite <- !app_assoc. cbn [app].
          now rewrite <- !app_assoc.
        + now apply after_needle_one.
        + now exists [COMMA]. }
    change """"%char with QUOTE.
    cbn [obj_get]. destruct (beq k k1) eqn:Eb.
    - apply beq_eq in Eb. subst k1. exists b, c, u, (d ++ r1). rewrite E.
      rewrite after_needle_noq by now apply blank_noq. rewrite needle_key_same.
      split; [reflexivity|]. split; [easy|]. split; [easy|]. split; [easy|]. split; [now apply blank_tail|].
      now exists a.
    - apply beq_neq in Eb.
      assert (after (needle k) (join [COMMA] ((a ++ QUOTE :: k1 ++ QUOTE :: b ++ ":"%char :: c ++ u ++ d) :: ts) ++ r)
              = after (needle k) (join [COMMA] ts ++ r)) as Q.
      { rewrite E. rewrite after_needle_noq by now apply blank_noq.
        rewrite needle_key_other; [|easy|apply Hp|easy|apply blank_tail; [easy|cbn; auto]].
        rewrite after_needle_noq by now apply blank_noq. rewrite after_needle_one by discriminate.
        rewrite after_needle_noq by now apply blank_noq.
        rewrite (still_writes k v u Hk Hu Hm1) by now apply blank_tail.
        rewrite after_needle_noq by now apply blank_noq. exact A. }
      rewrite Q. destruct (obj_get k l) as [v'|].
      + destruct IHf as (b' & c' & u' & r' & I1 & I2 & I3 & I4 & I5 & p & I6).
        exists b', c', u', r'. split; [exact I1|]. repeat (split; [assumption|]).
        destruct P as (q & ->). rewrite E, I6.
        exists (a ++ QUOTE :: k1 ++ QUOTE :: b ++ ":"%char :: c ++ u ++ d ++ q ++ p).
        repeat (cbn [app]; rewrite <- ?app_assoc). reflexivity.
      + exact IHf. }
  specialize (G ["}"%char]). change (bs ",") with [COMMA].
  destruct (obj_get k l) as [v|].
  - destruct G as (b & c & u & r & I1 & I2 & I3 & I4 & I5 & p & I6); [cbn; auto|].
    exists b, c, u, r. split; [exact I1|]. repeat (split; [assumption|]).
    exists ("{"%char :: p). cbn [app]. now rewrite I6.
  - rewrite G by (cbn; auto). reflexivity.
Qed.

(** The library's own output is one of the layouts. *)
Definition esc_text_ok (c : ascii) : bool :=
  match esc_char c with
  | [x] => (Ascii.eqb x c && negb (Ascii.eqb x """") && negb (Ascii.eqb x "\"))%bool
  | [b; e] => (Ascii.eqb b "\" &&
      existsb (fun p : ascii * ascii => Ascii.eqb (fst p) e && Ascii.eqb (snd p) c)
        [(""""%char, """"%char); ("\"%char, "\"%char); ("/"%char, "/"%char); ("b"%char, "008"%char);
         ("f"%char, "012"%char); ("n"%char, "010"%char); ("r"%char, "013"%char); ("t"%char, "009"%char)])%bool
  | [b; u; x; y; z; w] => (Ascii.eqb b "\" && Ascii.eqb u "u" &&
      forallb (fun h => existsb (Ascii.eqb h) (bs "0123456789abcdefABCDEF")) [x; y; z; w])%bool
  | _ => false
  end.

Lemma esc_text_step : forall c, esc_text_ok c = true.
Proof. apply all_ascii. vm_compute. reflexivity. Qed.

Lemma str_text_esc : forall s, str_text s (esc s).
Proof.
  induction s as [|c s IH]; [constructor|]. cbn [esc flat_map]. fold (esc s).
  pose proof (esc_text_step c) as H. unfold esc_text_ok in H.
  destruct (esc_char c) as [|x1 [|x2 [|x3 [|x4 [|x5 [|x6 [|x7 l]]]]]]]; try discriminate.
  - apply andb_true_iff in H as [H H3]. apply andb_true_iff in H as [H1 H2]. apply eqb_eq in H1 as ->.
    apply negb_true_iff, eqb_neq in H2, H3. cbn [app]. now constructor.
  - apply andb_true_iff in H as [H1 H]. apply eqb_eq in H1 as ->. apply existsb_exists in H as ([a b] & Hi & E).
    cbn [fst snd] in E. apply andb_true_iff in E as [E1 E2]. apply eqb_eq in E1, E2. subst a b.
    cbn [app]. apply st_esc; [|exact IH]. cbn in Hi.
    repeat match goal with H : _ \/ _ |- _ => destruct H as [H|H] end;
      first [contradiction | injection Hi as <- <-; constructor].
  - apply andb_true_iff in H as [H H3]. apply andb_true_iff in H as [H1 H2].
    apply eqb_eq in H1 as ->. apply eqb_eq in H2 as ->. cbn [app].
    apply (st_u [c]); [|exact IH]. rewrite Forall_forall. intros h Hh. rewrite forallb_forall in H3.
    apply H3 in Hh. apply existsb_exists in Hh as (y & Hy & E). apply eqb_eq in E. now subst.
Qed.

Lemma digits_numtext : forall s, forallb is_digit s = true ->
  Forall (fun c => In c (bs "0123456789+-.eE")) s.
Proof.
  intros s H. rewrite Forall_forall. rewrite forallb_forall in H. intros c Hc. apply H in Hc.
  pose proof (all_ascii (fun c => implb (is_digit c) (existsb (Ascii.eqb c) (bs "0123456789+-.eE")))) as A.
  specialize (A ltac:(vm_compute; reflexivity) c). cbn beta in A. rewrite Hc in A. cbn [implb] in A.
  apply existsb_exists in A as (y & Hy & E). apply eqb_eq in E. now subst.
Qed.

Lemma writes_ser : forall v, ok v -> writes v (ser v).
Proof.
  induction v as [| b | z | d | s | l IH | l IH] using json_ind'; intro H; inversion H; subst; cbn [ser].
  - constructor.
  - destruct b; constructor.
  - constructor.
  - assert (forall s, Forall (fun c => In c (bs "0123456789+-.eE")) (sign_text s)) as Hs.
    { intros [|]; cbn; [|constructor]. constructor; [cbn; tauto|constructor]. }
    assert (forall n, Forall (fun c => In c (bs "0123456789+-.eE")) (print_N n)) as HN.
    { intro n. apply digits_numtext. apply print_N_spec. }
    assert (forall k n, Forall (fun c => In c (bs "0123456789+-.eE")) (pad_digits k n)) as Hp.
    { intros k n. apply digits_numtext. revert n. induction k as [|k IHk]; intro n; [reflexivity|]. cbn [pad_digits].
      rewrite forallb_app, IHk. cbn [forallb andb]. rewrite digit_is_digit; [reflexivity|]. apply N.mod_lt. lia. }
    apply w_dbl.
    + destruct d as [s|s m e|s|s]; try easy; cbn [print_double].
      * destruct s; discriminate.
      * intro K. apply app_eq_nil in K as [_ K]. apply app_eq_nil in K as [_ K]. discriminate.
    + destruct d as [s|s m e|s|s]; try easy; cbn [print_double].
      * apply Forall_app. split; [apply Hs|]. repeat (apply Forall_cons; [cbn; tauto|]). constructor.
      * apply Forall_app; split; [apply Hs|]. apply Forall_app; split; [apply HN|].
        apply Forall_app; split; [|apply Hp]. apply Forall_cons; [cbn; tauto|constructor].
  - unfold ser_str. constructor. apply str_text_esc.
  - destruct l as [|v l]; [apply (w_arr0 []); constructor|].
    apply (w_arr (v :: l) (map ser (v :: l))); [discriminate|].
    clear H. rename H1 into Hok. induction (v :: l) as [|w l' IHl]; [constructor|].
    inversion IH; subst. inversion Hok; subst. cbn [map]. constructor.
    + exists [], (ser w), []. rewrite app_nil_r. repeat split; try constructor. auto.
    + now apply IHl.
  - destruct l as [|v l]; [apply (w_obj0 []); constructor|].
    apply (w_obj (v :: l) (map (fun kv => ser_member (fst kv) (ser (snd kv))) (v :: l))); [discriminate|].
    clear H H1. rename H2 into Hpl. rename H3 into Hok. induction (v :: l) as [|[k w] l' IHl]; [constructor|].
    cbn [map fst snd] in *. inversion IH; subst. inversion Hok; subst. inversion Hpl; subst. constructor.
    + exists [], [], [], (ser w), []. rewrite app_nil_r. cbn [fst snd app]. repeat split; try constructor; auto.
      all: match goal with Hx : plain _ |- _ => apply Hx | _ => auto end.
    + now apply IHl.
Qed.
