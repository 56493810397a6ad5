From Coq Require Import Ascii String List Permutation Arith NArith ZArith Bool Lia ZifyBool ZifyNat ZifyN.
From Verif Require Import StrModel StrProofs DoubleModel JsonModel JsonSpec DoubleProofs JsonProofs RpcModel RpcSpec.
Import ListNotations.
Local Open Scope nat_scope.

(** The search pattern for a member: a quoted key and a colon. *)
Definition keypat (k : bstr) : bstr := QUOTE :: k ++ [QUOTE; COLON].

Lemma after_step : forall p c s, starts_with p (c :: s) = false -> after p (c :: s) = after p s.
Proof.
  intros p c s H. unfold after. cbn [find_sub]. rewrite H.
  destruct (find_sub p s); reflexivity.
Qed.

Lemma after_here : forall p r, after p (p ++ r) = Some r.
Proof.
  intros p r. unfold after. destruct (p ++ r) as [|c s] eqn:E.
  - destruct p; [|discriminate]. cbn in *. now subst.
  - cbn [find_sub]. rewrite <- E, starts_with_app. cbn [option_map plus]. now rewrite skipn_app_len.
Qed.

Lemma after_skip : forall p a b, ~ In QUOTE a -> after (QUOTE :: p) (a ++ b) = after (QUOTE :: p) b.
Proof.
  intros p a b. induction a as [|x a IH]; intro H; [reflexivity|].
  cbn [app]. rewrite after_step.
  - apply IH. cbn in H. tauto.
  - cbn [starts_with]. destruct (Ascii.eqb QUOTE x) eqn:E; [|reflexivity].
    apply eqb_eq in E. subst. cbn in H. tauto.
Qed.

Lemma after_nil : forall p, p <> [] -> after p [] = None.
Proof. intros [|c p] H; [easy|]. reflexivity. Qed.

(** A key the code searches for: starts with a letter, no quote and no backslash. *)
Definition key_ok (k : bstr) : Prop :=
  plain k /\ exists c k', k = c :: k' /\ ~ In c [COLON; COMMA; RBRACE; RBRACK].

(** What may follow a value. *)
Definition delim (r : bstr) : Prop :=
  match r with [] => True | c :: _ => In c [COMMA; RBRACE; RBRACK] end.

Lemma delim_value_end : forall r, delim r -> value_end r.
Proof. intros [|c r] H; [easy|]. apply value_end_delim. cbn in *. tauto. Qed.

Lemma delim_not_colon : forall c r, delim (c :: r) -> Ascii.eqb COLON c = false.
Proof. intros c r H. cbn in H. destruct H as [<-|[<-|[<-|[]]]]; reflexivity. Qed.

(** starts_with of a quoted key against quote-free text and a quote. *)
Lemma starts_key : forall k w r, ~ In QUOTE k -> ~ In QUOTE w ->
  starts_with (k ++ [QUOTE; COLON]) (w ++ QUOTE :: r) = true -> k = w /\ starts_with [COLON] r = true.
Proof.
  induction k as [|c k IH]; intros w r Hk Hw H.
  - destruct w as [|d w].
    + cbn [app starts_with] in H. rewrite eqb_refl in H. split; [reflexivity|]. now rewrite andb_true_iff in H.
    + cbn [app starts_with] in H. apply andb_true_iff in H as [H _]. apply eqb_eq in H. subst.
      cbn in Hw. tauto.
  - destruct w as [|d w]; cbn [app starts_with] in H; apply andb_true_iff in H as [H1 H2]; apply eqb_eq in H1; subst.
    + cbn in Hk. tauto.
    + cbn in Hk, Hw. destruct (IH w r) as [-> K]; tauto.
Qed.

(** A closing quote followed by something that is not the first letter of the key. *)
Lemma after_close : forall k r, key_ok k ->
  (match r with [] => True | c :: _ => In c [COLON; COMMA; RBRACE; RBRACK] end) ->
  after (keypat k) (QUOTE :: r) = after (keypat k) r.
Proof.
  intros k r (_ & c & k' & -> & Hc) Hr. apply after_step.
  cbn [keypat starts_with app]. rewrite eqb_refl. cbn [andb].
  destruct r as [|d r]; [reflexivity|].
  destruct (Ascii.eqb c d) eqn:E; [|reflexivity].
  apply eqb_eq in E. subst. contradiction.
Qed.

(** Skipping a raw quoted text followed by a delimiter. *)
Lemma after_quoted : forall k w r, key_ok k -> ~ In QUOTE w -> delim r ->
  after (keypat k) (QUOTE :: w ++ QUOTE :: r) = after (keypat k) r.
Proof.
  intros k w r Hk Hw Hr.
  assert (after (keypat k) (QUOTE :: w ++ QUOTE :: r) = after (keypat k) (w ++ QUOTE :: r)) as ->.
  { apply after_step. cbn [keypat starts_with]. rewrite eqb_refl. cbn [andb].
    destruct (starts_with (k ++ [QUOTE; COLON]) (w ++ QUOTE :: r)) eqn:E; [|reflexivity].
    apply starts_key in E as [_ E]; [|apply Hk|easy].
    destruct r as [|c r]; [discriminate|]. cbn [starts_with] in E.
    rewrite (delim_not_colon c r Hr) in E. discriminate. }
  unfold keypat at 1. rewrite after_skip by easy. fold (keypat k).
  apply after_close; [easy|]. destruct r as [|c r]; [easy|]. cbn in *. tauto.
Qed.

(** Skipping a different key. *)
Lemma after_key_other : forall k w r, key_ok k -> ~ In QUOTE w -> k <> w ->
  after (keypat k) (QUOTE :: w ++ [QUOTE; COLON] ++ r) = after (keypat k) r.
Proof.
  intros k w r Hk Hw Hne.
  assert (after (keypat k) (QUOTE :: w ++ [QUOTE; COLON] ++ r)
          = after (keypat k) (w ++ QUOTE :: COLON :: r)) as ->.
  { apply after_step. cbn [keypat starts_with app]. rewrite eqb_refl. cbn [andb].
    destruct (starts_with (k ++ [QUOTE; COLON]) (w ++ QUOTE :: COLON :: r)) eqn:E; [|reflexivity].
    apply starts_key in E as [E _]; [contradiction|apply Hk|easy]. }
  unfold keypat at 1. rewrite after_skip by easy. fold (keypat k).
  rewrite after_close by (cbn; auto). apply after_step. reflexivity.
Qed.

Lemma after_key_same : forall k r, after (keypat k) (QUOTE :: k ++ [QUOTE; COLON] ++ r) = Some r.
Proof.
  intros k r. replace (QUOTE :: k ++ [QUOTE; COLON] ++ r) with (keypat k ++ r); [apply after_here|].
  unfold keypat. cbn [app]. now rewrite <- app_assoc.
Qed.

(** Escaped texts never contain a searched key. *)
Lemma esc_char_head : forall c, exists x t, esc_char c = x :: t /\ Ascii.eqb x QUOTE = false /\
  (x = BACKSLASH \/ t = []).
Proof.
  intro c. pose proof (esc_step c) as H. unfold esc_step_ok in H.
  destruct (esc_char c) as [|x1 [|x2 [|x3 [|x4 [|x5 [|x6 [|x7 l]]]]]]]; try discriminate.
  - apply andb_true_iff in H as [H _]. apply andb_true_iff in H as [_ H]. apply negb_true_iff in H.
    exists x1, []. repeat split; auto.
  - apply andb_true_iff in H as [H _]. apply andb_true_iff in H as [H _]. apply eqb_eq in H as ->.
    exists BACKSLASH, [x2]. repeat split; auto.
  - apply andb_true_iff in H as [H _]. apply andb_true_iff in H as [H _]. apply eqb_eq in H as ->.
    eexists _, _. repeat split; auto.
Qed.

Lemma starts_esc : forall k s r, plain k -> delim r ->
  starts_with (k ++ [QUOTE; COLON]) (esc s ++ QUOTE :: r) = false.
Proof.
  induction k as [|c k IH]; intros s r Hk Hr.
  - destruct s as [|d s].
    + cbn [esc flat_map app starts_with]. rewrite eqb_refl. cbn [andb].
      destruct r as [|x r]; [reflexivity|]. now rewrite (delim_not_colon x r Hr).
    + cbn [esc flat_map]. destruct (esc_char_head d) as (x & t & -> & Hx & _).
      cbn [app starts_with]. rewrite Ascii.eqb_sym, Hx. reflexivity.
  - destruct Hk as [Hq Hb]. destruct s as [|d s].
    + cbn [esc flat_map app starts_with]. destruct (Ascii.eqb c QUOTE) eqn:E; [|reflexivity].
      apply eqb_eq in E. subst. cbn in Hq. tauto.
    + cbn [esc flat_map]. destruct (esc_char_head d) as (x & t & -> & Hx & [-> | ->]).
      * cbn [app starts_with]. destruct (Ascii.eqb c BACKSLASH) eqn:E; [|reflexivity].
        apply eqb_eq in E. subst. cbn in Hb. tauto.
      * cbn [app starts_with]. destruct (Ascii.eqb c x); [|reflexivity]. cbn [andb]. fold (esc s).
        apply IH; [|easy]. split; cbn in *; tauto.
Qed.

Lemma after_esc : forall k s r, key_ok k -> delim r ->
  after (keypat k) (esc s ++ QUOTE :: r) = after (keypat k) r.
Proof.
  intros k s r Hk Hr.
  assert (forall s, after (keypat k) (QUOTE :: esc s ++ QUOTE :: r) = after (keypat k) (esc s ++ QUOTE :: r)) as Hq.
  { intro s0. apply after_step. cbn [keypat starts_with]. rewrite eqb_refl. cbn [andb].
    apply starts_esc; [apply Hk|easy]. }
  induction s as [|c s IH].
  - cbn [esc flat_map app]. apply after_close; [easy|]. destruct r; cbn in *; tauto.
  - cbn [esc flat_map]. fold (esc s). rewrite <- app_assoc.
    pose proof (esc_step c) as H. unfold esc_step_ok in H.
    destruct (esc_char c) as [|x1 [|x2 [|x3 [|x4 [|x5 [|x6 [|x7 l]]]]]]]; try discriminate.
    + apply andb_true_iff in H as [H _]. apply andb_true_iff in H as [_ H].
      apply negb_true_iff, eqb_neq in H. unfold keypat. rewrite after_skip; [exact IH|].
      cbn. intuition.
    + apply andb_true_iff in H as [H _]. apply andb_true_iff in H as [H _]. apply eqb_eq in H as ->.
      cbn [app]. rewrite after_step by reflexivity.
      destruct (ascii_dec x2 QUOTE) as [->|Hx].
      * rewrite Hq. exact IH.
      * rewrite after_step; [exact IH|]. cbn [keypat starts_with].
        destruct (Ascii.eqb QUOTE x2) eqn:E; [apply eqb_eq in E; congruence|reflexivity].
    + apply andb_true_iff in H as [H H3]. apply andb_true_iff in H as [H H2].
      apply eqb_eq in H as ->. apply eqb_eq in H2 as ->.
      unfold keypat. rewrite after_skip; [exact IH|].
      assert (forall h, hex_val h <> None -> h <> QUOTE) as Hh by (intros h Hh ->; apply Hh; reflexivity).
      unfold hex4 in H3.
      destruct (hex_val x3) eqn:E3; [|discriminate]. destruct (hex_val x4) eqn:E4; [|discriminate].
      destruct (hex_val x5) eqn:E5; [|discriminate]. destruct (hex_val x6) eqn:E6; [|discriminate].
      cbn. intros [K|[K|[K|[K|[K|[K|[]]]]]]]; try discriminate K;
        revert K; apply Hh; congruence.
Qed.

(** Numbers and literals have no quote. *)
Lemma digits_no_quote : forall s, forallb is_digit s = true -> ~ In QUOTE s.
Proof. intros s H Hi. rewrite forallb_forall in H. apply H in Hi. discriminate. Qed.

Lemma print_N_no_quote : forall n, ~ In QUOTE (print_N n).
Proof. intro n. apply digits_no_quote. apply print_N_spec. Qed.

Lemma print_Z_no_quote : forall z, ~ In QUOTE (print_Z z).
Proof.
  intro z. unfold print_Z. destruct (Z.ltb z 0); [|apply print_N_no_quote].
  cbn [In]. intros [H|H]; [discriminate|]. now apply print_N_no_quote in H.
Qed.

Lemma print_double_no_quote : forall d, ~ In QUOTE (print_double d).
Proof.
  assert (forall s, ~ In QUOTE (sign_text s)) as Hs by (intros [|]; cbn; intuition discriminate).
  assert (forall k n, ~ In QUOTE (pad_digits k n)) as Hp.
  { induction k as [|k IH]; intros n; cbn [pad_digits]; [easy|].
    rewrite in_app_iff. intros [H|[H|[]]]; [now apply IH in H|].
    assert (is_digit (digit (n mod 10)) = true) as D by (apply digit_is_digit; apply N.mod_lt; lia).
    rewrite H in D. discriminate. }
  intros [s|s m e|s|s]; cbn [print_double]; rewrite ?in_app_iff.
  - intros [H|H]; [now apply Hs in H|]. cbn in H; intuition discriminate.
  - intros [H|[H|[H|H]]].
    + now apply Hs in H.
    + now apply print_N_no_quote in H.
    + cbn in H; intuition discriminate.
    + now apply Hp in H.
  - intros [H|H]; [now apply Hs in H|]. cbn in H; intuition discriminate.
  - intros [H|H]; [now apply Hs in H|]. cbn in H; intuition discriminate.
Qed.

(** Keys of an object value: free of quotes. *)
Inductive keys_ok : json -> Prop :=
| ko_null : keys_ok JNull
| ko_bool b : keys_ok (JBool b)
| ko_int z : keys_ok (JInt z)
| ko_dbl d : keys_ok (JDbl d)
| ko_str s : keys_ok (JStr s)
| ko_arr l : Forall keys_ok l -> keys_ok (JArr l)
| ko_obj l : Forall (fun k => ~ In QUOTE k) (map fst l) -> Forall keys_ok (map snd l) -> keys_ok (JObj l).

Lemma ok_keys_ok : forall v, ok v -> keys_ok v.
Proof.
  induction v as [| b | z | d | s | l IH | l IH] using json_ind'; intro H; inversion H; subst; constructor.
  - rewrite Forall_forall in *. auto.
  - rewrite Forall_forall in *. intros k Hk. apply H2 in Hk. apply Hk.
  - rewrite Forall_forall in *. auto.
Qed.

(** A text a searched key cannot occur in, in any context that delimits it. *)
Definition inert (k text : bstr) : Prop :=
  forall r, delim r -> after (keypat k) (text ++ r) = after (keypat k) r.

Lemma inert_noquote : forall k t, ~ In QUOTE t -> inert k t.
Proof. intros k t H r Hr. unfold keypat. now apply after_skip. Qed.

Lemma inert_quoted : forall k w, key_ok k -> ~ In QUOTE w -> inert k (QUOTE :: w ++ [QUOTE]).
Proof.
  intros k w Hk Hw r Hr. cbn [app]. rewrite <- app_assoc. cbn [app]. now apply after_quoted.
Qed.

Lemma inert_str : forall k s, key_ok k -> inert k (ser_str s).
Proof.
  intros k s Hk r Hr. unfold ser_str. cbn [app]. rewrite <- app_assoc. cbn [app].
  rewrite after_step; [now apply after_esc|].
  cbn [keypat starts_with]. rewrite eqb_refl. cbn [andb]. apply starts_esc; [apply Hk|easy].
Qed.

Lemma delim_comma : forall r, delim (COMMA :: r).
Proof. intro r. cbn. auto. Qed.
Lemma delim_brace : forall r, delim (RBRACE :: r).
Proof. intro r. cbn. auto. Qed.
Lemma delim_brack : forall r, delim (RBRACK :: r).
Proof. intro r. cbn. auto. Qed.

Lemma after_one : forall k c r, c <> QUOTE -> after (keypat k) (c :: r) = after (keypat k) r.
Proof.
  intros k c r H. apply after_step. cbn [keypat starts_with].
  destruct (Ascii.eqb QUOTE c) eqn:E; [apply eqb_eq in E; congruence|reflexivity].
Qed.

Lemma inert_join : forall k ts r, Forall (inert k) ts -> delim r ->
  after (keypat k) (join [COMMA] ts ++ r) = after (keypat k) r.
Proof.
  intros k ts r H Hr. induction ts as [|t ts IH]; [reflexivity|].
  inversion H; subst. destruct ts as [|t2 ts].
  - cbn [join]. now apply H2.
  - change (join [COMMA] (t :: t2 :: ts)) with (t ++ [COMMA] ++ join [COMMA] (t2 :: ts)).
    rewrite <- !app_assoc. rewrite H2 by apply delim_comma. cbn [app].
    rewrite after_one by discriminate. now apply IH.
Qed.

Lemma inert_ser : forall k v, key_ok k -> keys_ok v -> ~ key_in k v -> inert k (ser v).
Proof.
  intros k v Hk. induction v as [| b | z | d | s | l IH | l IH] using json_ind'; intros Ho Hn; cbn [ser].
  - apply inert_noquote. cbn. intuition discriminate.
  - apply inert_noquote. destruct b; cbn; intuition discriminate.
  - apply inert_noquote, print_Z_no_quote.
  - apply inert_noquote, print_double_no_quote.
  - now apply inert_str.
  - inversion Ho; subst. intros r Hr. cbn [app]. rewrite after_one by discriminate.
    rewrite <- app_assoc. rewrite inert_join.
    + cbn [app]. apply after_one. discriminate.
    + rewrite Forall_forall in *. intros t Ht. apply in_map_iff in Ht as (x & <- & Hx).
      apply IH; [easy|auto|]. intro K. apply Hn. now apply key_arr with x.
    + apply delim_brack.
  - inversion Ho; subst. intros r Hr. cbn [app]. rewrite after_one by discriminate.
    rewrite <- app_assoc. rewrite inert_join.
    + cbn [app]. apply after_one. discriminate.
    + rewrite Forall_forall in *. intros t Ht. apply in_map_iff in Ht as ([k1 x] & <- & Hx).
      cbn [fst snd]. intros r' Hr'. unfold ser_member.
      replace ((QUOTE :: k1 ++ [QUOTE; COLON] ++ ser x) ++ r')
        with (QUOTE :: k1 ++ [QUOTE; COLON] ++ ser x ++ r') by (cbn [app]; now rewrite <- app_assoc).
      assert (In k1 (map fst l)) as Hk1 by (apply in_map_iff; now exists (k1, x)).
      assert (In x (map snd l)) as Hx1 by (apply in_map_iff; now exists (k1, x)).
      rewrite after_key_other; [|easy|now apply H0|].
      * apply IH; [easy|auto| |easy]. intro K. apply Hn. now apply key_obj with x.
      * intros ->. apply Hn. now apply key_here.
    + apply delim_brace.
Qed.

(** Serialized members of a message: raw texts. *)
Definition member_text (m : bstr * bstr) : bstr := QUOTE :: fst m ++ [QUOTE; COLON] ++ snd m.

Fixpoint assoc (k : bstr) (l : list (bstr * bstr)) : option bstr :=
  match l with
  | [] => None
  | (k', t) :: l' => if beq k k' then Some t else assoc k l'
  end.

Fixpoint inert_before (k : bstr) (l : list (bstr * bstr)) : Prop :=
  match l with
  | [] => True
  | (k', t) :: l' => if beq k k' then True else inert k t /\ inert_before k l'
  end.

Lemma after_members : forall k l r, key_ok k -> Forall (fun m => ~ In QUOTE (fst m)) l ->
  inert_before k l -> delim r ->
  match assoc k l with
  | Some t => exists r', after (keypat k) (join [COMMA] (map member_text l) ++ r) = Some (t ++ r')
                         /\ (delim r')
  | None => after (keypat k) (join [COMMA] (map member_text l) ++ r) = after (keypat k) r
  end.
Proof.
  intros k l r Hk Hl Hi Hr. induction l as [|[k1 t1] l IH]; [reflexivity|].
  inversion Hl; subst. cbn [fst] in *. cbn [inert_before assoc] in *.
  assert (exists r1, join [COMMA] (map member_text ((k1, t1) :: l)) ++ r
            = QUOTE :: k1 ++ [QUOTE; COLON] ++ t1 ++ r1 /\ delim r1 /\
            after (keypat k) r1 = after (keypat k) (join [COMMA] (map member_text l) ++ r)) as (r1 & E & D & A).
  { cbn [map join]. destruct (map member_text l) as [|m2 ms] eqn:Em.
    - exists r. split; [|split; [easy|reflexivity]]. unfold member_text. cbn [fst snd app]. now rewrite <- !app_assoc.
    - exists ([COMMA] ++ join [COMMA] (m2 :: ms) ++ r). split; [|split].
      + unfold member_text at 1. cbn [fst snd app]. rewrite <- !app_assoc. reflexivity.
      + apply delim_comma.
      + cbn [app]. apply after_one. discriminate. }
  rewrite E. destruct (beq k k1) eqn:Eb.
  - apply beq_eq in Eb. subst k1. exists r1. split; [apply after_key_same|easy].
  - destruct Hi as [Hi1 Hi2]. rewrite after_key_other; [|easy|easy|now apply beq_neq].
    rewrite Hi1 by easy. rewrite A. now apply IH.
Qed.

Definition message (l : list (bstr * bstr)) : bstr := LBRACE :: join [COMMA] (map member_text l) ++ [RBRACE].

Lemma after_message : forall k l, key_ok k -> Forall (fun m => ~ In QUOTE (fst m)) l ->
  inert_before k l ->
  match assoc k l with
  | Some t => exists r', after (keypat k) (message l) = Some (t ++ r') /\ delim r'
  | None => after (keypat k) (message l) = None
  end.
Proof.
  intros k l Hk Hl Hi. unfold message. rewrite after_one by discriminate.
  pose proof (after_members k l [RBRACE] Hk Hl Hi (delim_brace [])) as H.
  destruct (assoc k l); [exact H|]. rewrite H. reflexivity.
Qed.

(** Reading fields *)
Lemma key_ok_dec : forall k, plainb k = true ->
  (match k with c :: _ => is_digit (chr 0) = false /\ (97 <= code c)%N /\ (code c <= 122)%N | [] => False end) -> key_ok k.
Proof.
  intros k H1 H2. split; [now apply plainb_plain|]. destruct k as [|c k]; [easy|].
  exists c, k. split; [reflexivity|]. intros [<-|[<-|[<-|[<-|[]]]]]; cbn in H2; lia.
Qed.

Ltac keyok := apply key_ok_dec; [reflexivity|cbn; repeat split; lia].

Lemma until_quote_app : forall w r, ~ In QUOTE w -> until_quote (w ++ QUOTE :: r) = Some w.
Proof. intros w r H. unfold until_quote. rewrite find_char_app by easy. cbn. now rewrite firstn_app_len. Qed.

Lemma read_method_msg : forall cur s m r,
  after (keypat (bs "method")) s = Some ((QUOTE :: m ++ [QUOTE]) ++ r) -> ~ In QUOTE m ->
  read_method cur s = m.
Proof.
  intros cur s m r H Hm. unfold read_method.
  change (bs """method"":") with (keypat (bs "method")). rewrite H.
  cbn [app find_char]. rewrite eqb_refl. cbn [plus skipn].
  rewrite <- app_assoc. cbn [app]. now rewrite until_quote_app.
Qed.

Lemma num_char_props : forall c, is_num_char c = true -> is_ws c = false /\ Ascii.eqb c QUOTE = false.
Proof.
  intros c H. unfold is_num_char in H. apply orb_true_iff in H as [H|H].
  - apply eqb_eq in H as ->. now split.
  - assert (num_head c) as K by now right. apply num_head_props in K. tauto.
Qed.

Lemma print_Z_num_char : forall z, forallb is_num_char (print_Z z) = true.
Proof.
  assert (forall n, forallb is_num_char (print_N n) = true) as K.
  { intro n. destruct (print_N_spec n) as (_ & H & _). rewrite forallb_forall in *.
    intros c Hc. unfold is_num_char. rewrite (H c Hc). apply orb_true_r. }
  intro z. unfold print_Z. destruct (Z.ltb z 0); [|apply K]. cbn [forallb]. now rewrite K.
Qed.

Lemma read_id_msg : forall cur s i r, id_ok i -> delim r ->
  after (keypat (bs "id")) s = Some (ser_id i ++ r) -> read_id cur s = i.
Proof.
  intros cur s i r Hi Hr H. unfold read_id.
  change (bs """id"":") with (keypat (bs "id")). rewrite H. clear H.
  destruct i as [w|z|]; cbn [ser_id id_ok] in *.
  - cbn [app drop_while]. change (is_ws QUOTE) with false. cbn iota. rewrite eqb_refl.
    rewrite <- app_assoc. cbn [app]. now rewrite until_quote_app.
  - destruct (print_Z_head z) as (c & ds & E & Hc).
    assert (is_num_char c = true) as Hn.
    { unfold is_num_char. destruct Hc as [->|Hc]; [reflexivity|]. rewrite Hc. apply orb_true_r. }
    destruct (num_char_props c Hn) as [W Q].
    assert (drop_while is_ws (print_Z z ++ r) = print_Z z ++ r) as ->
      by (rewrite E; cbn [app drop_while]; now rewrite W).
    assert (span is_num_char (print_Z z ++ r) = (print_Z z, r)) as Hspan.
    { apply span_all; [apply print_Z_num_char|]. destruct r as [|x r]; [easy|].
      cbn in Hr. destruct Hr as [<-|[<-|[<-|[]]]]; reflexivity. }
    assert (print_Z z ++ r = c :: (ds ++ r)) as E2 by (rewrite E; reflexivity).
    rewrite E2 in *. rewrite Q, Hn, Hspan. cbn [fst].
    rewrite <- (app_nil_r (print_Z z)). now rewrite stoll_print_Z.
  - reflexivity.
Qed.

Lemma read_value_msg : forall k s v r, ok v -> delim r ->
  after (keypat k) s = Some (ser v ++ r) -> read_value k s = Some (POk v r).
Proof.
  intros k s v r Hv Hr H. unfold read_value. change (QUOTE :: k ++ [QUOTE; COLON]) with (keypat k).
  rewrite H. destruct (ser_head v Hv) as (c & t & E & W & _).
  assert (drop_while is_ws (ser v ++ r) = ser v ++ r) as -> by (rewrite E; cbn [app drop_while]; now rewrite W).
  pose proof (parse_json_ser v r Hv (delim_value_end r Hr)) as P. rewrite E in *. cbn [app] in *.
  now rewrite P.
Qed.

Lemma read_value_none : forall k s, after (keypat k) s = None -> read_value k s = None.
Proof.
  intros k s H. unfold read_value. change (QUOTE :: k ++ [QUOTE; COLON]) with (keypat k). now rewrite H.
Qed.

(** Messages as member lists. *)
Definition opt_list (k : bstr) (v : option json) : list (bstr * bstr) :=
  match v with None => [] | Some x => [(k, ser x)] end.

Definition rq_members (r : request) : list (bstr * bstr) :=
  [(bs "jsonrpc", bs """2.0"""); (bs "id", ser_id (rq_id r)); (bs "method", QUOTE :: rq_method r ++ [QUOTE])]
  ++ opt_list (bs "params") (rq_params r).
Definition rs_members (r : response) : list (bstr * bstr) :=
  [(bs "jsonrpc", bs """2.0"""); (bs "id", ser_id (rs_id r))]
  ++ opt_list (bs "result") (rs_result r) ++ opt_list (bs "error") (rs_error r).
Definition nt_members (n : notification) : list (bstr * bstr) :=
  [(bs "jsonrpc", bs """2.0"""); (bs "method", QUOTE :: nt_method n ++ [QUOTE])]
  ++ opt_list (bs "params") (nt_params n).

Lemma ser_request_message : forall r, ser_request r = message (rq_members r).
Proof.
  intros [i m [p|]]; unfold ser_request, message, rq_members, opt_list, opt_member, HEAD;
    cbn -[ser ser_id]; repeat rewrite <- app_assoc; cbn -[ser ser_id]; repeat rewrite <- app_assoc; reflexivity.
Qed.
Lemma ser_response_message : forall r, ser_response r = message (rs_members r).
Proof.
  intros [i [p|] [e|]]; unfold ser_response, message, rs_members, opt_list, opt_member, HEAD;
    cbn -[ser ser_id]; repeat rewrite <- app_assoc; cbn -[ser ser_id]; repeat rewrite <- app_assoc; reflexivity.
Qed.
Lemma ser_notification_message : forall r, ser_notification r = message (nt_members r).
Proof.
  intros [m [p|]]; unfold ser_notification, message, nt_members, opt_list, opt_member, HEAD;
    cbn -[ser ser_id]; repeat rewrite <- app_assoc; cbn -[ser ser_id]; repeat rewrite <- app_assoc; reflexivity.
Qed.

Lemma inert_id : forall k i, key_ok k -> id_ok i -> inert k (ser_id i).
Proof.
  intros k [s|z|] Hk Hi; cbn [ser_id id_ok] in *.
  - now apply inert_quoted.
  - apply inert_noquote, print_Z_no_quote.
  - apply inert_noquote. cbn. intuition discriminate.
Qed.

Lemma inert_version : forall k, key_ok k -> inert k (bs """2.0""").
Proof. intros k Hk. apply (inert_quoted k (bs "2.0")); [easy|]. cbn. intuition discriminate. Qed.

Lemma noq : forall s, plainb s = true -> ~ In QUOTE s.
Proof. intros s H. apply plainb_plain in H. apply H. Qed.

Lemma opt_list_noq : forall k v, plainb k = true -> Forall (fun m : bstr * bstr => ~ In QUOTE (fst m)) (opt_list k v).
Proof. intros k [v|] H; repeat constructor. now apply noq. Qed.

Lemma request_roundtrip : forall r,
  id_ok (rq_id r) -> rq_method r <> [] -> ~ In QUOTE (rq_method r) ->
  (forall p, rq_params r = Some p -> ok p) ->
  deser_request request0 (ser_request r) = (true, r).
Proof.
  intros [i m p] Hi Hm Hq Hp. cbn [rq_id rq_method rq_params] in *.
  rewrite ser_request_message. set (l := rq_members _).
  assert (Forall (fun m : bstr * bstr => ~ In QUOTE (fst m)) l) as Hl.
  { unfold l, rq_members. repeat (apply Forall_cons; [now apply noq|]).
    cbn [app]. now apply opt_list_noq. }
  assert (key_ok (bs "method")) as K1 by keyok. assert (key_ok (bs "id")) as K2 by keyok.
  assert (key_ok (bs "params")) as K3 by keyok.
  assert (inert_before (bs "method") l) as I1.
  { cbn. repeat split; [now apply inert_version|now apply inert_id]. }
  assert (inert_before (bs "id") l) as I2 by (cbn; repeat split; now apply inert_version).
  assert (inert_before (bs "params") l) as I3.
  { cbn. repeat split; [now apply inert_version|now apply inert_id|now apply inert_quoted|].
    destruct p; exact I. }
  pose proof (after_message _ l K1 Hl I1) as A1. pose proof (after_message _ l K2 Hl I2) as A2.
  pose proof (after_message _ l K3 Hl I3) as A3.
  change (assoc (bs "method") l) with (Some (QUOTE :: m ++ [QUOTE])) in A1.
  change (assoc (bs "id") l) with (Some (ser_id i)) in A2.
  destruct A1 as (r1 & A1 & D1). destruct A2 as (r2 & A2 & D2).
  unfold deser_request. rewrite (read_method_msg _ _ _ _ A1 Hq). rewrite (read_id_msg _ _ _ _ Hi D2 A2).
  assert (nonempty m = true) as -> by (destruct m; easy).
  destruct p as [p|].
  - change (assoc (bs "params") l) with (Some (ser p)) in A3. destruct A3 as (r3 & A3 & D3).
    rewrite (read_value_msg _ _ p _ (Hp p eq_refl) D3 A3). reflexivity.
  - change (assoc (bs "params") l) with (@None bstr) in A3. rewrite (read_value_none _ _ A3). reflexivity.
Qed.

Lemma notification_roundtrip : forall n,
  nt_method n <> [] -> ~ In QUOTE (nt_method n) ->
  (forall p, nt_params n = Some p -> ok p) ->
  deser_notification notification0 (ser_notification n) = (true, n).
Proof.
  intros [m p] Hm Hq Hp. cbn [nt_method nt_params] in *.
  rewrite ser_notification_message. set (l := nt_members _).
  assert (Forall (fun m : bstr * bstr => ~ In QUOTE (fst m)) l) as Hl.
  { unfold l, nt_members. repeat (apply Forall_cons; [now apply noq|]).
    cbn [app]. now apply opt_list_noq. }
  assert (key_ok (bs "method")) as K1 by keyok.
  assert (key_ok (bs "params")) as K3 by keyok.
  assert (inert_before (bs "method") l) as I1 by (cbn; repeat split; now apply inert_version).
  assert (inert_before (bs "params") l) as I3.
  { cbn. repeat split; [now apply inert_version|now apply inert_quoted|].
    destruct p; exact I. }
  pose proof (after_message _ l K1 Hl I1) as A1.
  pose proof (after_message _ l K3 Hl I3) as A3.
  change (assoc (bs "method") l) with (Some (QUOTE :: m ++ [QUOTE])) in A1.
  destruct A1 as (r1 & A1 & D1).
  unfold deser_notification. rewrite (read_method_msg _ _ _ _ A1 Hq).
  assert (nonempty m = true) as -> by (destruct m; easy).
  destruct p as [p|].
  - change (assoc (bs "params") l) with (Some (ser p)) in A3. destruct A3 as (r3 & A3 & D3).
    rewrite (read_value_msg _ _ p _ (Hp p eq_refl) D3 A3). reflexivity.
  - change (assoc (bs "params") l) with (@None bstr) in A3. rewrite (read_value_none _ _ A3). reflexivity.
Qed.

Lemma response_roundtrip : forall r,
  id_ok (rs_id r) ->
  (forall v, rs_result r = Some v -> ok v /\ ~ key_in (bs "error") v) ->
  (forall e, rs_error r = Some e -> ok e /\ (rs_result r = None -> ~ key_in (bs "result") e)) ->
  deser_response response0 (ser_response r) = (true, r).
Proof.
  intros [i v e] Hi Hv He. cbn [rs_id rs_result rs_error] in *.
  rewrite ser_response_message. set (l := rs_members _).
  assert (Forall (fun m : bstr * bstr => ~ In QUOTE (fst m)) l) as Hl.
  { unfold l, rs_members. repeat (apply Forall_cons; [now apply noq|]).
    apply Forall_app. split; now apply opt_list_noq. }
  assert (key_ok (bs "result")) as K1 by keyok. assert (key_ok (bs "id")) as K2 by keyok.
  assert (key_ok (bs "error")) as K3 by keyok.
  assert (inert_before (bs "id") l) as I2 by (cbn; repeat split; now apply inert_version).
  assert (inert_before (bs "result") l) as I1.
  { cbn. split; [now apply inert_version|]. split; [now apply inert_id|].
    destruct v as [v|]; cbn; [exact I|].
    destruct e as [e|]; cbn; [|exact I]. split; [|exact I].
    destruct (He e eq_refl) as [Ho Hk]. apply inert_ser; auto. now apply ok_keys_ok. }
  assert (inert_before (bs "error") l) as I3.
  { cbn. split; [now apply inert_version|]. split; [now apply inert_id|].
    destruct v as [v|]; cbn.
    - destruct (Hv v eq_refl) as [Ho Hk]. split; [apply inert_ser; auto; now apply ok_keys_ok|].
      destruct e; exact I.
    - destruct e; exact I. }
  pose proof (after_message _ l K1 Hl I1) as A1. pose proof (after_message _ l K2 Hl I2) as A2.
  pose proof (after_message _ l K3 Hl I3) as A3.
  change (assoc (bs "id") l) with (Some (ser_id i)) in A2.
  destruct A2 as (r2 & A2 & D2).
  unfold deser_response. rewrite (read_id_msg _ _ _ _ Hi D2 A2).
  assert (assoc (bs "result") l = option_map ser v) as E1.
  { destruct v; [reflexivity|]. destruct e; reflexivity. }
  assert (assoc (bs "error") l = option_map ser e) as E3.
  { destruct v; destruct e; reflexivity. }
  rewrite E1 in A1. rewrite E3 in A3. f_equal. f_equal.
  - destruct v as [v|]; cbn [option_map] in A1.
    + destruct A1 as (r1 & A1 & D1). now rewrite (read_value_msg _ _ v _ (proj1 (Hv v eq_refl)) D1 A1).
    + now rewrite (read_value_none _ _ A1).
  - destruct e as [e|]; cbn [option_map] in A3.
    + destruct A3 as (r3 & A3 & D3). now rewrite (read_value_msg _ _ e _ (proj1 (He e eq_refl)) D3 A3).
    + now rewrite (read_value_none _ _ A3).
Qed.

(** Any member order, when no nested object reuses the searched key. *)
Lemma ser_obj_message : forall l, ser (JObj l) = message (map (fun kv => (fst kv, ser (snd kv))) l).
Proof.
  intro l. cbn [ser]. unfold message. rewrite map_map. reflexivity.
Qed.

Lemma assoc_obj : forall k l, assoc k (map (fun kv => (fst kv, ser (snd kv))) l) = option_map ser (obj_get k l).
Proof.
  intros k l. induction l as [|[k' v] l IH]; [reflexivity|]. cbn.
  destruct (beq k k'); [reflexivity|exact IH].
Qed.

Lemma read_value_obj : forall k l, key_ok k -> ok (JObj l) ->
  (forall v, In v (map snd l) -> ~ key_in k v) ->
  match obj_get k l with
  | Some v => exists r, after (keypat k) (ser (JObj l)) = Some (ser v ++ r) /\ delim r
  | None => after (keypat k) (ser (JObj l)) = None
  end.
Proof.
  intros k l Hk Ho Hn. rewrite ser_obj_message.
  inversion Ho as [| | | | | |? Hnd Hpl Hl]; subst.
  pose proof (after_message k (map (fun kv => (fst kv, ser (snd kv))) l) Hk) as H.
  rewrite assoc_obj in H.
  assert (Forall (fun m : bstr * bstr => ~ In QUOTE (fst m)) (map (fun kv => (fst kv, ser (snd kv))) l)) as H1.
  { rewrite Forall_forall in *. intros m Hm. apply in_map_iff in Hm as (kv & <- & Hkv). cbn.
    apply (Hpl (fst kv)). now apply in_map. }
  assert (inert_before k (map (fun kv => (fst kv, ser (snd kv))) l)) as H2.
  { clear H H1 Hnd Hpl. assert (Forall (inert k) (map ser (map snd l))) as K.
    { rewrite Forall_forall in *. intros t Ht. apply in_map_iff in Ht as (v & <- & Hv).
      apply inert_ser; auto. apply ok_keys_ok. auto. }
    clear Hl Hn Ho. induction l as [|[k' v] l IH]; [exact I|]. cbn in *. inversion K; subst.
    destruct (beq k k'); [exact I|]. split; auto. }
  specialize (H H1 H2). destruct (obj_get k l); exact H.
Qed.

Lemma esc_clean : forall s, clean s -> esc s = s.
Proof.
  induction s as [|c s IH]; intro H; [reflexivity|].
  inversion H as [|? ? (H1 & H2 & H3) Hs]; subst. cbn [esc flat_map]. fold (esc s). rewrite IH by easy.
  assert (esc_char c = [c]) as ->; [|reflexivity].
  unfold esc_char. change (N_of_ascii c) with (code c) in H1.
  assert (code c <> 34%N) as E1 by (intro E; apply H2; apply code_inj; exact E).
  assert (code c <> 92%N) as E2 by (intro E; apply H3; apply code_inj; exact E).
  repeat match goal with |- context[N.eqb ?a ?b] => destruct (N.eqb_spec a b); [lia|] end.
  destruct (N.ltb_spec (code c) 32); [lia|reflexivity].
Qed.

Lemma clean_noq : forall s, clean s -> ~ In QUOTE s.
Proof.
  intros s H Hi. unfold clean in H. rewrite Forall_forall in H. destruct (H _ Hi) as (_ & K & _). now apply K.
Qed.

Lemma ser_id_json : forall i, (forall s, i = IdStr s -> clean s) -> ser (id_json i) = ser_id i.
Proof.
  intros [s|z|] H; cbn [id_json ser ser_id]; [|reflexivity|reflexivity].
  unfold ser_str. now rewrite esc_clean by now apply H.
Qed.

Lemma obj_get_perm : forall l l' k, NoDup (map fst l) -> Permutation l l' -> obj_get k l = obj_get k l'.
Proof.
  intros l l' k Hn Hp. induction Hp as [|[k1 v1] l l' Hp IH|[k1 v1] [k2 v2] l|l1 l2 l3 H1 IH1 H2 IH2].
  - reflexivity.
  - cbn in *. inversion Hn; subst. destruct (beq k k1); [reflexivity|auto].
  - cbn in *. inversion Hn as [|? ? N1 N2]; subst.
    destruct (beq k k1) eqn:E1; destruct (beq k k2) eqn:E2; try reflexivity.
    apply beq_eq in E1, E2. subst. exfalso. apply N1. now left.
  - rewrite IH1 by easy. apply IH2. eapply Permutation_NoDup; [|exact Hn]. now apply Permutation_map.
Qed.

Lemma ok_perm : forall l l', ok (JObj l) -> Permutation l l' -> ok (JObj l').
Proof.
  intros l l' H P. inversion H; subst. constructor.
  - eapply Permutation_NoDup; [|eassumption]. now apply Permutation_map.
  - eapply Permutation_Forall; [|eassumption]. now apply Permutation_map.
  - eapply Permutation_Forall; [|eassumption]. now apply Permutation_map.
Qed.

Lemma read_method_obj : forall l m, ok (JObj l) -> (forall v, In v (map snd l) -> ~ key_in (bs "method") v) ->
  obj_get (bs "method") l = Some (JStr m) -> clean m -> read_method [] (ser (JObj l)) = m.
Proof.
  intros l m Ho Hn Hg Hc. assert (key_ok (bs "method")) as K by keyok.
  pose proof (read_value_obj _ l K Ho Hn) as H. rewrite Hg in H. destruct H as (r & H & _).
  apply read_method_msg with r; [|now apply clean_noq].
  rewrite H. cbn [ser]. unfold ser_str. now rewrite esc_clean.
Qed.

Lemma read_id_obj : forall l i, ok (JObj l) -> (forall v, In v (map snd l) -> ~ key_in (bs "id") v) ->
  obj_get (bs "id") l = Some (id_json i) -> id_ok i -> (forall s, i = IdStr s -> clean s) ->
  read_id (IdStr []) (ser (JObj l)) = i.
Proof.
  intros l i Ho Hn Hg Hi Hc. assert (key_ok (bs "id")) as K by keyok.
  pose proof (read_value_obj _ l K Ho Hn) as H. rewrite Hg in H. destruct H as (r & H & D).
  apply read_id_msg with r; auto. rewrite H. now rewrite ser_id_json.
Qed.

Lemma read_value_obj' : forall k l, key_ok k -> ok (JObj l) ->
  (forall v, In v (map snd l) -> ~ key_in k v) ->
  match obj_get k l with
  | Some v => exists r, read_value k (ser (JObj l)) = Some (POk v r)
  | None => read_value k (ser (JObj l)) = None
  end.
Proof.
  intros k l Hk Ho Hn. pose proof (read_value_obj k l Hk Ho Hn) as H.
  destruct (obj_get k l) as [v|] eqn:E.
  - destruct H as (r & H & D). exists r. apply read_value_msg; [|easy|easy].
    inversion Ho; subst. rewrite Forall_forall in *. apply H3.
    clear - E. induction l as [|[k' v'] l IH]; [discriminate|]. cbn in *.
    destruct (beq k k'); [left; congruence|right; auto].
  - now apply read_value_none.
Qed.

Lemma perm_nokey : forall k (l l' : obj), (forall v, In v (map snd l) -> ~ key_in k v) -> Permutation l l' ->
  forall v, In v (map snd l') -> ~ key_in k v.
Proof.
  intros k l l' H P v Hv. apply H. eapply Permutation_in; [|exact Hv].
  apply Permutation_map. now apply Permutation_sym.
Qed.

Lemma scalar_nokey : forall k v, (match v with JArr _ | JObj _ => False | _ => True end) -> ~ key_in k v.
Proof. intros k v H K. inversion K; subst; exact H. Qed.

Lemma id_json_nokey : forall k i, ~ key_in k (id_json i).
Proof. intros k [s|z|]; now apply scalar_nokey. Qed.

Lemma clean_plain : forall s, clean s -> plain s.
Proof.
  intros s H. unfold clean in H. rewrite Forall_forall in H. split; intro Hi; apply H in Hi; tauto.
Qed.

Lemma ok_id_json : forall i, id_ok i -> ok (id_json i).
Proof. intros [s|z|] H; constructor. exact H. Qed.

Lemma request_any_order : forall r l,
  id_ok (rq_id r) -> (forall s, rq_id r = IdStr s -> clean s) ->
  rq_method r <> [] -> clean (rq_method r) ->
  (forall p, rq_params r = Some p -> ok p /\ ~ key_in (bs "id") p /\ ~ key_in (bs "method") p /\ ~ key_in (bs "params") p) ->
  Permutation l (request_object r) ->
  deser_request request0 (ser (JObj l)) = (true, r).
Proof.
  intros [i m p] l Hi Hic Hm Hmc Hp P. cbn [rq_id rq_method rq_params] in *.
  assert (ok (JObj (request_object {| rq_id := i; rq_method := m; rq_params := p |}))) as Ho.
  { unfold request_object. cbn [rq_id rq_method rq_params].
    destruct p as [p|]; cbn [opt_json app]; constructor; cbn [map fst snd].
    - apply nodupb_nodup. reflexivity.
    - repeat (apply Forall_cons; [now apply plainb_plain|]); apply Forall_nil.
    - repeat (apply Forall_cons); [constructor|now apply ok_id_json|constructor|now apply Hp|constructor].
    - apply nodupb_nodup. reflexivity.
    - repeat (apply Forall_cons; [now apply plainb_plain|]); apply Forall_nil.
    - repeat (apply Forall_cons); [constructor|now apply ok_id_json|constructor|constructor]. }
  assert (forall k, In k [bs "id"; bs "method"; bs "params"] ->
            forall v, In v (map snd (request_object {| rq_id := i; rq_method := m; rq_params := p |})) -> ~ key_in k v) as Hn.
  { intros k Hk v Hv. unfold request_object in Hv. cbn [rq_id rq_method rq_params] in Hv.
    destruct p as [p|]; cbn [opt_json app map snd In] in Hv.
    - destruct Hv as [<-|[<-|[<-|[<-|[]]]]]; [now apply scalar_nokey|apply id_json_nokey|now apply scalar_nokey|].
      destruct (Hp p eq_refl) as (_ & H1 & H2 & H3). cbn in Hk. destruct Hk as [<-|[<-|[<-|[]]]]; assumption.
    - destruct Hv as [<-|[<-|[<-|[]]]]; [now apply scalar_nokey|apply id_json_nokey|now apply scalar_nokey]. }
  apply Permutation_sym in P.
  assert (forall k, obj_get k l = obj_get k (request_object {| rq_id := i; rq_method := m; rq_params := p |})) as G.
  { intro k. symmetry. apply obj_get_perm; [|easy]. inversion Ho; assumption. }
  pose proof (ok_perm _ _ Ho P) as Hl.
  assert (forall k, In k [bs "id"; bs "method"; bs "params"] -> forall v, In v (map snd l) -> ~ key_in k v) as Hn'.
  { intros k Hk. apply perm_nokey with (1 := Hn k Hk). exact P. }
  unfold deser_request, request0. cbn [rq_id rq_method rq_params].
  rewrite (read_method_obj l m Hl); [|apply Hn'; cbn; auto| |easy].
  2: { rewrite G. unfold request_object. cbn. reflexivity. }
  rewrite (read_id_obj l i Hl); [|apply Hn'; cbn; auto| |easy|easy].
  2: { rewrite G. unfold request_object. cbn. reflexivity. }
  assert (nonempty m = true) as -> by (destruct m; easy).
  assert (key_ok (bs "params")) as K by keyok.
  pose proof (read_value_obj' _ l K Hl) as H. rewrite G in H.
  assert (obj_get (bs "params") (request_object {| rq_id := i; rq_method := m; rq_params := p |}) = p) as E
    by (destruct p; reflexivity).
  rewrite E in H. destruct p as [p|].
  - destruct H as (r & ->); [apply Hn'; cbn; auto|]. reflexivity.
  - rewrite H; [reflexivity|]. apply Hn'. cbn. auto.
Qed.

Lemma response_any_order : forall r l,
  id_ok (rs_id r) -> (forall s, rs_id r = IdStr s -> clean s) ->
  (forall p, rs_result r = Some p \/ rs_error r = Some p ->
     ok p /\ ~ key_in (bs "id") p /\ ~ key_in (bs "result") p /\ ~ key_in (bs "error") p) ->
  Permutation l (response_object r) ->
  deser_response response0 (ser (JObj l)) = (true, r).
Proof.
  intros [i v e] l Hi Hic Hp P. cbn [rs_id rs_result rs_error] in *.
  set (O := response_object {| rs_id := i; rs_result := v; rs_error := e |}) in *.
  assert (ok (JObj O)) as Ho.
  { unfold O, response_object. cbn [rs_id rs_result rs_error].
    constructor.
    - apply nodupb_nodup. destruct v, e; reflexivity.
    - destruct v, e; cbn [opt_json app map fst]; repeat (apply Forall_cons; [now apply plainb_plain|]); apply Forall_nil.
    - destruct v as [v|], e as [e|]; cbn [opt_json app map snd];
        repeat (apply Forall_cons); try apply Forall_nil; try (now apply ok_id_json); try constructor;
        apply Hp; auto. }
  assert (forall k, In k [bs "id"; bs "result"; bs "error"] ->
            forall x, In x (map snd O) -> ~ key_in k x) as Hn.
  { intros k Hk x Hx. unfold O, response_object in Hx. cbn [rs_id rs_result rs_error] in Hx.
    rewrite !map_app, !in_app_iff in Hx. destruct Hx as [Hx|[Hx|Hx]].
    - cbn in Hx. destruct Hx as [<-|[<-|[]]]; [now apply scalar_nokey|apply id_json_nokey].
    - destruct v as [v|]; [|easy]. destruct Hx as [<-|[]].
      destruct (Hp v (or_introl eq_refl)) as (_ & H1 & H2 & H3). cbn in Hk. destruct Hk as [<-|[<-|[<-|[]]]]; assumption.
    - destruct e as [e|]; [|easy]. destruct Hx as [<-|[]].
      destruct (Hp e (or_intror eq_refl)) as (_ & H1 & H2 & H3). cbn in Hk. destruct Hk as [<-|[<-|[<-|[]]]]; assumption. }
  apply Permutation_sym in P.
  assert (forall k, obj_get k l = obj_get k O) as G.
  { intro k. symmetry. apply obj_get_perm; [|easy]. inversion Ho; assumption. }
  pose proof (ok_perm _ _ Ho P) as Hl.
  assert (forall k, In k [bs "id"; bs "result"; bs "error"] -> forall x, In x (map snd l) -> ~ key_in k x) as Hn'.
  { intros k Hk. apply perm_nokey with (1 := Hn k Hk). exact P. }
  unfold deser_response, response0. cbn [rs_id rs_result rs_error].
  rewrite (read_id_obj l i Hl); [|apply Hn'; cbn; auto| |easy|easy].
  2: { rewrite G. reflexivity. }
  assert (key_ok (bs "result")) as K1 by keyok. assert (key_ok (bs "error")) as K2 by keyok.
  pose proof (read_value_obj' _ l K1 Hl) as H1. pose proof (read_value_obj' _ l K2 Hl) as H2.
  rewrite G in H1, H2.
  assert (obj_get (bs "result") O = v) as E1 by (destruct v, e; reflexivity).
  assert (obj_get (bs "error") O = e) as E2 by (destruct v, e; reflexivity).
  rewrite E1 in H1. rewrite E2 in H2.
  f_equal. f_equal.
  - destruct v as [v|].
    + destruct H1 as (r & ->); [apply Hn'; cbn; auto|]. reflexivity.
    + rewrite H1; [reflexivity|]. apply Hn'. cbn. auto.
  - destruct e as [e|].
    + destruct H2 as (r & ->); [apply Hn'; cbn; auto|]. reflexivity.
    + rewrite H2; [reflexivity|]. apply Hn'. cbn. auto.
Qed.

(** What is sent is the JSON object of the message. *)
Lemma request_text : forall r, (forall s, rq_id r = IdStr s -> clean s) -> clean (rq_method r) ->
  ser_request r = ser (JObj (request_object r)).
Proof.
  intros r Hi Hm. rewrite ser_request_message, ser_obj_message. f_equal.
  unfold rq_members, request_object. rewrite map_app. f_equal.
  - cbn [map fst snd]. rewrite ser_id_json by easy. cbn [ser]. unfold ser_str at 2. now rewrite (esc_clean (rq_method r)).
  - destruct (rq_params r); reflexivity.
Qed.

Lemma response_text : forall r, (forall s, rs_id r = IdStr s -> clean s) ->
  ser_response r = ser (JObj (response_object r)).
Proof.
  intros r Hi. rewrite ser_response_message, ser_obj_message. f_equal.
  unfold rs_members, response_object. rewrite !map_app. f_equal.
  - cbn [map fst snd]. rewrite ser_id_json by easy. reflexivity.
  - destruct (rs_result r), (rs_error r); reflexivity.
Qed.

Lemma notification_text : forall n, clean (nt_method n) ->
  ser_notification n = ser (JObj (notification_object n)).
Proof.
  intros r Hm. rewrite ser_notification_message, ser_obj_message. f_equal.
  unfold nt_members, notification_object. rewrite map_app. f_equal.
  - cbn [map fst snd]. cbn [ser]. unfold ser_str at 2. now rewrite (esc_clean (nt_method r)).
  - destruct (nt_params r); reflexivity.
Qed.

(** A decision procedure for [key_in], for examples. *)
Fixpoint key_inb (k : bstr) (v : json) : bool :=
  match v with
  | JArr l => existsb (key_inb k) l
  | JObj l => existsb (fun kv => (beq k (fst kv) || key_inb k (snd kv))%bool) l
  | _ => false
  end.

Lemma key_inb_not : forall k v, key_inb k v = false -> ~ key_in k v.
Proof.
  intros k v H K. assert (key_inb k v = true) as T; [|congruence]. clear H.
  induction K as [l Hi|l v Hi K IH|l v Hi K IH]; cbn [key_inb].
  - apply in_map_iff in Hi as ([k' x] & <- & Hx). apply existsb_exists. exists (k', x).
    split; [easy|]. cbn. now rewrite beq_refl.
  - apply in_map_iff in Hi as ([k' x] & E & Hx). cbn in E. subst. apply existsb_exists. exists (k', v).
    split; [easy|]. cbn. rewrite IH. apply orb_true_r.
  - apply existsb_exists. now exists v.
Qed.

Definition cleanb (s : bstr) : bool :=
  forallb (fun c => N.leb 32 (code c) && negb (Ascii.eqb c QUOTE) && negb (Ascii.eqb c BACKSLASH))%bool s.

Lemma cleanb_clean : forall s, cleanb s = true -> clean s.
Proof.
  intros s H. apply Forall_forall. unfold cleanb in H. rewrite forallb_forall in H. intros c Hc. apply H in Hc.
  rewrite !andb_true_iff, !negb_true_iff in Hc. destruct Hc as [[H1 H2] H3].
  apply N.leb_le in H1. apply Ascii.eqb_neq in H2, H3. auto.
Qed.
