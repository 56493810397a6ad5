From Coq Require Import Ascii String List Arith NArith ZArith Bool Lia.
From Verif Require Import StrModel StrProofs RpcModel OauthModel DiscoModel FetchModel FetchSpec.
Import ListNotations.
Local Open Scope nat_scope.

Definition debug_act (a : act) : Prop := match a with Op _ => True | Say t => is_debug t = true end.
Lemma debug_is : forall t, is_debug (DEBUG ++ t) = true.
Proof. intro t. unfold is_debug. change 12 with (length DEBUG). rewrite firstn_app, Nat.sub_diag, firstn_all. cbn [firstn]. rewrite app_nil_r. reflexivity. Qed.

Lemma script_debug : forall url n, Forall debug_act (script url n).
Proof.
  intros url n. unfold script, say. repeat (apply Forall_app; split).
  - constructor; [exact I|]. constructor; [apply debug_is|constructor].
  - destruct (beq _ _); repeat (apply Forall_app; split).
    + destruct (na_verify n) as [[w|]|]; repeat constructor; apply debug_is.
    + destruct (_ && _)%bool; repeat constructor; apply debug_is.
    + repeat (constructor; [first [exact I|apply debug_is]|]). constructor.
    + repeat (constructor; [first [exact I|apply debug_is]|]). constructor.
Qed.

Definition ops_of (l : list act) : list (option bstr) := flat_map (fun a => match a with Op r => [r] | Say _ => [] end) l.
Lemma ops_app : forall a b, ops_of (a ++ b) = ops_of a ++ ops_of b.
Proof. intros. apply flat_map_app. Qed.
Lemma script_ops : forall url n, ops_of (script url n) = needed url n.
Proof.
  intros url n. unfold script, needed, secure, say. destruct (beq (up_scheme (parse_url url)) (bs "https")); rewrite !ops_app; [|reflexivity].
  destruct (na_verify n) as [[w|]|]; destruct (nonempty (up_host (parse_url url)) && negb (na_sni n))%bool; reflexivity.
Qed.

Lemma errors_app : forall a b, errors (a ++ b) = errors a ++ errors b.
Proof. intros. apply filter_app. Qed.

(** A calm handler, or none, lets the operations decide. *)
Lemma run_calm : forall h, (h = None \/ calm h) -> forall l told,
  Forall debug_act l ->
  (Forall (fun r => r = None) (ops_of l) -> exists m, run_acts h l told = (None, told ++ m) /\ errors m = []) /\
  (forall a w b, ops_of l = a ++ Some w :: b -> Forall (fun r => r = None) a -> exists m, run_acts h l told = (Some w, told ++ m) /\ errors m = []).
Proof.
  intros h H. induction l as [|x l IH]; intros told D; [split|].
  - intros _. exists []. now rewrite app_nil_r.
  - intros a w b E. destruct a; discriminate.
  - inversion D as [|y z D1 D2]; subst. destruct x as [[w0|]|t].
    + split.
      * intro F. cbn in F. inversion F. discriminate.
      * intros [|y a] w b E F; cbn in E.
        -- injection E as -> E. exists []. now rewrite app_nil_r.
        -- injection E as E0 E. inversion F. congruence.
    + destruct (IH told D2) as [I1 I2]. split.
      * intro F. cbn in F. inversion F. now apply I1.
      * intros [|y a] w b E F; cbn in E; [discriminate|]. injection E as E0 E. inversion F. exact (I2 a w b E ltac:(assumption)).
    + cbn [ops_of flat_map List.app run_acts]. fold (ops_of l).
      destruct H as [->|(f & -> & C)]; cbn [tell].
      * exact (IH told D2).
      * rewrite C. destruct (IH (told ++ [t]) D2) as [I1 I2]. cbn in D1. split.
        -- intro F. destruct (I1 F) as (m & R & Z). exists (t :: m). rewrite R, <- app_assoc. split; [reflexivity|]. cbn. now rewrite D1.
        -- intros a w b E F. destruct (I2 a w b E F) as (m & R & Z). exists (t :: m). rewrite R, <- app_assoc. split; [reflexivity|]. cbn. now rewrite D1.
Qed.

Lemma no_debug_failed : forall w, is_debug (FAILED ++ w) = false.
Proof. intro w. reflexivity. Qed.

Lemma ready_failed : forall h url n w, calm h -> failed url n w ->
  exists told, ready h url n = (NoToken, told) /\ errors told = [FAILED ++ w; NO_REPLY].
Proof.
  intros h url n w C (a & b & E & F).
  destruct (proj2 (run_calm h (or_intror C) (script url n) [] (script_debug url n)) a w b) as (m & R & Z); [now rewrite script_ops|exact F|].
  cbn [List.app] in R. unfold ready, post_form. rewrite R. destruct C as (f & -> & C). cbn [tell]. rewrite C. unfold last_word. cbn [tell]. rewrite C.
  eexists. split; [reflexivity|]. rewrite !errors_app, Z. unfold errors. cbn [filter]. rewrite no_debug_failed. reflexivity.
Qed.

Lemma ready_reached : forall h url n, calm h -> reached url n ->
  exists m, errors m = [] /\
  match na_body n with
  | [] => ready h url n = (NoToken, m ++ [NO_REPLY])
  | _ => match string_field (na_body n) (bs "access_token") with
         | Some t => ready h url n = (Token t (lifetime (na_body n)), m)
         | None => ready h url n = (NoToken, m ++ [NO_TOKEN])
         end
  end.
Proof.
  intros h url n C F. unfold reached in F. rewrite <- script_ops in F.
  destruct (proj1 (run_calm h (or_intror C) (script url n) [] (script_debug url n)) F) as (m & R & Z).
  cbn [List.app] in R. exists m. split; [exact Z|]. unfold ready, post_form. rewrite R. destruct C as (f & -> & C).
  destruct (na_body n) as [|c r] eqn:B.
  - unfold last_word. cbn [tell]. now rewrite C.
  - destruct (string_field (c :: r) (bs "access_token")); [reflexivity|]. unfold last_word. cbn [tell]. now rewrite C.
Qed.

Lemma decided : forall url n, reached url n \/ exists w, failed url n w.
Proof.
  intros url n. unfold reached, failed. induction (needed url n) as [|[w|] l IH].
  - left. constructor.
  - right. exists w, [], l. split; [reflexivity|constructor].
  - destruct IH as [F|(w & a & b & E & F)]; [left; now constructor|]. right. exists w, (None :: a), b. split; [now rewrite E|now constructor].
Qed.

(** The result is the same without a handler. *)
Lemma same : forall h url n, calm h -> fst (ready h url n) = fst (ready None url n).
Proof.
  intros h url n C. destruct (decided url n) as [F|(w & F)].
  - destruct (ready_reached h url n C F) as (m & _ & H). unfold reached in F. rewrite <- script_ops in F.
    destruct (proj1 (run_calm None (or_introl eq_refl) (script url n) [] (script_debug url n)) F) as (m' & R & _).
    unfold ready at 2, post_form. rewrite R. destruct (na_body n) as [|c r].
    + rewrite H. reflexivity.
    + destruct (string_field (c :: r) (bs "access_token")); rewrite H; reflexivity.
  - destruct (ready_failed h url n w C F) as (told & H & _). rewrite H. destruct F as (a & b & E & F).
    destruct (proj2 (run_calm None (or_introl eq_refl) (script url n) [] (script_debug url n)) a w b) as (m & R & Z); [now rewrite script_ops|exact F|].
    unfold ready, post_form. rewrite R. reflexivity.
Qed.

(** An exception that leaves ensureReady is one the handler threw, when it was told of an error. *)
Lemma escapes : forall h url n w told, ready h url n = (Threw w, told) ->
  exists f before t, h = Some f /\ told = before ++ [t] /\ f before t = Some w /\ is_debug t = false.
Proof.
  intros h url n w told. unfold ready, post_form, last_word.
  destruct (run_acts h (script url n) []) as [[e|] l].
  - destruct h as [f|]; cbn [tell]; [|intro X; discriminate X]. destruct (f l (FAILED ++ e)) as [x|] eqn:Q.
    + intros [= <- <-]. exists f, l, (FAILED ++ e). repeat split. exact Q.
    + cbn [tell]. match goal with |- context [match ?q with Some _ => _ | None => _ end] => destruct q as [x|] eqn:Q2 end; [|intro X; discriminate X].
      intros [= <- <-]. exists f, (l ++ [FAILED ++ e]), NO_REPLY. repeat split. exact Q2.
  - destruct (na_body n) as [|c r]; cbv beta iota.
    + destruct h as [f|]; cbn [tell]; [|intro X; discriminate X]. destruct (f l NO_REPLY) as [x|] eqn:Q; [|intro X; discriminate X].
      intros [= <- <-]. exists f, l, NO_REPLY. repeat split. exact Q.
    + destruct (string_field (c :: r) (bs "access_token")); [intro X; discriminate X|].
      destruct h as [f|]; cbn [tell]; [|intro X; discriminate X]. destruct (f l NO_TOKEN) as [x|] eqn:Q; [|intro X; discriminate X].
      intros [= <- <-]. exists f, l, NO_TOKEN. repeat split. exact Q.
Qed.

(** How many times a calm handler is told something. *)
Definition says (l : list act) : nat := length (filter (fun a => match a with Say _ => true | Op _ => false end) l).
Lemma run_says : forall f, (forall told t, f told t = None) -> forall l told, Forall (fun r => r = None) (ops_of l) ->
  length (snd (run_acts (Some f) l told)) = length told + says l.
Proof.
  intros f C. induction l as [|[[w|]|t] l IH]; intros told F; cbn.
  - lia.
  - inversion F. discriminate.
  - apply IH. now inversion F.
  - rewrite C, IH by exact F. rewrite app_length. cbn. unfold says. cbn. lia.
Qed.
Lemma says_app : forall a b, says (a ++ b) = says a + says b.
Proof. intros. unfold says. now rewrite filter_app, app_length. Qed.
Lemma says_script : forall url n, (if secure url then 5 else 4) <= says (script url n).
Proof.
  intros url n. unfold script, secure, say. destruct (beq (up_scheme (parse_url url)) (bs "https")); rewrite !says_app; unfold says; cbn; lia.
Qed.
Lemma told_always : forall h url n, calm h -> reached url n -> (if secure url then 5 else 4) <= length (snd (ready h url n)).
Proof.
  intros h url n (f & -> & C) F. unfold reached in F. rewrite <- script_ops in F.
  pose proof (run_says f C (script url n) [] F) as L. pose proof (says_script url n) as S0. cbn [length Nat.add] in L.
  unfold ready, post_form. destruct (run_calm (Some f) (or_intror (ex_intro _ f (conj eq_refl C))) (script url n) [] (script_debug url n)) as [R _].
  destruct (R F) as (m & E & _). rewrite E in L |- *. cbn [snd List.app] in L.
  destruct (na_body n) as [|c r]; [unfold last_word; cbn [tell]; rewrite C; cbn [snd]; rewrite app_length; cbn [List.app]; lia|].
  destruct (string_field (c :: r) (bs "access_token")); [cbn [snd List.app]; lia|].
  unfold last_word. cbn [tell]. rewrite C. cbn [snd]. rewrite app_length. cbn [List.app]. lia.
Qed.
