From Coq Require Import Ascii String List Permutation Arith NArith ZArith Bool Lia ZifyBool ZifyNat ZifyN.
From Verif Require Import StrModel StrProofs DoubleModel JsonModel JsonSpec DoubleProofs JsonProofs RpcModel RpcSpec RpcProofs FramerSpec FramerProofs OauthModel LayoutSpec LayoutProofs GuardProofs DiscoModel DiscoSpec.
Import ListNotations.
Local Open Scope nat_scope.

(** Looking inside a document with white space around it. *)
Lemma after_more p s t r : after p s = Some r -> after p (s ++ t) = Some (r ++ t).
Proof.
  unfold after. destruct (find_sub p s) as [k|] eqn:E; [|discriminate]. cbn [option_map]. intros [= <-].
  rewrite (find_sub_app _ _ t _ E). cbn [option_map]. f_equal.
  apply find_sub_some in E as (_ & L & _). rewrite skipn_app. f_equal. replace (k + length p - length s) with 0 by lia. reflexivity.
Qed.
Lemma after_none k s t : ~ In QUOTE t -> after (needle k) s = None -> after (needle k) (s ++ t) = None.
Proof.
  intros N. induction s as [|c s IH]; intros H.
  - cbn [app]. rewrite <- (app_nil_r t). now rewrite after_needle_noq.
  - destruct (starts_with (needle k) (c :: s)) eqn:E.
    + apply starts_with_iff in E as (r & E). rewrite E, after_here in H. discriminate H.
    + cbn [app]. rewrite after_step in H |- *; [auto|exact E|].
      destruct (starts_with (needle k) (c :: s ++ t)) eqn:F; [|reflexivity]. exfalso.
      destruct (le_lt_dec (length (needle k)) (length (c :: s))) as [L|L].
      * change (c :: s ++ t) with ((c :: s) ++ t) in F. rewrite starts_with_app_long in F by exact L. congruence.
      * apply starts_with_iff in F as (r & F). apply N.
        assert (G : nth_error ((c :: s) ++ t) (length (needle k) - 1) = Some QUOTE).
        { cbn [app]. rewrite F, nth_error_app1 by (unfold needle; cbn; rewrite app_length; cbn; lia).
          unfold needle. change (QUOTE :: k ++ [QUOTE]) with ((QUOTE :: k) ++ [QUOTE]). rewrite nth_error_app2; [|rewrite app_length; cbn; lia].
          replace (length ((QUOTE :: k) ++ [QUOTE]) - 1 - length (QUOTE :: k)) with 0 by (rewrite app_length; cbn; lia). reflexivity. }
        rewrite nth_error_app2 in G by lia. exact (nth_error_In _ _ G).
Qed.

Lemma blank_ws a : blank a -> forallb is_ws a = true.
Proof.
  intros H. apply forallb_forall. intros c Hc. unfold blank in H. rewrite Forall_forall in H. apply H in Hc. cbn in Hc.
  destruct Hc as [<-|[<-|[<-|[<-|[]]]]]; reflexivity.
Qed.
Lemma skip_blank a c r : blank a -> is_ws c = false -> drop_while is_ws (a ++ c :: r) = c :: r.
Proof. intros H E. apply drop_while_all; [now apply blank_ws|exact E]. Qed.

(** How values begin. *)
Lemma digit_head c : In c (bs "0123456789+-.eE") -> is_ws c = false /\ c <> QUOTE /\ c <> chr 91 /\ c <> chr 93 /\ c <> chr 44 /\ c <> "t"%char /\ c <> "f"%char.
Proof.
  cbn [bs list_ascii_of_string In]. intros H. repeat (destruct H as [<-|H]; [repeat split; discriminate || reflexivity|]). destruct H.
Qed.
Lemma int_head c : c = chr 45 \/ is_digit c = true -> In c (bs "0123456789+-.eE").
Proof.
  intros [-> |H]; [cbn; intuition|]. destruct c as [a b d e f g h i]. destruct a, b, d, e, f, g, h, i; try discriminate H; cbn; tauto.
Qed.
Lemma writes_head v u : writes v u -> exists c u', u = c :: u' /\ is_ws c = false /\ c <> chr 93 /\ c <> chr 44 /\
  (c = QUOTE -> exists s t, v = JStr s /\ u' = t ++ [QUOTE] /\ str_text s t) /\ (c = chr 91 -> exists l, v = JArr l) /\ (c = "t"%char -> v = JBool true).
Proof.
  intros H. inversion H as [ | | |z|d t Hn Hf|s t Hs|a Ha|l ts Hl Hf|a Ha|l ts Hl Hf]; subst.
  - do 2 eexists. split; [reflexivity|]. repeat split; discriminate.
  - do 2 eexists. split; [reflexivity|]. repeat split; discriminate.
  - do 2 eexists. split; [reflexivity|]. repeat split; discriminate.
  - destruct (print_Z_head z) as (c & r & -> & Hc). apply int_head, digit_head in Hc as (A & B & C & D & E & F & _). exists c, r.
    split; [reflexivity|]. split; [exact A|]. split; [exact D|]. split; [exact E|]. split; [contradiction|]. split; contradiction.
  - destruct u as [|c r]; [congruence|]. inversion Hf as [|x y Hc Hr]; subst. apply digit_head in Hc as (A & B & C & D & E & F & _). exists c, r.
    split; [reflexivity|]. split; [exact A|]. split; [exact D|]. split; [exact E|]. split; [contradiction|]. split; contradiction.
  - do 2 eexists. split; [reflexivity|]. split; [reflexivity|]. split; [discriminate|]. split; [discriminate|]. split; [intros _; exists s, t; auto|]. split; discriminate.
  - do 2 eexists. split; [reflexivity|]. split; [reflexivity|]. split; [discriminate|]. split; [discriminate|]. split; [discriminate|]. split; [eauto|discriminate].
  - do 2 eexists. split; [reflexivity|]. split; [reflexivity|]. split; [discriminate|]. split; [discriminate|]. split; [discriminate|]. split; [eauto|discriminate].
  - do 2 eexists. split; [reflexivity|]. repeat split; discriminate.
  - do 2 eexists. split; [reflexivity|]. repeat split; discriminate.
Qed.

Lemma field_doc k l d : nkey k -> unmentioned k l -> (exists a t b, d = a ++ t ++ b /\ blank a /\ blank b /\ writes (JObj l) t) ->
  match obj_get k l with
  | Some v => exists u r, field_text d k = Some (u ++ r) /\ writes v u /\ exists p, d = p ++ u ++ r
  | None => field_text d k = None
  end.
Proof.
  intros Hk Hm (a & t & b & -> & Ha & Hb & Hw). pose proof (after_doc k l t Hk Hm Hw) as H. unfold field_text.
  rewrite after_needle_noq by now apply blank_noq. destruct (obj_get k l) as [v|].
  - destruct H as (x & y & u & r & A & X & Y & W & _ & p & E). rewrite (after_more _ _ b _ A).
    replace ((x ++ ":"%char :: y ++ u ++ r) ++ b) with (x ++ ":"%char :: y ++ u ++ r ++ b) by (now repeat (cbn [app]; rewrite <- ?app_assoc)).
    rewrite skip_blank by easy. cbn [Ascii.eqb]. change (Ascii.eqb ":" (chr 58)) with true. cbn [Bool.eqb].
    destruct (writes_head _ _ W) as (c & u' & Eu & Hc & _). exists u, (r ++ b). split; [|split; [exact W|]].
    + rewrite Eu. cbn [app]. rewrite skip_blank by easy. reflexivity.
    + exists (a ++ p ++ QUOTE :: k ++ QUOTE :: x ++ ":"%char :: y). rewrite E. now repeat (cbn [app]; rewrite <- ?app_assoc).
  - rewrite after_none by (try apply blank_noq; assumption). reflexivity.
Qed.

(** Strings. *)
Lemma absent_sub p x s y : absent p (x ++ s ++ y) -> absent p s.
Proof. intros H a b ->. apply (H (x ++ a) (b ++ y)). now rewrite <- !app_assoc. Qed.
Lemma absent_tl p c s : absent p (c :: s) -> absent p s.
Proof. intros H. apply (absent_sub p [c] s []). now rewrite app_nil_r. Qed.
Definition easy_text (t : bstr) : Prop := absent (bs "\u") t /\ absent (bs "\b") t /\ absent (bs "\f") t.
Lemma easy_sub x s y : easy_text (x ++ s ++ y) -> easy_text s.
Proof. intros (A & B & C). split; [exact (absent_sub _ _ _ _ A)|split; [exact (absent_sub _ _ _ _ B)|exact (absent_sub _ _ _ _ C)]]. Qed.

Lemma str_value_text s t : str_text s t -> easy_text t -> forall r, str_value (t ++ QUOTE :: r) = (s, Some r).
Proof.
  intros H. induction H as [|c s t H1 H2 H IH|e c s t He H IH|u x y z w s t Hh H IH]; intros N r.
  - reflexivity.
  - cbn [app str_value]. assert (Ascii.eqb c BACKSLASH = false) as -> by (apply eqb_neq; exact H2).
    assert (Ascii.eqb c QUOTE = false) as -> by (apply eqb_neq; exact H1). rewrite IH; [reflexivity|].
    apply (easy_sub [c] t []). now rewrite app_nil_r.
  - cbn [app str_value]. change (Ascii.eqb "\" BACKSLASH) with true. cbv iota. rewrite IH; [|apply (easy_sub ["\"%char; e] t []); now rewrite app_nil_r].
    destruct N as (_ & Nb & Nf). inversion He; subst; try reflexivity; exfalso; [exact (Nb [] t eq_refl)|exact (Nf [] t eq_refl)].
  - exfalso. destruct N as (Nu & _). exact (Nu [] (x :: y :: z :: w :: t) eq_refl).
Qed.

Lemma disco_string_doc k l d : nkey k -> unmentioned k l -> document l d -> disco_string d k = text_member k l.
Proof.
  intros Hk Hm (Hd & He). pose proof (field_doc k l d Hk Hm Hd) as H. unfold disco_string, text_member. destruct (obj_get k l) as [v|]; [|now rewrite H].
  destruct H as (u & r & -> & W & p & E). destruct (writes_head _ _ W) as (c & u' & -> & _ & _ & _ & Q & _ & _). cbn [app].
  destruct (Ascii.eqb c QUOTE) eqn:Ec.
  - apply eqb_eq in Ec. destruct (Q Ec) as (s & t & -> & -> & T). rewrite <- app_assoc. cbn [app]. rewrite (str_value_text s t T); [reflexivity|].
    apply (easy_sub (p ++ [c]) t (QUOTE :: r)). change (easy_text d) in He. rewrite E in He.
    repeat (cbn [app] in He |- *; rewrite <- ?app_assoc in He |- *). exact He.
  - destruct v as [| | | |s| |]; try reflexivity. inversion W; subst. discriminate Ec.
Qed.

Lemma disco_bool_doc k l d : nkey k -> unmentioned k l -> document l d -> disco_bool d k = flag_member k l.
Proof.
  intros Hk Hm (Hd & He). pose proof (field_doc k l d Hk Hm Hd) as H. unfold disco_bool, flag_member. destruct (obj_get k l) as [v|]; [|now rewrite H].
  destruct H as (u & r & -> & W & _). destruct (starts_with (bs "true") (u ++ r)) eqn:E.
  - destruct (writes_head _ _ W) as (c & u' & -> & _ & _ & _ & _ & _ & T). cbn [app] in E. apply starts_with_iff in E as (q & E). injection E as -> _. now rewrite T.
  - destruct v as [|[|]| | | | |]; try reflexivity. inversion W; subst. discriminate E.
Qed.

(** Lists of strings. *)
Definition padded (v : json) (t : bstr) : Prop := exists a u b, t = a ++ u ++ b /\ blank a /\ blank b /\ writes v u.
Lemma join_commas t ts : join (bs ",") (t :: ts) = t ++ flat_map (fun x => ","%char :: x) ts.
Proof.
  revert t. induction ts as [|x ts IH]; intros t; [cbn; now rewrite app_nil_r|].
  change (join (bs ",") (t :: x :: ts)) with (t ++ bs "," ++ join (bs ",") (x :: ts)). rewrite IH. reflexivity.
Qed.

Lemma items_step v b f rest : writes v b -> easy_text b -> str_items (S f) (b ++ rest) =
  match v with JStr s => s :: str_items f rest | _ => [] end.
Proof.
  intros W N. destruct (writes_head _ _ W) as (c & u' & -> & Hw & N1 & N2 & Q & _ & _). cbn [app str_items drop_while]. rewrite Hw.
  assert (Ascii.eqb c (chr 93) = false) as -> by (apply eqb_neq; exact N1). assert (Ascii.eqb c (chr 44) = false) as -> by (apply eqb_neq; exact N2).
  destruct (Ascii.eqb c QUOTE) eqn:Ec.
  - apply eqb_eq in Ec. destruct (Q Ec) as (s & t & -> & -> & T). rewrite <- app_assoc. cbn [app]. rewrite (str_value_text s t T); [reflexivity|].
    exact (easy_sub [c] t [QUOTE] N).
  - destruct v as [| | | |s| |]; try reflexivity. inversion W; subst. discriminate Ec.
Qed.

Lemma items_blank a f s : blank a -> str_items f (a ++ s) = str_items f s.
Proof.
  intros H. destruct f as [|f]; [reflexivity|]. cbn [str_items]. replace (drop_while is_ws (a ++ s)) with (drop_while is_ws s); [reflexivity|].
  induction H as [|c a Hc H IH]; [reflexivity|]. cbn [app drop_while]. cbn in Hc. destruct Hc as [<-|[<-|[<-|[<-|[]]]]]; exact IH.
Qed.
Lemma items_comma f s : (match drop_while is_ws s with c :: _ => c <> chr 93 /\ c <> chr 44 | [] => False end) ->
  str_items (S f) (","%char :: s) = str_items (S f) s.
Proof.
  intros H. cbn [str_items drop_while]. change (is_ws ",") with false. cbv iota. change (Ascii.eqb "," (chr 93)) with false. change (Ascii.eqb "," (chr 44)) with true. cbv iota.
  destruct (drop_while is_ws s) as [|c r]; [destruct H|]. destruct H as [A B]. apply eqb_neq in A, B. now rewrite A, B.
Qed.
Lemma items_end f r : str_items f ("]"%char :: r) = [].
Proof. now destruct f. Qed.

Lemma items_after l ts b r f : Forall2 padded l ts -> easy_text (flat_map (fun x => ","%char :: x) ts) -> blank b -> length l < f ->
  str_items f (b ++ flat_map (fun x => ","%char :: x) ts ++ "]"%char :: r) = leading_strings l.
Proof.
  intros F. revert b f. induction F as [|v t l ts (x & u & y & -> & Hx & Hy & W) F IH]; intros b f N Hb Hf.
  - cbn [flat_map app]. rewrite items_blank by exact Hb. now rewrite items_end.
  - cbn [flat_map length] in *. destruct f as [|f]; [lia|]. rewrite items_blank by exact Hb. cbn [app].
    replace (((x ++ u ++ y) ++ flat_map (fun x => ","%char :: x) ts) ++ "]"%char :: r) with (x ++ u ++ y ++ flat_map (fun x => ","%char :: x) ts ++ "]"%char :: r)
      by (now repeat rewrite <- app_assoc).
    rewrite items_comma.
    2: { destruct (writes_head _ _ W) as (c & u' & -> & Hw & N1 & N2 & _). cbn [app]. rewrite skip_blank by easy. auto. }
    rewrite items_blank by exact Hx. rewrite (items_step v u); [|exact W|].
    2: { apply (easy_sub (","%char :: x) u (y ++ flat_map (fun x => ","%char :: x) ts)). cbn [app] in N |- *. repeat rewrite <- app_assoc in N. exact N. }
    destruct v as [| | | |s| |]; try reflexivity. cbn [leading_strings]. f_equal. apply IH; [|exact Hy|lia].
    apply (easy_sub (","%char :: x ++ u ++ y) (flat_map (fun x => ","%char :: x) ts) []). rewrite app_nil_r. cbn [app] in N |- *. repeat rewrite <- app_assoc in N |- *. exact N.
Qed.

Lemma padded_len l ts : Forall2 padded l ts -> length l <= length (flat_map (fun x => ","%char :: x) ts).
Proof. intros F. induction F as [|v t l ts _ F IH]; cbn; [lia|]. rewrite app_length. lia. Qed.

Lemma disco_strings_doc k l d : nkey k -> unmentioned k l -> document l d -> disco_strings d k = list_member k l.
Proof.
  intros Hk Hm (Hd & He). pose proof (field_doc k l d Hk Hm Hd) as H. unfold disco_strings, list_member. destruct (obj_get k l) as [v|]; [|now rewrite H].
  destruct H as (u & r & -> & W & p & E). destruct (Ascii.eqb (hd (chr 0) u) (chr 91)) eqn:Ec.
  2: { destruct (writes_head _ _ W) as (c & u' & -> & _). cbn [hd app] in *. rewrite Ec. destruct v as [| | | | |a|]; try reflexivity. exfalso.
       inversion W; subst; discriminate Ec. }
  apply eqb_eq in Ec. destruct (writes_head _ _ W) as (c & u' & -> & _ & _ & _ & _ & Q & _). cbn [hd] in Ec. destruct (Q Ec) as (a & ->). cbn [app]. subst c. cbn [Ascii.eqb].
  change (Ascii.eqb (chr 91) (chr 91)) with true. cbv iota. clear Q. inversion W as [| | | | | |b Hb|a' ts Hn F| |]; subst.
  - rewrite <- app_assoc, items_blank by exact Hb. cbn [app]. rewrite items_end. reflexivity.
  - change (Forall2 padded a ts) in F. destruct F as [|v t a ts (x & u & y & -> & Hx & Hy & Wv) F]; [congruence|]. rewrite join_commas.
    set (fm := flat_map (fun x0 : list ascii => ","%char :: x0) ts).
    assert (N : easy_text ((x ++ u ++ y) ++ fm)).
    { apply (easy_sub (p ++ [chr 91]) _ ("]"%char :: r)). change (easy_text (p ++ (chr 91 :: join (bs ",") ((x ++ u ++ y) :: ts) ++ ["]"%char]) ++ r)) in He.
      rewrite join_commas in He. fold fm in He. repeat (cbn [app] in He |- *; rewrite <- ?app_assoc in He |- *). exact He. }
    replace ((((x ++ u ++ y) ++ fm) ++ ["]"%char]) ++ r) with (x ++ u ++ y ++ fm ++ "]"%char :: r) by (now repeat (cbn [app]; rewrite <- ?app_assoc)).
    rewrite items_blank by exact Hx. rewrite (items_step v u); [|exact Wv|].
    2: { apply (easy_sub x u (y ++ fm)). repeat rewrite <- app_assoc in N. exact N. }
    destruct v as [| | | |s| |]; try reflexivity. cbn [leading_strings]. f_equal. apply items_after; [exact F| |exact Hy|].
    + apply (easy_sub (x ++ u ++ y) fm []). now rewrite app_nil_r.
    + pose proof (padded_len _ _ F) as L. fold fm in L. repeat (rewrite app_length; cbn [length]).
      destruct (writes_head _ _ Wv) as (c & u' & -> & _). cbn [length]. lia.
Qed.

(** URLs. *)
Lemma split_char_at c a b : ~ In c a -> split_sub [c] (a ++ c :: b) = Some (a, b).
Proof.
  intros N. unfold split_sub. assert (find_sub [c] (a ++ c :: b) = Some (length a)) as ->.
  { induction a as [|x a IH]; cbn [app find_sub starts_with].
    - rewrite Ascii.eqb_refl. reflexivity.
    - destruct (Ascii.eqb_spec c x) as [->|E]; [exfalso; apply N; now left|]. cbn [andb]. rewrite IH by (intro; apply N; now right). reflexivity. }
  f_equal. f_equal.
  - rewrite firstn_app, firstn_all, Nat.sub_diag. cbn. apply app_nil_r.
  - cbn [length]. rewrite skipn_app. rewrite skipn_all2 by lia. replace (length a + 1 - length a) with 1 by lia. reflexivity.
Qed.
Lemma split_char_none c a : ~ In c a -> split_sub [c] a = None.
Proof. intros N. unfold split_sub. now rewrite find_sub_head_none. Qed.

Lemma not_slash s : ~ In "/"%char s -> forallb (fun c => negb (is_slash c)) s = true.
Proof. intros N. apply forallb_forall. intros c Hc. unfold is_slash. destruct (Ascii.eqb_spec c SLASH) as [->|]; [contradiction|reflexivity]. Qed.

Lemma parse_web w : web_ok w -> parse_url (web_text w) =
  {| up_scheme := if wb_secure w then bs "https" else bs "http"; up_host := wb_host w;
     up_port := match wb_port w with Some p => p | None => default_port w end;
     up_path := match wb_path w with [] => bs "/" | p => p end |}.
Proof.
  intros (Hc & Hs & Hp & Hq). unfold parse_url, web_text, web_origin.
  set (hp := wb_host w ++ match wb_port w with Some p => bs ":" ++ p | None => [] end).
  assert (E : split_sub (bs "://") (((if wb_secure w then bs "https://" else bs "http://") ++ hp) ++ wb_path w) =
    Some (if wb_secure w then bs "https" else bs "http", hp ++ wb_path w)) by (rewrite <- app_assoc; now destruct (wb_secure w)).
  rewrite E. assert (S : span (fun c => negb (is_slash c)) (hp ++ wb_path w) = (hp, wb_path w)).
  { apply span_all.
    - apply not_slash. unfold hp. rewrite in_app_iff. intros [H|H]; [contradiction|]. destruct (wb_port w) as [p|]; [|destruct H].
      apply in_app_or in H as [[H|[]]|H]; [discriminate H|exact (Hp p eq_refl H)].
    - destruct Hq as [-> |(r & ->)]; [exact I|reflexivity]. }
  rewrite S. unfold hp. destruct (wb_port w) as [p|].
  - change (bs ":" ++ p) with (":"%char :: p). change (bs ":") with [":"%char]. rewrite split_char_at by exact Hc. now destruct (wb_path w).
  - rewrite app_nil_r. change (bs ":") with [":"%char]. rewrite split_char_none by exact Hc. unfold default_port. destruct (wb_secure w), (wb_path w); reflexivity.
Qed.

Lemma origin_web w : web_ok w -> origin_of (parse_url (web_text w)) = short_origin w.
Proof.
  intros H. rewrite (parse_web w H). unfold origin_of, short_origin, web_origin, default_port. cbn [up_scheme up_host up_port wb_secure wb_host wb_port].
  destruct (wb_secure w).
  - change (beq (bs "https") (bs "https")) with true. change (beq (bs "https") (bs "http")) with false. cbn [andb orb]. rewrite orb_false_r.
    destruct (wb_port w) as [p|]; [|reflexivity]. destruct (beq p (bs "443")); reflexivity.
  - change (beq (bs "http") (bs "https")) with false. change (beq (bs "http") (bs "http")) with true. cbn [andb orb].
    destruct (wb_port w) as [p|]; [|reflexivity]. destruct (beq p (bs "80")); reflexivity.
Qed.

Lemma strip_bare p n : bare_path p -> strip_slashes (p ++ repeat "/"%char n) = p.
Proof.
  intros (N & H). unfold strip_slashes. rewrite rev_app_distr.
  assert (E : forall m s, drop_while is_slash (rev (repeat "/"%char m) ++ s) = drop_while is_slash s).
  { induction m as [|m IH]; intros s; [reflexivity|]. cbn [repeat rev]. rewrite <- app_assoc. rewrite IH. reflexivity. }
  rewrite E. destruct (rev p) as [|c r] eqn:R.
  - exfalso. apply N. rewrite <- (rev_involutive p), R. reflexivity.
  - cbn [drop_while]. destruct (is_slash c) eqn:C.
    + exfalso. unfold is_slash in C. apply eqb_eq in C. apply (H (rev r)). rewrite <- (rev_involutive p), R, C. reflexivity.
    + rewrite <- R. apply rev_involutive.
Qed.
Lemma strip_none n : strip_slashes (repeat "/"%char n) = [].
Proof.
  unfold strip_slashes. replace (drop_while is_slash (rev (repeat "/"%char n))) with (@nil ascii); [reflexivity|].
  assert (E : forall m s, drop_while is_slash (rev (repeat "/"%char m) ++ s) = drop_while is_slash s).
  { induction m as [|m IH]; intros s; [reflexivity|]. cbn [repeat rev]. rewrite <- app_assoc. rewrite IH. reflexivity. }
  specialize (E n []). rewrite app_nil_r in E. now rewrite E.
Qed.
Lemma bare_ne p : bare_path p -> (negb (beq p []) && negb (beq p (bs "/")))%bool = true.
Proof.
  intros (N & H). apply andb_true_iff. rewrite !negb_true_iff, !beq_neq. split; [exact N|]. intros ->. exact (H [] eq_refl).
Qed.

Lemma path_of w n : web_ok w -> strip_slashes (up_path (parse_url (web_text w))) =
  strip_slashes (wb_path w ++ repeat "/"%char n).
Proof.
  intros H. rewrite (parse_web w H). cbn [up_path].
  assert (E : forall s m, strip_slashes (s ++ repeat "/"%char m) = strip_slashes s).
  { intros s m. unfold strip_slashes. rewrite rev_app_distr. f_equal.
    induction m as [|m IH]; [reflexivity|]. cbn [repeat rev]. rewrite <- IH.
    assert (Q : forall m s, drop_while is_slash (rev (repeat "/"%char m) ++ s) = drop_while is_slash s).
    { induction m0 as [|m0 IH0]; intros s0; [reflexivity|]. cbn [repeat rev]. rewrite <- app_assoc. rewrite IH0. reflexivity. }
    rewrite <- app_assoc. now rewrite !Q. }
  rewrite E. destruct (wb_path w); reflexivity.
Qed.

Lemma server_urls_path w p n : web_ok w -> bare_path p -> wb_path w = p ++ repeat "/"%char n ->
  server_urls (web_text w) = [short_origin w ++ bs "/.well-known/oauth-authorization-server" ++ p;
    short_origin w ++ bs "/.well-known/openid-configuration" ++ p; short_origin w ++ p ++ bs "/.well-known/openid-configuration"].
Proof.
  intros H B E. unfold server_urls. rewrite (origin_web w H), (path_of w 0 H). cbn [repeat]. rewrite app_nil_r, E, (strip_bare p n B), (bare_ne p B). reflexivity.
Qed.
Lemma server_urls_root w n : web_ok w -> wb_path w = repeat "/"%char n ->
  server_urls (web_text w) = [short_origin w ++ bs "/.well-known/oauth-authorization-server"; short_origin w ++ bs "/.well-known/openid-configuration"].
Proof. intros H E. unfold server_urls. rewrite (origin_web w H), (path_of w 0 H). cbn [repeat]. now rewrite app_nil_r, E, strip_none. Qed.

Lemma resource_urls_one w s n : web_ok w -> s <> [] -> ~ In "/"%char s -> wb_path w = ("/"%char :: s) ++ repeat "/"%char n ->
  resource_urls (web_text w) = [short_origin w ++ bs "/.well-known/oauth-protected-resource" ++ "/"%char :: s; short_origin w ++ bs "/.well-known/oauth-protected-resource"].
Proof.
  intros H Ns Nc E. assert (B : bare_path ("/"%char :: s)).
  { split; [discriminate|]. intros r Hr. destruct r as [|c r]; [injection Hr as ->; congruence|]. injection Hr as _ ->. apply Nc, in_or_app. right. now left. }
  unfold resource_urls. rewrite (origin_web w H), (path_of w 0 H). cbn [repeat]. rewrite app_nil_r, E, (strip_bare _ n B), (bare_ne _ B). cbn [app].
  change (rfind_char SLASH ("/"%char :: s)) with (rfind_char SLASH ([] ++ SLASH :: s)). rewrite (rfind_app SLASH [] s Nc). reflexivity.
Qed.
Lemma resource_urls_root w n : web_ok w -> wb_path w = repeat "/"%char n ->
  resource_urls (web_text w) = [short_origin w ++ bs "/.well-known/oauth-protected-resource"].
Proof. intros H E. unfold resource_urls. rewrite (origin_web w H), (path_of w 0 H). cbn [repeat]. now rewrite app_nil_r, E, strip_none. Qed.

(** Probing. *)
Lemma probe_spec {M} (parse : bstr -> M * bool) get : forall urls n,
  let good i u := fst (get (n + i) u) = 200%N /\ snd (get (n + i) u) <> [] /\ snd (parse (snd (get (n + i) u))) = true in
  (exists a u b, urls = a ++ u :: b /\ probe parse get n urls = (a ++ [u], Some (fst (parse (snd (get (n + length a) u))))) /\ good (length a) u /\
     forall i v, nth_error a i = Some v -> ~ good i v) \/
  (probe parse get n urls = (urls, None) /\ forall i v, nth_error urls i = Some v -> ~ good i v).
Proof.
  induction urls as [|u r IH]; intros n good.
  { right. split; [reflexivity|]. intros [|i] v H; discriminate H. }
  cbn [probe]. destruct (get n u) as [st body] eqn:G. destruct (parse body) as [m ok] eqn:P.
  destruct (N.eqb st 200 && negb (beq body []) && ok)%bool eqn:C.
  - left. exists [], u, r. split; [reflexivity|]. cbn [length app]. rewrite Nat.add_0_r, G. cbn [fst snd]. rewrite P. split; [reflexivity|]. split.
    + unfold good. cbn [length]. rewrite Nat.add_0_r, G. cbn [fst snd]. rewrite P. apply andb_true_iff in C as [C C3]. apply andb_true_iff in C as [C1 C2].
      apply N.eqb_eq in C1. apply negb_true_iff, beq_neq in C2. auto.
    + intros [|i] v H; discriminate H.
  - assert (B : ~ good 0 u).
    { unfold good. rewrite Nat.add_0_r, G. cbn [fst snd]. rewrite P. cbn [snd]. intros (-> & H2 & ->). apply beq_neq in H2. rewrite H2 in C. discriminate C. }
    destruct (IH (S n)) as [(a & v & b & -> & E & Gd & Bad)|(E & Bad)].
    + left. exists (u :: a), v, b. split; [reflexivity|]. rewrite E. cbn [app length]. rewrite Nat.add_succ_comm in *. cbn [length].
      split; [reflexivity|]. split; [exact Gd|]. intros [|i] x H; [injection H as <-; exact B|]. cbn [nth_error] in H.
      specialize (Bad i x H). rewrite Nat.add_succ_comm in Bad. exact Bad.
    + right. rewrite E. split; [reflexivity|]. intros [|i] x H; [injection H as <-; exact B|]. cbn [nth_error] in H.
      specialize (Bad i x H). rewrite Nat.add_succ_comm in Bad. exact Bad.
Qed.

(** Documents that are cut short. *)
Lemma str_value_cut : forall n p q, length p <= n -> forall o r, str_value p = (o, Some r) -> str_value (p ++ q) = (o, Some (r ++ q)).
Proof.
  induction n as [|n IH]; intros p q L o r H; [destruct p; [discriminate|cbn in L; lia]|].
  destruct p as [|c p]; [discriminate|]. cbn [length] in L. cbn [app str_value] in *. destruct (Ascii.eqb c BACKSLASH).
  - destruct p as [|d p]; [discriminate|]. cbn [length] in L. cbn [app]. destruct (str_value p) as [o' [r'|]] eqn:E; [|discriminate]. injection H as <- <-.
    now rewrite (IH p q ltac:(lia) _ _ E).
  - destruct (Ascii.eqb c QUOTE); [injection H as <- <-; reflexivity|]. destruct (str_value p) as [o' [r'|]] eqn:E; [|discriminate]. injection H as <- <-.
    now rewrite (IH p q ltac:(lia) _ _ E).
Qed.
Lemma drop_cut : forall f p q, drop_while f p = [] \/ drop_while f (p ++ q) = drop_while f p ++ q.
Proof.
  intros f. induction p as [|c p IH]; intros q; [now left|]. cbn [app drop_while]. destruct (f c); [apply IH|now right].
Qed.
Lemma items_cut : forall f g p q, f <= g -> exists t, str_items g (p ++ q) = str_items f p ++ t.
Proof.
  induction f as [|f IH]; intros g p q L; [eexists; reflexivity|]. destruct g as [|g]; [lia|]. cbn [str_items].
  destruct (drop_cut is_ws p q) as [E|E]; [rewrite E; eexists; reflexivity|]. rewrite E.
  destruct (drop_while is_ws p) as [|c r]; [eexists; reflexivity|]. cbn [app]. destruct (Ascii.eqb c (chr 93)); [eexists; reflexivity|].
  set (s := if Ascii.eqb c (chr 44) then drop_while is_ws r else c :: r). set (s' := if Ascii.eqb c (chr 44) then drop_while is_ws (r ++ q) else c :: r ++ q).
  assert (s = [] \/ s' = s ++ q) as K.
  { unfold s, s'. destruct (Ascii.eqb c (chr 44)); [|now right]. apply drop_cut. }
  clearbody s s'. destruct K as [-> | ->]; [eexists; reflexivity|]. destruct s as [|d u]; [eexists; reflexivity|]. cbn [app].
  destruct (Ascii.eqb d QUOTE); [|eexists; reflexivity]. destruct (str_value u) as [o [x|]] eqn:V; [|eexists; reflexivity].
  rewrite (str_value_cut _ u q (Nat.le_refl _) _ _ V). destruct (IH g x q ltac:(lia)) as (t & T). exists t. now rewrite T.
Qed.
Lemma after_cut : forall p s q r, after p s = Some r -> after p (s ++ q) = Some (r ++ q).
Proof.
  intros p s q r H. unfold after in *. destruct (find_sub p s) as [k|] eqn:E; [|discriminate]. cbn [option_map] in H. injection H as <-.
  rewrite (find_sub_app _ _ q _ E). cbn [option_map]. apply find_sub_some in E as (_ & E & _). f_equal.
  rewrite skipn_app. now replace (k + length p - length s) with 0 by lia.
Qed.
Lemma text_cut : forall s q k r, field_text s k = Some r -> r = [] \/ field_text (s ++ q) k = Some (r ++ q).
Proof.
  intros s q k r H. unfold field_text in *. destruct (after (needle k) s) as [u|] eqn:E; [|discriminate]. rewrite (after_cut _ _ q _ E).
  destruct (drop_cut is_ws u q) as [D|D]; [rewrite D in H; discriminate|]. rewrite D. destruct (drop_while is_ws u) as [|c v]; [discriminate|]. cbn [app].
  destruct (Ascii.eqb c (chr 58)); [|discriminate]. injection H as <-. destruct (drop_cut is_ws v q) as [D'|D']; [now left|]. right. now rewrite D'.
Qed.
Lemma strings_cut : forall s q k, exists t, disco_strings (s ++ q) k = disco_strings s k ++ t.
Proof.
  intros s q k. unfold disco_strings. destruct (field_text s k) as [r|] eqn:E; [|eexists; reflexivity].
  destruct (text_cut _ q _ _ E) as [-> |T]; [eexists; reflexivity|]. rewrite T. destruct r as [|c r]; [eexists; reflexivity|]. cbn [app].
  destruct (Ascii.eqb c (chr 91)); [|eexists; reflexivity]. apply items_cut. rewrite app_length. lia.
Qed.
