From Coq Require Import Ascii String List Permutation Arith NArith ZArith Bool Lia ZifyBool ZifyNat ZifyN.
From Verif Require Import StrModel StrProofs DoubleModel JsonModel JsonSpec JsonProofs RpcModel ObjSpec ObjProofs MapModel TaskModel TaskSpec TaskProofs DescModel DescSpec DescProofs RegModel RegSpec ValModel ValSpec ValProofs TmplModel TmplSpec ReadModel ReadSpec.
Import ListNotations.
Local Open Scope nat_scope.

Lemma item_text_iff : forall v t, item_text v = Some t <-> text_item v t.
Proof.
  intros v t. unfold item_text, text_item. split.
  - destruct v as [| | | | | |o]; try discriminate. intro H. exists o. split; [reflexivity|].
    destruct (obj_get (bs "type") o) as [[| | | |ty| |]|] eqn:E1; try discriminate.
    destruct (obj_get (bs "text") o) as [[| | | |x| |]|] eqn:E2; try discriminate.
    destruct (beq ty (bs "text")) eqn:E3; [|discriminate]. apply beq_eq in E3. subst ty. injection H as ->. now split.
  - intros (o & -> & E1 & E2). rewrite E1, E2, beq_refl. reflexivity.
Qed.

Lemma flatten_iff : forall l text, flatten l = Some text <-> text_of l text.
Proof.
  intros l. unfold text_of. induction l as [|v l IH]; intro text; cbn [flatten].
  - split; [intro H; injection H as <-; exists []; now split|]. intros (ts & H & ->). inversion H; now subst.
  - split.
    + intro H. destruct (item_text v) as [t|] eqn:E; [|discriminate]. destruct (flatten l) as [s|] eqn:F; [|discriminate].
      injection H as <-. destruct (proj1 (IH s) eq_refl) as (ts & H1 & ->). exists (t :: ts). split; [|reflexivity].
      constructor; [now apply item_text_iff|exact H1].
    + intros (ts & H & ->). inversion H as [|x t l' ts' H1 H2]; subst. apply item_text_iff in H1. rewrite H1.
      assert (flatten l = Some (concat ts')) as -> by (apply IH; now exists ts'). reflexivity.
Qed.

(** The result object. *)
Definition read_obj (c : read_cfg) (contents items : list json) : obj :=
  let o := obj_set (bs "contents") (JArr items) [] in
  match meta_candidate contents with
  | Some m => match meta_shown (rc_ui c) m with Some m' => obj_set META m' o | None => o end
  | None => o
  end.

Lemma read_obj_is : forall c contents items, exists m, read_obj c contents items = opt_set META idj m (obj_set (bs "contents") (JArr items) []).
Proof.
  intros c contents items. unfold read_obj. destruct (meta_candidate contents) as [m|]; [|now exists None].
  destruct (meta_shown (rc_ui c) m) as [m'|]; [now exists (Some m')|now exists None].
Qed.

Lemma read_obj_contents : forall c contents items, obj_get (bs "contents") (read_obj c contents items) = Some (JArr items).
Proof. intros c contents items. destruct (read_obj_is c contents items) as (m & ->). objs. reflexivity. Qed.
Lemma read_obj_code : forall c contents items, obj_get (bs "code") (read_obj c contents items) = None.
Proof. intros c contents items. destruct (read_obj_is c contents items) as (m & ->). objs. reflexivity. Qed.
Lemma read_obj_nodup : forall c contents items, NoDup (map fst (read_obj c contents items)).
Proof. intros c contents items. destruct (read_obj_is c contents items) as (m & ->). nodups. Qed.

Lemma build_read_is : forall c contents off len,
  build_read c contents off len =
  match (match off, len with
         | None, None => Some contents
         | _, _ => option_map (fun text => window (clamp_of (rc_exp c)) text off len) (flatten contents)
         end) with
  | None => inl (bs "Chunking requires text content")
  | Some items => if (rc_strict c && negb (forallb read_item items))%bool then inl (bs "Invalid resource read result shape")
                  else inr (JObj (read_obj c contents items))
  end.
Proof.
  assert (forall c contents items, valid_read (JObj (read_obj c contents items)) = forallb read_item items) as V.
  { intros c contents items. unfold valid_read, arr_field. now rewrite read_obj_contents. }
  intros c contents off len. unfold build_read. fold (read_obj c contents).
  destruct off, len; try (destruct (flatten contents); [cbn [option_map]|reflexivity]); now rewrite <- (V c contents).
Qed.

Lemma text_obj_valid : forall t, read_item (JObj (obj_set (bs "text") (JStr t) (obj_set (bs "type") (JStr (bs "text")) []))) = true.
Proof. reflexivity. Qed.

Lemma firstn_min : forall A (l : list A) n, firstn (Nat.min n (length l)) l = firstn n l.
Proof. intros A l n. rewrite <- firstn_firstn, firstn_all. reflexivity. Qed.

Lemma window_spec : forall clamp text offset len, sensible offset len ->
  forall t, t = part clamp offset len text ->
  forallb read_item (window clamp text offset len) = true /\
  ((t = [] /\ window clamp text offset len = []) \/ (t <> [] /\ window clamp text offset len = [make_text t])).
Proof.
  intros clamp text offset len [Ho Hl] t ->. unfold window, part.
  assert (Z.to_nat match offset with Some z => z | None => 0%Z end = match offset with Some z => Z.to_nat z | None => 0 end) as E0 by (now destruct offset).
  assert (Z.to_N match offset with Some z => z | None => 0%Z end = match offset with Some z => Z.to_N z | None => 0%N end) as E1 by (now destruct offset).
  rewrite <- E0, <- E1. assert (0 <= match offset with Some z => z | None => 0%Z end)%Z as H0 by (destruct offset; [now apply Ho|lia]).
  generalize dependent (match offset with Some z => z | None => 0%Z end). intros off _ _ H0.
  destruct (N.ltb (Z.to_N off) (N.of_nat (length text))) eqn:E.
  - split; [reflexivity|]. right. rewrite Z_N_nat. set (rest := skipn (Z.to_nat off) text).
    assert (N.of_nat (length rest) = N.of_nat (length text) - Z.to_N off)%N as L by (unfold rest; rewrite skipn_length; lia).
    rewrite <- L.
    match goal with |- context [if ?b then clamp else ?d] => set (take := if b then clamp else d) end.
    assert (firstn (N.to_nat take) rest = upto (if N.eqb clamp 0 then None else Some clamp) (upto (option_map Z.to_N len) rest)) as Et.
    { assert (firstn (N.to_nat (N.min match len with Some z => Z.to_N z | None => N.of_nat (length rest) end (N.of_nat (length rest)))) rest
              = upto (option_map Z.to_N len) rest) as Em.
      { rewrite N2Nat.inj_min, Nat2N.id, firstn_min. destruct len as [z|]; cbn [option_map upto]; [reflexivity|]. rewrite Nat2N.id. apply firstn_all. }
      unfold take. rewrite <- Em. destruct (N.eqb clamp 0) eqn:Ec; cbn [upto].
      - assert (N.ltb 0 clamp = false) as -> by lia. reflexivity.
      - assert (N.ltb 0 clamp = true) as -> by lia. cbn [andb]. rewrite firstn_firstn.
        match goal with |- context [N.ltb clamp ?m] => destruct (N.ltb clamp m) eqn:En; f_equal; lia end. }
    rewrite <- Et. split; [|reflexivity]. intro H. apply (f_equal (@length ascii)) in H. rewrite firstn_length in H. cbn [length] in H.
    assert (0 < take)%N; [|lia]. unfold take.
    assert (0 < N.min match len with Some z => Z.to_N z | None => N.of_nat (length rest) end (N.of_nat (length rest)))%N.
    { destruct len as [z|]; [specialize (Hl z eq_refl)|]; lia. }
    destruct (N.ltb 0 clamp) eqn:Ec; cbn [andb]; [|assumption]. match goal with |- context [if ?b then _ else _] => destruct b end; lia.
  - split; [reflexivity|]. left. split; [|reflexivity]. rewrite skipn_all2 by lia.
    assert (forall x, upto x [] = []) as U by (intros []; [apply firstn_nil|reflexivity]). now rewrite !U.
Qed.

Lemma handle_window : forall c g rd u contents text offset len params, u <> [] -> yields g rd u contents -> text_of contents text ->
  sensible offset len -> offset <> None \/ len <> None -> wants u offset len params ->
  exists items, handle_read c g rd false params = AResult (JObj (read_obj c contents items)) /\
    forall t, t = part (clamp_of (rc_exp c)) offset len text ->
      (t = [] /\ items = []) \/ (t <> [] /\ items = [make_text t]).
Proof.
  intros c g rd u contents text offset len params Hu Hy Ht Hs Hn (o & -> & E1 & E2 & E3).
  exists (window (clamp_of (rc_exp c)) text offset len). split.
  - unfold handle_read, get_str, get_int. rewrite E1, E2, E3. cbn [or_empty]. destruct u as [|x u]; [contradiction|].
    assert (forall z : option Z, match option_map JInt z with Some (JInt y) => Some y | _ => None end = z) as Eo by (now intros []). rewrite !Eo.
    destruct (window_spec (clamp_of (rc_exp c)) text offset len Hs _ eq_refl) as [V _]. destruct Hs as [Ho Hl].
    assert (match offset with Some z => Z.ltb z 0 | None => false end = false) as -> by (destruct offset as [z|]; [specialize (Ho z eq_refl); lia|reflexivity]).
    assert (match len with Some z => Z.leb z 0 | None => false end = false) as -> by (destruct len as [z|]; [specialize (Hl z eq_refl); lia|reflexivity]).
    apply flatten_iff in Ht.
    assert (build_read c contents offset len = inr (JObj (read_obj c contents (window (clamp_of (rc_exp c)) text offset len)))) as B.
    { rewrite build_read_is, Ht. destruct offset, len; try (now destruct Hn); cbn [option_map]; rewrite V; cbn [negb]; now rewrite andb_false_r. }
    destruct Hy as [(h & R & P)|(h & vs & R & P)]; rewrite R, P, B; reflexivity.
  - intros t Et. exact (proj2 (window_spec _ text offset len Hs t Et)).
Qed.

Lemma make_text_item : forall t, text_item (make_text t) t.
Proof. intro t. eexists. split; [reflexivity|]. split; reflexivity. Qed.

Lemma window_carries : forall c g rd u contents text offset len params, u <> [] -> yields g rd u contents -> text_of contents text ->
  sensible offset len -> offset <> None \/ len <> None -> wants u offset len params ->
  carries (handle_read c g rd false params) (part (clamp_of (rc_exp c)) offset len text).
Proof.
  intros c g rd u contents text offset len params Hu Hy Ht Hs Hn Hw.
  destruct (handle_window c g rd u contents text offset len params Hu Hy Ht Hs Hn Hw) as (items & E & K). specialize (K _ eq_refl).
  exists (read_obj c contents items), items. split; [exact E|]. split; [apply read_obj_contents|].
  destruct K as [K|[K1 K2]]; [now left|]. right. split; [exact K1|]. eexists. split; [exact K2|apply make_text_item].
Qed.

Lemma full_read : forall c g rd u contents params, u <> [] -> yields g rd u contents ->
  rc_strict c = false \/ Forall (fun v => TextContent v \/ ResourceContents v) contents -> wants u None None params ->
  exists o, handle_read c g rd false params = AResult (JObj o) /\ obj_get (bs "contents") o = Some (JArr contents).
Proof.
  intros c g rd u contents params Hu Hy Hs (o & -> & E1 & E2 & E3). exists (read_obj c contents contents). split; [|apply read_obj_contents].
  unfold handle_read, get_str, get_int. rewrite E1, E2, E3. cbn [or_empty option_map]. destruct u as [|x u]; [contradiction|].
  assert (build_read c contents None None = inr (JObj (read_obj c contents contents))) as B.
  { rewrite build_read_is. destruct Hs as [-> |Hs]; [reflexivity|].
    assert (forallb read_item contents = true) as ->; [|cbn [negb]; now rewrite andb_false_r].
    apply forallb_forall. intros v I. apply read_item_iff. rewrite Forall_forall in Hs. now apply Hs. }
  destruct Hy as [(h & R & P)|(h & vs & R & P)]; rewrite R, P, B; reflexivity.
Qed.

Lemma part_prefix : forall clamp len off text, part clamp (Some (Z.of_nat off)) len text = firstn (length (part clamp (Some (Z.of_nat off)) len text)) (skipn off text).
Proof.
  intros clamp len off text. unfold part. rewrite Nat2Z.id.
  assert (forall x l, exists n, upto x l = firstn n l) as U.
  { intros [n|] l; [now exists (N.to_nat n)|]. exists (length l). symmetry. apply firstn_all. }
  destruct (U (option_map Z.to_N len) (skipn off text)) as (n & ->). destruct (U (if N.eqb clamp 0 then None else Some clamp) (firstn n (skipn off text))) as (m & ->).
  rewrite firstn_firstn, firstn_length, firstn_min. reflexivity.
Qed.

Lemma part_length : forall clamp off len text, within clamp (length (part clamp off (Some len) text)) /\ (N.of_nat (length (part clamp off (Some len) text)) <= Z.to_N len)%N.
Proof.
  intros clamp off len text. unfold part, within. cbn [option_map upto]. destruct (N.eqb clamp 0) eqn:E; cbn [upto]; rewrite ?firstn_length.
  - split; [left|]; lia.
  - split; [right|]; lia.
Qed.

Lemma part_nil : forall clamp off len text, (0 < len)%Z -> part clamp (Some (Z.of_nat off)) (Some len) text = [] <-> length text <= off.
Proof.
  intros clamp off len text H. unfold part. rewrite Nat2Z.id. cbn [option_map upto]. pose proof (skipn_length off text) as L. split.
  - intro E. apply (f_equal (@length ascii)) in E. destruct (N.eqb clamp 0) eqn:Ec; cbn [upto] in E; rewrite ?firstn_length in E; cbn [length] in E; lia.
  - intro E. rewrite skipn_all2 by lia. destruct (N.eqb clamp 0); cbn [upto]; now rewrite ?firstn_nil.
Qed.

Lemma carries_unique : forall a t t', carries a t -> carries a t' -> t = t'.
Proof.
  intros a t t' (o & items & E & G & H) (o' & items' & E' & G' & H'). assert (o' = o) as -> by congruence. assert (items' = items) as -> by congruence.
  destruct H as [[-> ->]|[N (v & -> & T)]].
  - destruct H' as [[-> _]|[_ (v & H' & _)]]; [reflexivity|discriminate].
  - destruct H' as [[_ H']|[_ (v' & H' & T')]]; [discriminate|]. injection H' as <-. apply item_text_iff in T, T'. congruence.
Qed.

Lemma tiles_all : forall c g rd u contents text, u <> [] -> yields g rd u contents -> text_of contents text ->
  forall off ts, tiles (handle_read c g rd false) u off ts -> concat ts = skipn off text.
Proof.
  intros c g rd u contents text Hu Hy Ht off ts H.
  assert (forall off len params t, (0 < len)%Z -> wants u (Some (Z.of_nat off)) (Some len) params -> carries (handle_read c g rd false params) t ->
    t = part (clamp_of (rc_exp c)) (Some (Z.of_nat off)) (Some len) text) as U.
  { clear off ts H. intros off len params t Hl Hw C. refine (carries_unique _ _ _ C _).
    refine (window_carries c g rd u contents text _ _ params Hu Hy Ht _ _ Hw); [|now left].
    split; intros z E; injection E as <-; lia. }
  induction H as [off len params a Hl Hw E C|off len params a t ts Hl Hw E C N H IH]; subst a; pose proof (U _ _ _ _ Hl Hw C) as P; cbn [concat].
  - symmetry in P. apply part_nil in P; [|exact Hl]. now rewrite skipn_all2 by lia.
  - rewrite IH, <- skipn_skipn'. pose proof (part_prefix (clamp_of (rc_exp c)) (Some len) off text) as Q. rewrite <- P in Q.
    rewrite Q at 1. now rewrite firstn_skipn.
Qed.

Lemma tiles_exist : forall c g rd u contents text len, u <> [] -> yields g rd u contents -> text_of contents text -> (0 < len)%Z ->
  forall n off, length text - off <= n -> exists ts, tiles (handle_read c g rd false) u off ts.
Proof.
  intros c g rd u contents text len Hu Hy Ht Hl. set (cl := clamp_of (rc_exp c)).
  assert (forall off, exists params, wants u (Some (Z.of_nat off)) (Some len) params /\
    carries (handle_read c g rd false params) (part cl (Some (Z.of_nat off)) (Some len) text)) as W.
  { intro off. exists (Some (read_params u (Some (Z.of_nat off)) (Some len))).
    assert (wants u (Some (Z.of_nat off)) (Some len) (Some (read_params u (Some (Z.of_nat off)) (Some len)))) as W.
    { eexists. split; [reflexivity|]. repeat split; objs; reflexivity. }
    split; [exact W|]. refine (window_carries c g rd u contents text _ _ _ Hu Hy Ht _ _ W); [|now left]. split; intros z E; injection E as <-; lia. }
  induction n as [|n IH]; intros off Hn; destruct (W off) as (params & W1 & W2).
  - exists []. rewrite (proj2 (part_nil cl off len text Hl)) in W2 by lia. now apply (tiles_end _ _ off len params (handle_read c g rd false params)).
  - destruct (le_gt_dec (length text) off) as [L|L].
    + exists []. rewrite (proj2 (part_nil cl off len text Hl)) in W2 by lia. now apply (tiles_end _ _ off len params (handle_read c g rd false params)).
    + assert (part cl (Some (Z.of_nat off)) (Some len) text <> []) as N by (intro E; apply part_nil in E; [lia|exact Hl]).
      set (t := part cl (Some (Z.of_nat off)) (Some len) text) in *.
      destruct (IH (off + length t)) as (ts & K); [destruct t; [contradiction|cbn [length]; lia]|].
      exists (t :: ts). exact (tiles_next _ _ off len params _ t ts Hl W1 eq_refl W2 N K).
Qed.

(** The client. *)
Lemma firstn_more : forall A (l : list A) a b, firstn a l ++ firstn b (skipn a l) = firstn (a + b) l.
Proof. intros A l. induction l as [|x l IH]; intros [|a] b; cbn [firstn skipn app Nat.add]; rewrite ?firstn_nil; try reflexivity. now rewrite IH. Qed.

Lemma read_params_wants : forall net, (forall v, same v (net v)) -> forall u off len, wants u off len (Some (net (read_params u off len))).
Proof.
  intros net Hn u off len. unfold read_params. match goal with |- context [JObj ?x] => set (O := x) end.
  assert (NoDup (map fst O)) as N by (subst O; nodups). pose proof (Hn (JObj O)) as H.
  destruct (same_obj_inv _ _ H) as (o1 & o' & E & _). rewrite E in H |- *. exists o'. split; [reflexivity|].
  split; [|split].
  - apply (same_get_str _ _ _ _ N H). subst O. objs. reflexivity.
  - destruct off as [z|]; [apply (same_get_int _ _ _ _ N H)|apply (same_get_none _ _ _ N H)]; subst O; objs; reflexivity.
  - destruct len as [z|]; [apply (same_get_int _ _ _ _ N H)|apply (same_get_none _ _ _ N H)]; subst O; objs; reflexivity.
Qed.

Lemma text_item_same : forall t v, same (make_text t) v -> text_item v t /\ read_item v = true.
Proof.
  intros t v H. unfold make_text in H. match type of H with same (JObj ?x) _ => set (O := x) in * end.
  assert (NoDup (map fst O)) as N by (subst O; nodups). destruct (same_obj_inv _ _ H) as (o1 & o' & -> & _).
  assert (obj_get (bs "type") o' = Some (JStr (bs "text"))) as G1 by (apply (same_get_str _ _ _ _ N H); reflexivity).
  assert (obj_get (bs "text") o' = Some (JStr t)) as G2 by (apply (same_get_str _ _ _ _ N H); reflexivity).
  assert (forall k, obj_get k O = None -> obj_get k o' = None) as G3 by (intros k; apply (same_get_none _ _ _ N H)).
  split; [exists o'; now split|].
  apply read_item_iff. left. split.
  - apply content_text; [now exists (JStr (bs "text"))|exists (JStr t); split; [exact G2|now exists t]|].
    intros v E. rewrite G3 in E by reflexivity. discriminate.
  - exists o'. split; [reflexivity|]. now exists (JStr (bs "text")).
Qed.

Section Client.
Context (net : json -> json) (Hnet : forall v, same v (net v)).
Context (strict : bool) (c : read_cfg) (g : registry) (rd : readers) (u : bstr) (contents : list json) (text : bstr).
Context (Hu : u <> []) (Hy : yields g rd u contents) (Ht : text_of contents text).

Lemma range_reads : forall off len, sensible (Some off) (Some len) ->
  exists items, read_range strict (read_call net c g rd) u (Some off) (Some len) = inr items /\
    let t := part (clamp_of (rc_exp c)) (Some off) (Some len) text in
    (t = [] /\ items = []) \/ (t <> [] /\ exists v, items = [v] /\ text_item v t).
Proof.
  intros off len Hs.
  destruct (handle_window c g rd u contents text _ _ _ Hu Hy Ht Hs ltac:(now left) (read_params_wants net Hnet u (Some off) (Some len))) as (items & E & K).
  specialize (K _ eq_refl). cbv zeta. set (t := part (clamp_of (rc_exp c)) (Some off) (Some len) text) in *.
  unfold read_range, read_call. rewrite E. cbn [answer_value]. set (O := read_obj c contents items).
  pose proof (Hnet (JObj O)) as H. assert (NoDup (map fst O)) as N by apply read_obj_nodup.
  destruct (same_obj_inv _ _ H) as (o1 & o' & E' & _). rewrite E' in H |- *.
  assert (obj_get (bs "code") o' = None) as C by (apply (same_get_none _ _ _ N H); apply read_obj_code).
  destruct (same_get_some (bs "contents") _ _ _ N H (read_obj_contents c contents items)) as (v & G & S).
  inversion S as [| | | | |l l' F| ]; subst.
  unfold read_value_typed. cbn [is_error_object]. rewrite C. unfold valid_read, arr_field. rewrite G.
  destruct K as [[K1 ->]|[K1 ->]].
  - inversion F; subst. exists []. split; [cbn [forallb negb]; now rewrite andb_false_r|]. now left.
  - inversion F as [|x y r r' Sx Sr]; subst. inversion Sr; subst. destruct (text_item_same _ _ Sx) as [T V]. exists [y].
    split; [cbn [forallb]; rewrite V; cbn [andb negb]; now rewrite andb_false_r|]. right. split; [exact K1|]. now exists y.
Qed.

Context (chunk : N) (Hc : (0 < chunk < 2 ^ 63)%N) (Hsize : (N.of_nat (length text) < 2 ^ 63)%N).

Definition a_piece (v : json) : Prop :=
  exists t, text_item v t /\ t <> [] /\ (N.of_nat (length t) <= chunk)%N /\ within (clamp_of (rc_exp c)) (length t).

Lemma to_i64_small : forall n, (n < 2 ^ 63)%N -> to_i64 n = Z.of_N n.
Proof.
  intros n H. unfold to_i64. change two64 with (2 ^ 64)%N. rewrite N.mod_small by lia.
  assert (Z.ltb (Z.of_N n) (2 ^ 63) = true) as -> by lia. reflexivity.
Qed.

Lemma loop_reads : forall fuel off agg before, off <= length text -> length text - off < fuel ->
  text_of agg before -> Forall a_piece agg -> before = firstn off text ->
  exists items, read_loop strict (read_call net c g rd) u chunk fuel (N.of_nat off) agg = CDone items /\ text_of items text /\ Forall a_piece items.
Proof.
  induction fuel as [|f IH]; intros off agg before Ho Hf Ha Hp Hb; [lia|]. cbn [read_loop].
  rewrite !to_i64_small by lia. rewrite nat_N_Z.
  assert (sensible (Some (Z.of_nat off)) (Some (Z.of_N chunk))) as Hs by (clear - Hc; split; intros z E; injection E as <-; lia).
  destruct (range_reads _ _ Hs) as (items & -> & K). cbv zeta in K.
  destruct K as [[K ->]|[K (v & -> & T)]].
  - apply part_nil in K; [|lia]. exists agg. split; [reflexivity|]. split; [|exact Hp]. rewrite firstn_all2 in Hb by lia. now subst before.
  - set (t := part (clamp_of (rc_exp c)) (Some (Z.of_nat off)) (Some (Z.of_N chunk)) text) in *.
    unfold text_bytes. cbn [fold_right]. rewrite (proj2 (item_text_iff v t) T). rewrite Nat.add_0_r.
    pose proof (part_prefix (clamp_of (rc_exp c)) (Some (Z.of_N chunk)) off text) as P. fold t in P.
    pose proof (part_length (clamp_of (rc_exp c)) (Some (Z.of_nat off)) (Z.of_N chunk) text) as [L1 L2]. fold t in L1, L2.
    assert (length t <= length text - off) as L3 by (rewrite P, firstn_length, skipn_length; clear; lia).
    destruct (length t) as [|n] eqn:El; [destruct t; [contradiction|discriminate]|].
    replace (N.modulo (N.of_nat off + N.of_nat (S n)) two64) with (N.of_nat (off + S n)).
    2: { change two64 with (2 ^ 64)%N. rewrite N.mod_small; clear - L3 Hsize; lia. }
    apply (IH (off + S n) (agg ++ [v]) (before ++ t)); try (clear - Ho L3 Hf; lia).
    + destruct Ha as (ts & F & ->). exists (ts ++ [t]). split; [apply Forall2_app; [exact F|now repeat constructor]|].
      rewrite concat_app. cbn [concat]. now rewrite app_nil_r.
    + apply Forall_app. split; [exact Hp|]. constructor; [|constructor]. exists t. rewrite El. split; [exact T|]. split; [exact K|].
      split; [clear - L2; lia|exact L1].
    + subst before. rewrite P. apply firstn_more.
Qed.
End Client.

Lemma strict_server : forall c g rd cancelled params v, rc_strict c = true -> handle_read c g rd cancelled params = AResult v -> ReadResourceResult v.
Proof.
  intros c g rd cancelled params v Hs. unfold handle_read.
  assert (forall contents off len v, build_read c contents off len = inr v -> ReadResourceResult v) as B.
  { intros contents off len x. rewrite build_read_is. destruct (match off, len with None, None => _ | _, _ => _ end) as [items|]; [|discriminate].
    rewrite Hs. cbn [andb]. destruct (forallb read_item items) eqn:E; [|discriminate]. cbn [negb]. intro H. injection H as <-.
    apply read_iff. unfold valid_read, arr_field. now rewrite read_obj_contents. }
  destruct (match params with Some (JObj o) => _ | _ => _ end) as [[uri off] len].
  destruct uri as [|x uri]; [discriminate|].
  destruct (match off with Some z => Z.ltb z 0 | None => false end); [discriminate|].
  destruct (match len with Some z => Z.leb z 0 | None => false end); [discriminate|].
  assert (forall p, match p with
          | PThrow what => AError INTERNAL what
          | POkay contents => if cancelled then AError INTERNAL (bs "Cancelled")
              else match build_read c contents off len with inl what => AError INTERNAL what | inr v => AResult v end
          end = AResult v -> ReadResourceResult v) as R.
  { intros [contents|what]; [|discriminate]. destruct cancelled; [discriminate|].
    destruct (build_read c contents off len) eqn:E; [discriminate|]. intro H. injection H as <-. exact (B _ _ _ _ E). }
  destruct (resolve g (x :: uri)) as [[h|]|h vs| |]; try discriminate; apply R.
Qed.

Lemma strict_client : forall what bad v items, read_value_typed true what bad v = inr items ->
  Forall (fun v => TextContent v \/ ResourceContents v) items.
Proof.
  intros what bad v items. unfold read_value_typed. destruct (is_error_object v); [discriminate|]. cbn [andb].
  destruct (valid_read v) eqn:E; [|discriminate]. cbn [negb].
  apply read_iff in E. destruct E as (o & -> & x & G & l & -> & F). rewrite G. intro H. injection H as <-. exact F.
Qed.

Lemma get_del_same : forall k o, obj_get k (obj_del k o) = None.
Proof.
  intros k o. induction o as [|[k' v] o IH]; [reflexivity|]. unfold obj_del in *. cbn [filter fst]. destruct (beq k k') eqn:E; cbn [negb]; [exact IH|].
  cbn [obj_get]. now rewrite E.
Qed.
Lemma get_del_other : forall k k' o, k <> k' -> obj_get k' (obj_del k o) = obj_get k' o.
Proof.
  intros k k' o N. induction o as [|[k2 v] o IH]; [reflexivity|]. unfold obj_del in *. cbn [filter fst]. destruct (beq k k2) eqn:E; cbn [negb obj_get].
  - apply beq_eq in E. subst k2. now rewrite (proj2 (beq_neq k' k)) by congruence.
  - now rewrite IH.
Qed.

Lemma meta_get : forall ui k m o, k <> bs "ui" \/ ui = true -> obj_get k m <> None -> meta_shown ui (JObj m) = Some (JObj o) -> obj_get k o = obj_get k m.
Proof.
  intros ui k m o H N. cbn [meta_shown]. destruct ui; [intro E; now injection E as <-|].
  destruct H as [H|]; [|discriminate]. destruct (obj_del (bs "ui") m) eqn:E; [discriminate|]. intro X. injection X as <-.
  rewrite <- E. apply get_del_other. congruence.
Qed.

Lemma read_obj_meta : forall c contents items, obj_get META (read_obj c contents items) =
  match meta_candidate contents with Some m => meta_shown (rc_ui c) m | None => None end.
Proof.
  intros c contents items. unfold read_obj. destruct (meta_candidate contents) as [m|]; [|reflexivity].
  destruct (meta_shown (rc_ui c) m) as [m'|]; [|reflexivity]. rewrite get_set_same. reflexivity.
Qed.

Lemma handle_shape : forall c g rd cancelled params v, handle_read c g rd cancelled params = AResult v ->
  exists contents items, v = JObj (read_obj c contents items).
Proof.
  intros c g rd cancelled params v. unfold handle_read.
  assert (forall contents off len v, build_read c contents off len = inr v -> exists contents items, v = JObj (read_obj c contents items)) as B.
  { intros contents off len x. rewrite build_read_is. destruct (match off, len with None, None => _ | _, _ => _ end) as [items|]; [|discriminate].
    destruct (_ && _)%bool; [discriminate|]. intro H. injection H as <-. now exists contents, items. }
  destruct (match params with Some (JObj o) => _ | _ => _ end) as [[uri off] len].
  destruct uri as [|x uri]; [discriminate|].
  destruct (match off with Some z => Z.ltb z 0 | None => false end); [discriminate|].
  destruct (match len with Some z => Z.leb z 0 | None => false end); [discriminate|].
  assert (forall p, match p with
          | PThrow what => AError INTERNAL what
          | POkay contents => if cancelled then AError INTERNAL (bs "Cancelled")
              else match build_read c contents off len with inl what => AError INTERNAL what | inr v => AResult v end
          end = AResult v -> exists contents items, v = JObj (read_obj c contents items)) as R.
  { intros [contents|what]; [|discriminate]. destruct cancelled; [discriminate|].
    destruct (build_read c contents off len) eqn:E; [discriminate|]. intro H. injection H as <-. exact (B _ _ _ _ E). }
  destruct (resolve g (x :: uri)) as [[h|]|h vs| |]; try discriminate; apply R.
Qed.

Lemma ui_hidden : forall c g rd cancelled params o m, rc_ui c = false -> handle_read c g rd cancelled params = AResult (JObj o) ->
  obj_get META o = Some (JObj m) -> obj_get (bs "ui") m = None.
Proof.
  intros c g rd cancelled params o m Hu H G. destruct (handle_shape _ _ _ _ _ _ H) as (contents & items & E). injection E as ->.
  rewrite read_obj_meta, Hu in G. destruct (meta_candidate contents) as [x|]; [|discriminate]. unfold meta_shown in G.
  destruct x as [| | | | | |x]; try discriminate. destruct (obj_del (bs "ui") x) eqn:E; [discriminate|]. injection G as <-. rewrite <- E. apply get_del_same.
Qed.

Lemma meta_kept : forall c g rd u contents params m k x, u <> [] -> yields g rd u contents -> rc_strict c = false ->
  meta_candidate contents = Some (JObj m) -> wants u None None params -> obj_get k m = Some x -> k <> bs "ui" \/ rc_ui c = true ->
  exists o m', handle_read c g rd false params = AResult (JObj o) /\ obj_get META o = Some (JObj m') /\ obj_get k m' = Some x.
Proof.
  intros c g rd u contents params m k x Hu Hy Hs Hm (o & -> & E1 & E2 & E3) G K. exists (read_obj c contents contents).
  assert (exists m', meta_shown (rc_ui c) (JObj m) = Some (JObj m') /\ obj_get k m' = Some x) as (m' & M1 & M2).
  { cbn [meta_shown]. destruct (rc_ui c); [now exists m|]. destruct K as [K|]; [|discriminate].
    assert (obj_get k (obj_del (bs "ui") m) = Some x) as G' by (rewrite get_del_other by congruence; exact G).
    destruct (obj_del (bs "ui") m) as [|e r] eqn:E; [discriminate G'|]. exists (e :: r). now split. }
  exists m'. split; [|split; [rewrite read_obj_meta, Hm; exact M1|exact M2]].
  unfold handle_read, get_str, get_int. rewrite E1, E2, E3. cbn [or_empty option_map]. destruct u as [|y u]; [contradiction|].
  assert (build_read c contents None None = inr (JObj (read_obj c contents contents))) as B by (rewrite build_read_is, Hs; reflexivity).
  destruct Hy as [(h & R & P)|(h & vs & R & P)]; rewrite R, P, B; reflexivity.
Qed.

Lemma meta_candidate_first : forall contents m, first_meta contents m -> meta_candidate contents = Some m.
Proof.
  intros contents m (before & o & after & -> & G & F). induction F as [|v before H F IH]; cbn [app meta_candidate].
  - fold META in G. now rewrite G.
  - destruct v as [| | | | | |o']; try exact IH. specialize (H o' eq_refl). fold META in H. now rewrite H.
Qed.

Lemma advertises_clamp : forall exp n, advertises exp n -> n = clamp_of exp.
Proof.
  intros exp n [(z & (o & E1 & E2 & P) & ->) | (N0 & ->)]; unfold clamp_of, CHUNKING, MAXBYTES.
  - rewrite E1, E2. assert (Z.ltb 0 z = true) as -> by lia. reflexivity.
  - destruct (obj_get (bs "resourceReadChunking") exp) as [[| | | | | |o]|] eqn:E1; try reflexivity.
    destruct (obj_get (bs "maxChunkBytes") o) as [[| |z| | | |]|] eqn:E2; try reflexivity.
    destruct (Z.ltb 0 z) eqn:L; [|reflexivity]. exfalso. apply (N0 z). exists o. repeat split; try assumption. lia.
Qed.
