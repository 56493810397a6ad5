(** Proofs about reading a changing resource in pieces. *)
From Coq Require Import Ascii String List Arith NArith ZArith Bool Lia.
From Verif Require Import StrModel DoubleModel JsonModel ObjSpec MapModel TaskModel DescModel RegModel TmplModel ReadModel ReadSpec ReadProofs TearModel TearSpec.
Import ListNotations.
Local Open Scope nat_scope.

Lemma i64_small : forall n, (n < 2 ^ 63)%N -> to_i64 n = Z.of_N n.
Proof. intros n H. apply (to_i64_small [] 1%N); [lia|cbn; lia|exact H]. Qed.

Section Tear.
Context (net : json -> json) (Hnet : forall v, same v (net v)) (strict : bool) (c : read_cfg) (h : history) (u : bstr).
Context (Hu : u <> []) (Hh : follows h u) (chunk : N) (Hc : (0 < chunk < 2 ^ 63)%N).

Lemma pieced_more : forall texts ts t rest, pieced texts ts -> t <> [] -> skipn (length (concat ts)) (texts (length ts)) = t ++ rest -> pieced texts (ts ++ [t]).
Proof.
  intros texts ts t rest P N S1 before x after E. destruct after as [|y after] using rev_ind.
  - apply app_inj_tail in E as (<- & <-). split; [exact N|]. exists rest. exact S1.
  - clear IHafter. rewrite app_comm_cons, app_assoc in E. apply app_inj_tail in E as (E & _). exact (P _ _ _ E).
Qed.

(** One request: nothing is left, or one more piece. *)
Lemma one_more : forall i off agg f, (N.of_nat off < 2 ^ 63)%N ->
  (length (hi_text h i) <= off /\ read_loop_at strict (asked_at net c h) u chunk (S f) i (N.of_nat off) agg = (CDone agg, S i)) \/
  (exists v t rest, text_item v t /\ t <> [] /\ skipn off (hi_text h i) = t ++ rest /\ off + length t <= length (hi_text h i) /\
    read_loop_at strict (asked_at net c h) u chunk (S f) i (N.of_nat off) agg
    = read_loop_at strict (asked_at net c h) u chunk f (S i) (N.of_nat (off + length t)) (agg ++ [v])).
Proof.
  intros i off agg f Ho. cbn [read_loop_at]. rewrite !i64_small by lia. rewrite nat_N_Z. destruct (Hh i) as (L & contents & Y & T).
  assert (sensible (Some (Z.of_nat off)) (Some (Z.of_N chunk))) as Hs by (split; intros z E; injection E as <-; lia).
  destruct (range_reads net Hnet strict c _ _ u contents _ Hu Y T _ _ Hs) as (items & E & K). unfold asked_at at 1 3. rewrite E. cbv zeta in K.
  set (t := part (clamp_of (rc_exp c)) (Some (Z.of_nat off)) (Some (Z.of_N chunk)) (hi_text h i)) in *.
  destruct K as [[K ->]|[K (v & -> & I)]].
  - left. apply part_nil in K; [|lia]. split; [exact K|reflexivity].
  - right. exists v, t, (skipn (length t) (skipn off (hi_text h i))).
    pose proof (part_prefix (clamp_of (rc_exp c)) (Some (Z.of_N chunk)) off (hi_text h i)) as P. fold t in P.
    assert (skipn off (hi_text h i) = t ++ skipn (length t) (skipn off (hi_text h i))) as Sk by (rewrite P at 1; symmetry; apply firstn_skipn).
    assert (off + length t <= length (hi_text h i)) as Le.
    { pose proof (f_equal (@length _) Sk) as Q. rewrite app_length, !skipn_length in Q. destruct t; [contradiction|]. cbn [length] in *. lia. }
    split; [exact I|]. split; [exact K|]. split; [exact Sk|]. split; [exact Le|].
    unfold text_bytes. cbn [fold_right]. rewrite (proj2 (item_text_iff v t) I), Nat.add_0_r.
    destruct (length t) as [|n] eqn:El; [destruct t; [contradiction|discriminate]|].
    replace (N.modulo (N.of_nat off + N.of_nat (S n)) two64) with (N.of_nat (off + S n)); [reflexivity|].
    change two64 with (2 ^ 64)%N. rewrite N.mod_small; lia.
Qed.

Lemma loop_pieces : forall f agg ts items n, Forall2 text_item agg ts -> pieced (hi_text h) ts -> (N.of_nat (length (concat ts)) < 2 ^ 63)%N ->
  read_loop_at strict (asked_at net c h) u chunk f (length ts) (N.of_nat (length (concat ts))) agg = (CDone items, n) ->
  exists ts', Forall2 text_item items ts' /\ pieced (hi_text h) ts' /\ n = S (length ts') /\ length (hi_text h (length ts')) <= length (concat ts').
Proof.
  induction f as [|f IH]; intros agg ts items n F P L H; [discriminate H|].
  destruct (one_more (length ts) (length (concat ts)) agg f L) as [(E & R) | (v & t & rest & I & N & Sk & Le & R)]; rewrite R in H.
  - injection H as <- <-. exists ts. repeat split; try assumption. 1: exact (proj1 (P _ _ _ H)). exact (proj2 (P _ _ _ H)).
  - assert (length (concat (ts ++ [t])) = length (concat ts) + length t) as C.
    { rewrite concat_app, app_length. cbn [concat]. rewrite app_nil_r. reflexivity. }
    apply (IH (agg ++ [v]) (ts ++ [t])).
    + apply Forall2_app; [exact F|now repeat constructor].
    + exact (pieced_more _ _ _ _ P N Sk).
    + rewrite C. pose proof (proj1 (Hh (length ts))). lia.
    + rewrite C, app_length. cbn [length]. rewrite Nat.add_1_r. exact H.
Qed.

Lemma all_pieces : forall f items n, read_all_at strict (asked_at net c h) u chunk f = (CDone items, n) ->
  exists ts, Forall2 text_item items ts /\ pieced (hi_text h) ts /\ n = S (length ts) /\ length (hi_text h (length ts)) <= length (concat ts).
Proof.
  intros f items n H. unfold read_all_at in H. destruct (N.eqb_spec chunk 0) as [E|E]; [lia|]. apply (loop_pieces f [] []); [constructor| |cbn; lia|exact H].
  intros [|] t after Q; discriminate Q.
Qed.

(** It ends when the text stays within a bound. *)
Lemma loop_ends : forall b, (N.of_nat b < 2 ^ 63)%N -> (forall i, length (hi_text h i) <= b) -> forall f i off agg, off <= b -> b - off < f ->
  exists items n, read_loop_at strict (asked_at net c h) u chunk f i (N.of_nat off) agg = (CDone items, n) /\ n <= i + S (b - off).
Proof.
  intros b B0 B. induction f as [|f IH]; intros i off agg L1 L2; [lia|].
  assert (N.of_nat off < 2 ^ 63)%N as Q by lia. pose proof (B i) as Bi.
  destruct (one_more i off agg f Q) as [(E & R) | (v & t & rest & _ & N & _ & Le & R)].
  - exists agg, (S i). split; [exact R|lia].
  - assert (0 < length t) as Lt by (destruct t; [contradiction|cbn [length]; lia]).
    destruct (IH (S i) (off + length t) (agg ++ [v])) as (items & n & R' & L'); [lia|lia|]. exists items, n. rewrite R. split; [exact R'|lia].
Qed.
End Tear.

(** Pieces of a growing text. *)
Lemma grows_le : forall texts, grows texts -> forall i j, i <= j -> exists more, texts j = texts i ++ more.
Proof.
  intros texts G i j L. induction L as [|j L (m & IH)]; [exists []; symmetry; apply app_nil_r|].
  destruct (G j) as (m' & E). exists (m ++ m'). rewrite E, IH, app_assoc. reflexivity.
Qed.
Lemma pieced_init : forall texts ts t, pieced texts (ts ++ [t]) -> pieced texts ts.
Proof. intros texts ts t P before x after E. apply (P before x (after ++ [t])). rewrite E, <- app_assoc. reflexivity. Qed.
Lemma grown : forall texts, grows texts -> forall ts, pieced texts ts -> exists rest, texts (length ts) = concat ts ++ rest.
Proof.
  intros texts G ts. induction ts as [|t ts IH] using rev_ind; intro P; [eexists; reflexivity|].
  destruct (IH (pieced_init _ _ _ P)) as (rest & E). destruct (P ts t [] eq_refl) as (_ & r & Sk).
  rewrite E, skipn_app, skipn_all, Nat.sub_diag in Sk. cbn [app skipn] in Sk. subst rest.
  rewrite app_length. cbn [length]. rewrite Nat.add_1_r. destruct (G (length ts)) as (m & ->). rewrite E, concat_app. cbn [concat]. rewrite app_nil_r.
  exists (r ++ m). rewrite <- !app_assoc. reflexivity.
Qed.
Lemma grown_all : forall texts, grows texts -> forall ts, pieced texts ts -> length (texts (length ts)) <= length (concat ts) -> texts (length ts) = concat ts.
Proof.
  intros texts G ts P L. destruct (grown _ G ts P) as (rest & E). rewrite E in L |- *. rewrite app_length in L. destruct rest; [apply app_nil_r|cbn [length] in L; lia].
Qed.

(** With a server that does not change this is the read of ReadModel. *)
Lemma steady : forall strict ask u chunk f, fst (read_all_at strict (fun _ => ask) u chunk f) = read_all strict ask u chunk f.
Proof.
  intros strict ask u chunk f. unfold read_all_at, read_all. destruct (N.eqb chunk 0); [reflexivity|]. generalize 0 at 1 as i. generalize 0%N as off. generalize (@nil json) as agg.
  induction f as [|f IH]; intros agg off i; [reflexivity|]. cbn [read_loop_at read_loop].
  destruct (read_range _ _ _ _ _) as [w|[|v part]]; [reflexivity|reflexivity|]. destruct (text_bytes (v :: part)); [reflexivity|]. apply IH.
Qed.
