(** Proofs about following cursors through a list that changes. *)
From Coq Require Import Ascii String List Sorted Arith NArith ZArith Bool Lia ZifyBool ZifyNat ZifyN.
From Verif Require Import StrModel StrProofs JsonModel MapModel TaskModel TaskSpec TaskProofs DescModel RegModel RegSpec RegProofs TourSpec.
Import ListNotations.
Local Open Scope nat_scope.

Section Cut.
Context {A : Type} (name : A -> bstr).

(** The pages without their text: page after page of n entries, from the entry at a place on. *)
Inductive cut (n : nat) : nat -> list (list A) -> list (list A) -> Prop :=
| cut_last s l : length l <= s + n -> cut n s [l] [firstn n (skipn s l)]
| cut_more s l ls r : s + n < length l -> cut n (s + n) ls r -> cut n s (l :: ls) (firstn n (skipn s l) :: r).

Definition pos (m : bstr) (l : list A) : nat := length (filter (fun x => blt (name x) m) l).

Lemma filter_none : forall (f : A -> bool) l, (forall x, In x l -> f x = false) -> filter f l = [].
Proof.
  intros f l. induction l as [|y r IH]; intro H; [reflexivity|]. cbn [filter]. rewrite (H y (or_introl eq_refl)). apply IH. intros x Hx. apply H. now right.
Qed.

Lemma sorted_pos : forall l i x, in_order name l -> nth_error l i = Some x -> pos (name x) l = i.
Proof.
  unfold in_order, pos. induction l as [|y r IH]; intros i x S H; [destruct i; discriminate|].
  apply StronglySorted_inv in S. destruct S as [S F]. rewrite Forall_forall in F. destruct i as [|i]; cbn [nth_error] in H.
  - injection H as ->. cbn [filter]. rewrite blt_irrefl. rewrite filter_none; [reflexivity|]. intros z Hz.
    destruct (blt (name z) (name x)) eqn:E; [|reflexivity]. pose proof (blt_trans _ _ _ E (proj2 (blt_before _ _) (F z Hz))) as Q. rewrite blt_irrefl in Q. discriminate.
  - cbn [filter]. assert (blt (name y) (name x) = true) as -> by (apply blt_before, F; exact (nth_error_In _ _ H)).
    cbn [length]. f_equal. exact (IH i x S H).
Qed.

Lemma part_index : forall n s (l : list A) x, In x (firstn n (skipn s l)) -> exists i, nth_error l i = Some x /\ s <= i < s + n.
Proof.
  intros n s l x H. apply In_nth_error in H. destruct H as (j & H).
  assert (j < n) as Lj.
  { destruct (Nat.lt_ge_cases j n) as [L|L]; [exact L|]. assert (nth_error (firstn n (skipn s l)) j = None) as Q by (apply nth_error_None; rewrite firstn_length; lia). congruence. }
  assert (nth_error (firstn n (skipn s l)) j = nth_error (skipn s l) j) as E.
  { rewrite <- (firstn_skipn n (skipn s l)) at 2. rewrite nth_error_app1; [reflexivity|]. apply nth_error_Some. congruence. }
  rewrite E in H. exists (s + j). split; [|lia].
  assert (s <= length l) as Ls.
  { destruct (Nat.le_gt_cases s (length l)) as [L|L]; [exact L|]. rewrite skipn_all2 in H by lia. destruct j; discriminate. }
  rewrite <- (firstn_skipn s l). rewrite nth_error_app2; rewrite firstn_length; [|lia]. rewrite Nat.min_l by lia. now replace (s + j - s) with j by lia.
Qed.

Lemma index_part : forall n s (l : list A) x i, nth_error l i = Some x -> s <= i < s + n -> In x (firstn n (skipn s l)).
Proof.
  intros n s l x i H L. assert (i < length l) as Li by (apply nth_error_Some; congruence).
  assert (nth_error (skipn s l) (i - s) = Some x) as E.
  { rewrite <- (firstn_skipn s l) in H. rewrite nth_error_app2 in H; rewrite firstn_length, Nat.min_l in * by lia; [exact H|lia]. }
  assert (nth_error (firstn n (skipn s l)) (i - s) = Some x) as E2.
  { rewrite <- (firstn_skipn n (skipn s l)) in E. rewrite nth_error_app1 in E; [exact E|]. rewrite firstn_length, skipn_length. lia. }
  exact (nth_error_In _ _ E2).
Qed.

Lemma times_in : forall m l, 1 <= times name m l <-> exists x, In x l /\ name x = m.
Proof.
  intros m l. unfold times. split.
  - intro H. destruct (filter (fun x => beq (name x) m) l) as [|x r] eqn:E; [cbn in H; lia|].
    assert (In x (x :: r)) as I by now left. rewrite <- E in I. apply filter_In in I. destruct I as [I B]. exists x. split; [exact I|]. now apply beq_eq.
  - intros (x & I & E). assert (In x (filter (fun x => beq (name x) m) l)) as J by (apply filter_In; split; [exact I|]; apply beq_eq; exact E).
    destruct (filter _ l); [destruct J|cbn; lia].
Qed.

Lemma times_app : forall m a b, times name m (a ++ b) = times name m a + times name m b.
Proof. intros. unfold times. rewrite filter_app, app_length. reflexivity. Qed.

Lemma times_nodup : forall m l, NoDup (map name l) -> times name m l <= 1.
Proof.
  intros m l. unfold times. induction l as [|y r IH]; intro H; [cbn; lia|]. cbn [map] in H. apply NoDup_cons_iff in H. destruct H as [N H]. cbn [filter].
  destruct (beq (name y) m) eqn:B; [|exact (IH H)]. cbn [length]. rewrite filter_none; [cbn; lia|]. intros z Hz. apply beq_eq in B. subst m.
  destruct (beq (name z) (name y)) eqn:Q; [|reflexivity]. apply beq_eq in Q. exfalso. apply N. rewrite <- Q. now apply in_map.
Qed.

Lemma nodup_firstn : forall B n (l : list B), NoDup l -> NoDup (firstn n l).
Proof.
  intros B n. induction n as [|n IH]; intros l H; [constructor|]. destruct H as [|x l N H]; [constructor|]. cbn [firstn]. constructor; [|exact (IH l H)].
  intro I. apply N. rewrite <- (firstn_skipn n l). apply in_or_app. now left.
Qed.
Lemma nodup_skipn : forall B n (l : list B), NoDup l -> NoDup (skipn n l).
Proof. intros B n. induction n as [|n IH]; intros l H; [exact H|]. destruct H as [|x l N H]; [constructor|]. exact (IH l H). Qed.

Lemma times_part : forall m n s l, in_order name l -> times name m (firstn n (skipn s l)) <= 1.
Proof.
  intros m n s l H. apply times_nodup. rewrite <- firstn_map, <- skipn_map. apply nodup_firstn, nodup_skipn, in_order_nodup. exact H.
Qed.

Fixpoint chain (R : list A -> list A -> Prop) (ls : list (list A)) : Prop :=
  match ls with
  | a :: ((b :: _) as r) => R a b /\ chain R r
  | _ => True
  end.

Lemma cut_found : forall n s ls r, cut n s ls r -> forall m, Forall (in_order name) ls -> Forall (fun l => exists x, In x l /\ name x = m) ls ->
  chain (fun a b => pos m a <= pos m b) ls -> s <= pos m (hd [] ls) -> exists x, In x (concat r) /\ name x = m.
Proof.
  intros n s ls r C. induction C as [s l L|s l ls r L C IH]; intros m O T G P; cbn [hd] in P.
  - inversion O as [|? ? O1 _]; subst. inversion T as [|? ? (x & I & E) _]; subst. apply In_nth_error in I. destruct I as (i & I).
    rewrite (sorted_pos _ _ _ O1 I) in P. exists x. split; [|reflexivity]. cbn [concat]. rewrite app_nil_r. apply (index_part n s l x i I).
    assert (i < length l) by (apply nth_error_Some; congruence). lia.
  - inversion O as [|? ? O1 O2]; subst. inversion T as [|? ? (x & I & E) T2]; subst. apply In_nth_error in I. destruct I as (i & I).
    pose proof (sorted_pos _ _ _ O1 I) as Q. rewrite Q in P. destruct (Nat.lt_ge_cases i (s + n)) as [Li|Li].
    + exists x. split; [|reflexivity]. cbn [concat]. apply in_or_app. left. apply (index_part n s l x i I). lia.
    + destruct ls as [|l2 ls]; [inversion C|]. cbn [chain] in G. destruct G as [G1 G2]. cbn [hd] in IH.
      destruct (IH (name x) O2 T2 G2 ltac:(lia)) as (y & J & E). exists y. split; [|exact E]. cbn [concat]. apply in_or_app. now right.
Qed.

Lemma cut_once : forall n s ls r, cut n s ls r -> forall m, Forall (in_order name) ls -> chain (fun a b => pos m b <= pos m a) ls ->
  times name m (concat r) <= 1 /\ (pos m (hd [] ls) < s -> times name m (concat r) = 0).
Proof.
  assert (forall n s l m, in_order name l -> 1 <= times name m (firstn n (skipn s l)) -> s <= pos m l < s + n) as K.
  { intros n s l m O T. apply times_in in T. destruct T as (x & I & <-). apply part_index in I. destruct I as (i & I & Li). rewrite (sorted_pos _ _ _ O I). exact Li. }
  intros n s ls r C. induction C as [s l L|s l ls r L C IH]; intros m O G; cbn [hd concat]; rewrite times_app.
  - inversion O as [|? ? O1 _]; subst. change (times name m []) with 0. pose proof (times_part m n s l O1). pose proof (K n s l m O1). lia.
  - inversion O as [|? ? O1 O2]; subst. destruct ls as [|l2 ls]; [inversion C|]. cbn [chain] in G. destruct G as [G1 G2]. destruct (IH m O2 G2) as [I1 I2]. cbn [hd] in I2.
    pose proof (times_part m n s l O1). pose proof (K n s l m O1). lia.
Qed.

Lemma cut_shape : forall n s ls r, cut n s ls r -> Forall2 (fun l p => length p <= n /\ incl p l) ls r.
Proof.
  assert (forall n s (l : list A), length (firstn n (skipn s l)) <= n /\ incl (firstn n (skipn s l)) l) as K.
  { intros n s l. split; [rewrite firstn_length; lia|]. intros x H. apply part_index in H. destruct H as (i & H & _). exact (nth_error_In _ _ H). }
  intros n s ls r C. induction C as [s l L|s l ls r L C IH]; constructor; try apply K; [constructor|exact IH].
Qed.

(** Names kept or not added, as places. *)
Lemma pos_le : forall m a b, in_order name a -> (forall x, In x a -> before (name x) m -> exists y, In y b /\ name y = name x) -> pos m a <= pos m b.
Proof.
  intros m a b O H. unfold pos. rewrite <- (map_length name (filter _ a)), <- (map_length name (filter _ b)). apply NoDup_incl_length.
  - apply nodup_map_filter. apply in_order_nodup. exact O.
  - intros k I. apply in_map_iff in I. destruct I as (x & <- & I). apply filter_In in I. destruct I as [I B]. pose proof (proj1 (blt_before _ _) B) as B'.
    destruct (H x I B') as (y & J & E). rewrite <- E. apply in_map. apply filter_In. split; [exact J|]. rewrite E. exact B.
Qed.
End Cut.

Section Tour.
Context {A : Type} (key : bstr) (js : A -> json).
Context (Hkey : key <> bs "nextCursor").

Lemma page_at : forall l n c s params items next, (N.of_nat (length l) < 2 ^ 63)%N -> (0 < n < 2 ^ 63)%Z -> starts c s -> (s < 2 ^ 63)%N -> asks n c params ->
  page key (list_result key js l params) items next ->
  items = map js (firstn (Z.to_nat n) (skipn (N.to_nat s) l)) /\ next = then_next l s n.
Proof.
  intros l n c s params items next Hl Hn Hc Hs Ha Hp. pose proof (paging_asks l Hl n c s params Hn Hc Hs Ha) as E.
  destruct (N.le_gt_cases s (N.of_nat (length l))) as [L|L].
  - exact (page_unique key Hkey _ _ _ _ _ (list_result_at key js l Hl n s params Hn L E) Hp).
  - assert (page key (list_result key js l params) [] None) as Q.
    { apply (outside key js l Hkey Hl params s (Some (Z.to_N n)) E); [lia|]. intros k [= <-]. lia. }
    destruct Q as (o & E1 & Q1 & Q2). destruct Hp as (o' & E2 & P1 & P2). rewrite E1 in E2. injection E2 as <-. rewrite Q1 in P1. rewrite Q2 in P2.
    rewrite skipn_all2 by lia. rewrite firstn_nil. unfold then_next. assert (N.ltb (s + Z.to_N n) (N.of_nat (length l)) = false) as -> by (apply N.ltb_ge; lia).
    cbn [map]. split; [congruence|]. destruct next; cbn in P2; congruence.
Qed.

Lemma page_made : forall l n c s, (N.of_nat (length l) < 2 ^ 63)%N -> (0 < n < 2 ^ 63)%Z -> starts c s -> (s < 2 ^ 63)%N ->
  exists params items, asks n c params /\ page key (list_result key js l params) items (then_next l s n).
Proof.
  intros l n c s Hl Hn Hc Hs. pose proof (ask_params_asks n c) as Ha. pose proof (paging_asks l Hl n c s _ Hn Hc Hs Ha) as E.
  destruct (N.le_gt_cases s (N.of_nat (length l))) as [L|L].
  - eexists. eexists. split; [exact Ha|]. exact (page_is key Hkey _ _ _ (list_result_at key js l Hl n s _ Hn L E)).
  - eexists. exists []. split; [exact Ha|]. assert (then_next l s n = None) as ->.
    { unfold then_next. assert (N.ltb (s + Z.to_N n) (N.of_nat (length l)) = false) as -> by (apply N.ltb_ge; lia). reflexivity. }
    apply (outside key js l Hkey Hl _ s (Some (Z.to_N n)) E); [lia|]. intros k [= <-]. lia.
Qed.

Lemma tour_cut : forall n, (0 < n < 2 ^ 63)%Z -> forall ls c pages, tour key n c (map (list_result key js) ls) pages ->
  Forall (fun l => (N.of_nat (length l) < 2 ^ 63)%N) ls -> forall s, starts c s -> (s < 2 ^ 63)%N ->
  exists found, pages = map (map js) found /\ cut (Z.to_nat n) (N.to_nat s) ls found.
Proof.
  intros n Hn ls. induction ls as [|l ls IH]; intros c pages T F s Hc Hs; [inversion T|]. inversion F as [|? ? F1 F2]; subst.
  cbn [map] in T. inversion T as [? ? params items Ha Hp E1 E2|? ? params items c' more rest Ha Hp T' E1 E2]; subst.
  - destruct ls; [|discriminate]. destruct (page_at _ _ _ _ _ _ _ F1 Hn Hc Hs Ha Hp) as [-> Q]. unfold then_next in Q.
    destruct (N.ltb (s + Z.to_N n) (N.of_nat (length l))) eqn:El; [discriminate|]. apply N.ltb_ge in El.
    exists [firstn (Z.to_nat n) (skipn (N.to_nat s) l)]. split; [reflexivity|]. constructor. lia.
  - destruct (page_at _ _ _ _ _ _ _ F1 Hn Hc Hs Ha Hp) as [-> Q]. unfold then_next in Q.
    destruct (N.ltb (s + Z.to_N n) (N.of_nat (length l))) eqn:El; [|discriminate]. apply N.ltb_lt in El. injection Q as ->.
    destruct (IH _ _ T' F2 (s + Z.to_N n)%N eq_refl ltac:(lia)) as (found & -> & C).
    exists (firstn (Z.to_nat n) (skipn (N.to_nat s) l) :: found). split; [reflexivity|]. constructor; [lia|].
    replace (N.to_nat s + Z.to_nat n) with (N.to_nat (s + Z.to_N n)) by lia. exact C.
Qed.

Lemma tour_exists : forall n (l : nat -> list A) size, (0 < n < 2 ^ 63)%Z -> (forall i, (N.of_nat (length (l i)) < 2 ^ 63)%N) -> (forall i, length (l i) <= size) ->
  forall d c s i, starts c s -> (s < 2 ^ 63)%N -> size - N.to_nat s <= d ->
  exists k pages, tour key n c (map (fun i => list_result key js (l i)) (seq i (S k))) pages /\ (k = 0 \/ N.to_nat s + k * Z.to_nat n <= size).
Proof.
  intros n l size Hn Hl Hb. induction d as [d IH] using lt_wf_ind. intros c s i Hc Hs Hd.
  destruct (page_made (l i) n c s (Hl i) Hn Hc Hs) as (params & items & Ha & Hp).
  pose proof (Hb i) as Bi. pose proof (Hl i) as Li.
  unfold then_next in Hp. destruct (N.ltb (s + Z.to_N n) (N.of_nat (length (l i)))) eqn:El.
  - apply N.ltb_lt in El. destruct (IH (size - N.to_nat (s + Z.to_N n)) ltac:(lia) (Some (print_N (s + Z.to_N n))) (s + Z.to_N n)%N (S i) eq_refl ltac:(lia) (le_n _)) as (k & pages & T & B).
    exists (S k), (items :: pages). split.
    + change (seq i (S (S k))) with (i :: seq (S i) (S k)). cbn [map]. eapply tour_more; [exact Ha|exact Hp|exact T].
    + right. destruct B as [-> | B]; lia.
  - exists 0, [items]. split; [|now left]. cbn [seq map]. eapply tour_last; [exact Ha|exact Hp].
Qed.

Context (shows : list reg_op -> list A -> Prop) (name : A -> bstr) (lst : list reg_op -> list A).
Context (Hshows : forall ops, shows ops (lst ops)) (Huniq : forall ops l l', shows ops l -> shows ops l' -> l = l').
Context (Hord : forall ops, in_order name (lst ops)) (Hlen : forall ops, length (lst ops) <= length ops).

Lemma there_iff : forall m ops, there shows name m ops <-> exists x, In x (lst ops) /\ name x = m.
Proof.
  intros m ops. split.
  - intros (l & x & P & I & E). exists x. split; [|exact E]. now rewrite (Huniq _ _ _ (Hshows ops) P).
  - intros (x & I & E). now exists (lst ops), x.
Qed.

Lemma chain_of : forall (R : list reg_op -> list reg_op -> Prop) (Q : list A -> list A -> Prop), (forall a b, R a b -> Q (lst a) (lst b)) ->
  forall ms, successive R ms -> chain Q (map lst ms).
Proof.
  intros R Q H ms. induction ms as [|a [|b r] IH]; intro C; [exact I|exact I|]. cbn [successive] in C. destruct C as [C1 C2]. cbn [map chain]. split; [exact (H _ _ C1)|exact (IH C2)].
Qed.

Lemma tour_good_of : tour_good shows name js key (fun ops => list_result key js (lst ops)).
Proof.
  intros n ms pages Hn Hs T. rewrite <- (map_map lst (list_result key js)) in T.
  assert (Forall (fun l => (N.of_nat (length l) < 2 ^ 63)%N) (map lst ms)) as F.
  { apply Forall_map. apply (Forall_impl _ (P := fun ops => (N.of_nat (length ops) < 2 ^ 63)%N)); [|exact Hs]. intros ops H. pose proof (Hlen ops). lia. }
  destruct (tour_cut n Hn _ _ _ T F 0%N eq_refl ltac:(lia)) as (found & -> & C). change (N.to_nat 0) with 0 in C. exists found.
  assert (Forall (in_order name) (map lst ms)) as O by (apply Forall_map, Forall_forall; intros ops _; apply Hord).
  split; [reflexivity|]. split; [|split].
  - pose proof (cut_shape name _ _ _ _ C) as S2. clear -S2 Hshows. remember (map lst ms) as ls eqn:E. revert ms E.
    induction S2 as [|l p ls found [L I] S2 IH]; intros ms E; destruct ms as [|ops ms]; try discriminate; constructor.
    + cbn [map] in E. injection E as -> ->. split; [exact L|]. exists (lst ops). split; [apply Hshows|exact I].
    + cbn [map] in E. injection E as _ E. exact (IH ms E).
  - intros m Th Ls. apply times_in. apply (cut_found name _ _ _ _ C m O); [| |lia].
    + apply Forall_map. apply (Forall_impl _ (P := there shows name m)); [|exact Th]. intros ops H. now apply there_iff.
    + refine (chain_of _ _ _ _ Ls). intros a b H. apply pos_le; [apply Hord|]. intros x I B. apply there_iff. apply H; [exact B|]. apply there_iff. now exists x.
  - intros m Ls. apply (cut_once name _ _ _ _ C m O).
    refine (chain_of _ _ _ _ Ls). intros a b H. apply pos_le; [apply Hord|]. intros x I B. apply there_iff. apply H; [exact B|]. apply there_iff. now exists x.
Qed.

Lemma tour_ends_of : tour_ends shows key (fun ops => list_result key js (lst ops)).
Proof.
  intros n size moment Hn Hs Hb.
  destruct (tour_exists n (fun i => lst (moment i)) size Hn) with (d := size) (c := @None bstr) (s := 0%N) (i := 0) as (k & pages & T & B).
  - intro i. pose proof (Hlen (moment i)). pose proof (Hs i). lia.
  - intro i. exact (Hb i _ (Hshows _)).
  - reflexivity.
  - lia.
  - lia.
  - exists k, pages. split; [exact T|]. destruct B as [-> | B]; lia.
Qed.
End Tour.

(** A tool is there when the latest call that names it registers it. *)
Lemma tool_named : forall past n t h, tool_now n past = Some (t, h) -> tl_name t = n.
Proof.
  induction past as [|o past IH]; intros n t h H; [discriminate|]. destruct o; cbn [tool_now] in H; try exact (IH n t h H);
    match type of H with (if ?b then _ else _) = _ => destruct b eqn:B end; try exact (IH n t h H); try discriminate.
  - destruct (tool_now n past) as [[u g]|] eqn:E; injection H as <- <-; [exact (IH n u g E)|reflexivity].
  - injection H as <- <-. symmetry. now apply beq_eq.
Qed.
Lemma there_tool : forall m ops, there tools_of tl_name m ops <-> tool_now m (rev ops) <> None.
Proof.
  intros m ops. split.
  - intros (l & x & [_ P] & I & <-). apply P in I. destruct I as (h & ->). discriminate.
  - intro H. destruct (tool_now m (rev ops)) as [[t h]|] eqn:E; [|destruct (H eq_refl)]. exists (tool_list (reg_run ops)), t.
    pose proof (tool_named _ _ _ _ E) as N. split; [apply tool_list_spec|]. split; [|exact N]. apply tool_list_spec. exists h. now rewrite N.
Qed.
