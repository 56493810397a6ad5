From Coq Require Import Ascii String List Permutation Arith NArith ZArith Bool Lia.
From Verif Require Import StrModel StrProofs DoubleModel JsonModel MapModel MapProofs RpcModel TaskModel CancelModel CancelSpec.
Import ListNotations.
Local Open Scope nat_scope.

Lemma crun_snoc : forall h e, cancel_run (h ++ [e]) = cancel_step (cancel_run h) e.
Proof. intros. unfold cancel_run. now rewrite fold_left_app. Qed.

Lemma in_snoc : forall A (x : A) l y, In x (l ++ [y]) <-> In x l \/ x = y.
Proof. intros. rewrite in_app_iff. cbn. intuition. Qed.

(** Maps from numbers. *)
Lemma nget_cons_same : forall n v m, nget n ((n, v) :: m) = Some v.
Proof. intros. cbn. now rewrite Nat.eqb_refl. Qed.
Lemma nget_cons_other : forall n k v m, n <> k -> nget n ((k, v) :: m) = nget n m.
Proof. intros. cbn. destruct (Nat.eqb n k) eqn:E; [apply Nat.eqb_eq in E; contradiction|reflexivity]. Qed.
Lemma nget_ndel_other : forall n k m, n <> k -> nget n (ndel k m) = nget n m.
Proof.
  intros n k m N. unfold ndel. induction m as [|[a b] m IH]; [reflexivity|]. cbn. destruct (Nat.eqb k a) eqn:E; cbn.
  - apply Nat.eqb_eq in E. subst a. rewrite IH. destruct (Nat.eqb n k) eqn:F; [apply Nat.eqb_eq in F; contradiction|reflexivity].
  - now rewrite IH.
Qed.

Lemma set_true_length : forall l n, length (set_true n l) = length l.
Proof. induction l as [|b l IH]; intros [|n]; cbn; try reflexivity. now rewrite IH. Qed.
Lemma set_true_same : forall l n, n < length l -> nth n (set_true n l) false = true.
Proof. induction l as [|b l IH]; intros [|n] H; cbn in *; try lia; try reflexivity; try (apply IH; lia). Qed.
Lemma set_true_other : forall l n m, n <> m -> nth n (set_true m l) false = nth n l false.
Proof. induction l as [|b l IH]; intros [|n] [|m] H; cbn; try reflexivity; try contradiction. apply IH. lia. Qed.
Lemma set_true_mono : forall l n m, nth n l false = true -> nth n (set_true m l) false = true.
Proof. induction l as [|b l IH]; intros [|n] [|m] H; cbn in *; try discriminate; try reflexivity; try assumption. now apply IH. Qed.

Definition set_all (l : list nat) (st : list bool) : list bool := fold_left (fun st n => set_true n st) l st.
Lemma set_all_length : forall l st, length (set_all l st) = length st.
Proof. unfold set_all. induction l as [|n l IH]; intro st; [reflexivity|]. cbn. now rewrite IH, set_true_length. Qed.
Lemma set_all_mono : forall l st n, nth n st false = true -> nth n (set_all l st) false = true.
Proof. unfold set_all. induction l as [|m l IH]; intros st n H; [exact H|]. cbn. apply IH. now apply set_true_mono. Qed.
Lemma set_all_in : forall l st n, In n l -> n < length st -> nth n (set_all l st) false = true.
Proof.
  unfold set_all. induction l as [|m l IH]; intros st n H L; [destruct H|]. destruct H as [-> |H]; cbn.
  - apply (set_all_mono l). now apply set_true_same.
  - apply IH; [exact H|]. now rewrite set_true_length.
Qed.
Lemma set_all_out : forall l st n, ~ In n l -> nth n (set_all l st) false = nth n st false.
Proof.
  unfold set_all. induction l as [|m l IH]; intros st n H; [reflexivity|]. cbn. rewrite IH by (intro K; apply H; now right). apply set_true_other. intros ->. apply H. now left.
Qed.

Lemma nth_snoc : forall A (l : list A) x d n, n < length l -> nth n (l ++ [x]) d = nth n l d.
Proof. intros. now apply app_nth1. Qed.
Lemma nth_last : forall A (l : list A) x d, nth (length l) (l ++ [x]) d = x.
Proof. intros. rewrite app_nth2 by lia. now rewrite Nat.sub_diag. Qed.
Lemma nerr_snoc : forall A (l : list A) x n v, nth_error l n = Some v -> nth_error (l ++ [x]) n = Some v.
Proof. intros A l x n v H. rewrite nth_error_app1; [exact H|]. apply nth_error_Some. rewrite H. discriminate. Qed.
Lemma nerr_last : forall A (l : list A) x, nth_error (l ++ [x]) (length l) = Some x.
Proof. intros. rewrite nth_error_app2 by lia. now rewrite Nat.sub_diag. Qed.
Lemma nerr_lt : forall A (l : list A) n v, nth_error l n = Some v -> n < length l.
Proof. intros A l n v H. apply nth_error_Some. rewrite H. discriminate. Qed.

(** Histories. *)
Lemma history_prefix : forall h, history h -> forall a e, h = a ++ [e] -> history a.
Proof. intros h H a e E. destruct H; try (apply app_inj_tail in E; destruct E; now subst). destruct a; discriminate. Qed.

Lemma history_split : forall b a, history (a ++ b) -> history a.
Proof.
  induction b as [|e b IH] using rev_ind; intros a H; [now rewrite app_nil_r in H|]. apply IH. rewrite app_assoc in H. exact (history_prefix _ H _ _ eq_refl).
Qed.

Lemma begun_unique : forall h, history h -> forall q r, In (CBegin q) h -> In (CBegin r) h -> fst q = fst r -> q = r.
Proof.
  intros h H. induction H as [|h x H IH F|h x H IH F W|h p H IH|h x H IH F W|h x H IH W]; intros q r A B E; try (apply in_snoc in A; apply in_snoc in B); [destruct A| | | | |];
    try (destruct A as [A|A]; [|discriminate]; destruct B as [B|B]; [|discriminate]; now apply IH).
  destruct A as [A|A], B as [B|B]; [now apply IH| | |congruence].
  - injection B as <-. exfalso. apply (F (snd q)). rewrite <- E. now destruct q.
  - injection A as <-. exfalso. apply (F (snd r)). rewrite E. now destruct r.
Qed.

Lemma ended_begun : forall h, history h -> forall q, In (CEnd q) h -> In (CBegin q) h.
Proof.
  intros h H. induction H as [|h x H IH F|h x H IH F W|h p H IH|h x H IH F W|h x H IH W]; intros q A; [destruct A|..]; apply in_snoc in A; apply in_snoc;
    (destruct A as [A|A]; [left; now apply IH|]); try discriminate. injection A as ->. left. apply F.
Qed.

Lemma unwatched_watched : forall h, history h -> forall q, In (CUnwatch q) h -> In (CWatch q) h.
Proof.
  intros h H. induction H as [|h x H IH F|h x H IH F W|h p H IH|h x H IH F W|h x H IH W]; intros q A; [destruct A|..]; apply in_snoc in A; apply in_snoc;
    (destruct A as [A|A]; [left; now apply IH|]); try discriminate. injection A as ->. left. apply W.
Qed.

Lemma watched_begun : forall h, history h -> forall q, In (CWatch q) h -> In (CBegin q) h.
Proof.
  intros h H. induction H as [|h x H IH F|h x H IH F W|h p H IH|h x H IH F W|h x H IH W]; intros q A; [destruct A|..]; apply in_snoc in A; apply in_snoc;
    (destruct A as [A|A]; [left; now apply IH|]); try discriminate. injection A as ->. left. apply F.
Qed.

Lemma flight_snoc : forall h e, history h -> forall q, in_flight (h ++ [e]) q -> (in_flight h q /\ e <> CEnd q) \/ e = CBegin q.
Proof.
  intros h e H q [A B]. rewrite in_snoc in A, B. destruct A as [A|A]; [left|now right]. split; [split; [exact A|]|]; intro K; apply B; [now left|now right].
Qed.

Lemma watching_snoc : forall h e q, watching (h ++ [e]) q -> (watching h q /\ e <> CUnwatch q) \/ (e = CWatch q).
Proof.
  intros h e q [A B]. rewrite in_snoc in A, B. destruct A as [A|A]; [left|now right]. split; [split; [exact A|]|]; intro K; apply B; [now left|now right].
Qed.

Lemma watching_flight : forall h, history h -> forall q, watching h q -> in_flight h q.
Proof.
  intros h H. induction H as [|h x H IH F|h x H IH F W|h p H IH|h x H IH F W|h x H IH W]; intros q K; [destruct K as [[] _]|..];
    apply watching_snoc in K; (destruct K as [[K N]|K]; [pose proof (IH q K) as [A B]; split; [apply in_snoc; now left|intro C; apply in_snoc in C; destruct C as [C|C]; [now apply B|]]|]); try discriminate.
  - injection C as ->. now apply W.
  - injection K as ->. destruct F as [A B]. split; [apply in_snoc; now left|]. intro C. apply in_snoc in C. destruct C as [C|C]; [now apply B|discriminate].
Qed.

Lemma flight_unique : forall h, history h -> forall q r, in_flight h q -> in_flight h r -> fst q = fst r -> q = r.
Proof. intros h H q r [A _] [B _]. now apply begun_unique with h. Qed.

(** Pending. *)
Lemma pending_snoc_other : forall h e i, (forall p, e <> CCancel p) -> (forall q, e = CEnd q -> id_text (snd q) <> i) -> (pending (h ++ [e]) i <-> pending h i).
Proof.
  intros h e i N K. split; intros (I & a & p & b & E & T & F); split; try exact I.
  - destruct b as [|x b _] using rev_ind; [apply app_inj_tail in E; destruct E as [_ E]; exfalso; now apply (N p)|].
    replace (a ++ CCancel p :: b ++ [x]) with ((a ++ CCancel p :: b) ++ [x]) in E by (now rewrite <- app_assoc). apply app_inj_tail in E. destruct E as [-> _].
    exists a, p, b. split; [reflexivity|]. split; [exact T|]. intros q Q. apply F. apply in_or_app. now left.
  - exists a, p, (b ++ [e]). split; [rewrite E, <- app_assoc; reflexivity|]. split; [exact T|]. intros q Q. apply in_snoc in Q. destruct Q as [Q|Q]; [now apply F|now apply K].
Qed.

Lemma pending_end : forall h q, ~ pending (h ++ [CEnd q]) (id_text (snd q)).
Proof.
  intros h q (I & a & p & b & E & T & F). destruct b as [|x b _] using rev_ind; [apply app_inj_tail in E; destruct E; discriminate|].
  replace (a ++ CCancel p :: b ++ [x]) with ((a ++ CCancel p :: b) ++ [x]) in E by (now rewrite <- app_assoc). apply app_inj_tail in E. destruct E as [_ <-].
  apply (F q); [apply in_snoc; now right|reflexivity].
Qed.

Lemma pending_cancel : forall h p i, i <> [] -> (pending (h ++ [CCancel p]) i <-> pending h i \/ cancel_text p = i).
Proof.
  intros h p i N. split.
  - intros (I & a & p' & b & E & T & F). destruct b as [|x b _] using rev_ind; [apply app_inj_tail in E; destruct E as [_ E]; injection E as ->; now right|].
    left. replace (a ++ CCancel p' :: b ++ [x]) with ((a ++ CCancel p' :: b) ++ [x]) in E by (now rewrite <- app_assoc). apply app_inj_tail in E. destruct E as [-> _].
    split; [exact I|]. exists a, p', b. split; [reflexivity|]. split; [exact T|]. intros q Q. apply F. apply in_or_app. now left.
  - intros [(I & a & p' & b & E & T & F)|E].
    + split; [exact I|]. exists a, p', (b ++ [CCancel p]). split; [rewrite E, <- app_assoc; reflexivity|]. split; [exact T|]. intros q Q. apply in_snoc in Q. destruct Q as [Q|Q]; [now apply F|discriminate].
    + split; [exact N|]. exists h, p, []. split; [reflexivity|]. split; [exact E|]. intros q [].
Qed.

Lemma not_pending_nil : forall i, ~ pending [] i.
Proof. intros i (_ & a & p & b & E & _). destruct a; discriminate. Qed.

(** Who owns which token and which stop source. *)
Definition owned (h : list cev) (s : cancels) : Prop :=
  exists ow sow : list bstr,
    length ow = length (cn_tokens s) /\ length sow = length (cn_sources s) /\
    (forall i t, aget i (cn_map s) = Some t -> i <> [] /\ nth_error ow t = Some i) /\
    (forall i l n, aget i (cn_stops s) = Some l -> In n l -> nth_error sow n = Some i) /\
    (forall q, in_flight h q -> exists t, nget (fst q) (cn_held s) = Some t /\ nth_error ow t = Some (id_text (snd q))) /\
    (forall q, watching h q -> exists n, nget (fst q) (cn_watch s) = Some n /\ nth_error sow n = Some (id_text (snd q))) /\
    (forall q r n, watching h q -> watching h r -> nget (fst q) (cn_watch s) = Some n -> nget (fst r) (cn_watch s) = Some n -> q = r).

Lemma owned_run : forall h, history h -> owned h (cancel_run h).
Proof.
  intros h H. pose proof H as H0. induction H as [|h x H IH F|h x H IH F W|h p H IH|h x H IH F W|h x H IH W].
  - exists [], []. repeat (split; [reflexivity|]). split; [intros i t E; discriminate|]. split; [intros i l n E; discriminate|].
    split; [intros q [[] _]|]. split; [intros q [[] _]|]. intros q r n [[] _].
  - destruct (IH H) as (ow & sow & L1 & L2 & M & S & Q & Wt & D). clear IH. rewrite crun_snoc. set (s := cancel_run h) in *. cbn [cancel_step]. unfold register.
    assert (forall q, in_flight h q -> fst q <> fst x) as Fr.
    { intros q [A _] E. apply (F (snd q)). rewrite <- E. now destruct q. }
    assert (forall q, watching (h ++ [CBegin x]) q -> watching h q) as Wd.
    { intros q K. apply watching_snoc in K. destruct K as [[K _]|K]; [exact K|discriminate]. }
    destruct (id_text (snd x)) as [|c t'] eqn:Ex; [|destruct (aget (c :: t') (cn_map s)) as [tk|] eqn:Em].
    + exists (ow ++ [[]]), sow. cbn [cn_map cn_stops cn_tokens cn_sources cn_held cn_watch]. rewrite !app_length, L1. split; [reflexivity|]. split; [exact L2|].
      split; [intros i t E; destruct (M i t E) as [N E']; split; [exact N|now apply nerr_snoc]|]. split; [exact S|].
      split; [|split; [intros q K; apply Wt; now apply Wd|intros q r n K1 K2; apply D; now apply Wd]].
      intros q K. apply flight_snoc in K; [|exact H]. destruct K as [[K _]|K].
      * destruct (Q q K) as (t & A & B). exists t. rewrite nget_cons_other by (now apply Fr). split; [exact A|now apply nerr_snoc].
      * injection K as ->. exists (length (cn_tokens s)). rewrite nget_cons_same. split; [reflexivity|]. rewrite Ex, <- L1. apply nerr_last.
    + exists ow, sow. cbn [cn_map cn_stops cn_tokens cn_sources cn_held cn_watch]. split; [exact L1|]. split; [exact L2|]. split; [exact M|]. split; [exact S|].
      split; [|split; [intros q K; apply Wt; now apply Wd|intros q r n K1 K2; apply D; now apply Wd]].
      intros q K. apply flight_snoc in K; [|exact H]. destruct K as [[K _]|K].
      * destruct (Q q K) as (t & A & B). exists t. rewrite nget_cons_other by (now apply Fr). now split.
      * injection K as ->. exists tk. rewrite nget_cons_same. split; [reflexivity|]. rewrite Ex. now apply M.
    + exists (ow ++ [c :: t']), sow. cbn [cn_map cn_stops cn_tokens cn_sources cn_held cn_watch]. rewrite !app_length, L1. split; [reflexivity|]. split; [exact L2|].
      split; [|split; [exact S|]].
      * intros i t E. destruct (beq i (c :: t')) eqn:Ei; [apply beq_eq in Ei; subst i|].
        -- rewrite aget_aset_same in E. injection E as <-. split; [discriminate|]. rewrite <- L1. apply nerr_last.
        -- rewrite aget_aset_other in E by (intros ->; now rewrite beq_refl in Ei). destruct (M i t E) as [N E']. split; [exact N|now apply nerr_snoc].
      * split; [|split; [intros q K; apply Wt; now apply Wd|intros q r n K1 K2; apply D; now apply Wd]].
        intros q K. apply flight_snoc in K; [|exact H]. destruct K as [[K _]|K].
        -- destruct (Q q K) as (t & A & B). exists t. rewrite nget_cons_other by (now apply Fr). split; [exact A|now apply nerr_snoc].
        -- injection K as ->. exists (length (cn_tokens s)). rewrite nget_cons_same. split; [reflexivity|]. rewrite Ex, <- L1. apply nerr_last.
  - destruct (IH H) as (ow & sow & L1 & L2 & M & S & Q & Wt & D). clear IH. rewrite crun_snoc. set (s := cancel_run h) in *. cbn [cancel_step]. unfold unregister.
    assert (forall q, watching (h ++ [CEnd x]) q -> watching h q) as Wd.
    { intros q K. apply watching_snoc in K. destruct K as [[K _]|K]; [exact K|discriminate]. }
    exists ow, sow. cbn [cn_map cn_stops cn_tokens cn_sources cn_held cn_watch]. split; [exact L1|]. split; [exact L2|]. split; [|split].
    + destruct (id_text (snd x)) as [|c t']; [exact M|]. intros i t E. destruct (beq i (c :: t')) eqn:Ei; [apply beq_eq in Ei; subst i; rewrite aget_adel_same in E; discriminate|].
      rewrite aget_adel_other in E by (intros ->; now rewrite beq_refl in Ei). now apply M.
    + destruct (id_text (snd x)) as [|c t']; [exact S|]. intros i l n E. destruct (beq i (c :: t')) eqn:Ei; [apply beq_eq in Ei; subst i; rewrite aget_adel_same in E; discriminate|].
      rewrite aget_adel_other in E by (intros ->; now rewrite beq_refl in Ei). now apply S.
    + split; [|split; [intros q K; apply Wt; now apply Wd|intros q r n K1 K2; apply D; now apply Wd]].
      intros q K. apply flight_snoc in K; [|exact H]. destruct K as [[K Nq]|K]; [|discriminate].
      destruct (Q q K) as (t & A & B). exists t. rewrite nget_ndel_other; [now split|]. intro E. apply Nq. f_equal. symmetry. now apply flight_unique with h.
  - destruct (IH H) as (ow & sow & L1 & L2 & M & S & Q & Wt & D). clear IH. rewrite crun_snoc. set (s := cancel_run h) in *. cbn [cancel_step].
    assert (forall q, watching (h ++ [CCancel p]) q -> watching h q) as Wd.
    { intros q K. apply watching_snoc in K. destruct K as [[K _]|K]; [exact K|discriminate]. }
    assert (forall q, in_flight (h ++ [CCancel p]) q -> in_flight h q) as Fd.
    { intros q K. apply flight_snoc in K; [|exact H]. destruct K as [[K _]|K]; [exact K|discriminate]. }
    destruct (cancel_text p) as [|c i'].
    + exists ow, sow. split; [exact L1|]. split; [exact L2|]. split; [exact M|]. split; [exact S|].
      split; [intros q K; apply Q; now apply Fd|]. split; [intros q K; apply Wt; now apply Wd|intros q r n K1 K2; apply D; now apply Wd].
    + unfold cancel_by. destruct (aget (c :: i') (cn_map s)) as [tk|] eqn:Em.
      * exists ow, sow. cbn [cn_map cn_stops cn_tokens cn_sources cn_held cn_watch]. rewrite set_true_length. split; [exact L1|].
        split; [destruct (aget (c :: i') (cn_stops s)); [|exact L2]; rewrite L2; symmetry; apply set_all_length|]. split; [exact M|]. split; [exact S|].
        split; [intros q K; apply Q; now apply Fd|]. split; [intros q K; apply Wt; now apply Wd|intros q r n K1 K2; apply D; now apply Wd].
      * exists (ow ++ [c :: i']), sow. cbn [cn_map cn_stops cn_tokens cn_sources cn_held cn_watch]. rewrite !app_length, L1. split; [reflexivity|].
        split; [destruct (aget (c :: i') (cn_stops s)); [|exact L2]; rewrite L2; symmetry; apply set_all_length|]. split.
        -- intros i t E. destruct (beq i (c :: i')) eqn:Ei; [apply beq_eq in Ei; subst i|].
           ++ rewrite aget_aset_same in E. injection E as <-. split; [discriminate|]. rewrite <- L1. apply nerr_last.
           ++ rewrite aget_aset_other in E by (intros ->; now rewrite beq_refl in Ei). destruct (M i t E) as [N E']. split; [exact N|now apply nerr_snoc].
        -- split; [exact S|]. split; [intros q K; destruct (Q q (Fd q K)) as (t & A & B); exists t; split; [exact A|now apply nerr_snoc]|].
           split; [intros q K; apply Wt; now apply Wd|intros q r n K1 K2; apply D; now apply Wd].
  - destruct (IH H) as (ow & sow & L1 & L2 & M & S & Q & Wt & D). clear IH. rewrite crun_snoc. set (s := cancel_run h) in *. cbn [cancel_step]. unfold watch.
    assert (forall q, in_flight (h ++ [CWatch x]) q -> in_flight h q) as Fd.
    { intros q K. apply flight_snoc in K; [|exact H]. destruct K as [[K _]|K]; [exact K|discriminate]. }
    assert (forall q, watching h q -> fst q <> fst x) as Fr.
    { intros q K E. pose proof (watching_flight h H q K) as Kf. assert (q = x) as -> by (now apply flight_unique with h). destruct K as [K _]. contradiction. }
    exists ow, (sow ++ [id_text (snd x)]). cbn [cn_map cn_stops cn_tokens cn_sources cn_held cn_watch]. rewrite !app_length, L2. split; [exact L1|]. split; [reflexivity|]. split; [exact M|]. split; [|split].
    + intros i l n E In_. destruct (beq i (id_text (snd x))) eqn:Ei; [apply beq_eq in Ei; subst i|].
      * rewrite aget_aset_same in E. injection E as <-. apply in_snoc in In_. destruct In_ as [In_| ->].
        -- destruct (aget (id_text (snd x)) (cn_stops s)) as [l0|] eqn:E0; [|destruct In_]. apply nerr_snoc. now apply (S _ _ _ E0).
        -- rewrite <- L2. apply nerr_last.
      * rewrite aget_aset_other in E by (intros ->; now rewrite beq_refl in Ei). apply nerr_snoc. now apply (S _ _ _ E).
    + intros q K. apply Q. now apply Fd.
    + split.
      * intros q K. apply watching_snoc in K. destruct K as [[K _]|K].
        -- destruct (Wt q K) as (n & A & B). exists n. rewrite nget_cons_other by (now apply Fr). split; [exact A|now apply nerr_snoc].
        -- injection K as ->. exists (length (cn_sources s)). rewrite nget_cons_same. split; [reflexivity|]. rewrite <- L2. apply nerr_last.
      * intros q r n K1 K2 E1 E2. apply watching_snoc in K1, K2. destruct K1 as [[K1 _]|K1], K2 as [[K2 _]|K2].
        -- rewrite nget_cons_other in E1, E2 by (now apply Fr). now apply (D q r n).
        -- exfalso. injection K2 as ->. rewrite nget_cons_same in E2. injection E2 as <-. rewrite nget_cons_other in E1 by (now apply Fr).
           destruct (Wt q K1) as (m & A & B). rewrite A in E1. injection E1 as ->. apply nerr_lt in B. lia.
        -- exfalso. injection K1 as ->. rewrite nget_cons_same in E1. injection E1 as <-. rewrite nget_cons_other in E2 by (now apply Fr).
           destruct (Wt r K2) as (m & A & B). rewrite A in E2. injection E2 as ->. apply nerr_lt in B. lia.
        -- congruence.
  - destruct (IH H) as (ow & sow & L1 & L2 & M & S & Q & Wt & D). clear IH. rewrite crun_snoc. set (s := cancel_run h) in *. cbn [cancel_step]. unfold unwatch.
    assert (forall q, in_flight (h ++ [CUnwatch x]) q -> in_flight h q) as Fd.
    { intros q K. apply flight_snoc in K; [|exact H]. destruct K as [[K _]|K]; [exact K|discriminate]. }
    destruct (Wt x W) as (n & A & B). rewrite A.
    assert (forall q, watching (h ++ [CUnwatch x]) q -> watching h q /\ nget (fst q) (ndel (fst x) (cn_watch s)) = nget (fst q) (cn_watch s)) as Wd.
    { intros q K. apply watching_snoc in K. destruct K as [[K N]|K]; [|discriminate]. split; [exact K|]. apply nget_ndel_other. intro E. apply N. f_equal. symmetry.
      apply flight_unique with h; [exact H|now apply watching_flight|now apply watching_flight|exact E]. }
    exists ow, sow. cbn [cn_map cn_stops cn_tokens cn_sources cn_held cn_watch]. split; [exact L1|]. split; [exact L2|]. split; [exact M|]. split; [|split].
    + intros i l m E In_. destruct (aget (id_text (snd x)) (cn_stops s)) as [l0|] eqn:E0; [|now apply (S _ _ _ E)].
      destruct (beq i (id_text (snd x))) eqn:Ei; [apply beq_eq in Ei; subst i|].
      * destruct (filter (fun k => negb (Nat.eqb k n)) l0) as [|y l1] eqn:Ef; [rewrite aget_adel_same in E; discriminate|]. rewrite aget_aset_same in E. injection E as <-.
        rewrite <- Ef in In_. apply filter_In in In_. now apply (S _ _ _ E0).
      * assert (i <> id_text (snd x)) as Ni by (intros ->; now rewrite beq_refl in Ei).
        destruct (filter (fun k => negb (Nat.eqb k n)) l0) as [|y l1] eqn:Ef; [rewrite aget_adel_other in E by exact Ni|rewrite aget_aset_other in E by exact Ni]; now apply (S _ _ _ E).
    + intros q K. apply Q. now apply Fd.
    + split.
      * intros q K. destruct (Wd q K) as [K1 E]. rewrite E. now apply Wt.
      * intros q r m K1 K2. destruct (Wd q K1) as [K1' E1], (Wd r K2) as [K2' E2]. rewrite E1, E2. now apply D.
Qed.

(** A cancellation naming another id changes nothing for a request in flight. *)
Lemma cancel_other : forall h q p, history h -> in_flight h q -> cancel_text p <> id_text (snd q) ->
  is_cancelled q (cancel_run (h ++ [CCancel p])) = is_cancelled q (cancel_run h) /\
  (watching h q -> is_stopped q (cancel_run (h ++ [CCancel p])) = is_stopped q (cancel_run h)).
Proof.
  intros h q p H K N. destruct (owned_run h H) as (ow & sow & L1 & L2 & M & S & Q & Wt & D). rewrite crun_snoc. set (s := cancel_run h) in *. cbn [cancel_step].
  destruct (cancel_text p) as [|c i'] eqn:Ep; [split; reflexivity|]. unfold cancel_by, is_cancelled, is_stopped. destruct (Q q K) as (t & A & B).
  assert (forall n, nth_error sow n = Some (id_text (snd q)) ->
    nth n (match aget (c :: i') (cn_stops s) with Some l => fold_left (fun st m => set_true m st) l (cn_sources s) | None => cn_sources s end) false = nth n (cn_sources s) false) as Sn.
  { intros n E. destruct (aget (c :: i') (cn_stops s)) as [l|] eqn:El; [|reflexivity]. apply (set_all_out l). intro In_. pose proof (S _ _ _ El In_) as X. congruence. }
  destruct (aget (c :: i') (cn_map s)) as [tk|] eqn:Em; cbn [cn_map cn_stops cn_tokens cn_sources cn_held cn_watch]; rewrite A.
  - split; [|intro W; destruct (Wt q W) as (n & A' & B'); rewrite A'; now apply Sn]. apply set_true_other. intros ->. destruct (M _ _ Em) as [_ X]. congruence.
  - split; [|intro W; destruct (Wt q W) as (n & A' & B'); rewrite A'; now apply Sn]. apply nth_snoc. rewrite <- L1. exact (nerr_lt _ _ _ _ B).
Qed.

Lemma distinct_prefix : forall h e, distinct_ids (h ++ [e]) -> distinct_ids h.
Proof. intros h e D a b q r E. apply (D a (b ++ [e]) q r). now rewrite E, app_assoc. Qed.

(** With distinct ids the map says what is pending, and holds the token of every request. *)
Definition tracked (h : list cev) (s : cancels) : Prop :=
  (forall i, i <> [] -> match aget i (cn_map s) with Some t => nth t (cn_tokens s) false = true <-> pending h i | None => ~ pending h i end) /\
  (forall q, in_flight h q -> id_text (snd q) <> [] -> exists t, nget (fst q) (cn_held s) = Some t /\ aget (id_text (snd q)) (cn_map s) = Some t) /\
  (forall q, in_flight h q -> id_text (snd q) = [] -> is_cancelled q s = false).

Lemma tracked_run : forall h, history h -> distinct_ids h -> tracked h (cancel_run h).
Proof.
  intros h H. pose proof H as H0. induction H as [|h x H IH F|h x H IH F W|h p H IH|h x H IH F W|h x H IH W]; intro Di.
  - split; [intros i N; apply not_pending_nil|]. split; intros q [[] _].
  - pose proof (distinct_prefix _ _ Di) as Dh. destruct (IH H Dh) as (P & Q & Z). clear IH. destruct (owned_run h H) as (ow & sow & L1 & L2 & M & S & Qo & Wt & D). rewrite crun_snoc. set (s := cancel_run h) in *.
    assert (forall i, pending (h ++ [CBegin x]) i <-> pending h i) as Pe by (intro i; apply pending_snoc_other; [discriminate|discriminate]).
    assert (forall q, in_flight h q -> fst q <> fst x) as Fr by (intros q [A _] E; apply (F (snd q)); rewrite <- E; now destruct q).
    cbn [cancel_step]. unfold register. destruct (id_text (snd x)) as [|c t'] eqn:Ex; [|destruct (aget (c :: t') (cn_map s)) as [tk|] eqn:Em].
    + unfold tracked, is_cancelled. cbn [cn_map cn_stops cn_tokens cn_sources cn_held cn_watch]. split; [|split].
      * intros i N. specialize (P i N). destruct (aget i (cn_map s)) as [t|] eqn:Ei; [|now rewrite Pe]. rewrite Pe. destruct (M i t Ei) as [_ B]. rewrite nth_snoc; [exact P|]. rewrite <- L1. exact (nerr_lt _ _ _ _ B).
      * intros q K N. apply flight_snoc in K; [|exact H]. destruct K as [[K _]|K]; [|injection K as ->; rewrite Ex in N; contradiction].
        rewrite nget_cons_other by (now apply Fr). now apply Q.
      * intros q K N. apply flight_snoc in K; [|exact H]. destruct K as [[K _]|K].
        -- rewrite nget_cons_other by (now apply Fr). specialize (Z q K N). unfold is_cancelled in Z. destruct (Qo q K) as (t & A & B). rewrite A in *. rewrite nth_snoc; [exact Z|]. rewrite <- L1. exact (nerr_lt _ _ _ _ B).
        -- injection K as ->. rewrite nget_cons_same. apply nth_last.
    + unfold tracked, is_cancelled. cbn [cn_map cn_stops cn_tokens cn_sources cn_held cn_watch]. split; [|split].
      * intros i N. specialize (P i N). destruct (aget i (cn_map s)); rewrite Pe; exact P.
      * intros q K N. apply flight_snoc in K; [|exact H]. destruct K as [[K _]|K].
        -- rewrite nget_cons_other by (now apply Fr). now apply Q.
        -- injection K as ->. exists tk. rewrite nget_cons_same, Ex. now split.
      * intros q K N. apply flight_snoc in K; [|exact H]. destruct K as [[K _]|K]; [|injection K as ->; rewrite Ex in N; discriminate].
        rewrite nget_cons_other by (now apply Fr). exact (Z q K N).
    + unfold tracked, is_cancelled. cbn [cn_map cn_stops cn_tokens cn_sources cn_held cn_watch]. split; [|split].
      * intros i N. specialize (P i N). destruct (beq i (c :: t')) eqn:Ei; [apply beq_eq in Ei; subst i|].
        -- rewrite aget_aset_same, nth_last, Pe. rewrite Em in P. split; [discriminate|]. intro X. contradiction.
        -- rewrite aget_aset_other by (intros ->; now rewrite beq_refl in Ei). destruct (aget i (cn_map s)) as [t|] eqn:Ea; rewrite Pe; [|exact P]. destruct (M i t Ea) as [_ B]. rewrite nth_snoc; [exact P|]. rewrite <- L1. exact (nerr_lt _ _ _ _ B).
      * intros q K N. assert (in_flight (h ++ [CBegin x]) q) as K0 by exact K. apply flight_snoc in K; [|exact H]. destruct K as [[K _]|K].
        -- rewrite nget_cons_other by (now apply Fr). destruct (Q q K N) as (t & A & B). exists t. split; [exact A|]. rewrite aget_aset_other; [exact B|]. intros E.
           rewrite E in B. rewrite B in Em. discriminate.
        -- injection K as ->. exists (length (cn_tokens s)). rewrite nget_cons_same, Ex, aget_aset_same. now split.
      * intros q K N. apply flight_snoc in K; [|exact H]. destruct K as [[K _]|K]; [|injection K as ->; rewrite Ex in N; discriminate].
        rewrite nget_cons_other by (now apply Fr). specialize (Z q K N). unfold is_cancelled in Z. destruct (Qo q K) as (t & A & B). rewrite A in *. rewrite nth_snoc; [exact Z|]. rewrite <- L1. exact (nerr_lt _ _ _ _ B).
  - pose proof (distinct_prefix _ _ Di) as Dh. destruct (IH H Dh) as (P & Q & Z). clear IH. rewrite crun_snoc. set (s := cancel_run h) in *. cbn [cancel_step]. unfold unregister.
    assert (forall q, in_flight h q -> CEnd x <> CEnd q -> fst q <> fst x) as Fr by (intros q K N E; apply N; f_equal; symmetry; now apply flight_unique with h).
    unfold tracked, is_cancelled. cbn [cn_map cn_stops cn_tokens cn_sources cn_held cn_watch]. split; [|split].
    + intros i N. specialize (P i N). destruct (beq i (id_text (snd x))) eqn:Ei; [apply beq_eq in Ei; subst i|].
      * destruct (id_text (snd x)) as [|c t'] eqn:Ex; [contradiction|]. rewrite aget_adel_same. rewrite <- Ex. apply pending_end.
      * assert (i <> id_text (snd x)) as Ni by (intros ->; now rewrite beq_refl in Ei).
        assert (pending (h ++ [CEnd x]) i <-> pending h i) as Pe by (apply pending_snoc_other; [discriminate|intros q E; injection E as <-; intro X; now apply Ni]).
        destruct (id_text (snd x)) as [|c t']; [|rewrite aget_adel_other by exact Ni]; destruct (aget i (cn_map s)); rewrite Pe; exact P.
    + intros q K N. apply flight_snoc in K; [|exact H]. destruct K as [[K Nq]|K]; [|discriminate]. rewrite nget_ndel_other by (now apply Fr).
      destruct (Q q K N) as (t & A & B). exists t. split; [exact A|]. destruct (id_text (snd x)) as [|c t'] eqn:Ex; [exact B|]. rewrite aget_adel_other; [exact B|].
      intro E. apply Nq. f_equal. symmetry. apply (Dh h [] q x); [now rewrite app_nil_r|exact K|exact F|congruence|exact N].
    + intros q K N. apply flight_snoc in K; [|exact H]. destruct K as [[K Nq]|K]; [|discriminate]. rewrite nget_ndel_other by (now apply Fr). exact (Z q K N).
  - pose proof (distinct_prefix _ _ Di) as Dh. destruct (IH H Dh) as (P & Q & Z). clear IH.
    assert (forall q, in_flight (h ++ [CCancel p]) q -> in_flight h q) as Fd.
    { intros q K. apply flight_snoc in K; [|exact H]. destruct K as [[K _]|K]; [exact K|discriminate]. }
    pose proof (fun q K => cancel_other h q p H K) as Oth. destruct (owned_run h H) as (ow & sow & L1 & L2 & M & S & Qo & Wt & D).
    rewrite crun_snoc in *. set (s := cancel_run h) in *. cbn [cancel_step] in *.
    split; [|split].
    + intros i N. specialize (P i N). pose proof (pending_cancel h p i N) as Pc. destruct (cancel_text p) as [|c i'] eqn:Ep.
      * assert (pending (h ++ [CCancel p]) i <-> pending h i) as Pe by (rewrite Pc; intuition; subst; contradiction). destruct (aget i (cn_map s)); now rewrite Pe.
      * unfold cancel_by. destruct (aget (c :: i') (cn_map s)) as [tk|] eqn:Em; cbn [cn_map cn_stops cn_tokens cn_sources cn_held cn_watch].
        -- destruct (beq i (c :: i')) eqn:Ei; [apply beq_eq in Ei; subst i|].
           ++ rewrite Em. destruct (M _ _ Em) as [_ B]. rewrite set_true_same by (rewrite <- L1; exact (nerr_lt _ _ _ _ B)). split; [intros _; apply Pc; now right|reflexivity].
           ++ assert (i <> c :: i') as Ni by (intros ->; now rewrite beq_refl in Ei).
              assert (pending (h ++ [CCancel p]) i <-> pending h i) as Pe by (rewrite Pc; intuition; subst; contradiction).
              destruct (aget i (cn_map s)) as [t|] eqn:Ea; [|now rewrite Pe]. rewrite Pe, set_true_other; [exact P|]. intros ->. destruct (M _ _ Em), (M _ _ Ea). congruence.
        -- destruct (beq i (c :: i')) eqn:Ei; [apply beq_eq in Ei; subst i|].
           ++ rewrite aget_aset_same, nth_last. split; [intros _; apply Pc; now right|reflexivity].
           ++ assert (i <> c :: i') as Ni by (intros ->; now rewrite beq_refl in Ei).
              assert (pending (h ++ [CCancel p]) i <-> pending h i) as Pe by (rewrite Pc; intuition; subst; contradiction).
              rewrite aget_aset_other by exact Ni. destruct (aget i (cn_map s)) as [t|] eqn:Ea; [|now rewrite Pe]. rewrite Pe. destruct (M _ _ Ea) as [_ B]. rewrite nth_snoc by (rewrite <- L1; exact (nerr_lt _ _ _ _ B)). exact P.
    + intros q K N. destruct (Q q (Fd q K) N) as (t & A & B). exists t. destruct (cancel_text p) as [|c i'] eqn:Ep; [now split|]. unfold cancel_by.
      destruct (aget (c :: i') (cn_map s)) as [tk|] eqn:Em; cbn [cn_map cn_stops cn_tokens cn_sources cn_held cn_watch]; [now split|]. split; [exact A|]. rewrite aget_aset_other; [exact B|]. intro E. rewrite E in B. congruence.
    + intros q K N. destruct (cancel_text p) as [|c i'] eqn:Ep; [exact (Z q (Fd q K) N)|]. rewrite (proj1 (Oth q (Fd q K) ltac:(rewrite N; discriminate))). exact (Z q (Fd q K) N).
  - pose proof (distinct_prefix _ _ Di) as Dh. destruct (IH H Dh) as (P & Q & Z). clear IH. rewrite crun_snoc. set (s := cancel_run h) in *.
    assert (forall q, in_flight (h ++ [CWatch x]) q -> in_flight h q) as Fd.
    { intros q K. apply flight_snoc in K; [|exact H]. destruct K as [[K _]|K]; [exact K|discriminate]. }
    split; [|split; [intros q K; exact (Q q (Fd q K))|intros q K; exact (Z q (Fd q K))]].
    intros i N. specialize (P i N). assert (pending (h ++ [CWatch x]) i <-> pending h i) as Pe by (apply pending_snoc_other; discriminate). cbn [cancel_step watch cn_map cn_tokens]. destruct (aget i (cn_map s)); now rewrite Pe.
  - pose proof (distinct_prefix _ _ Di) as Dh. destruct (IH H Dh) as (P & Q & Z). clear IH. rewrite crun_snoc. set (s := cancel_run h) in *.
    assert (forall q, in_flight (h ++ [CUnwatch x]) q -> in_flight h q) as Fd.
    { intros q K. apply flight_snoc in K; [|exact H]. destruct K as [[K _]|K]; [exact K|discriminate]. }
    cbn [cancel_step]. assert (forall A (f : cancels -> A), f (unwatch x s) = f (unwatch x s)) by reflexivity.
    unfold unwatch. destruct (nget (fst x) (cn_watch s)) as [n|].
    + split; [|split; [intros q K; exact (Q q (Fd q K))|intros q K; exact (Z q (Fd q K))]].
      intros i N. specialize (P i N). assert (pending (h ++ [CUnwatch x]) i <-> pending h i) as Pe by (apply pending_snoc_other; discriminate). cbn [cn_map cn_tokens]. destruct (aget i (cn_map s)); now rewrite Pe.
    + split; [|split; [intros q K; exact (Q q (Fd q K))|intros q K; exact (Z q (Fd q K))]].
      intros i N. specialize (P i N). assert (pending (h ++ [CUnwatch x]) i <-> pending h i) as Pe by (apply pending_snoc_other; discriminate). destruct (aget i (cn_map s)); now rewrite Pe.
Qed.

Lemma cancelled_iff : forall h q, history h -> distinct_ids h -> in_flight h q ->
  (is_cancelled q (cancel_run h) = true <-> pending h (id_text (snd q))).
Proof.
  intros h q H D K. destruct (tracked_run h H D) as (P & Q & Z). destruct (id_text (snd q)) as [|c i] eqn:E.
  - rewrite (Z q K E). split; [discriminate|]. intros (N & _). contradiction.
  - destruct (Q q K) as (t & A & B); [rewrite E; discriminate|]. rewrite E in B. specialize (P (c :: i) ltac:(discriminate)). rewrite B in P. unfold is_cancelled. rewrite A. exact P.
Qed.

(** The handler's stop token follows the request's token. *)
Definition followed (h : list cev) (s : cancels) : Prop :=
  forall q, watching h q -> is_stopped q s = is_cancelled q s /\
    exists n l, nget (fst q) (cn_watch s) = Some n /\ aget (id_text (snd q)) (cn_stops s) = Some l /\ In n l.

Lemma followed_run : forall h, history h -> distinct_ids h -> followed h (cancel_run h).
Proof.
  intros h H. pose proof H as H0. induction H as [|h x H IH F|h x H IH F W|h p H IH|h x H IH F W|h x H IH W]; intro Di.
  - intros q [[] _].
  - pose proof (distinct_prefix _ _ Di) as Dh. specialize (IH H Dh). destruct (owned_run h H) as (ow & sow & L1 & L2 & M & S & Qo & Wt & D). rewrite crun_snoc. set (s := cancel_run h) in *.
    intros q K. apply watching_snoc in K. destruct K as [[K _]|K]; [|discriminate]. destruct (IH q K) as (E & n & l & A & B & C). pose proof (watching_flight h H q K) as Kf.
    assert (fst q <> fst x) as Fr by (destruct Kf as [Kf _]; intro X; apply (F (snd q)); rewrite <- X; now destruct q).
    destruct (Qo q Kf) as (t & T1 & T2). cbn [cancel_step]. unfold register, is_stopped, is_cancelled in *.
    destruct (id_text (snd x)) as [|c t'] eqn:Ex; [|destruct (aget (c :: t') (cn_map s)) as [tk|] eqn:Em]; cbn [cn_map cn_stops cn_tokens cn_sources cn_held cn_watch]; rewrite nget_cons_other by exact Fr; rewrite T1 in *;
      (split; [|now exists n, l]); rewrite E; try reflexivity; symmetry; apply nth_snoc; rewrite <- L1; exact (nerr_lt _ _ _ _ T2).
  - pose proof (distinct_prefix _ _ Di) as Dh. specialize (IH H Dh). rewrite crun_snoc. set (s := cancel_run h) in *.
    intros q K. apply watching_snoc in K. destruct K as [[K _]|K]; [|discriminate]. destruct (IH q K) as (E & n & l & A & B & C). pose proof (watching_flight h H q K) as Kf.
    assert (q <> x) as Nx by (intros ->; now apply W). assert (fst q <> fst x) as Fr by (intro X; apply Nx; now apply flight_unique with h).
    cbn [cancel_step]. unfold unregister, is_stopped, is_cancelled in *. cbn [cn_map cn_stops cn_tokens cn_sources cn_held cn_watch]. rewrite nget_ndel_other by exact Fr. split; [exact E|].
    exists n, l. split; [exact A|]. split; [|exact C]. destruct (id_text (snd x)) as [|c t'] eqn:Ex; [exact B|]. rewrite aget_adel_other; [exact B|].
    intro X. apply Nx. apply (Dh h [] q x); [now rewrite app_nil_r|exact Kf|exact F|congruence|rewrite X; discriminate].
  - pose proof (distinct_prefix _ _ Di) as Dh. specialize (IH H Dh). pose proof (fun q K => cancel_other h q p H K) as Oth. destruct (owned_run h H) as (ow & sow & L1 & L2 & M & S & Qo & Wt & D).
    destruct (tracked_run h H Dh) as (P & Q & Z). rewrite crun_snoc in *. set (s := cancel_run h) in *.
    intros q K. apply watching_snoc in K. destruct K as [[K _]|K]; [|discriminate]. destruct (IH q K) as (E & n & l & A & B & C). pose proof (watching_flight h H q K) as Kf.
    destruct (Wt q K) as (n' & A' & B'). rewrite A in A'. injection A' as <-.
    assert (exists n l, nget (fst q) (cn_watch (cancel_step s (CCancel p))) = Some n /\ aget (id_text (snd q)) (cn_stops (cancel_step s (CCancel p))) = Some l /\ In n l) as Keep.
    { exists n, l. cbn [cancel_step]. destruct (cancel_text p) as [|c i']; [now repeat split|]. unfold cancel_by. destruct (aget (c :: i') (cn_map s)); now repeat split. }
    split; [|exact Keep]. destruct (beq (cancel_text p) (id_text (snd q))) eqn:Et.
    + apply beq_eq in Et. cbn [cancel_step]. destruct (cancel_text p) as [|c i'] eqn:Ep; [exact E|].
      destruct (Q q Kf) as (t & T1 & T2); [rewrite <- Et; discriminate|]. destruct (M _ _ T2) as [_ T3]. unfold cancel_by. rewrite Et, T2, B. unfold is_stopped, is_cancelled. cbn [cn_map cn_stops cn_tokens cn_sources cn_held cn_watch]. rewrite A, T1.
      transitivity true; [|symmetry; apply set_true_same; rewrite <- L1; exact (nerr_lt _ _ _ _ T3)]. apply (set_all_in l); [exact C|]. rewrite <- L2. exact (nerr_lt _ _ _ _ B').
    + assert (cancel_text p <> id_text (snd q)) as N by (intro X; rewrite X, beq_refl in Et; discriminate). destruct (Oth q Kf N) as [O1 O2]. rewrite O1, (O2 K). exact E.
  - pose proof (distinct_prefix _ _ Di) as Dh. specialize (IH H Dh). destruct (owned_run h H) as (ow & sow & L1 & L2 & M & S & Qo & Wt & D). destruct (tracked_run h H Dh) as (P & Q & Z). rewrite crun_snoc. set (s := cancel_run h) in *.
    intros q K. apply watching_snoc in K. destruct K as [[K _]|K].
    + destruct (IH q K) as (E & n & l & A & B & C). pose proof (watching_flight h H q K) as Kf.
      assert (q <> x) as Nx by (intros ->; destruct K as [K _]; contradiction). assert (fst q <> fst x) as Fr by (intro X; apply Nx; now apply flight_unique with h).
      destruct (Wt q K) as (n' & A' & B'). rewrite A in A'. injection A' as <-. unfold is_stopped, is_cancelled in *. cbn [cancel_step watch cn_map cn_stops cn_tokens cn_sources cn_held cn_watch].
      rewrite nget_cons_other by exact Fr. rewrite A in *. split; [rewrite nth_snoc by (rewrite <- L2; exact (nerr_lt _ _ _ _ B')); exact E|].
      destruct (beq (id_text (snd q)) (id_text (snd x))) eqn:Ei.
      * apply beq_eq in Ei. rewrite Ei in *. exists n. rewrite aget_aset_same, B. eexists. split; [reflexivity|]. split; [reflexivity|]. apply in_snoc. now left.
      * exists n, l. rewrite aget_aset_other by (intro X; rewrite X, beq_refl in Ei; discriminate). now repeat split.
    + injection K as ->. unfold is_stopped, is_cancelled. cbn [cancel_step watch cn_map cn_stops cn_tokens cn_sources cn_held cn_watch]. rewrite nget_cons_same, nth_last, aget_aset_same. split.
      * destruct (id_text (snd q)) as [|c i] eqn:Eq.
        -- destruct (aget [] (cn_map s)) as [t|] eqn:Em; [destruct (M _ _ Em); contradiction|]. symmetry. specialize (Z q F Eq). exact Z.
        -- destruct (Q q F) as (t & A & B); [rewrite Eq; discriminate|]. rewrite Eq in B. now rewrite A, B.
      * eexists. eexists. split; [reflexivity|]. split; [reflexivity|]. apply in_snoc. now right.
  - pose proof (distinct_prefix _ _ Di) as Dh. specialize (IH H Dh). destruct (owned_run h H) as (ow & sow & L1 & L2 & M & S & Qo & Wt & D). rewrite crun_snoc. set (s := cancel_run h) in *.
    intros q K. apply watching_snoc in K. destruct K as [[K N]|K]; [|discriminate]. destruct (IH q K) as (E & n & l & A & B & C). pose proof (watching_flight h H q K) as Kf.
    assert (q <> x) as Nx by (intros ->; now apply N). assert (fst q <> fst x) as Fr by (intro X; apply Nx; apply flight_unique with h; [exact H|exact Kf|now apply watching_flight|exact X]).
    destruct (Wt x W) as (m & A' & B'). unfold is_stopped, is_cancelled in *. cbn [cancel_step]. unfold unwatch. rewrite A'. cbn [cn_map cn_stops cn_tokens cn_sources cn_held cn_watch]. rewrite nget_ndel_other by exact Fr. split; [exact E|].
    assert (n <> m) as Nm by (intros ->; apply Nx; now apply (D q x m)).
    exists n. destruct (aget (id_text (snd x)) (cn_stops s)) as [l0|] eqn:E0; [|now exists l].
    destruct (beq (id_text (snd q)) (id_text (snd x))) eqn:Ei.
    + apply beq_eq in Ei. rewrite Ei in *. assert (l0 = l) as -> by congruence.
      assert (In n (filter (fun k => negb (Nat.eqb k m)) l)) as In_ by (apply filter_In; split; [exact C|]; destruct (Nat.eqb n m) eqn:X; [apply Nat.eqb_eq in X; contradiction|reflexivity]).
      destruct (filter (fun k => negb (Nat.eqb k m)) l) as [|y l1] eqn:Ef; [destruct In_|]. exists (y :: l1). rewrite aget_aset_same. now repeat split.
    + assert (id_text (snd q) <> id_text (snd x)) as Ni by (intro X; rewrite X, beq_refl in Ei; discriminate).
      exists l. split; [exact A|]. split; [|exact C]. destruct (filter (fun k => negb (Nat.eqb k m)) l0); [rewrite aget_adel_other by exact Ni|rewrite aget_aset_other by exact Ni]; exact B.
Qed.

Lemma names_text : forall p i, names p i -> cancel_text p = id_text i.
Proof. intros p i (o & -> & E). unfold cancel_text, id_text. destruct i as [s|z|]; [now rewrite E|now rewrite E|destruct E]. Qed.

Lemma ended_in_flight : forall h, history h -> forall a q b, h = a ++ CEnd q :: b -> in_flight a q.
Proof.
  intros h H a q b E. assert (history (a ++ [CEnd q])) as K by (apply (history_split b); rewrite <- app_assoc; cbn [app]; now rewrite <- E).
  remember (a ++ [CEnd q]) as g eqn:G. destruct K; try (apply app_inj_tail in G; destruct G as [G1 G2]; try discriminate); [destruct a; discriminate|].
  injection G2 as ->. now subst.
Qed.

Lemma stays_pending : forall a p b q, history (a ++ CCancel p :: b) -> distinct_ids (a ++ CCancel p :: b) -> In (CBegin q) a -> in_flight (a ++ CCancel p :: b) q ->
  cancel_text p = id_text (snd q) -> id_text (snd q) <> [] -> pending (a ++ CCancel p :: b) (id_text (snd q)).
Proof.
  intros a p b q H D Bq [_ Nq] T N. split; [exact N|]. exists a, p, b. split; [reflexivity|]. split; [exact T|]. intros r R E.
  apply in_split in R. destruct R as (b1 & b2 & ->). set (pre := a ++ CCancel p :: b1).
  assert (a ++ CCancel p :: b1 ++ CEnd r :: b2 = pre ++ CEnd r :: b2) as Eq by (unfold pre; now rewrite <- app_assoc). rewrite Eq in *.
  pose proof (ended_in_flight _ H pre r b2 eq_refl) as Fr.
  assert (in_flight pre q) as Fq.
  { split; [apply in_or_app; now left|]. intro K. apply Nq. apply in_or_app. now left. }
  assert (q = r) as <- by (apply (D pre (CEnd r :: b2) q r eq_refl Fq Fr); [now rewrite E|exact N]). apply Nq. apply in_or_app. right. now left.
Qed.

Lemma not_pending_since : forall a r b i, id_text (snd r) = i -> (forall p, In (CCancel p) b -> cancel_text p <> i) -> ~ pending (a ++ CEnd r :: b) i.
Proof.
  intros a r b i E F (N & a' & p & b' & Eq & T & G).
  assert (In (CEnd r) b' \/ In (CCancel p) b) as [K|K].
  { clear - Eq. revert a' b' Eq. induction a as [|x a IH]; intros a' b' Eq.
    - destruct a' as [|y a']; cbn in Eq; injection Eq as E1 E2; [discriminate|]. right. rewrite E2. apply in_or_app. right. now left.
    - destruct a' as [|y a']; cbn in Eq; injection Eq as E1 E2.
      + left. rewrite <- E2. apply in_or_app. right. now left.
      + exact (IH a' b' E2). }
  - exact (G r K E).
  - exact (F p K T).
Qed.

Lemma aset_new_length : forall A k (v : A) m, aget k m = None -> length (aset k v m) = S (length m).
Proof. intros A k v. induction m as [|[k' v'] m IH]; cbn; [reflexivity|]. destruct (beq k k'); [discriminate|]. intro H. cbn. now rewrite IH. Qed.

Definition junk (n : nat) : option json := Some (JObj [(bs "id", JInt (Z.of_nat n))]).
Lemma grow_run : forall n, exists h : list cev, history h /\ (forall q, ~ In (CBegin q) h) /\ length (cn_map (cancel_run h)) = n.
Proof.
  intro n. enough (exists h : list cev, history h /\ (forall q, ~ In (CBegin q) h) /\ length (cn_map (cancel_run h)) = n /\ (forall k, n <= k -> aget (print_Z (Z.of_nat k)) (cn_map (cancel_run h)) = None)) as (h & A & B & C & _) by (now exists h).
  induction n as [|n (h & A & B & C & D)]; [exists []; split; [constructor|]; split; [intros q []|]; split; reflexivity|].
  exists (h ++ [CCancel (junk n)]). split; [now apply history_cancel|]. split; [intros q K; apply in_snoc in K; destruct K as [K|K]; [exact (B q K)|discriminate]|].
  assert (cancel_text (junk n) = print_Z (Z.of_nat n)) as T by reflexivity.
  assert (print_Z (Z.of_nat n) <> []) as Ne by (destruct (print_Z_head (Z.of_nat n)) as (d & ds & -> & _); discriminate).
  rewrite crun_snoc. cbn [cancel_step]. rewrite T. destruct (print_Z (Z.of_nat n)) as [|c r] eqn:E; [contradiction|]. unfold cancel_by. rewrite <- E, (D n) by lia. cbn [cn_map]. split.
  - rewrite aset_new_length by (apply D; lia). now rewrite C.
  - intros k K. rewrite aget_aset_other; [apply D; lia|]. intro X. apply print_Z_inj in X. lia.
Qed.
