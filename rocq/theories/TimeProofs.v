(** Proofs on timestamps. *)
From Coq Require Import Ascii String List Arith NArith ZArith Bool Lia.
From Verif Require Import StrModel StrProofs JsonModel MapModel MapProofs TaskModel TaskSpec TaskProofs TimeModel TimeSpec.
Import ListNotations.
Local Open Scope Z_scope.

(** ** The calendar *)
Lemma leap_spec : forall y, leap y = true <-> leap_year y.
Proof.
  intros y. unfold leap, leap_year. rewrite orb_true_iff, andb_true_iff, negb_true_iff, !Z.eqb_eq, Z.eqb_neq. tauto.
Qed.

Lemma lasts_len : forall y m n, lasts y m n -> 1 <= m <= 12 /\ n = month_len y m.
Proof.
  intros y m n H. unfold month_len. destruct H as [[I ->]|[[I ->]|[(-> & L & ->)|(-> & L & ->)]]].
  - cbn in I. repeat destruct I as [<-|I]; try (split; [lia|reflexivity]). destruct I.
  - cbn in I. repeat destruct I as [<-|I]; try (split; [lia|reflexivity]). destruct I.
  - apply leap_spec in L. rewrite L. split; [lia|reflexivity].
  - split; [lia|]. cbn. destruct (leap y) eqn:E; [|reflexivity]. apply leap_spec in E. contradiction.
Qed.

Lemma len_lasts : forall y m, 1 <= m <= 12 -> lasts y m (month_len y m).
Proof.
  intros y m H. unfold lasts. assert (m = 1 \/ m = 2 \/ m = 3 \/ m = 4 \/ m = 5 \/ m = 6 \/ m = 7 \/ m = 8 \/ m = 9 \/ m = 10 \/ m = 11 \/ m = 12) as D by lia.
  destruct D as [-> |[-> |[-> |[-> |[-> |[-> |[-> |[-> |[-> |[-> |[-> | ->]]]]]]]]]]]; cbn; try tauto.
  destruct (leap y) eqn:E; [right; right; left|right; right; right]; repeat split; [now apply leap_spec|].
  intros L. apply leap_spec in L. congruence.
Qed.

Fixpoint ystart (n : nat) : Z := match n with O => 0 | S k => ystart k + year_len (1970 + Z.of_nat k) end.
Fixpoint mstart (y : Z) (k : nat) : Z := match k with O => 0 | S j => mstart y j + month_len y (1 + Z.of_nat j) end.

Lemma month_len_pos : forall y m, 28 <= month_len y m <= 31.
Proof. intros y m. unfold month_len. destruct (m =? 2), (leap y), ((m =? 4) || (m =? 6) || (m =? 9) || (m =? 11))%bool; lia. Qed.
Lemma year_len_pos : forall y, 365 <= year_len y <= 366.
Proof. intros y. unfold year_len. destruct (leap y); lia. Qed.

Lemma mstart_year : forall y, mstart y 12 = year_len y.
Proof. intros y. unfold year_len, mstart, month_len. destruct (leap y); reflexivity. Qed.

Lemma mstart_mono : forall y j k, (j <= k)%nat -> mstart y j <= mstart y k.
Proof. intros y j k H. induction H; [lia|]. cbn [mstart]. pose proof (month_len_pos y (1 + Z.of_nat m)). lia. Qed.
Lemma ystart_mono : forall j k, (j <= k)%nat -> ystart j <= ystart k.
Proof. intros j k H. induction H; [lia|]. cbn [ystart]. pose proof (year_len_pos (1970 + Z.of_nat m)). lia. Qed.

Lemma reaches_is : forall y m d, reaches y m d ->
  exists n k, y = 1970 + Z.of_nat n /\ m = 1 + Z.of_nat k /\ (k < 12)%nat /\ d = ystart n + mstart y k.
Proof.
  intros y m d R. induction R as [|y m n d R (a & k & E1 & E2 & E3 & E4) L M|y n d R (a & k & E1 & E2 & E3 & E4) L].
  - exists 0%nat, 0%nat. repeat split; lia.
  - exists a, (S k). apply lasts_len in L as [_ ->]. rewrite E2 in *. cbn [mstart]. repeat split; lia.
  - exists (S a), 0%nat. apply lasts_len in L as [_ ->]. assert (k = 11)%nat as -> by lia. pose proof (mstart_year y) as Y. cbn [mstart ystart] in *.
    rewrite <- E1. replace (1 + Z.of_nat 11) with 12 in Y by reflexivity. repeat split; lia.
Qed.

Lemma reaches_months : forall y k, (k < 12)%nat -> forall d, reaches y 1 d -> reaches y (1 + Z.of_nat k) (d + mstart y k).
Proof.
  intros y k. induction k as [|k IH]; intros H d R; [cbn; now rewrite Z.add_0_r|].
  specialize (IH ltac:(lia) d R). cbn [mstart]. rewrite Z.add_assoc. replace (1 + Z.of_nat (S k)) with (1 + Z.of_nat k + 1) by lia.
  apply next_month; [exact IH| |lia]. apply len_lasts. lia.
Qed.

Lemma reaches_years : forall n, reaches (1970 + Z.of_nat n) 1 (ystart n).
Proof.
  induction n as [|n IH]; [apply at_first|]. pose proof (reaches_months _ 11 ltac:(lia) _ IH) as R. cbn [ystart].
  replace (1970 + Z.of_nat (S n)) with (1970 + Z.of_nat n + 1) by lia. rewrite <- mstart_year.
  change (1 + Z.of_nat 11) with 12 in R. set (y := 1970 + Z.of_nat n) in *.
  change (mstart y 12) with (mstart y 11 + month_len y 12). rewrite Z.add_assoc.
  apply (next_year y (month_len y 12)); [exact R|apply len_lasts; lia].
Qed.

Lemma year_of_spec : forall f n d, 0 <= d < 365 * Z.of_nat f -> exists m d', year_of f (1970 + Z.of_nat n) d = (1970 + Z.of_nat m, d') /\
  (n <= m)%nat /\ ystart n + d = ystart m + d' /\ 0 <= d' < year_len (1970 + Z.of_nat m).
Proof.
  induction f as [|f IH]; intros n d H; [lia|]. cbn [year_of]. destruct (Z.ltb_spec d (year_len (1970 + Z.of_nat n))) as [L|L].
  - exists n, d. repeat split; lia.
  - pose proof (year_len_pos (1970 + Z.of_nat n)) as P. destruct (IH (S n) (d - year_len (1970 + Z.of_nat n)) ltac:(lia)) as (m & d' & E & A & B & C).
    exists m, d'. replace (1970 + Z.of_nat n + 1) with (1970 + Z.of_nat (S n)) by lia. split; [exact E|]. cbn [ystart] in B. repeat split; lia.
Qed.

Lemma month_of_spec : forall f y k d, (f + k = 12)%nat -> 0 <= d -> mstart y k + d < mstart y 12 ->
  exists j d', month_of f y (1 + Z.of_nat k) d = (1 + Z.of_nat j, d') /\ (j < 12)%nat /\ mstart y k + d = mstart y j + d' /\ 0 <= d' < month_len y (1 + Z.of_nat j).
Proof.
  induction f as [|f IH]; intros y k d E P H.
  - assert (k = 12)%nat as -> by lia. lia.
  - cbn [month_of]. destruct (Z.ltb_spec d (month_len y (1 + Z.of_nat k))) as [L|L].
    + exists k, d. repeat split; lia.
    + destruct (IH y (S k) (d - month_len y (1 + Z.of_nat k)) ltac:(lia) ltac:(lia)) as (j & d' & F & A & B & C); [cbn [mstart] in *; lia|].
      exists j, d'. replace (1 + Z.of_nat k + 1) with (1 + Z.of_nat (S k)) by lia. split; [exact F|]. cbn [mstart] in B. repeat split; lia.
Qed.

(** ** Numerals *)
Lemma digits_app : forall a b, digits_val (a ++ b) = (digits_val a * 10 ^ N.of_nat (length b) + digits_val b)%N.
Proof.
  intros a b. induction b as [|c b IH] using rev_ind; [rewrite app_nil_r; cbn; lia|].
  rewrite app_assoc, !digits_val_snoc, IH, app_length. cbn [length]. rewrite Nat.add_1_r, Nat2N.inj_succ, N.pow_succ_r'. lia.
Qed.

Lemma digits_cons : forall c b, digits_val (c :: b) = (digit_val c * 10 ^ N.of_nat (length b) + digits_val b)%N.
Proof. intros c b. change (c :: b) with ([c] ++ b). rewrite digits_app. unfold digits_val at 1. cbn [fold_left]. lia. Qed.

Lemma digits_bound : forall a, forallb is_digit a = true -> (digits_val a < 10 ^ N.of_nat (length a))%N.
Proof.
  induction a as [|c a IH] using rev_ind; intros H; [reflexivity|]. rewrite forallb_app in H. apply andb_true_iff in H as [H1 H2]. cbn in H2.
  rewrite andb_true_r in H2. apply is_digit_code in H2. rewrite digits_val_snoc, app_length. cbn [length]. rewrite Nat.add_1_r, Nat2N.inj_succ, N.pow_succ_r'.
  unfold digit_val. specialize (IH H1). lia.
Qed.

Lemma digits_order : forall a b, length a = length b -> forallb is_digit a = true -> forallb is_digit b = true ->
  (digits_val a < digits_val b)%N -> before a b.
Proof.
  induction a as [|c a IH]; intros [|d b] L A B H; try discriminate L; [cbn in H; lia|]. cbn in A, B. apply andb_true_iff in A as [A1 A2]. apply andb_true_iff in B as [B1 B2].
  injection L as L. rewrite !digits_cons, L in H. pose proof (digits_bound a A2) as P. pose proof (digits_bound b B2) as Q. rewrite L in P.
  apply is_digit_code in A1, B1. unfold digit_val in H. destruct (N.lt_trichotomy (code c) (code d)) as [X|[X|X]].
  - now exists [], c, d, a, b.
  - assert (c = d) as <- by (rewrite <- (ascii_N_embedding c), <- (ascii_N_embedding d); unfold code in X; now rewrite X). destruct (IH b L A2 B2 ltac:(lia)) as (p & x & y & u & v & -> & -> & K). now exists (c :: p), x, y, u, v.
  - exfalso. set (k := (10 ^ N.of_nat (length b))%N) in *. nia.
Qed.

Lemma digits_same : forall a b, length a = length b -> forallb is_digit a = true -> forallb is_digit b = true -> digits_val a = digits_val b -> a = b.
Proof.
  induction a as [|c a IH]; intros [|d b] L A B H; try discriminate L; [reflexivity|]. cbn in A, B. apply andb_true_iff in A as [A1 A2]. apply andb_true_iff in B as [B1 B2].
  injection L as L. rewrite !digits_cons, L in H. pose proof (digits_bound a A2) as P. pose proof (digits_bound b B2) as Q. rewrite L in P.
  apply is_digit_code in A1, B1. unfold digit_val in H. set (k := (10 ^ N.of_nat (length b))%N) in *.
  assert (code c = code d) as X by nia. assert (c = d) as <- by (rewrite <- (ascii_N_embedding c), <- (ascii_N_embedding d); unfold code in X; now rewrite X). f_equal. apply IH; auto. lia.
Qed.

Lemma numeral_same : forall k a b n, numeral k a n -> numeral k b n -> a = b.
Proof. intros k a b n (A & B & C) (D & E & F). apply digits_same; auto; [congruence|]. apply N2Z.inj. congruence. Qed.

Lemma numeral_order : forall k a b n m, numeral k a n -> numeral k b m -> n < m -> before a b.
Proof. intros k a b n m (A & B & C) (D & E & F) L. apply digits_order; auto; [congruence|]. lia. Qed.

Lemma before_app : forall a b u v, before a b -> before (a ++ u) (b ++ v).
Proof.
  intros a b u v (p & c & d & x & y & -> & -> & L). exists p, c, d, (x ++ u), (y ++ v). rewrite <- !app_assoc. auto.
Qed.

Lemma before_pre : forall p a b, before a b -> before (p ++ a) (p ++ b).
Proof.
  intros q a b (p & c & d & x & y & -> & -> & L). exists (q ++ p), c, d, x, y. rewrite <- !app_assoc. auto.
Qed.

Definition numeralb (k : nat) (s : bstr) (n : Z) : bool := (Nat.eqb (length s) k && forallb is_digit s && (Z.of_N (digits_val s) =? n))%bool.

Lemma numeralb_ok : forall k s n, numeralb k s n = true -> numeral k s n.
Proof.
  intros k s n H. unfold numeralb in H. apply andb_true_iff in H as [H H3]. apply andb_true_iff in H as [H1 H2].
  split; [now apply Nat.eqb_eq|]. split; [exact H2|now apply Z.eqb_eq].
Qed.

Lemma table : forall (f : Z -> bstr) k lo cnt, forallb (fun i => numeralb k (f (lo + Z.of_nat i)) (lo + Z.of_nat i)) (seq 0 cnt) = true ->
  forall n, lo <= n < lo + Z.of_nat cnt -> numeral k (f n) n.
Proof.
  intros f k lo cnt H n N. apply numeralb_ok. rewrite forallb_forall in H. specialize (H (Z.to_nat (n - lo))).
  replace (lo + Z.of_nat (Z.to_nat (n - lo))) with n in H by lia. apply H. apply in_seq. lia.
Qed.

Lemma year_numeral : forall n, 1970 <= n < 2270 -> numeral 4 (print_Z n) n.
Proof. apply (table print_Z 4 1970 300). vm_compute. reflexivity. Qed.
Lemma two_numeral : forall n, 0 <= n < 100 -> numeral 2 (zeros 2 (print_Z n)) n.
Proof. apply (table (fun n => zeros 2 (print_Z n)) 2 0 100). vm_compute. reflexivity. Qed.
Lemma three_numeral : forall n, 0 <= n < 1000 -> numeral 3 (zeros 3 (print_Z n)) n.
Proof. apply (table (fun n => zeros 3 (print_Z n)) 3 0 1000). vm_compute. reflexivity. Qed.

(** ** The text is that of the moment *)
Definition moment_of (ns : Z) : moment :=
  let t := gmtime (Z.quot ns 1000000000) in
  {| mo_year := tm_year t; mo_month := tm_mon t; mo_day := tm_mday t; mo_hour := tm_hour t; mo_min := tm_min t; mo_sec := tm_sec t;
     mo_ms := Z.rem (Z.quot ns 1000000) 1000 |}.

Lemma ystart_293 : ystart 293 = 107016.
Proof. vm_compute. reflexivity. Qed.

Lemma gmtime_spec : forall t, 0 <= t < 9223372037 -> exists n k d,
  gmtime t = {| tm_year := 1970 + Z.of_nat n; tm_mon := 1 + Z.of_nat k; tm_mday := d + 1; tm_hour := t mod 86400 / 3600;
                tm_min := t mod 86400 / 60 mod 60; tm_sec := t mod 86400 mod 60 |} /\
  (n < 293)%nat /\ (k < 12)%nat /\ 0 <= d < month_len (1970 + Z.of_nat n) (1 + Z.of_nat k) /\
  t / 86400 = ystart n + mstart (1970 + Z.of_nat n) k + d.
Proof.
  intros t H. unfold gmtime. cbv zeta. set (day := t / 86400).
  assert (0 <= day < 107000) as D. { unfold day. split; [apply Z.div_pos; lia|]. apply Z.div_lt_upper_bound; lia. }
  destruct (year_of_spec (S (Z.to_nat (day / 365))) 0 day) as (n & yd & E & _ & B & C).
  { pose proof (Z.div_mod day 365 ltac:(lia)). pose proof (Z.mod_pos_bound day 365 ltac:(lia)). pose proof (Z.div_pos day 365 ltac:(lia) ltac:(lia)). lia. }
  change (1970 + Z.of_nat 0) with 1970 in E. rewrite E. cbn [ystart] in B.
  destruct (month_of_spec 12 (1970 + Z.of_nat n) 0 yd eq_refl ltac:(lia)) as (k & d & F & K & M & L); [rewrite mstart_year; cbn [mstart]; lia|].
  change (1 + Z.of_nat 0) with 1 in F. rewrite F. exists n, k, d. split; [reflexivity|]. cbn [mstart] in M.
  refine (conj _ (conj K (conj L _))); [|lia].
  destruct (Nat.lt_ge_cases n 293) as [X|X]; [exact X|]. apply ystart_mono in X. rewrite ystart_293 in X. lia.
Qed.

Lemma quot_div : forall ns k, 0 <= ns -> 0 < k -> Z.quot ns k = ns / k.
Proof. intros. apply Z.quot_div_nonneg; lia. Qed.

Lemma moment_ok : forall ns, reading ns -> valid (moment_of ns) /\ written (utc_now ns) (moment_of ns) /\ instant (moment_of ns) (ns / 1000000).
Proof.
  intros ns R. unfold reading in R. change (2 ^ 63) with 9223372036854775808 in R. unfold moment_of, utc_now. cbv zeta.
  rewrite !quot_div by lia. set (t := ns / 1000000000). set (ms := ns / 1000000).
  assert (0 <= t < 9223372037) as T. { unfold t. split; [apply Z.div_pos; lia|]. apply Z.div_lt_upper_bound; lia. }
  assert (0 <= ms) as M0 by (apply Z.div_pos; lia). rewrite Z.rem_mod_nonneg by lia.
  assert (t = ms / 1000) as TM. { unfold t, ms. rewrite Z.div_div by lia. reflexivity. }
  destruct (gmtime_spec t T) as (n & k & d & -> & N & K & D & E). cbn [tm_year tm_mon tm_mday tm_hour tm_min tm_sec].
  pose proof (Z.mod_pos_bound ms 1000 ltac:(lia)) as MS. set (s := t mod 86400).
  pose proof (Z.mod_pos_bound t 86400 ltac:(lia)) as S. fold s in S.
  assert (0 <= s / 3600 < 24) as HH by (split; [apply Z.div_pos; lia|apply Z.div_lt_upper_bound; lia]).
  pose proof (Z.mod_pos_bound (s / 60) 60 ltac:(lia)) as MM. pose proof (Z.mod_pos_bound s 60 ltac:(lia)) as SS.
  pose proof (month_len_pos (1970 + Z.of_nat n) (1 + Z.of_nat k)) as ML.
  refine (conj _ (conj _ _)).
  - unfold valid. cbn [mo_year mo_month mo_day mo_hour mo_min mo_sec mo_ms].
    refine (conj _ (conj _ (conj _ (conj HH (conj MM (conj SS MS)))))); [lia|lia|]. exists (month_len (1970 + Z.of_nat n) (1 + Z.of_nat k)). split; [apply len_lasts; lia|lia].
  - unfold date_text. cbn [tm_year tm_mon tm_mday tm_hour tm_min tm_sec]. rewrite <- !app_assoc. unfold written. cbn [mo_year mo_month mo_day mo_hour mo_min mo_sec mo_ms].
    do 7 eexists. split; [reflexivity|].
    refine (conj (year_numeral _ _) (conj (two_numeral _ _) (conj (two_numeral _ _) (conj (two_numeral _ _) (conj (two_numeral _ _) (conj (two_numeral _ _) (three_numeral _ _)))))));
      lia.
  - exists (ystart n + mstart (1970 + Z.of_nat n) k). cbn [mo_year mo_month mo_day mo_hour mo_min mo_sec mo_ms].
    split; [apply reaches_months; [exact K|apply reaches_years]|].
    pose proof (Z.div_mod ms 1000 ltac:(lia)) as A1. rewrite <- TM in A1. pose proof (Z.div_mod t 86400 ltac:(lia)) as A2. fold s in A2.
    pose proof (Z.div_mod s 60 ltac:(lia)) as A3. pose proof (Z.div_mod (s / 60) 60 ltac:(lia)) as A4. rewrite Z.div_div in A4 by lia. change (60 * 60) with 3600 in A4. lia.
Qed.

(** ** Order *)
Lemma valid_days : forall d ms, valid d -> instant d ms -> exists n k, mo_year d = 1970 + Z.of_nat n /\ mo_month d = 1 + Z.of_nat k /\ (k < 12)%nat /\
  1 <= mo_day d <= month_len (mo_year d) (mo_month d) /\
  ms = ((((ystart n + mstart (mo_year d) k + mo_day d - 1) * 24 + mo_hour d) * 60 + mo_min d) * 60 + mo_sec d) * 1000 + mo_ms d /\
  ystart n + mstart (mo_year d) k + mo_day d - 1 < ystart n + mstart (mo_year d) (S k) /\ ystart n + mstart (mo_year d) (S k) <= ystart (S n).
Proof.
  intros d ms (_ & _ & (l & L & DD) & _) (days & R & E). destruct (reaches_is _ _ _ R) as (n & k & A & B & C & D). exists n, k.
  apply lasts_len in L as [_ L]. subst l. refine (conj A (conj B (conj C (conj DD _)))).
  assert (mstart (mo_year d) (S k) = mstart (mo_year d) k + month_len (mo_year d) (mo_month d)) as M1 by (cbn [mstart]; now rewrite B).
  assert (ystart (S n) = ystart n + mstart (mo_year d) 12) as M2 by (rewrite mstart_year; cbn [ystart]; now rewrite <- A).
  pose proof (mstart_mono (mo_year d) (S k) 12 ltac:(lia)) as M. rewrite M2. rewrite D in E. refine (conj E (conj _ _)); lia.
Qed.

Definition earlier (a b : moment) : Prop :=
  mo_year a < mo_year b \/ (mo_year a = mo_year b /\ (mo_month a < mo_month b \/ (mo_month a = mo_month b /\
  (mo_day a < mo_day b \/ (mo_day a = mo_day b /\ (mo_hour a < mo_hour b \/ (mo_hour a = mo_hour b /\
  (mo_min a < mo_min b \/ (mo_min a = mo_min b /\ (mo_sec a < mo_sec b \/ (mo_sec a = mo_sec b /\ mo_ms a < mo_ms b))))))))))).

Lemma instant_earlier : forall a b s t, valid a -> valid b -> instant a s -> instant b t -> s < t -> earlier a b.
Proof.
  intros a b s t VA VB IA IB L. destruct (valid_days a s VA IA) as (n & k & A1 & A2 & A3 & A4 & A5 & A6 & A7).
  destruct (valid_days b t VB IB) as (m & j & B1 & B2 & B3 & B4 & B5 & B6 & B7).
  destruct VA as (_ & _ & _ & VA1 & VA2 & VA3 & VA4). destruct VB as (_ & _ & _ & VB1 & VB2 & VB3 & VB4).
  set (da := ystart n + mstart (mo_year a) k + mo_day a - 1) in *. set (db := ystart m + mstart (mo_year b) j + mo_day b - 1) in *.
  assert (da <= db) as D by lia. unfold earlier.
  destruct (Nat.lt_trichotomy n m) as [X|[X|X]]; [left; lia| |].
  2:{ exfalso. pose proof (ystart_mono (S m) n X). pose proof (mstart_mono (mo_year a) 0 k ltac:(lia)) as P. cbn [mstart] in P. unfold da in *. lia. }
  right. split; [lia|]. subst m. assert (mo_year b = mo_year a) as Y by lia. unfold db in *. rewrite Y in *.
  destruct (Nat.lt_trichotomy k j) as [X|[X|X]]; [left; lia| |].
  2:{ exfalso. pose proof (mstart_mono (mo_year a) (S j) k X). unfold da in *. lia. }
  right. split; [lia|]. subst j. unfold da in *. lia.
Qed.

Lemma field : forall k a b n m u v, numeral k a n -> numeral k b m -> n < m \/ (n = m /\ before u v) -> before (a ++ u) (b ++ v).
Proof.
  intros k a b n m u v A B [L|[<- L]]; [apply before_app; now apply (numeral_order k a b n m)|]. rewrite (numeral_same k a b n A B). now apply before_pre.
Qed.

Lemma written_order : forall x y a b, written x a -> written y b -> earlier a b -> before x y.
Proof.
  intros x y a b (y1 & m1 & d1 & h1 & i1 & s1 & z1 & -> & A1 & A2 & A3 & A4 & A5 & A6 & A7)
    (y2 & m2 & d2 & h2 & i2 & s2 & z2 & -> & B1 & B2 & B3 & B4 & B5 & B6 & B7) E.
  apply (field 4 _ _ _ _ _ _ A1 B1). destruct E as [E|[E1 E]]; [now left|right; split; [exact E1|]]. apply before_pre.
  apply (field 2 _ _ _ _ _ _ A2 B2). destruct E as [E|[E2 E]]; [now left|right; split; [exact E2|]]. apply before_pre.
  apply (field 2 _ _ _ _ _ _ A3 B3). destruct E as [E|[E3 E]]; [now left|right; split; [exact E3|]]. apply before_pre.
  apply (field 2 _ _ _ _ _ _ A4 B4). destruct E as [E|[E4 E]]; [now left|right; split; [exact E4|]]. apply before_pre.
  apply (field 2 _ _ _ _ _ _ A5 B5). destruct E as [E|[E5 E]]; [now left|right; split; [exact E5|]]. apply before_pre.
  apply (field 2 _ _ _ _ _ _ A6 B6). destruct E as [E|[E6 E]]; [now left|right; split; [exact E6|]]. apply before_pre.
  apply before_app. now apply (numeral_order 3 z1 z2 (mo_ms a) (mo_ms b)).
Qed.

Lemma now_order : forall s t, reading s -> reading t -> s / 1000000 < t / 1000000 -> before (utc_now s) (utc_now t).
Proof.
  intros s t S T L. destruct (moment_ok s S) as (A & B & C). destruct (moment_ok t T) as (D & E & F).
  apply (written_order _ _ _ _ B E). exact (instant_earlier _ _ _ _ A D C F L).
Qed.

Lemma now_same : forall s t, reading s -> reading t -> s / 1000000 = t / 1000000 -> utc_now s = utc_now t.
Proof.
  intros s t S T E. unfold reading in *. unfold utc_now. cbv zeta. rewrite !quot_div by lia. rewrite E.
  assert (forall x, x / 1000000000 = x / 1000000 / 1000) as D by (intros x; rewrite Z.div_div by lia; reflexivity). now rewrite !D, E.
Qed.

Lemma before_irrefl : forall a, ~ before a a.
Proof.
  intros a (p & c & d & u & v & A & B & L). rewrite A in B. apply app_inv_head in B. injection B as <- _. lia.
Qed.

Lemma before_asym : forall a b, before a b -> ~ before b a.
Proof.
  intros a b (p & c & d & u & v & -> & -> & L) (q & x & y & w & z & A & B & M). revert q A B. induction p as [|e p IH]; intros [|f q] A B; cbn in A, B.
  - injection A as A1 _. injection B as B1 _. subst. lia.
  - injection A as A1 _. injection B as B1 _. subst. lia.
  - injection A as A1 _. injection B as B1 _. subst. lia.
  - injection A as A1 A2. injection B as B1 B2. now apply (IH q).
Qed.

(** Reading it back. *)
Lemma written_one : forall x a b, written x a -> written x b -> a = b.
Proof.
  assert (forall k a b n m u v, numeral k a n -> numeral k b m -> a ++ u = b ++ v -> n = m /\ u = v) as F.
  { intros k a b n m u v (A & _ & B) (C & _ & D) E. assert (a = b) as <-.
    { apply (f_equal (firstn k)) in E. rewrite !firstn_app, A, C, !Nat.sub_diag, !firstn_O, !app_nil_r, <- A, firstn_all in E. rewrite A in E at 1.
      rewrite <- C, firstn_all in E. exact E. }
    split; [congruence|]. now apply app_inv_head in E. }
  intros x a b (y1 & m1 & d1 & h1 & i1 & s1 & z1 & -> & A1 & A2 & A3 & A4 & A5 & A6 & A7)
    (y2 & m2 & d2 & h2 & i2 & s2 & z2 & E & B1 & B2 & B3 & B4 & B5 & B6 & B7).
  destruct (F _ _ _ _ _ _ _ A1 B1 E) as [E1 G1]. apply app_inv_head in G1.
  destruct (F _ _ _ _ _ _ _ A2 B2 G1) as [E2 G2]. apply app_inv_head in G2.
  destruct (F _ _ _ _ _ _ _ A3 B3 G2) as [E3 G3]. apply app_inv_head in G3.
  destruct (F _ _ _ _ _ _ _ A4 B4 G3) as [E4 G4]. apply app_inv_head in G4.
  destruct (F _ _ _ _ _ _ _ A5 B5 G4) as [E5 G5]. apply app_inv_head in G5.
  destruct (F _ _ _ _ _ _ _ A6 B6 G5) as [E6 G6]. apply app_inv_head in G6.
  destruct (F _ _ _ _ _ _ _ A7 B7 G6) as [E7 _]. destruct a, b. cbn in *. now subst.
Qed.

Lemma read_back : forall ns d, reading ns -> written (utc_now ns) d -> valid d /\ instant d (ns / 1000000).
Proof.
  intros ns d R W. destruct (moment_ok ns R) as (A & B & C). now rewrite (written_one _ _ _ W B).
Qed.

(** ** Tasks *)
Lemma now_not_after : forall s t, reading s -> reading t -> s <= t -> not_after (utc_now s) (utc_now t).
Proof.
  intros s t S T L. pose proof (Z.div_le_mono s t 1000000 ltac:(lia) L) as D. apply Z.le_lteq in D as [D|D]; [right; now apply now_order|left; now apply now_same].
Qed.

(** Everything the store knows was stamped by lo; ids in order of creation. *)
Record tinv (lo : Z) (s : tstore) : Prop := {
  t_created : forall t k, In (t, k) (ts_created s) -> exists c, reading c /\ c <= lo /\ tk_created t = utc_now c;
  t_sorted : forall p x q y r, ts_created s = p ++ x :: q ++ y :: r -> not_after (tk_created (fst x)) (tk_created (fst y));
  t_recs : forall i r, In (i, r) (ts_recs s) -> not_after (tk_created (tr_task r)) (tk_updated (tr_task r)) /\
    exists t k, In (t, k) (ts_created s) /\ tk_created (tr_task r) = tk_created t
}.

Lemma split_snoc : forall A (l : list A) z p x q y r, l ++ [z] = p ++ x :: q ++ y :: r ->
  (exists r', l = p ++ x :: q ++ y :: r') \/ (In x l /\ y = z).
Proof.
  intros A l z p x q y r E. destruct r as [|w r _] using rev_ind.
  - right. replace (p ++ x :: q ++ [y]) with ((p ++ x :: q) ++ [y]) in E by now rewrite <- app_assoc. apply app_inj_tail in E as [-> ->].
    split; [|reflexivity]. apply in_or_app. right. now left.
  - left. replace (p ++ x :: q ++ y :: r ++ [w]) with ((p ++ x :: q ++ y :: r) ++ [w]) in E by (rewrite <- app_assoc; cbn; now rewrite <- app_assoc).
    apply app_inj_tail in E as [-> _]. now exists r.
Qed.

Lemma in_aset_one : forall A k (v : A) m i r, In (i, r) (aset k v m) -> (i = k /\ r = v) \/ In (i, r) m.
Proof.
  intros A k v m i r. induction m as [|(j & w) m IH]; cbn [aset]; [intros [H|[]]; injection H as <- <-; now left|].
  destruct (beq k j); intros [H|H]; try (injection H as <- <-; now left); try (right; now right); [right; now left|].
  destruct (IH H) as [K|K]; [now left|right; now right].
Qed.

Lemma tinv_create : forall lo s k ttl c, lo <= c -> reading c -> tinv lo s -> tinv c (ts_create k ttl (utc_now c) s).
Proof.
  intros lo s k ttl c L R [I1 I2 I3]. constructor; cbn.
  - intros t kk H. apply in_app_or in H as [H|[H|[]]].
    + destruct (I1 t kk H) as (b & B1 & B2 & B3). exists b. repeat split; [apply B1|apply B1|lia|exact B3].
    + injection H as <- _. exists c. repeat split; [apply R|apply R|lia].
  - intros p x q y r E. apply split_snoc in E as [(r' & E)|[E ->]]; [now apply (I2 p x q y r')|]. cbn. destruct x as (t & kk).
    destruct (I1 t kk E) as (b & B1 & B2 & B3). cbn. rewrite B3. apply now_not_after; auto. lia.
  - intros i r H. apply in_aset_one in H as [[-> ->]|H].
    + cbn. split; [now left|]. eexists _, _. split; [apply in_or_app; right; now left|reflexivity].
    + destruct (I3 i r H) as (A & t & kk & B & C). split; [exact A|]. exists t, kk. split; [apply in_or_app; now left|exact C].
Qed.

Lemma tinv_later : forall lo c s, lo <= c -> tinv lo s -> tinv c s.
Proof.
  intros lo c s L [I1 I2 I3]. constructor; auto. intros t k H. destruct (I1 t k H) as (b & B1 & B2 & B3). exists b. repeat split; [apply B1|apply B1|lia|exact B3].
Qed.

Lemma tinv_end : forall lo s a c, lo <= c -> reading c -> at_now a = utc_now c -> tinv lo s -> tinv c (snd (ts_terminal a s)).
Proof.
  intros lo s a c L R E I. apply (tinv_later lo c s L) in I. destruct I as [I1 I2 I3]. unfold ts_terminal.
  destruct (aget (at_id a) (ts_recs s)) as [r|] eqn:G; [|constructor; auto].
  destruct (_ || _)%bool; [constructor; auto|]. constructor; auto. cbn. apply aget_in in G. destruct (I3 _ _ G) as (A & t & kk & B & C).
  intros i x H. apply in_aset_one in H as [[-> ->]|H]; [|now apply (I3 i x)]. cbn. rewrite E. split.
  - rewrite C. destruct (I1 t kk B) as (b & B1 & B2 & ->). now apply now_not_after.
  - exists t, kk. auto.
Qed.

Lemma set_stop_task : forall i j r m, In (j, r) (set_stop i m) -> exists r', In (j, r') m /\ tr_task r = tr_task r'.
Proof.
  intros i j r m H. unfold set_stop in H. destruct (aget i m) as [x|] eqn:E; [|now exists r]. apply in_aset_one in H as [[-> ->]|H]; [|now exists r].
  exists x. split; [now apply aget_in|reflexivity].
Qed.

Lemma timed_inv : forall vs lo s, timed lo vs -> tinv lo s -> exists hi, tinv hi (ts_run s vs).
Proof.
  induction vs as [|v vs IH]; intros lo s T I; [now exists lo|]. cbn [ts_run fold_left]. fold (ts_run (ts_step s v) vs).
  inversion T; subst.
  - apply (IH t); auto. now apply (tinv_create lo).
  - apply (IH t); auto. now apply (tinv_end lo).
  - apply (IH lo); auto. cbn. destruct (take_nth n (ts_emit s)) as [(x & rest)|]; [|exact I]. destruct I as [I1 I2 I3]. constructor; auto. cbn.
    destruct (fst x); [|exact I3]. intros i r H. destruct (set_stop_task _ _ _ _ H) as (r' & A & ->). now apply (I3 i r').
  - apply (IH lo); auto. cbn. destruct (aget i (ts_recs s)); destruct I as [I1 I2 I3]; constructor; auto.
  - apply (IH lo); auto. cbn. destruct (take_nth n (ts_waiting s)) as [(x & rest)|]; [|exact I].
    destruct (aget x (ts_recs s)) as [r|]; [|exact I]. destruct (tr_payload r); [|exact I]. destruct I as [I1 I2 I3]; constructor; auto.
Qed.

Lemma tinv0 : forall lo, tinv lo tstore0.
Proof. intros lo. constructor; cbn; try contradiction. intros [|z p] x q y r E; discriminate. Qed.

Lemma updated_after : forall vs i t, timed 0 vs -> ts_get i (ts_run tstore0 vs) = Some t -> not_after (tk_created t) (tk_updated t).
Proof.
  intros vs i t T G. destruct (timed_inv vs 0 _ T (tinv0 0)) as (hi & I). unfold ts_get in G.
  destruct (aget i (ts_recs (ts_run tstore0 vs))) as [r|] eqn:E; [|discriminate]. injection G as <-. apply aget_in in E. now apply (t_recs _ _ I i r).
Qed.

Lemma created_task : forall vs i t, few vs -> ts_get i (ts_run tstore0 vs) = Some t ->
  exists c k, In (c, k) (ts_created (ts_run tstore0 vs)) /\ tk_id c = i /\ tk_created c = tk_created t.
Proof.
  intros vs i t F G. pose proof (sinv_run vs F) as I. unfold ts_get in G.
  destruct (aget i (ts_recs (ts_run tstore0 vs))) as [r|] eqn:E; [|discriminate]. injection G as <-. apply aget_in in E.
  destruct (si_rec _ _ I _ _ E) as (c & A & B & _ & C). exists c, (tr_kind r). split; [exact A|]. split; [exact B|].
  destruct (tr_payload r); [destruct C as (a & _ & _ & _ & _ & ->); reflexivity|destruct C as [-> _]; reflexivity].
Qed.

Lemma listed_in_order : forall vs p i q j r ti tj, few vs -> timed 0 vs -> ids (ts_run tstore0 vs) = p ++ i :: q ++ j :: r ->
  ts_get i (ts_run tstore0 vs) = Some ti -> ts_get j (ts_run tstore0 vs) = Some tj -> not_after (tk_created ti) (tk_created tj).
Proof.
  intros vs p i q j r ti tj F T E GI GJ. destruct (timed_inv vs 0 _ T (tinv0 0)) as (hi & I). set (s := ts_run tstore0 vs) in *.
  destruct (created_task vs i ti F GI) as (ci & ki & A1 & A2 & A3). destruct (created_task vs j tj F GJ) as (cj & kj & B1 & B2 & B3). fold s in A1, B1.
  rewrite <- A3, <- B3. pose proof (proj1 (ids_unique vs F)) as ND. fold s in ND.
  unfold ids in E. apply map_eq_app in E as (p' & z & E1 & _ & E2). apply map_eq_cons in E2 as (x & w & -> & X & E2).
  apply map_eq_app in E2 as (q' & v & -> & _ & E2). apply map_eq_cons in E2 as (y & u & -> & Y & _).
  pose proof (sinv_run vs F) as SI. fold s in SI.
  assert (x = (ci, ki)) as -> by (apply (created_unique _ s _ _ SI); auto; [rewrite E1; apply in_or_app; right; now left|cbn; congruence]).
  assert (y = (cj, kj)) as ->.
  { apply (created_unique _ s _ _ SI); auto; [|cbn; congruence]. rewrite E1. apply in_or_app. right. right. apply in_or_app. right. now left. }
  exact (t_sorted _ _ I p' (ci, ki) q' (cj, kj) u E1).
Qed.
