From Coq Require Import Ascii String List Permutation Arith NArith ZArith Bool Lia ZifyBool ZifyNat ZifyN.
From Verif Require Import StrModel StrProofs DoubleModel JsonModel JsonSpec JsonProofs ObjSpec ObjProofs MapModel RpcModel TaskModel TaskSpec TaskProofs DescModel DescSpec DescProofs RegModel RegSpec RegProofs ValModel CacheModel CacheSpec.
Import ListNotations.
Local Open Scope nat_scope.

Lemma kind_eqb_iff a b : kind_eqb a b = true <-> a = b.
Proof. destruct a, b; cbn; split; congruence. Qed.

Lemma lrun_snoc s h a : lrun s (h ++ [a]) = lstep (lrun s h) a.
Proof. unfold lrun. now rewrite fold_left_app. Qed.
Lemma lrun_app s h g : lrun s (h ++ g) = lrun (lrun s h) g.
Proof. unfold lrun. now rewrite fold_left_app. Qed.

Lemma begins_app a b : begins (a ++ b) = begins a + begins b.
Proof. unfold begins. now rewrite filter_app, app_length. Qed.
Lemma elapsed_app a b : elapsed (a ++ b) = (elapsed a + elapsed b)%Z.
Proof. unfold elapsed. rewrite map_app, fold_right_app. induction a as [|x a IH]; cbn; [lia|]. cbn in IH. rewrite IH. lia. Qed.
Lemma elapsed_nonneg a : (0 <= elapsed a)%Z.
Proof. induction a as [|x a IH]; cbn; [lia|]. unfold elapsed in IH. destruct x; lia. Qed.
Lemma ttl_snoc h a : ttl_now (h ++ [a]) = match a with LTtl (Some n) => if N.eqb n 0 then None else Some n | LTtl None => None | _ => ttl_now h end.
Proof. unfold ttl_now. rewrite rev_app_distr. destruct a; reflexivity. Qed.

(** Looking calls up. *)
Lemma find_in t l c : find_lcall t l = Some c -> In (t, c) l.
Proof.
  induction l as [|[n d] l IH]; cbn; [discriminate|]. destruct (Nat.eqb_spec t n) as [->|N]; intros H.
  - injection H as ->. now left.
  - right. auto.
Qed.
Lemma in_drop t n c l : In (n, c) (drop_lcall t l) <-> In (n, c) l /\ t <> n.
Proof. unfold drop_lcall. rewrite filter_In. cbn. rewrite negb_true_iff, Nat.eqb_neq. tauto. Qed.

(** Clearing. *)
Lemma set_same k x f : set_slot k x f k = x.
Proof. unfold set_slot. now destruct k. Qed.
Lemma set_other k j x f : j <> k -> set_slot k x f j = f j.
Proof. intros N. unfold set_slot. destruct (kind_eqb j k) eqn:E; [apply kind_eqb_iff in E; contradiction|reflexivity]. Qed.
Lemma unset_set j k f : sl_set (unset k f j) = true -> j <> k /\ unset k f j = f j.
Proof.
  unfold unset, set_slot. destruct (kind_eqb j k) eqn:E; cbn; [discriminate|]. intros _. split; [|reflexivity].
  intros ->. destruct k; discriminate E.
Qed.
Lemma invalidate_set m f k : sl_set (invalidate m f k) = true -> ~ concerns m k /\ invalidate m f k = f k.
Proof.
  unfold invalidate.
  destruct (beq m (bs "notifications/tools/list_changed")) eqn:A; [apply beq_eq in A; subst m|apply beq_neq in A].
  { destruct k; cbn [unset set_slot kind_eqb sl_set]; intros H; (discriminate H || (split; [intro C; cbn [concerns] in C; discriminate C|reflexivity])). }
  destruct (beq m (bs "notifications/resources/list_changed")) eqn:B; [apply beq_eq in B; subst m|apply beq_neq in B].
  { destruct k; cbn [unset set_slot kind_eqb sl_set]; intros H; (discriminate H || (split; [intro C; cbn [concerns] in C; discriminate C|reflexivity])). }
  destruct (beq m (bs "notifications/prompts/list_changed")) eqn:C; [apply beq_eq in C; subst m|apply beq_neq in C].
  { destruct k; cbn [unset set_slot kind_eqb sl_set]; intros H; (discriminate H || (split; [intro C'; cbn [concerns] in C'; discriminate C'|reflexivity])). }
  intros _. split; [|reflexivity]. destruct k; cbn [concerns]; assumption.
Qed.

(** What the state says of the history. *)
Definition came (strict : bool) (h : list lact) (t : nat) (k : lkind) (l : list entry) : Prop :=
  exists r, In (LReply t r) h /\ list_reply strict k r = Got l.
Definition begun (h : list lact) (t : nat) (k : lkind) : Prop := exists a b, h = a ++ LBegin k :: b /\ begins a = t.
Lemma begun_lt h t k : begun h t k -> t < begins h.
Proof. intros (a & b & -> & E). rewrite begins_app. cbn. lia. Qed.
Lemma begun_snoc h t k x : begun h t k -> begun (h ++ [x]) t k.
Proof. intros (a & b & -> & E). exists a, (b ++ [x]). now rewrite <- app_assoc. Qed.
Lemma came_snoc strict h t k l x : came strict h t k l -> came strict (h ++ [x]) t k l.
Proof. intros (r & H & E). exists r. split; [apply in_or_app; now left|exact E]. Qed.

Definition stored (strict : bool) (now : Z) (h : list lact) (k : lkind) (x : slot) : Prop :=
  exists a t b, h = a ++ LStore t :: b /\ begun a t k /\ came strict a t k (sl_data x) /\ ~ In t (map fst (lc_out (lrun (lcache0 strict now) a))) /\
    ttl_now a <> None /\ sl_ts x = (now + elapsed a)%Z /\ (forall e, In e b -> ~ clears k e) /\
    In (t, Returned (sl_data x)) (lc_out (lrun (lcache0 strict now) h)).

Record linv (strict : bool) (now : Z) (h : list lact) (s : lcache) : Prop := {
  li_strict : lc_strict s = strict;
  li_ttl : lc_ttl s = ttl_now h;
  li_now : lc_now s = (now + elapsed h)%Z;
  li_next : lc_next s = begins h;
  li_out : forall t o, In (t, o) (lc_out s) -> t < begins h;
  li_calls : forall t c, In (t, c) (lc_calls s) -> begun h t (ca_kind c) /\ (forall l, ca_got c = Some l -> came strict h t (ca_kind c) l) /\
     ~ In t (map fst (lc_out s));
  li_slot : forall k, sl_set (lc_slot s k) = true -> stored strict now h k (lc_slot s k)
}.

Lemma out_mono s a e : In e (lc_out s) -> In e (lc_out (lstep s a)).
Proof.
  intros H. destruct a as [d|[[|n]|]|m|k|t r|t]; cbn [lstep set_ttl with_ttl with_slots lc_out]; try exact H.
  - unfold begin_list. destruct (cache_hit k s); cbn [lc_out]; [apply in_or_app; now left|exact H].
  - destruct (find_lcall t (lc_calls s)) as [[k [l|]]|]; try exact H. destruct (list_reply _ k r); cbn [lwith_calls lc_out]; [exact H|apply in_or_app; now left].
  - destruct (find_lcall t (lc_calls s)) as [[k [l|]]|]; try exact H. cbv zeta. destruct (enabled _); cbn [with_slots lwith_calls lc_out]; (apply in_or_app; now left).
Qed.
Lemma out_mono_run s h e : In e (lc_out s) -> In e (lc_out (lrun s h)).
Proof. revert s. induction h as [|a h IH]; intros s H; cbn; [exact H|]. apply IH, out_mono, H. Qed.

Lemma stored_snoc strict now h k x a : stored strict now h k x -> ~ clears k a -> stored strict now (h ++ [a]) k x.
Proof.
  intros (p & t & b & -> & B & C & O & T & S' & N & R) K. exists p, t, (b ++ [a]). split; [now rewrite <- app_assoc|].
  do 5 (split; [assumption|]). split; [intros e H; apply in_app_or in H as [H|[<-|[]]]; auto|].
  rewrite lrun_snoc. apply out_mono, R.
Qed.

Lemma linv0 strict now : linv strict now [] (lcache0 strict now).
Proof. constructor; cbn; try reflexivity; try (intros; contradiction); [lia|discriminate]. Qed.

Lemma enabled_ttl s : enabled s <> None -> lc_ttl s <> None.
Proof. unfold enabled. destruct (lc_ttl s); congruence. Qed.

Lemma linv_step strict now h a s : s = lrun (lcache0 strict now) h -> linv strict now h s -> linv strict now (h ++ [a]) (lstep s a).
Proof.
  intros Es [I1 I2 I3 I4 I5 I6 I7].
  assert (BB : begins (h ++ [a]) = begins h + match a with LBegin _ => 1 | _ => 0 end) by (rewrite begins_app; destruct a; reflexivity).
  assert (EE : elapsed (h ++ [a]) = (elapsed h + match a with LTime d => Z.of_N d | _ => 0 end)%Z) by (rewrite elapsed_app; destruct a; cbn; lia).
  assert (J6 : forall t c, In (t, c) (lc_calls s) -> begun (h ++ [a]) t (ca_kind c) /\ (forall l, ca_got c = Some l -> came strict (h ++ [a]) t (ca_kind c) l) /\
     ~ In t (map fst (lc_out s))).
  { intros t c H. destruct (I6 t c H) as (A & B & C). split; [now apply begun_snoc|]. split; [|exact C]. intros l E. now apply came_snoc, B. }
  destruct a as [d|u|m|k|t r|t].
  - cbn [lstep]. constructor; cbn [lc_strict lc_ttl lc_now lc_next lc_out lc_calls lc_slot]; try rewrite BB, Nat.add_0_r; auto.
    + now rewrite ttl_snoc.
    + rewrite EE. lia.
    + intros k H. apply stored_snoc; [auto|intros []].
  - cbn [lstep].
    assert (X : lstep s (LTtl u) = with_ttl (match u with Some n => if N.eqb n 0 then None else Some n | None => None end)
       (match u with None | Some 0%N => unset KPrompts (unset KTemplates (unset KResources (unset KTools (lc_slot s)))) | Some _ => lc_slot s end) s).
    { destruct u as [[|p]|]; reflexivity. }
    cbn [lstep] in X. rewrite X. clear X.
    constructor; cbn [with_ttl lc_strict lc_ttl lc_now lc_next lc_out lc_calls lc_slot]; try rewrite BB, Nat.add_0_r; auto.
    + rewrite ttl_snoc. now destruct u.
    + rewrite EE. lia.
    + intros k H. destruct u as [[|p]|].
      * exfalso. destruct k; discriminate H.
      * apply stored_snoc; [auto|]. intros C. discriminate C.
      * exfalso. destruct k; discriminate H.
  - cbn [lstep]. constructor; cbn [with_slots lc_strict lc_ttl lc_now lc_next lc_out lc_calls lc_slot]; try rewrite BB, Nat.add_0_r; auto.
    + now rewrite ttl_snoc.
    + rewrite EE. lia.
    + intros k H. destruct (invalidate_set _ _ _ H) as [N E]. rewrite E in *. apply stored_snoc; [auto|exact N].
  - cbn [lstep]. unfold begin_list.
    assert (J7 : forall j, sl_set (lc_slot s j) = true -> stored strict now (h ++ [LBegin k]) j (lc_slot s j)) by (intros j H; apply stored_snoc; [auto|intros []]).
    destruct (cache_hit k s) as [l|]; constructor; cbn [lc_strict lc_ttl lc_now lc_next lc_out lc_calls lc_slot]; auto.
    + now rewrite ttl_snoc.
    + rewrite EE. lia.
    + rewrite BB. lia.
    + intros t o H. rewrite BB. apply in_app_or in H as [H|[[= <- <-]|[]]]; [specialize (I5 _ _ H); lia|lia].
    + intros t c H. destruct (J6 t c H) as (A & B & C). split; [exact A|]. split; [exact B|].
      rewrite map_app, in_app_iff. intros [Q|[<-|[]]]; [contradiction|]. cbn in *. destruct (I6 _ _ H) as (Q & _). apply begun_lt in Q. lia.
    + now rewrite ttl_snoc.
    + rewrite EE. lia.
    + rewrite BB. lia.
    + intros t o H. rewrite BB. specialize (I5 _ _ H). lia.
    + intros t c H. apply in_app_or in H as [H|[[= <- <-]|[]]]; [auto|]. cbn [ca_kind ca_got]. split; [exists h, []; auto|]. split; [discriminate|].
      rewrite in_map_iff. intros ([t' o] & E & H). cbn in E. subst t'. apply I5 in H. lia.
  - cbn [lstep].
    assert (J7 : forall j, sl_set (lc_slot s j) = true -> stored strict now (h ++ [LReply t r]) j (lc_slot s j)) by (intros j H; apply stored_snoc; [auto|intros []]).
    assert (Same : linv strict now (h ++ [LReply t r]) s).
    { constructor; try rewrite BB, Nat.add_0_r; auto; [now rewrite ttl_snoc|rewrite EE; lia]. }
    destruct (find_lcall t (lc_calls s)) as [[k [l|]]|] eqn:F; try exact Same. apply find_in in F. destruct (J6 _ _ F) as (A & _ & O). cbn [ca_kind] in A.
    rewrite I1. destruct (list_reply strict k r) as [l|] eqn:L; constructor; cbn [lwith_calls lc_strict lc_ttl lc_now lc_next lc_out lc_calls lc_slot]; try rewrite BB, Nat.add_0_r; auto.
    + now rewrite ttl_snoc.
    + rewrite EE. lia.
    + intros t' c H. apply in_app_or in H as [H|[[= <- <-]|[]]]; [apply in_drop in H as [H _]; auto|]. cbn [ca_kind ca_got]. split; [exact A|]. split; [|exact O].
      intros l' [= <-]. exists r. split; [apply in_or_app; right; now left|exact L].
    + now rewrite ttl_snoc.
    + rewrite EE. lia.
    + intros t' o H. apply in_app_or in H as [H|[[= <- <-]|[]]]; [now apply I5 in H|]. destruct (I6 _ _ F) as (Q & _). now apply begun_lt in Q.
    + intros t' c H. apply in_drop in H as [H N]. destruct (J6 _ _ H) as (P & Q & R). split; [exact P|]. split; [exact Q|].
      rewrite map_app, in_app_iff. intros [X|[X|[]]]; [contradiction|]. cbn in X. congruence.
  - cbn [lstep].
    assert (J7 : forall j, sl_set (lc_slot s j) = true -> stored strict now (h ++ [LStore t]) j (lc_slot s j)) by (intros j H; apply stored_snoc; [auto|intros []]).
    assert (Same : linv strict now (h ++ [LStore t]) s).
    { constructor; try rewrite BB, Nat.add_0_r; auto; [now rewrite ttl_snoc|rewrite EE; lia]. }
    destruct (find_lcall t (lc_calls s)) as [[k [l|]]|] eqn:F0; try exact Same. pose proof (find_in _ _ _ F0) as F. destruct (I6 _ _ F) as (A & G & O). cbn [ca_kind ca_got] in *.
    cbv zeta. set (s1 := lwith_calls _ _ s).
    assert (S1 : linv strict now (h ++ [LStore t]) s1).
    { subst s1. constructor; cbn [lwith_calls lc_strict lc_ttl lc_now lc_next lc_out lc_calls lc_slot]; try rewrite BB, Nat.add_0_r; auto.
      + now rewrite ttl_snoc.
      + rewrite EE. lia.
      + intros t' o H. apply in_app_or in H as [H|[[= <- <-]|[]]]; [now apply I5 in H|]. now apply begun_lt in A.
      + intros t' c H. apply in_drop in H as [H N]. destruct (J6 _ _ H) as (P & Q & R). split; [exact P|]. split; [exact Q|].
        rewrite map_app, in_app_iff. intros [X|[X|[]]]; [contradiction|]. cbn in X. congruence. }
    destruct (enabled s1) eqn:En; [|exact S1]. destruct S1 as [S1 S2 S3 S4 S5 S6 S7].
    constructor; cbn [with_slots lc_strict lc_ttl lc_now lc_next lc_out lc_calls lc_slot]; auto.
    intros j. destruct (kind_eqb j k) eqn:Ej.
    + apply kind_eqb_iff in Ej. subst j. rewrite set_same. intros _. exists h, t, []. split; [reflexivity|]. split; [exact A|]. cbn [sl_data sl_ts].
      split; [apply G; reflexivity|]. split; [rewrite <- Es; exact O|]. split.
      { rewrite <- I2. apply (enabled_ttl s1). congruence. }
      split; [exact I3|]. split; [intros e []|]. rewrite lrun_snoc, <- Es. cbn [lstep]. rewrite F0. cbv zeta.
      destruct (enabled _); cbn [with_slots lwith_calls lc_out]; (apply in_or_app; right; now left).
    + rewrite set_other by (intros ->; destruct k; discriminate Ej). apply S7.
Qed.

Lemma linv_run strict now h : linv strict now h (lrun (lcache0 strict now) h).
Proof.
  induction h as [|a h IH] using rev_ind; [apply linv0|]. rewrite lrun_snoc. now apply linv_step.
Qed.

Lemma served_hit s k l : (forall t o, In (t, o) (lc_out s) -> t < lc_next s) -> served s k l <-> cache_hit k s = Some l.
Proof.
  intros I. unfold served. cbn [lstep]. unfold begin_list. destruct (cache_hit k s) as [l'|]; cbn [lc_out].
  - rewrite in_app_iff. split.
    + intros [H|[H|[]]]; [apply I in H; lia|]. now injection H as ->.
    + intros [= ->]. right. now left.
  - split; [intros H; apply I in H; lia|discriminate].
Qed.

Lemma hit_inv k s l : cache_hit k s = Some l -> exists n, lc_ttl s = Some n /\ (0 < n)%N /\ sl_set (lc_slot s k) = true /\ sl_data (lc_slot s k) = l /\
  (age_ms s (lc_slot s k) <= int64_of n)%Z.
Proof.
  unfold cache_hit, enabled. destruct (lc_ttl s) as [[|p]|]; try discriminate. destruct (sl_set (lc_slot s k)); cbn [andb]; [|discriminate].
  destruct (Z.leb_spec (age_ms s (lc_slot s k)) (int64_of (N.pos p))); [|discriminate]. intros [= <-]. exists (N.pos p). auto with arith. repeat split; lia.
Qed.

Lemma hit_served strict now h k l : served (lrun (lcache0 strict now) h) k l -> exists a t b r n,
  h = a ++ LStore t :: b /\ begun a t k /\ In (LReply t r) a /\ list_reply strict k r = Got l /\ ~ In t (map fst (lc_out (lrun (lcache0 strict now) a))) /\
  In (t, Returned l) (lc_out (lrun (lcache0 strict now) h)) /\
  (forall e, In e b -> ~ clears k e) /\ ttl_now a <> None /\ ttl_now h = Some n /\ (elapsed b < (Z.of_N n + 1) * 1000000)%Z.
Proof.
  intros H. pose proof (linv_run strict now h) as [I1 I2 I3 I4 I5 I6 I7]. apply served_hit in H; [|rewrite I4; exact I5].
  apply hit_inv in H as (n & T & P & S' & D & A). destruct (I7 _ S') as (a & t & b & -> & B & (r & Rin & Rg) & O & Ta & Ts & N & Out). rewrite D in *.
  exists a, t, b, r, n. do 5 (split; [assumption || reflexivity|]). split; [exact Out|]. split; [exact N|]. split; [exact Ta|]. split; [congruence|].
  unfold age_ms in A. rewrite I3, Ts, elapsed_app in A. replace (elapsed (LStore t :: b)) with (elapsed b) in A by reflexivity.
  replace (now + (elapsed a + elapsed b) - (now + elapsed a))%Z with (elapsed b) in A by lia.
  pose proof (elapsed_nonneg b). rewrite Z.quot_div_nonneg in A by (unfold MILLI; lia).
  assert (elapsed b / MILLI <= Z.of_N n)%Z by (unfold int64_of in A; destruct (N.ltb_spec n (2 ^ 63)); lia).
  unfold MILLI in *. pose proof (Z.mod_pos_bound (elapsed b) 1000000 ltac:(lia)). pose proof (Z.div_mod (elapsed b) 1000000 ltac:(lia)). nia.
Qed.

Lemma hit_fresh strict now h k l :
  (forall a m b t, h = a ++ LNotify m :: b -> concerns m k -> ~ unanswered (lcache0 strict now) a t k) ->
  served (lrun (lcache0 strict now) h) k l -> exists a c t b r,
  h = a ++ LBegin k :: c ++ LStore t :: b /\ begins a = t /\ In (LReply t r) h /\ list_reply strict k r = Got l /\
  (forall m, In (LNotify m) (c ++ LStore t :: b) -> ~ concerns m k).
Proof.
  intros Q H. apply hit_served in H as (a & t & b & r & n & -> & (a1 & a2 & -> & B) & Rin & Rg & O & _ & N & _).
  exists a1, a2, t, b, r. split; [now rewrite <- app_assoc|]. split; [exact B|]. split; [apply in_or_app; now left|]. split; [exact Rg|].
  intros m Hm C. apply in_app_or in Hm as [Hm|[Hm|Hm]]; [|discriminate Hm|exact (N _ Hm C)].
  apply in_split in Hm as (x & y & ->). apply (Q (a1 ++ LBegin k :: x) m (y ++ LStore t :: b) t).
  - now repeat (cbn [app]; rewrite <- ?app_assoc).
  - exact C.
  - split; [exists a1, x; auto|]. intros K. apply O. replace (a1 ++ LBegin k :: x ++ LNotify m :: y) with ((a1 ++ LBegin k :: x) ++ LNotify m :: y) by (now rewrite <- app_assoc).
    rewrite lrun_app. apply in_map_iff in K as (e & <- & K). apply in_map, out_mono_run, K.
Qed.

(** Replies. *)
Lemma got_result strict k r l : list_reply strict k r = Got l ->
  (exists v, is_result r v /\ l = read_list k v /\ (strict = true -> valid_list k v = true)) \/
  ((forall v, ~ is_result r v) /\ r <> RException /\ l = []).
Proof.
  unfold list_reply, is_result. destruct r as [[p|]|]; [|intros [= <-]; right|discriminate].
  - destruct (rs_error p) as [e|] eqn:E; [intros [= <-]; right|destruct (rs_result p) as [v|] eqn:V; [|intros [= <-]; right]].
    + split; [intros v (q & [= <-] & X & _); congruence|]. split; [discriminate|reflexivity].
    + destruct strict, (valid_list k v) eqn:W; cbn [andb negb]; intros H; try discriminate H; injection H as <-; left; exists v;
        (split; [exists p; auto|]; split; [reflexivity|auto; discriminate]).
    + split; [intros v (q & [= <-] & _ & X); congruence|]. split; [discriminate|reflexivity].
  - split; [intros v (q & X & _); discriminate X|]. split; [discriminate|reflexivity].
Qed.

(** Within the time to live, nothing having cleared it, the last stored list is served. *)
Lemma store_here s t k l n : find_lcall t (lc_calls s) = Some {| ca_kind := k; ca_got := Some l |} -> enabled s = Some n ->
  let s' := lstep s (LStore t) in sl_set (lc_slot s' k) = true /\ sl_data (lc_slot s' k) = l /\ sl_ts (lc_slot s' k) = lc_now s /\
  lc_ttl s' = lc_ttl s /\ lc_now s' = lc_now s.
Proof.
  intros F E. cbn [lstep]. rewrite F. cbv zeta. unfold enabled in *. cbn [lwith_calls lc_ttl]. rewrite E.
  cbn [with_slots lwith_calls lc_slot lc_ttl lc_now]. rewrite set_same. auto.
Qed.

(** Caching off: every call asks. *)
Lemma off_asks s k l : (forall t o, In (t, o) (lc_out s) -> t < lc_next s) -> lc_ttl s = None -> ~ served s k l.
Proof. intros I T H. apply served_hit in H; [|exact I]. unfold cache_hit, enabled in H. rewrite T in H. discriminate H. Qed.

(** A list stays in place while nothing clears or replaces it. *)
Lemma slot_stays strict now h a k : let s := lrun (lcache0 strict now) h in
  ~ clears k a -> (forall t, a = LStore t -> ~ begun h t k) -> lc_slot (lstep s a) k = lc_slot s k.
Proof.
  cbv zeta. pose proof (linv_run strict now h) as [_ _ _ _ _ I6 _]. revert I6. generalize (lrun (lcache0 strict now) h) as s. intros s I6 C B.
  destruct a as [d|[[|n]|]|m|j|t r|t]; cbn [lstep set_ttl with_ttl with_slots lc_slot]; try reflexivity; try (exfalso; apply C; reflexivity || exact I).
  - cbn [clears] in C. unfold invalidate.
    destruct (beq m (bs "notifications/tools/list_changed")) eqn:X; [apply beq_eq in X; subst m; destruct k; try reflexivity; exfalso; apply C; reflexivity|].
    destruct (beq m (bs "notifications/resources/list_changed")) eqn:Y; [apply beq_eq in Y; subst m; destruct k; try reflexivity; exfalso; apply C; reflexivity|].
    destruct (beq m (bs "notifications/prompts/list_changed")) eqn:Z'; [apply beq_eq in Z'; subst m; destruct k; try reflexivity; exfalso; apply C; reflexivity|reflexivity].
  - unfold begin_list. now destruct (cache_hit j s).
  - destruct (find_lcall t (lc_calls s)) as [[j [l|]]|]; try reflexivity. now destruct (list_reply _ j r).
  - destruct (find_lcall t (lc_calls s)) as [[j [l|]]|] eqn:F; try reflexivity. cbv zeta. destruct (enabled _); [|reflexivity].
    cbn [with_slots lwith_calls lc_slot]. apply set_other. intros ->. apply find_in in F. destruct (I6 _ _ F) as (Q & _). exact (B t eq_refl Q).
Qed.

Lemma begun_app h g t k : begun h t k -> begun (h ++ g) t k.
Proof. intros (a & b & -> & E). exists a, (b ++ g). now rewrite <- app_assoc. Qed.

Lemma slot_stays_run strict now h b k : (forall e, In e b -> ~ clears k e) -> (forall t, In (LStore t) b -> ~ begun (h ++ b) t k) ->
  lc_slot (lrun (lcache0 strict now) (h ++ b)) k = lc_slot (lrun (lcache0 strict now) h) k.
Proof.
  induction b as [|e b IH] using rev_ind; intros C B; [now rewrite app_nil_r|]. rewrite app_assoc, lrun_snoc, slot_stays.
  - apply IH; [intros x H; apply C, in_or_app; now left|]. intros t H Q. apply (B t); [apply in_or_app; now left|]. rewrite app_assoc. now apply begun_app.
  - apply C, in_or_app. right. now left.
  - intros t -> Q. apply (B t); [apply in_or_app; right; now left|]. rewrite app_assoc. now apply begun_app.
Qed.

Lemma begun_fun h t k k' : begun h t k -> begun h t k' -> k = k'.
Proof.
  intros (a & b & -> & E) (a' & b' & E' & F). revert a' E' F. subst t. induction a as [|x a IH]; intros [|x' a'] H F; cbn in *.
  - now injection H.
  - injection H as <- ->. discriminate F.
  - injection H as -> _. discriminate F.
  - injection H as <- H. apply (IH a' H). unfold begins in *. cbn in F. destruct x; cbn in F; lia.
Qed.

(** The calls that have resumed are told from their results. *)
Lemma store_returns s t l : (forall o, ~ In (t, o) (lc_out s)) -> In (t, Returned l) (lc_out (lstep s (LStore t))) ->
  exists k, find_lcall t (lc_calls s) = Some {| ca_kind := k; ca_got := Some l |}.
Proof.
  intros N H. cbn [lstep] in H. destruct (find_lcall t (lc_calls s)) as [[k [l'|]]|]; try (exfalso; exact (N _ H)).
  cbv zeta in H. exists k. assert (In (t, Returned l) (lc_out s ++ [(t, Returned l')])) as G by (destruct (enabled _); exact H).
  apply in_app_or in G as [G|[G|[]]]; [exfalso; exact (N _ G)|]. now injection G as ->.
Qed.

Lemma hit_kept strict now a t b k l n : let s0 := lcache0 strict now in let h := a ++ LStore t :: b in
  begun a t k -> ~ In t (map fst (lc_out (lrun s0 a))) -> In (t, Returned l) (lc_out (lrun s0 (a ++ [LStore t]))) ->
  (forall e, In e b -> ~ clears k e) -> (forall t', In (LStore t') b -> ~ begun h t' k) ->
  ttl_now a <> None -> ttl_now h = Some n -> (n < 2 ^ 63)%N -> (elapsed b < (Z.of_N n + 1) * 1000000)%Z -> served (lrun s0 h) k l.
Proof.
  intros s0 h B O R C K Ta Th Hn He.
  pose proof (linv_run strict now h) as [_ I2 I3 I4 I5 _ _]. apply served_hit; [fold s0; unfold s0; rewrite I4; exact I5|].
  pose proof (linv_run strict now a) as [_ J2 J3 J4 J5 J6 _].
  rewrite lrun_snoc in R. destruct (store_returns _ _ _ ltac:(intros o Q; apply O; exact (in_map fst _ _ Q)) R) as (k' & F).
  assert (k' = k) as ->. { pose proof (find_in _ _ _ F) as G. destruct (J6 _ _ G) as (G1 & _). exact (begun_fun _ _ _ _ G1 B). }
  assert (exists p, ttl_now a = Some p /\ p <> 0%N) as (p & Tp & Np).
  { destruct (ttl_now a) as [p|] eqn:E; [|congruence]. exists p. split; [reflexivity|]. clear -E. revert E. unfold ttl_now. generalize (rev a) as x. induction x as [|e x IH]; [discriminate|].
    cbn [ttl_last]. destruct e as [d|[q|]|m|j|u r|u]; auto; [|discriminate]. destruct (N.eqb_spec q 0); congruence. }
  assert (En : enabled (lrun s0 a) = Some p). { unfold enabled, s0. rewrite J2, Tp. destruct p; [congruence|reflexivity]. }
  destruct (store_here _ _ _ _ _ F En) as (H1 & H2 & H3 & _ & _).
  assert (X : lc_slot (lrun s0 h) k = lc_slot (lstep (lrun s0 a) (LStore t)) k).
  { rewrite <- lrun_snoc. unfold h. replace (a ++ LStore t :: b) with ((a ++ [LStore t]) ++ b) by (now rewrite <- app_assoc).
    apply slot_stays_run; [exact C|]. intros t' Hb. rewrite <- app_assoc. exact (K t' Hb). }
  assert (ttl_nz : n <> 0%N).
  { revert Th. unfold ttl_now. generalize (rev h) as x. induction x as [|e x IH]; [discriminate|].
    cbn [ttl_last]. destruct e as [d|[q|]|m|j|u r|u]; auto; [|discriminate]. destruct (N.eqb_spec q 0); congruence. }
  unfold cache_hit, enabled. fold s0 in I2, I3. rewrite I2, Th. destruct n as [|n]; [congruence|]. rewrite X, H1. cbn [andb].
  unfold age_ms. rewrite H3, I3. unfold s0. rewrite J3. unfold h. rewrite elapsed_app. replace (elapsed (LStore t :: b)) with (elapsed b) by reflexivity.
  replace (now + (elapsed a + elapsed b) - (now + elapsed a))%Z with (elapsed b) by lia. pose proof (elapsed_nonneg b).
  rewrite Z.quot_div_nonneg by (unfold MILLI; lia).
  assert (elapsed b / MILLI <= int64_of (N.pos n))%Z as W.
  { unfold int64_of. destruct (N.ltb_spec (N.pos n) (2 ^ 63)); [|lia]. unfold MILLI. pose proof (Z.div_lt_upper_bound (elapsed b) 1000000 (Z.of_N (N.pos n) + 1) ltac:(lia) ltac:(lia)). lia. }
  apply Z.leb_le in W. rewrite W. unfold s0 in H2. now rewrite H2.
Qed.

(** Reading the result of a listing. *)
Section Read.
Context {A : Type} (k : lkind) (js : A -> json) (parse : obj -> A) (wrap : A -> entry) (R : A -> A -> Prop) (l : list A).
Context (Hread : forall o, read_item k (JObj o) = [wrap (parse o)]).
Context (Hback : forall x v, same (js x) v -> exists o, v = JObj o /\ R x (parse o)).

Lemma read_items : forall xs ys, Forall2 same (map js xs) ys -> exists r, flat_map (read_item k) ys = map wrap r /\ Forall2 R xs r.
Proof.
  induction xs as [|x xs IH]; intros ys F; inversion F as [|a b r r' S F']; subst; [exists []; split; [reflexivity|constructor]|].
  destruct (Hback x b S) as (o & -> & Hr). destruct (IH _ F') as (q & E & G). exists (parse o :: q). cbn [flat_map map].
  rewrite Hread, E. split; [reflexivity|]. now constructor.
Qed.

Lemma read_listing : forall v, same (list_result (list_key k) js l None) v -> exists r, read_list k v = map wrap r /\ Forall2 R l r.
Proof.
  intros v H. assert (E : list_result (list_key k) js l None = JObj [(list_key k, JArr (map js l))]).
  { unfold list_result. cbn [paging]. assert (N.ltb (N.of_nat (length l)) 0 = false) as -> by lia. cbn [next_cursor opt_set N.to_nat skipn obj_set].
    do 4 f_equal. rewrite firstn_all2; [reflexivity|lia]. }
  rewrite E in H. destruct (same_obj_inv _ _ H) as (o1 & o' & -> & _).
  assert (N : NoDup (map fst [(list_key k, JArr (map js l))])) by (repeat constructor; intros []).
  assert (G : obj_get (list_key k) [(list_key k, JArr (map js l))] = Some (JArr (map js l))) by (cbn [obj_get]; now rewrite beq_refl).
  destruct (same_get_some _ _ _ _ N H G) as (v' & E' & S). unfold read_list. rewrite E'. inversion S as [| | | | |a b F|]; subst. now apply read_items.
Qed.
End Read.
