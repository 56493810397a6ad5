(** Histories of the HTTP server: queues, streams and pending requests. *)
From Coq Require Import Ascii String List Sorted Permutation Arith NArith ZArith Bool Lia.
From Verif Require Import StrModel StrProofs DoubleModel JsonModel RpcModel RouterModel MapModel MapProofs MemModel
  AuthModel WwwModel GuardModel HttpModel HttpSpec HttpProofs.
Import ListNotations.
Local Open Scope nat_scope.

(** What one step does to one session object. *)

Lemma put_session_nth : forall n s h m, n < length (hs_heap h) ->
  nth_error (hs_heap (put_session n s h)) m = if Nat.eqb m n then Some s else nth_error (hs_heap h) m.
Proof.
  intros n s h m L. cbn. destruct (Nat.eqb m n) eqn:E.
  - apply Nat.eqb_eq in E. subst m. now apply nth_set_same.
  - apply Nat.eqb_neq in E. now apply nth_set_other.
Qed.

Lemma put_stream_nth : forall n s h m, n < length (hs_streams h) ->
  nth_error (hs_streams (put_stream n s h)) m = if Nat.eqb m n then Some s else nth_error (hs_streams h) m.
Proof.
  intros n s h m L. cbn. destruct (Nat.eqb m n) eqn:E.
  - apply Nat.eqb_eq in E. subst m. now apply nth_set_same.
  - apply Nat.eqb_neq in E. now apply nth_set_other.
Qed.

(** Two states with the same queues, numbers and streams. *)
Definition same_traffic (h h' : hstate) : Prop :=
  length (hs_heap h') = length (hs_heap h) /\ hs_streams h' = hs_streams h /\
  forall n, option_map (fun s => (ss_id s, ss_version s, ss_queue s, ss_next s)) (nth_error (hs_heap h') n) =
            option_map (fun s => (ss_id s, ss_version s, ss_queue s, ss_next s)) (nth_error (hs_heap h) n).

Lemma same_refl : forall h, same_traffic h h.
Proof. now intros. Qed.
Lemma same_trans : forall a b c, same_traffic a b -> same_traffic b c -> same_traffic a c.
Proof. intros a b c (A1 & A2 & A3) (B1 & B2 & B3). split; [congruence|]. split; [congruence|]. intro n. now rewrite B3. Qed.

Lemma same_put : forall n s s' h h', nth_error (hs_heap h) n = Some s ->
  (ss_id s', ss_version s', ss_queue s', ss_next s') = (ss_id s, ss_version s, ss_queue s, ss_next s) ->
  hs_heap h' = set_nth n s' (hs_heap h) -> hs_streams h' = hs_streams h -> same_traffic h h'.
Proof.
  intros n s s' h h' E Q H S. pose proof (nth_lt _ _ _ _ E) as L.
  split; [rewrite H; now apply set_nth_length|]. split; [exact S|]. intro m. rewrite H.
  destruct (Nat.eq_dec m n) as [->|N].
  - rewrite nth_set_same by exact L. rewrite E. cbn. now rewrite Q.
  - now rewrite nth_set_other.
Qed.

Lemma same_close : forall w n h, same_traffic h (close_session w n h).
Proof.
  intros w n h. unfold close_session. destruct (nth_error (hs_heap h) n) as [s|] eqn:E; [|apply same_refl].
  eapply same_put; [exact E| |reflexivity|reflexivity]; reflexivity.
Qed.

Lemma same_fold : forall w (l : list (bstr * nat)) h, same_traffic h (fold_left (fun a kn => close_session w (snd kn) a) l h).
Proof.
  induction l as [|x l IH]; intro h; [apply same_refl|]. cbn [fold_left].
  exact (same_trans _ _ _ (same_close w (snd x) h) (IH _)).
Qed.

Lemma same_stop : forall h, same_traffic h (stop_sessions h).
Proof. intro h. exact (same_fold (bs "Transport closed") (hs_table h) h). Qed.

Lemma same_unlink : forall i h, same_traffic h (unlink_session i h).
Proof. intros i h. unfold unlink_session. destruct (aget i (hs_table h)); [split; [|split]; reflexivity | apply same_refl]. Qed.

Lemma same_pend : forall n k h, same_traffic h (pend_request n k h).
Proof.
  intros n k h. unfold pend_request. destruct (nth_error (hs_heap h) n) as [s|] eqn:E; [|apply same_refl].
  eapply same_put; [exact E| |reflexivity|reflexivity]; reflexivity.
Qed.

Lemma same_resolve : forall n r h, same_traffic h (snd (resolve_pending n r h)).
Proof.
  intros n r h. unfold resolve_pending. destruct (nth_error (hs_heap h) n) as [s|] eqn:E; [|apply same_refl].
  destruct (id_key (rs_id r)) as [|a l]; [apply same_refl|].
  destruct (aget (a :: l) (ss_pending s)) as [t|]; [|apply same_refl].
  eapply same_put; [exact E| |reflexivity|reflexivity]; reflexivity.
Qed.

Lemma same_queue_of : forall h h' n, same_traffic h h' -> queue_of n h' = queue_of n h.
Proof.
  intros h h' n (_ & _ & H). specialize (H n). unfold queue_of.
  destruct (nth_error (hs_heap h') n), (nth_error (hs_heap h) n); cbn in H; congruence.
Qed.

Definition next_of (n : nat) (h : hstate) : N :=
  match nth_error (hs_heap h) n with Some s => ss_next s | None => 1 end.

Lemma same_next_of : forall h h' n, same_traffic h h' -> next_of n h' = next_of n h.
Proof.
  intros h h' n (_ & _ & H). specialize (H n). unfold next_of.
  destruct (nth_error (hs_heap h') n), (nth_error (hs_heap h) n); cbn in H; congruence.
Qed.

(** Numbers *)

Lemma two64_pos : (two64 <> 0)%N. Proof. discriminate. Qed.

Lemma numbered_mod : forall l m, numbered (m mod two64) l = numbered m l.
Proof.
  assert (G : forall l a b, (a mod two64 = b mod two64)%N -> numbered a l = numbered b l).
  { induction l as [|p l IH]; intros a b E; [reflexivity|]. cbn [numbered]. rewrite E. f_equal. apply IH.
    rewrite (N.add_mod a), (N.add_mod b), E by discriminate. reflexivity. }
  intros l m. apply G. apply N.mod_mod. discriminate.
Qed.

Lemma numbered_snd : forall l m, map snd (numbered m l) = l.
Proof. induction l as [|p l IH]; intro m; [reflexivity|]. cbn [numbered map snd]. now rewrite IH. Qed.

Lemma numbered_app : forall a b m, numbered m (a ++ b) = numbered m a ++ numbered (m + N.of_nat (length a)) b.
Proof.
  induction a as [|p a IH]; intros b m; [cbn; now rewrite N.add_0_r|].
  cbn [app numbered length]. rewrite IH. do 3 f_equal. lia.
Qed.

Definition small (h : hstate) : Prop := forall n, (next_of n h < two64)%N.

Lemma create_nth : forall v d h n, nth_error (hs_heap (create_session v d h)) n =
  if Nat.eqb n (length (hs_heap h))
  then Some {| ss_id := session_name d; ss_version := match v with [] => PROTO | _ => v end;
               ss_queue := []; ss_pending := []; ss_closed := false; ss_next := 1 |}
  else nth_error (hs_heap h) n.
Proof.
  intros v d h n. cbn [create_session hs_heap]. destruct (Nat.eqb n (length (hs_heap h))) eqn:E.
  - apply Nat.eqb_eq in E. subst n. rewrite nth_error_app2 by lia. now rewrite Nat.sub_diag.
  - apply Nat.eqb_neq in E. destruct (lt_dec n (length (hs_heap h))).
    + now rewrite nth_error_app1.
    + rewrite (proj2 (nth_error_None (hs_heap h) n)) by lia. apply nth_error_None. rewrite app_length. cbn. lia.
Qed.

Lemma create_next : forall v d h n, next_of n (create_session v d h) = next_of n h.
Proof.
  intros v d h n. unfold next_of. rewrite create_nth. destruct (Nat.eqb n (length (hs_heap h))) eqn:E; [|reflexivity].
  apply Nat.eqb_eq in E. subst n. now rewrite (proj2 (nth_error_None _ _)).
Qed.

Lemma create_queue : forall v d h n, queue_of n (create_session v d h) = queue_of n h.
Proof.
  intros v d h n. unfold queue_of. rewrite create_nth. destruct (Nat.eqb n (length (hs_heap h))) eqn:E; [|reflexivity].
  apply Nat.eqb_eq in E. subst n. now rewrite (proj2 (nth_error_None _ _)).
Qed.

Lemma stream_take_ends : forall k h,
  (stream_take k h = h) \/
  (exists m, nth_error (hs_streams h) k = Some m /\ sm_held m = None /\ sm_alive m = true /\
     stream_take k h = put_stream k {| sm_session := sm_session m; sm_held := None; sm_wire := sm_wire m; sm_alive := false |} h) \/
  (exists m s x q, nth_error (hs_streams h) k = Some m /\ sm_held m = None /\ sm_alive m = true /\
     nth_error (hs_heap h) (sm_session m) = Some s /\ ss_closed s = false /\ ss_queue s = x :: q /\
     stream_take k h = put_stream k {| sm_session := sm_session m; sm_held := Some x; sm_wire := sm_wire m; sm_alive := true |}
                (put_session (sm_session m)
                   {| ss_id := ss_id s; ss_version := ss_version s; ss_queue := q; ss_pending := ss_pending s;
                      ss_closed := ss_closed s; ss_next := ss_next s |} h)).
Proof.
  intros k h. unfold stream_take. destruct (nth_error (hs_streams h) k) as [m|] eqn:E; [|now left].
  destruct (sm_alive m) eqn:A; [|now left]. destruct (sm_held m) as [y|] eqn:H; [now left|].
  destruct (nth_error (hs_heap h) (sm_session m)) as [s|] eqn:S; [|now left].
  destruct (ss_closed s) eqn:C.
  - right. left. exists m. repeat split; assumption.
  - destruct (ss_queue s) as [|x q] eqn:Q; [now left|]. right. right. exists m, s, x, q.
    repeat split; try assumption. now rewrite C.
Qed.

Lemma stream_write_ends : forall k ok h,
  (stream_write k ok h = h) \/
  (exists m x, nth_error (hs_streams h) k = Some m /\ sm_held m = Some x /\ sm_alive m = true /\
     stream_write k ok h = put_stream k (if ok then {| sm_session := sm_session m; sm_held := None; sm_wire := sm_wire m ++ [x]; sm_alive := true |}
           else {| sm_session := sm_session m; sm_held := None; sm_wire := sm_wire m; sm_alive := false |}) h).
Proof.
  intros k ok h. unfold stream_write. destruct (nth_error (hs_streams h) k) as [m|] eqn:E; [|now left].
  destruct (sm_alive m) eqn:A; [|now left]. destruct (sm_held m) as [y|] eqn:H; [|now left].
  right. exists m, y. repeat split; assumption.
Qed.

Lemma heap_length_step : forall h o, length (hs_heap (hstep h o)) =
  match o with OCreate _ _ => S (length (hs_heap h)) | _ => length (hs_heap h) end.
Proof.
  intros h [v d|i|n|n p|n k|n r|n|k|k ok|]; cbn [hstep].
  - cbn. rewrite app_length. cbn. lia.
  - apply (same_unlink i h).
  - apply (same_close _ n h).
  - unfold queue_outbound. destruct (nth_error (hs_heap h) n) eqn:E; [|reflexivity]. cbn. apply set_nth_length. exact (nth_lt _ _ _ _ E).
  - apply (same_pend n k h).
  - apply (same_resolve n r h).
  - reflexivity.
  - destruct (stream_take_ends k h) as [-> | [(m & _ & _ & _ & ->) | (m & s & x & q & _ & _ & _ & E & _ & _ & ->)]]; try reflexivity.
    cbn. apply set_nth_length. exact (nth_lt _ _ _ _ E).
  - destruct (stream_write_ends k ok h) as [-> | (m & x & _ & _ & _ & ->)]; reflexivity.
  - apply (same_stop h).
Qed.

Definition queued1 (n made : nat) (o : hop) : list bstr :=
  match o with
  | OQueue k p => if (Nat.eqb k n && Nat.ltb n made)%bool then [p] else []
  | _ => []
  end.

Lemma queued_step : forall n made o r, queued n made (o :: r) =
  queued1 n made o ++ queued n (match o with OCreate _ _ => S made | _ => made end) r.
Proof. intros n made o rest. destruct o; try reflexivity. cbn. destruct (_ && _)%bool; reflexivity. Qed.

Definition taken1 (n : nat) (h : hstate) (o : hop) : list (bstr * bstr) :=
  match o with OTake k => if serves k n h then taken_now k h o else [] | _ => [] end.

Lemma traffic_step : forall n h o, small h ->
  taken1 n h o ++ queue_of n (hstep h o) = queue_of n h ++ numbered (next_of n h) (queued1 n (length (hs_heap h)) o) /\
  next_of n (hstep h o) = ((next_of n h + N.of_nat (length (queued1 n (length (hs_heap h)) o))) mod two64)%N.
Proof.
  intros n h o SM.
  assert (M : (next_of n h mod two64 = next_of n h)%N) by (apply N.mod_small; apply SM).
  assert (G : forall h', same_traffic h h' -> queue_of n h' = queue_of n h ++ [] /\ next_of n h' = ((next_of n h + 0) mod two64)%N).
  { intros h' S. rewrite app_nil_r, N.add_0_r, M. split; [now apply same_queue_of | now apply same_next_of]. }
  destruct o as [v d|i|k|k p|k kk|k r|k|k|k ok|]; cbn [hstep queued1 taken1 numbered length app N.of_nat].
  - rewrite create_queue, create_next, app_nil_r, N.add_0_r. now split.
  - apply G, same_unlink.
  - apply G, same_close.
  - unfold queue_outbound. destruct (nth_error (hs_heap h) k) as [s|] eqn:E.
    + pose proof (nth_lt _ _ _ _ E) as L. unfold queue_of at 1, next_of at 2. rewrite put_session_nth by exact L.
      destruct (Nat.eq_dec k n) as [->|N0].
      * rewrite Nat.eqb_refl. assert (Nat.ltb n (length (hs_heap h)) = true) as -> by (apply Nat.ltb_lt; exact L).
        cbn [andb numbered ss_queue ss_next length]. rewrite M. unfold queue_of, next_of. rewrite E. now split.
      * assert (Nat.eqb k n = false) as -> by (now apply Nat.eqb_neq). assert (Nat.eqb n k = false) as -> by (apply Nat.eqb_neq; congruence).
        cbn [andb numbered length N.of_nat]. rewrite app_nil_r, N.add_0_r, M. now split.
    + apply nth_error_None in E. assert ((Nat.eqb k n && Nat.ltb n (length (hs_heap h)))%bool = false) as ->.
      { apply andb_false_iff. destruct (Nat.eq_dec k n) as [->|N0]; [right; now apply Nat.ltb_ge | left; now apply Nat.eqb_neq]. }
      cbn [numbered length N.of_nat]. rewrite app_nil_r, N.add_0_r, M. now split.
  - apply G, same_pend.
  - apply G, same_resolve.
  - cbn. rewrite app_nil_r, N.add_0_r. now split.
  - rewrite app_nil_r, N.add_0_r, M. cbn [taken_now]. rewrite Nat.eqb_refl. cbn [hstep]. unfold serves, held_by.
    destruct (stream_take_ends k h) as [E | [(m & E1 & E2 & E3 & E) | (m & s & x & q & E1 & E2 & E3 & E4 & E5 & E6 & E)]].
    + rewrite E. split; [|reflexivity]. destruct (nth_error (hs_streams h) k) as [m|]; [|reflexivity].
      destruct (Nat.eqb (sm_session m) n); [|reflexivity]. destruct (sm_held m); reflexivity.
    + rewrite E. rewrite put_stream_nth by exact (nth_lt _ _ _ _ E1). rewrite Nat.eqb_refl, E1. cbn [sm_session sm_held].
      rewrite E2. split; [|reflexivity]. destruct (Nat.eqb (sm_session m) n); reflexivity.
    + rewrite E. rewrite put_stream_nth by exact (nth_lt _ _ _ _ E1). rewrite Nat.eqb_refl, E1. cbn [sm_session sm_held]. rewrite E2.
      unfold queue_of at 1. unfold next_of at 1. cbn [put_stream hs_heap]. change (set_nth (sm_session m) ?s (hs_heap h)) with (hs_heap (put_session (sm_session m) s h)).
      rewrite put_session_nth by exact (nth_lt _ _ _ _ E4).
      destruct (Nat.eq_dec (sm_session m) n) as [<-|N0].
      * rewrite Nat.eqb_refl. cbn [ss_queue ss_next]. unfold queue_of, next_of. rewrite E4, E6. now split.
      * assert (Nat.eqb (sm_session m) n = false) as -> by (now apply Nat.eqb_neq).
        assert (Nat.eqb n (sm_session m) = false) as -> by (apply Nat.eqb_neq; congruence). now split.
  - rewrite app_nil_r, N.add_0_r, M. destruct (stream_write_ends k ok h) as [-> | (m & x & _ & _ & _ & ->)]; now split.
  - apply G, same_stop.
Qed.

Lemma small_step : forall h o, small h -> small (hstep h o).
Proof.
  intros h o SM n. destruct (traffic_step n h o SM) as [_ ->]. apply N.mod_lt. discriminate.
Qed.

Lemma small0 : small hstate0.
Proof. intro n. destruct n; cbn; reflexivity. Qed.

Lemma traffic : forall n os h, small h ->
  taken n os h ++ queue_of n (hrun os h) = queue_of n h ++ numbered (next_of n h) (queued n (length (hs_heap h)) os).
Proof.
  intros n os. induction os as [|o os IH]; intros h SM; [cbn; now rewrite app_nil_r|].
  destruct (traffic_step n h o SM) as [T X].
  change (taken n (o :: os) h) with (taken1 n h o ++ taken n os (hstep h o)).
  change (hrun (o :: os) h) with (hrun os (hstep h o)).
  rewrite <- app_assoc, (IH (hstep h o) (small_step h o SM)), app_assoc, T, queued_step, numbered_app, <- app_assoc, heap_length_step, X, numbered_mod.
  reflexivity.
Qed.

Lemma fifo : forall n os, taken n os hstate0 ++ queue_of n (hrun os hstate0) = numbered 1 (queued n 0 os).
Proof.
  intros n os. rewrite (traffic n os hstate0 small0). destruct n; reflexivity.
Qed.

(** Streams *)

Definition alive (k : nat) (h : hstate) : bool :=
  match nth_error (hs_streams h) k with Some m => sm_alive m | None => false end.

Definition opt_list {A : Type} (o : option A) : list A := match o with Some x => [x] | None => [] end.

Definition stream_inv (k : nat) (h : hstate) (t : list (bstr * bstr)) : Prop :=
  match nth_error (hs_streams h) k with
  | None => t = []
  | Some m => exists d, t = sm_wire m ++ d /\ length d <= 1 /\
                (if sm_alive m then d = opt_list (sm_held m) else sm_held m = None)
  end.

Lemma hrun_snoc : forall os o h, hrun (os ++ [o]) h = hstep (hrun os h) o.
Proof. intros. unfold hrun. now rewrite fold_left_app. Qed.

Lemma taken_by_app : forall k a b h, taken_by k (a ++ b) h = taken_by k a h ++ taken_by k b (hrun a h).
Proof.
  induction a as [|o a IH]; intros b h; [reflexivity|]. cbn [app taken_by]. rewrite IH, app_assoc. reflexivity.
Qed.

Lemma opt_length : forall A (o : option A), length (opt_list o) <= 1.
Proof. intros A []; cbn; lia. Qed.

Lemma stream_step : forall k h t o, stream_inv k h t -> stream_inv k (hstep h o) (t ++ taken_now k h o).
Proof.
  intros k h t o I.
  assert (G : forall h', hs_streams h' = hs_streams h -> stream_inv k h' (t ++ [])).
  { intros h' E. rewrite app_nil_r. unfold stream_inv. now rewrite E. }
  destruct o as [v d|i|n|n p|n kk|n r|n|j|j ok|]; cbn [hstep taken_now].
  - now apply G.
  - apply G. apply (same_unlink i h).
  - apply G. apply (same_close _ n h).
  - apply G. unfold queue_outbound. destruct (nth_error (hs_heap h) n); reflexivity.
  - apply G. apply (same_pend n kk h).
  - apply G. apply (same_resolve n r h).
  - rewrite app_nil_r. unfold stream_inv in *. cbn [open_stream hs_streams].
    destruct (nth_error (hs_streams h) k) as [m|] eqn:E.
    + rewrite nth_error_app1 by exact (nth_lt _ _ _ _ E). now rewrite E.
    + apply nth_error_None in E. rewrite nth_error_app2 by exact E. destruct (k - length (hs_streams h)) as [|x]; cbn.
      * subst t. exists []. repeat split. cbn. lia.
      * destruct x; exact I.
  - destruct (stream_take_ends j h) as [E | [(m & E1 & E2 & E3 & E) | (m & s & x & q & E1 & E2 & E3 & E4 & E5 & E6 & E)]].
    + rewrite E. unfold held_by. destruct (nth_error (hs_streams h) k) as [m|]; [destruct (sm_held m)|]; destruct (Nat.eqb j k); rewrite app_nil_r; exact I.
    + rewrite E. unfold stream_inv, held_by in *. rewrite put_stream_nth by exact (nth_lt _ _ _ _ E1).
      destruct (Nat.eq_dec j k) as [->|N0].
      * rewrite Nat.eqb_refl, E1 in *. cbn [sm_held sm_wire sm_alive]. rewrite E2, app_nil_r.
        destruct I as (d & -> & L & D). exists d. repeat split; assumption.
      * assert (Nat.eqb j k = false) as -> by (now apply Nat.eqb_neq). assert (Nat.eqb k j = false) as -> by (apply Nat.eqb_neq; congruence).
        now rewrite app_nil_r.
    + rewrite E. unfold stream_inv, held_by in *. rewrite put_stream_nth by exact (nth_lt _ _ _ _ E1).
      destruct (Nat.eq_dec j k) as [->|N0].
      * rewrite Nat.eqb_refl, E1 in *. cbn [sm_held sm_wire sm_alive]. rewrite E2.
        destruct I as (d & -> & L & D). rewrite E3, E2 in D. subst d. exists [x]. rewrite app_nil_r. repeat split. cbn. lia.
      * assert (Nat.eqb j k = false) as -> by (now apply Nat.eqb_neq). assert (Nat.eqb k j = false) as -> by (apply Nat.eqb_neq; congruence).
        rewrite app_nil_r. exact I.
  - rewrite app_nil_r. destruct (stream_write_ends j ok h) as [-> | (m & x & E1 & E2 & E3 & ->)]; [exact I|].
    unfold stream_inv in *. rewrite put_stream_nth by exact (nth_lt _ _ _ _ E1).
    destruct (Nat.eq_dec j k) as [->|N0].
    + rewrite Nat.eqb_refl. rewrite E1 in I. destruct I as (d & -> & L & D). rewrite E3, E2 in D. subst d.
      destruct ok; cbn [sm_wire sm_alive sm_held].
      * exists []. rewrite app_nil_r. repeat split. cbn. lia.
      * exists [x]. repeat split. cbn. lia.
    + assert (Nat.eqb k j = false) as -> by (apply Nat.eqb_neq; congruence). exact I.
  - apply G. apply (same_stop h).
Qed.

Lemma stream_run : forall k os, stream_inv k (hrun os hstate0) (taken_by k os hstate0).
Proof.
  intros k os. induction os as [|o os IH] using rev_ind; [cbn; now destruct k|].
  rewrite hrun_snoc, taken_by_app. cbn [taken_by]. rewrite app_nil_r. now apply stream_step.
Qed.

Lemma wire_prefix : forall k os, exists d, taken_by k os hstate0 = wire_of k (hrun os hstate0) ++ d /\ length d <= 1 /\
  (alive k (hrun os hstate0) = true -> d = opt_list (held_by k (hrun os hstate0))).
Proof.
  intros k os. pose proof (stream_run k os) as I. unfold stream_inv in I. unfold wire_of, alive, held_by.
  destruct (nth_error (hs_streams (hrun os hstate0)) k) as [m|].
  - destruct I as (d & E & L & D). exists d. split; [exact E|]. split; [exact L|]. intro A. now rewrite A in D.
  - exists []. rewrite I. repeat split; cbn; try lia.
Qed.

(** A stream takes what its session's streams take. *)

Definition sess (k : nat) (h : hstate) : option nat := option_map sm_session (nth_error (hs_streams h) k).

Lemma sess_step : forall k n h o, sess k h = Some n -> sess k (hstep h o) = Some n.
Proof.
  intros k n h o H. unfold sess in *. destruct (nth_error (hs_streams h) k) as [m0|] eqn:E0; [|discriminate].
  pose proof (nth_lt _ _ _ _ E0) as L0.
  assert (G : hs_streams (hstep h o) = hs_streams h -> option_map sm_session (nth_error (hs_streams (hstep h o)) k) = Some n).
  { intros ->. now rewrite E0. }
  destruct o as [v d|i|m|m p|m kk|m r|m|j|j ok|]; cbn [hstep] in *.
  - now apply G.
  - apply G. apply (same_unlink i h).
  - apply G. apply (same_close _ m h).
  - apply G. unfold queue_outbound. destruct (nth_error (hs_heap h) m); reflexivity.
  - apply G. apply (same_pend m kk h).
  - apply G. apply (same_resolve m r h).
  - cbn [open_stream hs_streams]. rewrite nth_error_app1 by exact L0. now rewrite E0.
  - destruct (stream_take_ends j h) as [E | [(x & E1 & E2 & E3 & E) | (x & s & y & q & E1 & E2 & E3 & E4 & E5 & E6 & E)]]; rewrite E.
    + now rewrite E0.
    + rewrite put_stream_nth by exact (nth_lt _ _ _ _ E1). destruct (Nat.eqb k j) eqn:Q; [|now rewrite E0].
      apply Nat.eqb_eq in Q. subst j. rewrite E0 in E1. injection E1 as <-. exact H.
    + rewrite put_stream_nth by exact (nth_lt _ _ _ _ E1). destruct (Nat.eqb k j) eqn:Q; [|exact (eq_trans (f_equal _ E0) H)].
      apply Nat.eqb_eq in Q. subst j. rewrite E0 in E1. injection E1 as <-. exact H.
  - destruct (stream_write_ends j ok h) as [E | (x & y & E1 & E2 & E3 & E)]; rewrite E; [now rewrite E0|].
    rewrite put_stream_nth by exact (nth_lt _ _ _ _ E1). destruct (Nat.eqb k j) eqn:Q; [|now rewrite E0].
    apply Nat.eqb_eq in Q. subst j. rewrite E0 in E1. injection E1 as <-. destruct ok; exact H.
  - apply G. apply (same_stop h).
Qed.

Lemma sess_run : forall os k n h, sess k h = Some n -> sess k (hrun os h) = Some n.
Proof. induction os as [|o os IH]; intros k n h H; [exact H|]. apply (IH k n (hstep h o)). now apply sess_step. Qed.

Lemma serves_sess : forall k n h, serves k n h = true <-> sess k h = Some n.
Proof.
  intros k n h. unfold serves, sess. destruct (nth_error (hs_streams h) k) as [m|]; cbn.
  - rewrite Nat.eqb_eq. split; [now intros -> | congruence].
  - split; discriminate.
Qed.

Lemma taken_now_sess : forall k h o x, In x (taken_now k h o) -> exists n, sess k h = Some n.
Proof.
  intros k h o x H. unfold taken_now in H. destruct o as [v d|i|m|m p|m kk|m r|m|j|j ok|]; try (destruct H; fail).
  destruct (Nat.eqb j k) eqn:E; [|destruct H]. apply Nat.eqb_eq in E. subst j. unfold sess.
  destruct (nth_error (hs_streams h) k) as [m|] eqn:E; [now exists (sm_session m)|]. exfalso.
  assert (hstep h (OTake k) = h) as K by (cbn [hstep]; unfold stream_take; now rewrite E). rewrite K in H.
  destruct (held_by k h); destruct H.
Qed.

Lemma subseq_app : forall A (a b c d : list A), subseq a b -> subseq c d -> subseq (a ++ c) (b ++ d).
Proof. intros A a b c d H K. induction H; cbn [app]; [exact K | now constructor | now constructor]. Qed.
Lemma subseq_refl : forall A (a : list A), subseq a a.
Proof. induction a; now constructor. Qed.
Lemma subseq_nil : forall A (a : list A), subseq [] a.
Proof. induction a; now constructor. Qed.
Lemma subseq_in : forall A (a b : list A) x, subseq a b -> In x a -> In x b.
Proof. intros A a b x H. induction H; intro I; [destruct I | destruct I as [->|I]; [now left | right; auto] | right; auto]. Qed.

Lemma taken1_take : forall k n h o, sess k (hstep h o) = Some n -> taken_now k h o <> [] -> taken1 n h o = taken_now k h o.
Proof.
  intros k n h o S N. destruct (taken_now k h o) as [|x l] eqn:T; [congruence|].
  destruct (taken_now_sess k h o x) as (n' & K); [rewrite T; now left|].
  pose proof (sess_step k n' h o K) as K'. rewrite S in K'. injection K' as <-.
  destruct o as [v d|i|m|m p|m kk|m r|m|j|j ok|]; try discriminate T.
  cbn [taken_now] in T. destruct (Nat.eqb j k) eqn:E; [|discriminate]. apply Nat.eqb_eq in E. subst j.
  cbn [taken1]. rewrite (proj2 (serves_sess k n h) K). cbn [taken_now]. rewrite Nat.eqb_refl. exact T.
Qed.

Lemma taken_none : forall k os h x, In x (taken_by k os h) -> exists n, sess k (hrun os h) = Some n.
Proof.
  intros k os. induction os as [|o os IH]; intros h x H; [destruct H|]. cbn [taken_by] in H. apply in_app_or in H as [H|H].
  - destruct (taken_now_sess k h o x H) as (n & K). exists n. exact (sess_run (o :: os) k n h K).
  - exact (IH (hstep h o) x H).
Qed.

Lemma taken_sub : forall k n os h, sess k (hrun os h) = Some n -> subseq (taken_by k os h) (taken n os h).
Proof.
  intros k n os. induction os as [|o os IH]; intros h H; [constructor|].
  change (taken_by k (o :: os) h) with (taken_now k h o ++ taken_by k os (hstep h o)).
  change (taken n (o :: os) h) with (taken1 n h o ++ taken n os (hstep h o)).
  apply subseq_app; [|exact (IH (hstep h o) H)].
  destruct (taken_now k h o) as [|x l] eqn:T; [apply subseq_nil|].
  destruct (taken_now_sess k h o x) as (n' & K); [rewrite T; now left|].
  pose proof (sess_run (o :: os) k n' h K) as K2. change (hrun (o :: os) h) with (hrun os (hstep h o)) in K2.
  change (hrun (o :: os) h) with (hrun os (hstep h o)) in H. rewrite H in K2. injection K2 as <-.
  rewrite <- T. rewrite (taken1_take k n h o); [apply subseq_refl | now apply sess_step | rewrite T; discriminate].
Qed.

(** No message is taken twice. *)

Definition ev_dec : forall x y : bstr * bstr, {x = y} + {x <> y}.
Proof. repeat decide equality. Defined.

Lemma taken_now_other : forall k j h o, k <> j -> taken_now k h o <> [] -> taken_now j h o = [].
Proof.
  intros k j h o N T. destruct o as [v d|i|m|m p|m kk|m r|m|i|i ok|]; try reflexivity.
  cbn [taken_now] in *. destruct (Nat.eqb i k) eqn:E; [|congruence]. apply Nat.eqb_eq in E. subst i.
  assert (Nat.eqb k j = false) as -> by (now apply Nat.eqb_neq). reflexivity.
Qed.

Lemma taken_twice : forall k j n os h x, k <> j -> sess k (hrun os h) = Some n -> sess j (hrun os h) = Some n ->
  count_occ ev_dec (taken_by k os h) x + count_occ ev_dec (taken_by j os h) x <= count_occ ev_dec (taken n os h) x.
Proof.
  intros k j n os. induction os as [|o os IH]; intros h x N K J; [cbn; lia|].
  change (taken_by k (o :: os) h) with (taken_now k h o ++ taken_by k os (hstep h o)).
  change (taken_by j (o :: os) h) with (taken_now j h o ++ taken_by j os (hstep h o)).
  change (taken n (o :: os) h) with (taken1 n h o ++ taken n os (hstep h o)).
  change (hrun (o :: os) h) with (hrun os (hstep h o)) in K, J. rewrite !count_occ_app.
  specialize (IH (hstep h o) x N K J).
  assert (Q : forall i, sess i (hrun os (hstep h o)) = Some n -> taken_now i h o = [] \/ taken1 n h o = taken_now i h o).
  { intros i I. destruct (taken_now i h o) as [|y l] eqn:T; [now left|]. right. rewrite <- T.
    apply taken1_take; [|rewrite T; discriminate].
    destruct (taken_now_sess i h o y) as (n' & S'); [rewrite T; now left|].
    pose proof (sess_run os i n' _ (sess_step i n' h o S')) as S2. rewrite I in S2. injection S2 as <-. now apply sess_step. }
  destruct (Q k K) as [A|A], (Q j J) as [B|B].
  - rewrite A, B. cbn [count_occ]. lia.
  - rewrite A, <- B. cbn [count_occ]. lia.
  - rewrite B, <- A. cbn [count_occ]. lia.
  - destruct (taken_now k h o) as [|y l] eqn:T.
    + rewrite <- B. cbn [count_occ]. lia.
    + rewrite (taken_now_other k j h o N) by (rewrite T; discriminate). rewrite <- A. cbn [count_occ]. lia.
Qed.

Definition below (m : N) (l : list bstr) : list N := map N.of_nat (seq (N.to_nat m) (length l)).

Lemma numbered_ids : forall l m, (m + N.of_nat (length l) <= two64)%N -> map fst (numbered m l) = map print_N (below m l).
Proof.
  induction l as [|p l IH]; intros m H; [reflexivity|]. unfold below in *. cbn [length seq map numbered fst] in *.
  rewrite N.mod_small by lia. rewrite N2Nat.id. f_equal. rewrite IH by lia. do 3 f_equal. lia.
Qed.

Lemma sorted_below : forall n a, StronglySorted N.lt (map N.of_nat (seq a n)).
Proof.
  induction n as [|n IH]; intro a; cbn [seq map]; constructor; [apply IH|].
  apply Forall_forall. intros x H. apply in_map_iff in H as (y & <- & H). apply in_seq in H. lia.
Qed.

Lemma subseq_ids : forall (a b : list (bstr * bstr)), subseq a b -> forall ns, map fst b = map print_N ns -> StronglySorted N.lt ns ->
  exists ms, map fst a = map print_N ms /\ StronglySorted N.lt ms /\ forall x, In x ms -> In x ns.
Proof.
  intros a b H. induction H as [|x a b H IH|x a b H IH]; intros ns E S.
  - exists []. repeat split; [constructor | now intros].
  - destruct ns as [|m ns]; [discriminate|]. cbn [map] in E. injection E as E1 E2. inversion S as [|? ? S1 S2]; subst.
    destruct (IH ns E2 S1) as (ms & M1 & M2 & M3). exists (m :: ms). cbn [map]. rewrite E1, M1. split; [reflexivity|]. split.
    + constructor; [exact M2|]. apply Forall_forall. intros y I. rewrite Forall_forall in S2. auto.
    + intros y [->|I]; [now left | right; auto].
  - destruct ns as [|m ns]; [discriminate|]. cbn [map] in E. injection E as E1 E2. inversion S as [|? ? S1 S2]; subst.
    destruct (IH ns E2 S1) as (ms & M1 & M2 & M3). exists ms. split; [exact M1|]. split; [exact M2|]. intros y I. right. auto.
Qed.

Lemma subseq_prefix : forall A (a d b : list A), subseq (a ++ d) b -> subseq a b.
Proof.
  intros A a d b H. remember (a ++ d) as c. revert a d Heqc. induction H as [|x c b H IH|x c b H IH]; intros a d E.
  - destruct a; [constructor | discriminate].
  - destruct a as [|y a]; [apply subseq_nil|]. cbn in E. injection E as <- E. constructor. exact (IH a d E).
  - constructor. exact (IH a d E).
Qed.

Lemma wire_increasing : forall k n os, serves k n (hrun os hstate0) = true -> (N.of_nat (length (queued n 0 os)) < two64)%N ->
  subseq (wire_of k (hrun os hstate0)) (numbered 1 (queued n 0 os)) /\
  exists ms, map fst (wire_of k (hrun os hstate0)) = map print_N ms /\ StronglySorted N.lt ms.
Proof.
  intros k n os S L. apply serves_sess in S.
  assert (K : subseq (wire_of k (hrun os hstate0)) (numbered 1 (queued n 0 os))).
  { destruct (wire_prefix k os) as (d & E & _). pose proof (taken_sub k n os hstate0 S) as T. rewrite E in T.
    rewrite <- (fifo n os). apply subseq_prefix in T.
    rewrite <- (app_nil_r (wire_of k (hrun os hstate0))). apply subseq_app; [exact T | apply subseq_nil]. }
  split; [exact K|].
  destruct (subseq_ids _ _ K (below 1 (queued n 0 os))) as (ms & M1 & M2 & _).
  - apply numbered_ids. lia.
  - apply sorted_below.
  - now exists ms.
Qed.

Lemma nodup_numbered : forall l m, (m + N.of_nat (length l) <= two64)%N -> NoDup (numbered m l).
Proof.
  intros l m H. apply (NoDup_map_inv fst). rewrite numbered_ids by exact H.
  apply FinFun.Injective_map_NoDup; [exact print_N_inj|]. unfold below.
  apply FinFun.Injective_map_NoDup; [intros x y; lia | apply seq_NoDup].
Qed.

Lemma once_one_stream : forall k j n os x, k <> j -> serves k n (hrun os hstate0) = true -> serves j n (hrun os hstate0) = true ->
  (N.of_nat (length (queued n 0 os)) < two64)%N ->
  In x (taken_by k os hstate0) -> ~ In x (taken_by j os hstate0).
Proof.
  intros k j n os x N K J L A B. apply serves_sess in K. apply serves_sess in J.
  pose proof (taken_twice k j n os hstate0 x N K J) as T.
  assert (D : NoDup (taken n os hstate0 ++ queue_of n (hrun os hstate0))) by (rewrite fifo; apply nodup_numbered; lia).
  assert (D' : NoDup (taken n os hstate0)).
  { clear - D. induction (taken n os hstate0) as [|y l IH]; [constructor|]. cbn in D. inversion D as [|? ? D1 D2]; subst.
    constructor; [intro I; apply D1; apply in_or_app; now left | exact (IH D2)]. }
  pose proof (proj1 (NoDup_count_occ ev_dec _) D' x) as C.
  apply (count_occ_In ev_dec) in A. apply (count_occ_In ev_dec) in B. lia.
Qed.

(** Pending requests *)

Lemma set_nth_split : forall A n (l : list A) s, nth_error l n = Some s ->
  exists a b, l = a ++ s :: b /\ forall x, set_nth n x l = a ++ x :: b.
Proof.
  intros A n l s H. exists (firstn n l), (skipn (S n) l). split; [|reflexivity].
  rewrite <- (firstn_skipn n l) at 1. f_equal. revert n H. induction l as [|y l IH]; intros [|n] H; try discriminate.
  - cbn in H. now injection H as ->.
  - cbn [skipn]. rewrite (IH n H). reflexivity.
Qed.

Definition tickets (l : list session) : list nat := flat_map (fun s => map snd (ss_pending s)) l.

Lemma tickets_app : forall a b, tickets (a ++ b) = tickets a ++ tickets b.
Proof. intros. apply flat_map_app. Qed.

Fixpoint creates (os : list hop) : nat :=
  match os with [] => 0 | OCreate _ _ :: r => S (creates r) | _ :: r => creates r end.

Lemma issued_app : forall a b made tick, issued made tick (a ++ b) =
  issued made tick a ++ issued (made + creates a) (tick + length (issued made tick a)) b.
Proof.
  induction a as [|o a IH]; intros b made tick; [cbn; now rewrite !Nat.add_0_r|].
  destruct o; cbn [app issued creates]; try apply IH.
  - rewrite IH. do 2 f_equal. lia.
  - destruct (Nat.ltb n made); [|apply IH]. cbn [app length]. rewrite IH. do 3 f_equal. lia.
Qed.

Record pinv (os : list hop) (h : hstate) : Prop := {
  pv_made : length (hs_heap h) = creates os;
  pv_tick : hs_ticket h = length (issued 0 0 os);
  pv_keys : forall s, In s (hs_heap h) -> NoDup (map fst (ss_pending s));
  pv_all : Permutation (tickets (hs_heap h) ++ map fst (hs_done h)) (seq 0 (hs_ticket h));
  pv_who : forall n s k t, nth_error (hs_heap h) n = Some s -> In (k, t) (ss_pending s) -> In (t, n, k) (issued 0 0 os);
  pv_table : forall i n, In (i, n) (hs_table h) -> exists s, nth_error (hs_heap h) n = Some s /\ ss_id s = i
}.

Lemma creates_app : forall a b, creates (a ++ b) = creates a + creates b.
Proof. induction a as [|o a IH]; intro b; [reflexivity|]. destruct o; cbn [app creates]; rewrite IH; lia. Qed.

(** A step that is not a creation nor a new request and leaves the tickets alone. *)
Lemma pinv_same : forall os h h' o, creates [o] = 0 -> issued (creates os) (length (issued 0 0 os)) [o] = [] ->
  length (hs_heap h') = length (hs_heap h) ->
  (forall n, option_map (fun s => (ss_id s, ss_pending s)) (nth_error (hs_heap h') n) =
             option_map (fun s => (ss_id s, ss_pending s)) (nth_error (hs_heap h) n)) ->
  hs_ticket h' = hs_ticket h -> hs_done h' = hs_done h -> (forall x, In x (hs_table h') -> In x (hs_table h)) ->
  pinv os h -> pinv (os ++ [o]) h'.
Proof.
  intros os h h' o C I HL HP HT HD HB [P1 P2 P3 P4 P5 P6].
  assert (X : issued 0 0 (os ++ [o]) = issued 0 0 os) by (rewrite issued_app; cbn [Nat.add]; rewrite I; apply app_nil_r).
  assert (Y : tickets (hs_heap h') = tickets (hs_heap h)).
  { clear - HP HL. revert HP HL. generalize (hs_heap h') as a, (hs_heap h) as b. induction a as [|s a IH]; intros [|s' b] HP HL; try discriminate; [reflexivity|].
    unfold tickets. cbn [flat_map]. pose proof (HP 0) as E. cbn in E. injection E as _ E. rewrite E. f_equal. apply IH; [intro n; exact (HP (S n)) | now injection HL]. }
  constructor.
  - rewrite creates_app, C. lia.
  - now rewrite X, HT.
  - intros s S. apply In_nth_error in S as (n & S). specialize (HP n). rewrite S in HP. cbn in HP.
    destruct (nth_error (hs_heap h) n) as [s'|] eqn:E; [|discriminate]. injection HP as _ ->. exact (P3 s' (nth_error_In _ _ E)).
  - now rewrite Y, HD, HT.
  - intros n s k t S K. rewrite X. specialize (HP n). rewrite S in HP. cbn in HP.
    destruct (nth_error (hs_heap h) n) as [s'|] eqn:E; [|discriminate]. injection HP as _ HP. rewrite HP in K. exact (P5 n s' k t E K).
  - intros i n S. destruct (P6 i n (HB _ S)) as (s & E & F). specialize (HP n). rewrite E in HP. cbn in HP.
    destruct (nth_error (hs_heap h') n) as [s'|]; [|discriminate]. exists s'. split; [reflexivity|]. injection HP as HP _. congruence.
Qed.

(** Replacing one session's pending requests. *)
Lemma pinv_put : forall os h n s p' d tick' h' o,
  nth_error (hs_heap h) n = Some s -> creates [o] = 0 ->
  hs_heap h' = set_nth n {| ss_id := ss_id s; ss_version := ss_version s; ss_queue := ss_queue s; ss_pending := p';
                             ss_closed := ss_closed s; ss_next := ss_next s |} (hs_heap h) \/
  hs_heap h' = set_nth n {| ss_id := ss_id s; ss_version := ss_version s; ss_queue := ss_queue s; ss_pending := p';
                             ss_closed := true; ss_next := ss_next s |} (hs_heap h) ->
  hs_table h' = hs_table h -> hs_done h' = hs_done h ++ d -> hs_ticket h' = tick' ->
  NoDup (map fst p') -> tick' = length (issued 0 0 (os ++ [o])) ->
  (forall k t, In (k, t) p' -> In (t, n, k) (issued 0 0 (os ++ [o]))) ->
  (forall A, Permutation (map snd (ss_pending s) ++ A) (seq 0 (hs_ticket h)) -> Permutation (map snd p' ++ map fst d ++ A) (seq 0 tick')) ->
  pinv os h -> pinv (os ++ [o]) h'.
Proof.
  intros os h n s p' d tick' h' o E C HH HT HD HK ND TK WH PM [P1 P2 P3 P4 P5 P6].
  pose proof (nth_lt _ _ _ _ E) as L.
  assert (Z : exists s', hs_heap h' = set_nth n s' (hs_heap h) /\ ss_id s' = ss_id s /\ ss_pending s' = p')
    by (destruct HH as [HH|HH]; eexists; (split; [exact HH|]); now split).
  clear HH. destruct Z as (s' & HH & I' & Q').
  assert (X : forall x, In x (issued 0 0 os) -> In x (issued 0 0 (os ++ [o]))) by (intros x J; rewrite issued_app; apply in_or_app; now left).
  constructor.
  - rewrite HH, set_nth_length, creates_app, C by exact L. lia.
  - now rewrite HK.
  - intros x S. apply In_nth_error in S as (m & S). rewrite HH in S. destruct (Nat.eq_dec m n) as [->|N0].
    + rewrite nth_set_same in S by exact L. injection S as <-. now rewrite Q'.
    + rewrite nth_set_other in S by assumption. exact (P3 x (nth_error_In _ _ S)).
  - destruct (set_nth_split _ n (hs_heap h) s E) as (a & b & H1 & H2). rewrite HH, H2, HD, HK.
    rewrite H1 in P4. rewrite tickets_app in *. cbn [tickets flat_map] in *. fold (tickets b) in *. rewrite Q', map_app.
    assert (B1 : Permutation (map snd (ss_pending s) ++ (tickets a ++ tickets b ++ map fst (hs_done h))) (seq 0 (hs_ticket h))).
    { rewrite <- P4. rewrite <- !app_assoc. apply Permutation_app_swap_app. }
    apply PM in B1. rewrite <- B1. rewrite <- !app_assoc.
    transitivity (map snd p' ++ tickets a ++ tickets b ++ map fst (hs_done h) ++ map fst d); [apply Permutation_app_swap_app|].
    apply Permutation_app_head. transitivity ((tickets a ++ tickets b ++ map fst (hs_done h)) ++ map fst d); [rewrite !app_assoc; reflexivity | apply Permutation_app_comm].
  - intros m x k t S K. rewrite HH in S. destruct (Nat.eq_dec m n) as [->|N0].
    + rewrite nth_set_same in S by exact L. injection S as <-. rewrite Q' in K. exact (WH k t K).
    + rewrite nth_set_other in S by assumption. apply X. exact (P5 m x k t S K).
  - intros i m S. rewrite HT in S. destruct (P6 i m S) as (x & F & G). rewrite HH. destruct (Nat.eq_dec m n) as [->|N0].
    + exists s'. rewrite nth_set_same by exact L. split; [reflexivity|]. congruence.
    + exists x. rewrite nth_set_other by assumption. now split.
Qed.

Lemma close_pinv : forall os h n w o, creates [o] = 0 -> (forall a b, issued a b [o] = []) ->
  pinv os h -> pinv (os ++ [o]) (close_session w n h).
Proof.
  intros os h n w o C I P. unfold close_session. destruct (nth_error (hs_heap h) n) as [s|] eqn:E.
  - eapply (pinv_put os h n s [] _ (hs_ticket h)); try reflexivity; try exact E; try exact C; try exact P.
    + right. reflexivity.
    + constructor.
    + rewrite issued_app. cbn [Nat.add]. rewrite I, app_nil_r. apply (pv_tick _ _ P).
    + intros k t [].
    + intros A H. rewrite map_map. cbn [fst map app]. exact H.
  - apply (pinv_same os h h o); try reflexivity; auto.
Qed.

(** The history does not matter to the invariant beyond what it created and issued. *)
Lemma pinv_idle : forall os h o, creates [o] = 0 -> (forall a b, issued a b [o] = []) -> pinv (os ++ [o]) h -> pinv os h.
Proof.
  intros os h o C I [P1 P2 P3 P4 P5 P6].
  assert (X : issued 0 0 (os ++ [o]) = issued 0 0 os) by (rewrite issued_app; cbn [Nat.add]; rewrite I; apply app_nil_r).
  rewrite X in *. rewrite creates_app, C, Nat.add_0_r in P1. now constructor.
Qed.

Lemma fold_pinv : forall os w (l : list (bstr * nat)) h, pinv os h -> pinv os (fold_left (fun a kn => close_session w (snd kn) a) l h).
Proof.
  intros os w. induction l as [|x l IH]; intros h P; [exact P|]. cbn [fold_left]. apply IH.
  apply (pinv_idle os _ OStop); try reflexivity. now apply close_pinv.
Qed.

Lemma find_in : forall i h n, find_session i h = Some n -> In (i, n) (hs_table h).
Proof. intros i h n H. now apply aget_in. Qed.

Lemma in_aset_any : forall (A : Type) k (v : A) x m, In x (aset k v m) -> x = (k, v) \/ In x m.
Proof.
  intros A k v x. induction m as [|[k' v'] m IH]; cbn [aset]; [intros [<-|[]]; now left|].
  destruct (beq k k').
  - intros [<-|H]; [now left | right; now right].
  - intros [<-|H]; [right; now left|]. apply IH in H as [H|H]; [now left | right; now right].
Qed.

Lemma pinv_step : forall os h o, pinv os h -> pinv (os ++ [o]) (hstep h o).
Proof.
  intros os h o P. destruct o as [v d|i|n|n p|n k|n r|n|k|k ok|]; cbn [hstep].
  - destruct P as [P1 P2 P3 P4 P5 P6].
    assert (X : issued 0 0 (os ++ [OCreate v d]) = issued 0 0 os) by (rewrite issued_app; cbn; apply app_nil_r).
    constructor; cbn [create_session hs_heap hs_ticket hs_done hs_table].
    + rewrite app_length, creates_app. cbn. lia.
    + now rewrite X.
    + intros s S. apply in_app_or in S as [S|[<-|[]]]; [exact (P3 s S) | constructor].
    + rewrite tickets_app. cbn [tickets flat_map ss_pending map app]. now rewrite app_nil_r.
    + intros n s k t S K. rewrite X. pose proof (create_nth v d h n) as Q. cbn [create_session hs_heap] in Q. rewrite Q in S.
      destruct (Nat.eqb n (length (hs_heap h))); [injection S as <-; destruct K | exact (P5 n s k t S K)].
    + intros i n S. pose proof (create_nth v d h n) as Q. cbn [create_session hs_heap] in Q. rewrite Q.
      apply in_aset_any in S as [S|S].
      * injection S as -> ->. rewrite Nat.eqb_refl. eexists. split; reflexivity.
      * destruct (P6 i n S) as (s & E & F). destruct (Nat.eqb n (length (hs_heap h))) eqn:G; [|now exists s].
        apply Nat.eqb_eq in G. subst n. apply nth_lt in E. lia.
  - apply (pinv_same os h _ (OUnlink i)); try reflexivity; auto; unfold unlink_session; destruct (aget i (hs_table h)); try reflexivity; auto.
    intros x H. cbn [hs_table] in H. destruct x. now apply in_adel in H as [H _].
  - now apply close_pinv.
  - unfold queue_outbound. destruct (nth_error (hs_heap h) n) as [s|] eqn:E.
    + apply (pinv_same os h _ (OQueue n p)); try reflexivity; auto; cbn [put_session hs_heap].
      * apply set_nth_length. exact (nth_lt _ _ _ _ E).
      * intro m. destruct (Nat.eq_dec m n) as [->|N0].
        -- rewrite nth_set_same by exact (nth_lt _ _ _ _ E). now rewrite E.
        -- rewrite nth_set_other; [reflexivity | exact (nth_lt _ _ _ _ E) | exact N0].
    + apply (pinv_same os h h (OQueue n p)); try reflexivity; auto.
  - unfold pend_request. destruct (nth_error (hs_heap h) n) as [s|] eqn:E.
    + pose proof (nth_lt _ _ _ _ E) as L. pose proof (pv_keys _ _ P s (nth_error_In _ _ E)) as ND.
      assert (X : issued 0 0 (os ++ [OPend n k]) = issued 0 0 os ++ [(hs_ticket h, n, k)]).
      { rewrite issued_app. cbn [Nat.add issued]. rewrite <- (pv_made _ _ P), <- (pv_tick _ _ P).
        assert (Nat.ltb n (length (hs_heap h)) = true) as -> by (now apply Nat.ltb_lt). reflexivity. }
      eapply (pinv_put os h n s _ _ (S (hs_ticket h))); try reflexivity; try exact E; try exact P.
      * left. reflexivity.
      * now apply nodup_aset.
      * rewrite X, app_length, <- (pv_tick _ _ P). cbn. lia.
      * intros k' t H. rewrite X. apply in_or_app. apply in_aset_any in H as [H|H].
        -- injection H as -> ->. right. now left.
        -- left. exact (pv_who _ _ P n s k' t E H).
      * intros A H. rewrite seq_S. cbn [Nat.add].
        transitivity (hs_ticket h :: (map snd (ss_pending s) ++ A)); [|rewrite H; apply Permutation_cons_append].
        destruct (aget k (ss_pending s)) as [t0|] eqn:G; cbn [map fst app].
        -- pose proof (Permutation_map snd (aset_perm_old k (hs_ticket h) t0 _ ND G)) as Q. cbn [map snd] in Q.
           transitivity ((t0 :: map snd (aset k (hs_ticket h) (ss_pending s))) ++ A); [symmetry; apply Permutation_middle|].
           rewrite Q. reflexivity.
        -- pose proof (Permutation_map snd (aset_perm_new k (hs_ticket h) _ G)) as Q. cbn [map snd] in Q. rewrite Q. reflexivity.
    + apply (pinv_same os h h (OPend n k)); try reflexivity; auto. cbn [issued]. rewrite <- (pv_made _ _ P).
      apply nth_error_None in E. assert (Nat.ltb n (length (hs_heap h)) = false) as -> by (now apply Nat.ltb_ge). reflexivity.
  - unfold resolve_pending. destruct (nth_error (hs_heap h) n) as [s|] eqn:E.
    2:{ apply (pinv_same os h h (OResolve n r)); try reflexivity; auto. }
    destruct (id_key (rs_id r)) as [|a l] eqn:K; [apply (pinv_same os h h (OResolve n r)); try reflexivity; auto|].
    destruct (aget (a :: l) (ss_pending s)) as [t|] eqn:G; [|apply (pinv_same os h h (OResolve n r)); try reflexivity; auto].
    pose proof (pv_keys _ _ P s (nth_error_In _ _ E)) as ND. cbn [snd].
    assert (X : issued 0 0 (os ++ [OResolve n r]) = issued 0 0 os) by (rewrite issued_app; cbn; apply app_nil_r).
    eapply (pinv_put os h n s _ _ (hs_ticket h)); try reflexivity; try exact E; try exact P.
    + left. reflexivity.
    + now apply nodup_adel.
    + rewrite X. apply (pv_tick _ _ P).
    + intros k' t' H. rewrite X. apply in_adel in H as [H _]. exact (pv_who _ _ P n s k' t' E H).
    + intros A H. pose proof (Permutation_map snd (adel_perm (a :: l) t _ ND G)) as Q. cbn [map snd] in Q.
      rewrite <- H, Q. cbn [map fst app]. symmetry. apply Permutation_middle.
  - apply (pinv_same os h _ (OOpen n)); try reflexivity; auto.
  - destruct (stream_take_ends k h) as [-> | [(m & _ & _ & _ & ->) | (m & s & x & q & E1 & E2 & E3 & E & _ & _ & ->)]];
      apply (pinv_same os h _ (OTake k)); try reflexivity; auto; cbn [put_stream put_session hs_heap].
    + apply set_nth_length. exact (nth_lt _ _ _ _ E).
    + intro j. destruct (Nat.eq_dec j (sm_session m)) as [->|N0].
      * rewrite nth_set_same by exact (nth_lt _ _ _ _ E). now rewrite E.
      * rewrite nth_set_other; [reflexivity | exact (nth_lt _ _ _ _ E) | exact N0].
  - destruct (stream_write_ends k ok h) as [-> | (m & x & _ & _ & _ & ->)]; apply (pinv_same os h _ (OWrite k ok)); try reflexivity; auto.
  - pose proof (fold_pinv os (bs "Transport closed") (hs_table h) h P) as Q. unfold stop_sessions.
    set (h' := fold_left _ (hs_table h) h) in *. apply (pinv_same os h' _ OStop); try reflexivity; auto. intros x [].
Qed.

Lemma pinv_run : forall os, pinv os (hrun os hstate0).
Proof.
  intro os. induction os as [|o os IH] using rev_ind; [|rewrite hrun_snoc; now apply pinv_step].
  constructor; cbn; try reflexivity; try (intros; now destruct n); intros; contradiction.
Qed.

Lemma tickets_once : forall os, NoDup (map fst (hs_done (hrun os hstate0))).
Proof.
  intro os. pose proof (pv_all _ _ (pinv_run os)) as P. symmetry in P.
  pose proof (Permutation_NoDup P (seq_NoDup _ _)) as D. clear P. induction (tickets _) as [|x l IH]; [exact D|].
  apply IH. now inversion D.
Qed.

(** Who completes what. *)

Lemma resolve_only : forall os n r t x,
  In (t, x) (hs_done (hstep (hrun os hstate0) (OResolve n r))) ->
  In (t, x) (hs_done (hrun os hstate0)) \/ (x = Some r /\ In (t, n, id_key (rs_id r)) (issued 0 0 os)).
Proof.
  intros os n r t x H. pose proof (pinv_run os) as P. set (h := hrun os hstate0) in *. cbn [hstep] in H.
  unfold resolve_pending in H. destruct (nth_error (hs_heap h) n) as [s|] eqn:E; [|now left].
  destruct (id_key (rs_id r)) as [|a l] eqn:K; [now left|].
  destruct (aget (a :: l) (ss_pending s)) as [t0|] eqn:G; [|now left]. cbn [snd hs_done put_session] in H.
  apply in_app_or in H as [H|[H|[]]]; [now left|]. injection H as <- <-. right. split; [reflexivity|].
  exact (pv_who _ _ P n s _ _ E (aget_in _ _ _ G)).
Qed.

Lemma find_id : forall os i n, find_session i (hrun os hstate0) = Some n ->
  exists s, nth_error (hs_heap (hrun os hstate0)) n = Some s /\ ss_id s = i.
Proof. intros os i n H. apply (pv_table _ _ (pinv_run os)). now apply find_in. Qed.

Lemma close_completes : forall w n h s k t, nth_error (hs_heap h) n = Some s -> In (k, t) (ss_pending s) ->
  In (t, Some (error_response (IdStr k) (-32603) w None)) (hs_done (close_session w n h)) /\
  exists s', nth_error (hs_heap (close_session w n h)) n = Some s' /\ ss_pending s' = [].
Proof.
  intros w n h s k t E I. unfold close_session. rewrite E. cbn [hs_done hs_heap put_session]. split.
  - apply in_or_app. right. apply in_map_iff. now exists (k, t).
  - rewrite nth_set_same by exact (nth_lt _ _ _ _ E). eexists. split; reflexivity.
Qed.

Lemma close_done_mono : forall w n h x, In x (hs_done h) -> In x (hs_done (close_session w n h)).
Proof. intros w n h x I. unfold close_session. destruct (nth_error (hs_heap h) n); [|exact I]. cbn. apply in_or_app. now left. Qed.

Lemma close_other : forall w n m h, m <> n -> nth_error (hs_heap (close_session w n h)) m = nth_error (hs_heap h) m.
Proof.
  intros w n m h N. unfold close_session. destruct (nth_error (hs_heap h) n) eqn:E; [|reflexivity].
  cbn. apply nth_set_other; [exact (nth_lt _ _ _ _ E) | exact N].
Qed.

Lemma fold_done_mono : forall w (l : list (bstr * nat)) h x, In x (hs_done h) ->
  In x (hs_done (fold_left (fun a kn => close_session w (snd kn) a) l h)).
Proof. intros w. induction l as [|y l IH]; intros h x I; [exact I|]. cbn [fold_left]. apply IH. now apply close_done_mono. Qed.

Lemma fold_completes : forall w (l : list (bstr * nat)) h i n s k t, In (i, n) l -> nth_error (hs_heap h) n = Some s -> In (k, t) (ss_pending s) ->
  In (t, Some (error_response (IdStr k) (-32603) w None)) (hs_done (fold_left (fun a kn => close_session w (snd kn) a) l h)).
Proof.
  intros w. induction l as [|[j m] l IH]; intros h i n s k t H E I; [destruct H|]. destruct H as [H|H]; cbn [fold_left snd].
  - injection H as -> ->. apply fold_done_mono. exact (proj1 (close_completes w n h s k t E I)).
  - destruct (Nat.eq_dec n m) as [->|N].
    + apply fold_done_mono. exact (proj1 (close_completes w m h s k t E I)).
    + apply (IH _ i n s k t H); [|exact I]. now rewrite close_other.
Qed.

Lemma stop_completes : forall h i n s k t, find_session i h = Some n -> nth_error (hs_heap h) n = Some s -> In (k, t) (ss_pending s) ->
  In (t, Some (error_response (IdStr k) (-32603) (bs "Transport closed") None)) (hs_done (stop_sessions h)).
Proof. intros h i n s k t F E I. unfold stop_sessions. cbn [hs_done]. exact (fold_completes _ _ _ i n s k t (find_in _ _ _ F) E I). Qed.

Lemma remove_completes : forall h i n s k t, find_session i h = Some n -> nth_error (hs_heap h) n = Some s -> In (k, t) (ss_pending s) ->
  In (t, Some (error_response (IdStr k) (-32603) (bs "HTTP session closed") None)) (hs_done (remove_session i h)) /\
  find_session i (remove_session i h) = None.
Proof.
  intros h i n s k t F E I. unfold remove_session. rewrite F.
  assert (U : hs_heap (unlink_session i h) = hs_heap h) by (unfold unlink_session; destruct (aget i (hs_table h)); reflexivity).
  rewrite <- U in E. split; [exact (proj1 (close_completes _ n _ s k t E I))|].
  unfold close_session. rewrite E. cbn [find_session hs_table put_session]. unfold find_session, unlink_session in *. cbn [hs_table].
  rewrite F. cbn [hs_table]. apply aget_adel_same.
Qed.

(** Sessions and their names *)

Lemma create_others : forall v d h i, i <> session_name d -> find_session i (create_session v d h) = find_session i h.
Proof. intros v d h i N. unfold find_session. cbn. now apply aget_aset_other. Qed.

Lemma create_keeps : forall v d h n s, nth_error (hs_heap h) n = Some s -> nth_error (hs_heap (create_session v d h)) n = Some s.
Proof.
  intros v d h n s E. rewrite create_nth. destruct (Nat.eqb n (length (hs_heap h))) eqn:G; [|exact E].
  apply Nat.eqb_eq in G. subst n. apply nth_lt in E. lia.
Qed.

Lemma session_name_inj : forall a b, session_name a = session_name b -> a = b.
Proof. intros a b H. apply app_inv_head in H. now apply print_N_inj. Qed.

Fixpoint draws (os : list hop) : list N :=
  match os with [] => [] | OCreate _ d :: r => d :: draws r | _ :: r => draws r end.

Lemma created_draws : forall os, created os = map session_name (draws os).
Proof. induction os as [|o os IH]; [reflexivity|]. destruct o; cbn [created draws map]; now rewrite IH. Qed.

Lemma in_draws : forall os d, In d (draws os) -> exists v, In (OCreate v d) os.
Proof.
  induction os as [|o os IH]; intros d H; [destruct H|].
  destruct o; cbn [draws] in H; try (destruct (IH d H) as (v & I); exists v; now right).
  destruct H as [->|H]; [eexists; now left|]. destruct (IH d H) as (v & I). exists v. now right.
Qed.

Lemma names_repeat : forall os, draws_ok os -> (9000 < N.of_nat (length (created os)))%N -> ~ NoDup (created os).
Proof.
  intros os D L U. rewrite created_draws in U, L. rewrite map_length in L. apply NoDup_map_inv in U.
  assert (I : incl (map N.to_nat (draws os)) (map N.to_nat (map (fun x => N.of_nat x) (seq (N.to_nat 1000) (N.to_nat 9000))))).
  { intros x H. apply in_map_iff in H as (d & <- & H). apply in_map. destruct (in_draws os d H) as (v & K). apply D in K.
    apply in_map_iff. exists (N.to_nat d). split; [apply N2Nat.id|]. apply in_seq. lia. }
  apply NoDup_incl_length in I.
  - rewrite !map_length, seq_length in I. lia.
  - apply FinFun.Injective_map_NoDup; [intros x y; lia | exact U].
Qed.

(** One request touches one session. *)

Lemma resolve_other : forall n r h m, m <> n -> nth_error (hs_heap (snd (resolve_pending n r h))) m = nth_error (hs_heap h) m.
Proof.
  intros n r h m N. unfold resolve_pending. destruct (nth_error (hs_heap h) n) as [s|] eqn:E; [|reflexivity].
  destruct (id_key (rs_id r)) as [|a l]; [reflexivity|]. destruct (aget (a :: l) (ss_pending s)); [|reflexivity].
  cbn. apply nth_set_other; [exact (nth_lt _ _ _ _ E) | exact N].
Qed.

Lemma resolve_table : forall n r h, hs_table (snd (resolve_pending n r h)) = hs_table h.
Proof.
  intros n r h. unfold resolve_pending. destruct (nth_error (hs_heap h) n) as [s|] eqn:E; [|reflexivity].
  destruct (id_key (rs_id r)) as [|a l]; [reflexivity|]. destruct (aget (a :: l) (ss_pending s)); reflexivity.
Qed.

Definition take_call (hd : handlers) (n : nat) (a : list call * hstate) (x : call) : list call * hstate :=
  match x with
  | CResolve r =>
      let '(ok, h') := resolve_pending n r (snd a) in
      (fst a ++ (if (negb ok && h_error hd)%bool
                 then [CError (bs "HTTPServer: unexpected response received on streamable endpoint")] else []), h')
  | _ => a
  end.

Lemma route_other : forall hd n m cs a, m <> n -> nth_error (hs_heap (snd (fold_left (take_call hd n) cs a))) m = nth_error (hs_heap (snd a)) m.
Proof.
  intros hd n m cs. induction cs as [|x cs IH]; intros a N; [reflexivity|]. cbn [fold_left]. rewrite IH by exact N.
  destruct x; try reflexivity. cbn [take_call]. pose proof (resolve_other n r (snd a) m N) as R.
  destruct (resolve_pending n r (snd a)) as [ok h']. exact R.
Qed.

Lemma route_table : forall hd n cs a, hs_table (snd (fold_left (take_call hd n) cs a)) = hs_table (snd a).
Proof.
  intros hd n cs. induction cs as [|x cs IH]; intros a; [reflexivity|]. cbn [fold_left]. rewrite IH.
  destruct x; try reflexivity. cbn [take_call]. pose proof (resolve_table n r (snd a)) as R.
  destruct (resolve_pending n r (snd a)) as [ok h']. exact R.
Qed.

Lemma endpoint_route_state : forall hd info body n h,
  snd (endpoint_route hd info body n h) = snd (fold_left (take_call hd n) (fst (route hd body)) ([], h)).
Proof.
  intros hd info body n h. unfold endpoint_route. destruct (route hd body) as [cs out]. cbn [fst].
  change (fold_left _ cs ([], h)) with (fold_left (take_call hd n) cs ([], h)).
  destruct (fold_left (take_call hd n) cs ([], h)) as [ex h']. destruct out as [[b|]|]; reflexivity.
Qed.

(** States a request may lead to. *)
Definition touches (i : bstr) (draw : N) (h h' : hstate) : Prop :=
  (forall m, m < length (hs_heap h) -> find_session i h <> Some m -> nth_error (hs_heap h') m = nth_error (hs_heap h) m) /\
  (forall j, j <> i -> j <> session_name draw -> find_session j h' = find_session j h).

Lemma touches_refl : forall i d h, touches i d h h.
Proof. intros. split; reflexivity. Qed.

Lemma remove_touches : forall i d h, touches i d h (remove_session i h).
Proof.
  intros i d h. unfold remove_session. destruct (find_session i h) as [n|] eqn:F; [|apply touches_refl]. split.
  - intros m L N. rewrite close_other by congruence. unfold unlink_session. destruct (aget i (hs_table h)); reflexivity.
  - intros j N _. unfold find_session in *. unfold close_session, unlink_session. rewrite F. cbn [hs_heap].
    destruct (nth_error (hs_heap h) n); cbn [hs_table put_session]; now apply aget_adel_other.
Qed.

Lemma endpoint_touches : forall c verify now draw hd q h, touches (f_session q) draw h (snd (handle_endpoint c verify now draw hd q h)).
Proof.
  intros c verify now draw hd q h. unfold handle_endpoint. destruct (enforce c verify now q) as [r|info]; [apply touches_refl|].
  destruct (hq_verb q); try apply touches_refl.
  - destruct (deser_request request0 (hq_body q)) as [isreq r]. destruct (_ && _ && _)%bool.
    + rewrite endpoint_route_state. split.
      * intros m L N. rewrite route_other by lia. cbn [snd]. rewrite create_nth.
        assert (Nat.eqb m (length (hs_heap h)) = false) as -> by (apply Nat.eqb_neq; lia). reflexivity.
      * intros j _ N. unfold find_session. rewrite route_table. now apply create_others.
    + destruct (find_session (f_session q) h) as [n|] eqn:F; [|apply touches_refl]. cbv zeta.
      destruct (check_version _ _); [|apply touches_refl]. rewrite endpoint_route_state. split.
      * intros m L N. rewrite route_other by congruence. reflexivity.
      * intros j _ _. unfold find_session. now rewrite route_table.
  - destruct (f_session q) as [|a l]; [apply touches_refl|]. apply remove_touches.
Qed.

Lemma serve_touches : forall loopback c verify now draw hd q h, touches (f_session q) draw h (snd (serve loopback c verify now draw hd q h)).
Proof.
  intros loopback c verify now draw hd q h. unfold serve. destruct (_ && _ && _)%bool.
  - destruct (check_local _ _ _ _); [apply touches_refl|]. destruct (find_session (f_session q) h); [|apply touches_refl].
    cbv zeta. destruct (check_version _ _); [|apply touches_refl]. split; reflexivity.
  - unfold make_response. destruct (check_local _ _ _ _); [apply touches_refl|].
    destruct (_ || _)%bool; [destruct (hq_verb q); apply touches_refl|].
    destruct (_ && beq (hq_target q) (hc_endpoint c))%bool; [apply endpoint_touches|].
    destruct (hq_verb q); try apply touches_refl.
    destruct (beq (hq_target q) (hc_rpc c)).
    { unfold handle_rpc. destruct (enforce c verify now q) as [r|info]; [apply touches_refl|].
      destruct (deser_request request0 (hq_body q)) as [[] rpc]; [|apply touches_refl]. cbn [negb].
      destruct (route hd (hq_body q)) as [cs [[b|]|]]; apply touches_refl. }
    destruct (beq (hq_target q) (hc_notify c)); [|apply touches_refl].
    unfold handle_notify. destruct (enforce c verify now q) as [r|info]; [apply touches_refl|].
    destruct (deser_notification notification0 (hq_body q)) as [[] rpc]; [|apply touches_refl]. cbn [negb].
    destruct (route hd (hq_body q)) as [cs [b|]]; apply touches_refl.
Qed.

(** Tickets completed by a request were issued on its session. *)
Lemma route_done : forall os hd n cs a h0, snd a = hrun os hstate0 -> hs_done h0 = hs_done (hrun os hstate0) ->
  forall t x, In (t, x) (hs_done (snd (fold_left (take_call hd n) cs a))) ->
  In (t, x) (hs_done h0) \/ exists r k, x = Some r /\ k = id_key (rs_id r) /\ In (CResolve r) cs /\ In (t, n, k) (issued 0 0 os).
Proof.
  intros os hd n cs. revert os. induction cs as [|y cs IH]; intros os a h0 A H0 t x H; [cbn in H; rewrite A in H; left; congruence|].
  cbn [fold_left] in H.
  destruct y as [r| | |].
  2-4: destruct (IH os a h0 A H0 t x H) as [K|(r' & k & K1 & K2 & K3 & K4)]; [now left | right; exists r', k; repeat split; auto; now right].
  cbn [take_call] in H. destruct (resolve_pending n r (snd a)) as [ok h'] eqn:R.
  assert (A' : h' = hrun (os ++ [OResolve n r]) hstate0) by (rewrite hrun_snoc; cbn [hstep]; rewrite <- A, R; reflexivity).
  destruct (IH (os ++ [OResolve n r]) (_, h') h' A' (f_equal hs_done A') t x H) as [K|(r' & k & K1 & K2 & K3 & K4)].
  - rewrite A', hrun_snoc in K. apply resolve_only in K as [K|[-> K]]; [left; congruence|].
    right. exists r, (id_key (rs_id r)). repeat split; auto. now left.
  - right. exists r', k. repeat split; auto; [now right|]. rewrite issued_app in K4. cbn [issued] in K4. now rewrite app_nil_r in K4.
Qed.

Lemma issued_bound : forall os made tick t n k, In (t, n, k) (issued made tick os) -> n < made + creates os.
Proof.
  induction os as [|o os IH]; intros made tick t n k H; [destruct H|].
  destruct o; cbn [issued creates] in *; try (apply IH in H; lia).
  destruct (Nat.ltb n0 made) eqn:L; [|apply IH in H; lia]. destruct H as [H|H]; [|apply IH in H; lia].
  injection H as <- <- <-. apply Nat.ltb_lt in L. lia.
Qed.

Definition completes (os : list hop) (n t : nat) (x : option response) : Prop :=
  exists k, In (t, n, k) (issued 0 0 os) /\
    exists r, x = Some r /\ (id_key (rs_id r) = k \/ r = error_response (IdStr k) (-32603) (bs "HTTP session closed") None).

Lemma create_as_hop : forall os v d, create_session v d (hrun os hstate0) = hrun (os ++ [OCreate v d]) hstate0.
Proof. intros. now rewrite hrun_snoc. Qed.

Lemma serve_completes : forall os loopback c verify now draw hd q t x,
  In (t, x) (hs_done (snd (serve loopback c verify now draw hd q (hrun os hstate0)))) ->
  In (t, x) (hs_done (hrun os hstate0)) \/
  exists n, find_session (f_session q) (hrun os hstate0) = Some n /\ completes os n t x.
Proof.
  intros os loopback c verify now draw hd q t x. set (h := hrun os hstate0). unfold serve.
  destruct (_ && _ && _)%bool.
  { destruct (check_local _ _ _ _); [now left|]. destruct (find_session (f_session q) h); [|now left].
    cbv zeta. destruct (check_version _ _); now left. }
  unfold make_response. destruct (check_local _ _ _ _); [now left|].
  destruct (_ || _)%bool; [destruct (hq_verb q); now left|].
  destruct (_ && beq (hq_target q) (hc_endpoint c))%bool.
  - unfold handle_endpoint. destruct (enforce c verify now q) as [r|info]; [now left|].
    destruct (hq_verb q); try now left.
    + destruct (deser_request request0 (hq_body q)) as [isreq r]. destruct (_ && _ && _)%bool.
      * rewrite endpoint_route_state. intro H. left.
        destruct (route_done (os ++ [OCreate (asked_version r) draw]) hd _ _ ([], create_session (asked_version r) draw h) h
                    (create_as_hop os (asked_version r) draw) (eq_sym (f_equal hs_done (eq_sym (create_as_hop os (asked_version r) draw)))) t x H)
          as [K|(r' & k & K1 & K2 & K3 & K4)]; [exact K|]. exfalso.
        rewrite issued_app in K4. cbn [issued] in K4. rewrite app_nil_r in K4. apply issued_bound in K4.
        pose proof (pv_made _ _ (pinv_run os)) as PM. fold h in PM. lia.
      * destruct (find_session (f_session q) h) as [n|] eqn:F; [|now left]. cbv zeta. destruct (check_version _ _); [|now left].
        rewrite endpoint_route_state. intro H.
        destruct (route_done os hd n _ ([], h) h eq_refl eq_refl t x H) as [K|(r' & k & K1 & K2 & K3 & K4)]; [now left|].
        right. exists n. split; [reflexivity|]. exists k. split; [exact K4|]. exists r'. split; [exact K1|]. left. now symmetry.
    + destruct (f_session q) as [|a l]; [now left|]. cbn [snd]. unfold remove_session.
      destruct (find_session (a :: l) h) as [n|] eqn:F; [|now left]. unfold close_session.
      assert (U : hs_heap (unlink_session (a :: l) h) = hs_heap h /\ hs_done (unlink_session (a :: l) h) = hs_done h)
        by (unfold unlink_session; destruct (aget (a :: l) (hs_table h)); now split).
      destruct U as [U1 U2]. rewrite U1. destruct (nth_error (hs_heap h) n) as [s|] eqn:E; [|rewrite U2; now left].
      cbn [hs_done put_session]. rewrite U2. intro H. apply in_app_or in H as [H|H]; [now left|]. right. exists n. split; [reflexivity|].
      apply in_map_iff in H as ([k t'] & H & I). cbn [fst snd] in H. injection H as <- <-.
      exists k. split; [exact (pv_who _ _ (pinv_run os) n s k t' E I)|]. eexists. split; [reflexivity|]. now right.
  - destruct (hq_verb q); try now left.
    destruct (beq (hq_target q) (hc_rpc c)).
    { unfold handle_rpc. destruct (enforce c verify now q) as [r|info]; [now left|].
      destruct (deser_request request0 (hq_body q)) as [[] rpc]; [|now left]. cbn [negb].
      destruct (route hd (hq_body q)) as [cs [[b|]|]]; now left. }
    destruct (beq (hq_target q) (hc_notify c)); [|now left].
    unfold handle_notify. destruct (enforce c verify now q) as [r|info]; [now left|].
    destruct (deser_notification notification0 (hq_body q)) as [[] rpc]; [|now left]. cbn [negb].
    destruct (route hd (hq_body q)) as [cs [b|]]; now left.
Qed.
