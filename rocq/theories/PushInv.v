(** The invariant of PushModel: the messages under way to the client, and its answers. *)
From Coq Require Import Ascii String List Permutation Arith NArith ZArith Bool Lia.
From Verif Require Import StrModel StrProofs DoubleModel JsonModel JsonSpec JsonProofs RpcModel RpcSpec RpcProofs RouterModel RouterProofs MapModel MapProofs MemModel
  PendModel PendProofs AuthModel WwwModel GuardModel WireSpec HttpModel HttpSpec HttpProofs HttpHist HcliModel HcliSpec HcliProofs WebModel WebSpec WebProofs WebInv PushModel PushSpec PushProofs.
Import ListNotations.
Local Open Scope nat_scope.

(** ** The messages under way to the client *)
Definition held (m : stream) : list (bstr * bstr) := match sm_held m with Some x => [x] | None => [] end.
Definition unread (i : nat) (read : list nat) (m : stream) : list bstr := map snd (skipn (reads i read) (sm_wire m) ++ held m).
Fixpoint unreads (i : nat) (read : list nat) (l : list stream) : list bstr :=
  match l with [] => [] | m :: r => unread i read m ++ unreads (S i) read r end.
Definition queues (l : list session) : list bstr := flat_map (fun s => map snd (ss_queue s)) l.
Definition mail (read : list nat) (h : hstate) : list bstr := queues (hs_heap h) ++ unreads 0 read (hs_streams h).

Lemma unreads_app : forall read a i b, unreads i read (a ++ b) = unreads i read a ++ unreads (i + length a) read b.
Proof.
  intros read a. induction a as [|m a IH]; intros i b; [cbn; now rewrite Nat.add_0_r|]. cbn. rewrite IH, app_assoc. do 2 f_equal. lia.
Qed.

Lemma unreads_other : forall read k l i, k < i \/ i + length l <= k -> unreads i (read ++ [k]) l = unreads i read l.
Proof.
  intros read k l. induction l as [|m l IH]; intros i H; [reflexivity|]. cbn in *. rewrite IH by lia. f_equal. unfold unread, reads.
  rewrite count_occ_app. cbn. destruct (Nat.eq_dec k i) as [->|N]; [lia|]. now rewrite Nat.add_0_r.
Qed.

(** l with something taken away. *)
Definition shrinks (l l' : list bstr) : Prop := exists rest, Permutation l (l' ++ rest).
Lemma shrinks_refl : forall l, shrinks l l.
Proof. intro l. exists []. now rewrite app_nil_r. Qed.
Lemma shrinks_eq : forall l l', l' = l -> shrinks l l'.
Proof. intros l l' ->. apply shrinks_refl. Qed.
Lemma shrinks_trans : forall a b c, shrinks a b -> shrinks b c -> shrinks a c.
Proof. intros a b c (x & A) (y & B). exists (y ++ x). rewrite A, B, app_assoc. reflexivity. Qed.

Lemma queues_ext : forall l l', length l' = length l -> (forall n, option_map ss_queue (nth_error l' n) = option_map ss_queue (nth_error l n)) -> queues l' = queues l.
Proof.
  induction l as [|s l IH]; intros [|s' l'] L H; try discriminate L; [reflexivity|]. cbn. f_equal.
  - specialize (H 0). cbn in H. now injection H as ->.
  - apply IH; [now injection L|]. intro n. exact (H (S n)).
Qed.

Lemma same_mail : forall read h h', same_traffic h h' -> mail read h' = mail read h.
Proof.
  intros read h h' (A & B & C). unfold mail. rewrite B. f_equal. apply queues_ext; [exact A|]. intro n. specialize (C n).
  destruct (nth_error (hs_heap h') n), (nth_error (hs_heap h) n); cbn in *; congruence.
Qed.

Lemma queues_app : forall a b, queues (a ++ b) = queues a ++ queues b.
Proof. intros. apply flat_map_app. Qed.

Lemma skipn_app_sub : forall (A : Type) n (a b : list A), skipn n (a ++ b) = skipn n a ++ skipn (n - length a) b.
Proof. intros. apply skipn_app. Qed.

Lemma mail_op : forall read h o, (match o with OPend _ _ | OQueue _ _ => False | _ => True end) -> shrinks (mail read h) (mail read (hstep h o)).
Proof.
  intros read h o Q. destruct o as [v d|i|n|n p|n k|n resp|n|k|k ok|]; cbn [hstep]; try easy.
  - apply shrinks_eq. unfold mail. cbn [create_session hs_heap hs_streams]. rewrite queues_app. cbn. now rewrite app_nil_r.
  - apply shrinks_eq. apply same_mail, same_unlink.
  - apply shrinks_eq. apply same_mail, same_close.
  - apply shrinks_eq. apply same_mail, same_resolve.
  - apply shrinks_eq. unfold mail. cbn [open_stream hs_heap hs_streams]. rewrite unreads_app. cbn. unfold unread. cbn. rewrite skipn_nil. cbn. now rewrite app_nil_r.
  - unfold stream_take. destruct (nth_error (hs_streams h) k) as [m|] eqn:G; [|apply shrinks_refl].
    destruct (sm_alive m); [|apply shrinks_refl]. destruct (sm_held m) eqn:H; [apply shrinks_refl|].
    destruct (nth_error (hs_heap h) (sm_session m)) as [s|] eqn:E; [|apply shrinks_refl]. destruct (ss_closed s).
    + apply shrinks_eq. unfold mail. cbn [put_stream hs_heap hs_streams]. f_equal.
      match goal with |- context [set_nth k ?y (hs_streams h)] => destruct (set_nth_split _ k (hs_streams h) m y G) as (l1 & l2 & -> & L & ->) end.
      rewrite !unreads_app. cbn [unreads]. unfold unread, held. cbn. now rewrite H.
    + destruct (ss_queue s) as [|x q] eqn:Sq; [apply shrinks_refl|]. unfold mail. cbn [put_stream put_session hs_heap hs_streams].
      match goal with |- context [set_nth k ?y (hs_streams h)] => destruct (set_nth_split _ k (hs_streams h) m y G) as (l1 & l2 & -> & L & ->) end.
      match goal with |- context [set_nth (sm_session m) ?y (hs_heap h)] => destruct (set_nth_split _ (sm_session m) (hs_heap h) s y E) as (k1 & k2 & -> & K & ->) end.
      exists []. rewrite app_nil_r, !unreads_app, !queues_app. cbn [unreads queues flat_map]. unfold unread, held. cbn [sm_wire sm_held ss_queue]. rewrite H, Sq, !map_app. cbn [map].
      rewrite app_nil_r. fold (queues k2). cbn [app]. rewrite <- !app_assoc. apply Permutation_app_head. cbn [app].
      set (W := map snd (skipn (reads (0 + length l1) read) (sm_wire m))). set (U1 := unreads 0 read l1). set (U2 := unreads (S (0 + length l1)) read l2).
      rewrite <- !app_assoc. rewrite (app_assoc _ W (snd x :: U2)), (app_assoc _ W U2), (app_assoc _ (U1 ++ W) (snd x :: U2)), (app_assoc _ (U1 ++ W) U2).
      rewrite (app_assoc _ _ (snd x :: U2)), (app_assoc _ _ U2). apply Permutation_middle.
  - unfold stream_write. destruct (nth_error (hs_streams h) k) as [m|] eqn:G; [|apply shrinks_refl].
    destruct (sm_alive m); [|apply shrinks_refl]. destruct (sm_held m) as [x|] eqn:H; [|apply shrinks_refl]. unfold mail. cbn [put_stream hs_heap hs_streams].
    match goal with |- context [set_nth k ?y (hs_streams h)] => destruct (set_nth_split _ k (hs_streams h) m y G) as (l1 & l2 & -> & L & ->) end.
    rewrite !unreads_app. cbn [unreads]. unfold unread, held. rewrite H.
    set (U1 := unreads 0 read l1). set (U2 := unreads (S (0 + length l1)) read l2). set (r := reads (0 + length l1) read).
    assert (G2 : exists rest, map snd (skipn r (sm_wire m) ++ [x]) = map snd (skipn r (sm_wire (if ok then {| sm_session := sm_session m; sm_held := None; sm_wire := sm_wire m ++ [x]; sm_alive := true |} else {| sm_session := sm_session m; sm_held := None; sm_wire := sm_wire m; sm_alive := false |})) ++
      match sm_held (if ok then {| sm_session := sm_session m; sm_held := None; sm_wire := sm_wire m ++ [x]; sm_alive := true |} else {| sm_session := sm_session m; sm_held := None; sm_wire := sm_wire m; sm_alive := false |}) with Some x => [x] | None => [] end) ++ rest).
    { destruct ok; cbn [sm_wire sm_held]; rewrite !app_nil_r.
      - rewrite skipn_app. destruct (r - length (sm_wire m)) as [|d] eqn:D; [exists []; cbn; now rewrite app_nil_r|].
        exists [snd x]. cbn. rewrite skipn_nil, app_nil_r, map_app. reflexivity.
      - exists [snd x]. now rewrite map_app. }
    destruct G2 as (rest & G2). rewrite G2. exists rest. rewrite <- !app_assoc. do 3 apply Permutation_app_head. apply Permutation_app_comm.
  - apply shrinks_eq. apply same_mail, same_stop.
Qed.

Lemma mail_ops : forall read os h, Forall (fun o => match o with OPend _ _ | OQueue _ _ => False | _ => True end) os -> shrinks (mail read h) (mail read (hrun os h)).
Proof.
  intros read os. induction os as [|o os IH]; intros h F; [apply shrinks_refl|]. inversion F; subst. cbn [hrun fold_left].
  eapply shrinks_trans; [apply (mail_op read h o); assumption|]. now apply IH.
Qed.

Lemma mail_queue : forall read n text h, shrinks (text :: mail read h) (mail read (queue_outbound n text h)).
Proof.
  intros read n text h. unfold queue_outbound. destruct (nth_error (hs_heap h) n) as [s|] eqn:E; [|exists [text]; apply Permutation_cons_append].
  unfold mail. cbn [put_session hs_heap hs_streams].
  match goal with |- context [set_nth n ?y (hs_heap h)] => destruct (set_nth_split _ n (hs_heap h) s y E) as (k1 & k2 & -> & K & ->) end.
  exists []. rewrite app_nil_r, !queues_app. cbn [queues flat_map ss_queue]. rewrite map_app. cbn [map snd]. fold (queues k2). rewrite <- !app_assoc.
  rewrite (app_assoc (queues k1)). rewrite (app_assoc (queues k1) (map snd (ss_queue s)) ([text] ++ _)). apply (Permutation_middle (queues k1 ++ map snd (ss_queue s))).
Qed.

Lemma mail_read : forall read k m x h, nth_error (hs_streams h) k = Some m -> nth_error (sm_wire m) (reads k read) = Some x ->
  Permutation (mail read h) (snd x :: mail (read ++ [k]) h).
Proof.
  intros read k m x h G N. unfold mail. destruct (nth_error_split _ _ G) as (l1 & l2 & E & L). rewrite E.
  rewrite !unreads_app. cbn [unreads]. rewrite Nat.add_0_l, L, !unreads_other by lia.
  assert (W : unread k read m = snd x :: unread k (read ++ [k]) m).
  { unfold unread. assert (R : reads k (read ++ [k]) = S (reads k read)) by (unfold reads; rewrite count_occ_app; cbn; destruct (Nat.eq_dec k k); [lia|congruence]).
    rewrite R. destruct (nth_error_split _ _ N) as (w1 & w2 & Ew & Lw). rewrite Ew, <- Lw.
    rewrite !skipn_app, Nat.sub_diag, (skipn_all2 w1 (n := length w1)), (skipn_all2 w1 (n := S (length w1))) by lia. replace (S (length w1) - length w1) with 1 by lia. reflexivity. }
  rewrite W. rewrite !app_assoc. set (Z := queues (hs_heap h) ++ unreads 0 read l1). rewrite <- !app_assoc. apply Permutation_sym. apply (Permutation_middle Z).
Qed.

(** ** What the messages are *)
Definition mail_ok (A : list (nat * nat * request)) (text : bstr) : Prop :=
  exists m, text = wire_text m /\ wire_ok m /\
    match m with WRequest r => exists t n, In (t, n, r) A | WNotification _ => True | WResponse _ => False end.

Definition none_hd : handlers := {| h_request := None; h_notification := None; h_error := false |}.
Definition text_keys (text : bstr) : list bstr := map (fun r => id_key (rq_id r)) (requests_in (fst (route (wrap_handlers none_hd) text))).
Definition texts_keys (l : list bstr) : list bstr := flat_map text_keys l.
Definition ran_keys (R : list (handlers * request)) : list bstr := map (fun x => id_key (rq_id (snd x))) R.

Record mail_inv (A : list (nat * nat * request)) (R : list (handlers * request)) (wait : list (nat * bstr)) (read : list nat) (h : hstate) : Prop := {
  mi_wait : Forall (fun x => mail_ok A (snd x)) wait;
  mi_mail : Forall (mail_ok A) (mail read h);
  mi_count : forall k, cnt k (ran_keys R) + cnt k (texts_keys (map snd wait)) + cnt k (texts_keys (mail read h)) <= cnt k (map akey A)
}.

Lemma shrinks_forall : forall (P : bstr -> Prop) l l', shrinks l l' -> Forall P l -> Forall P l'.
Proof.
  intros P l l' (x & H) F. apply (Permutation_Forall H) in F. now apply Forall_app in F.
Qed.
Lemma shrinks_count : forall k l l', shrinks l l' -> cnt k (texts_keys l') <= cnt k (texts_keys l).
Proof.
  intros k l l' (x & H). rewrite (cnt_perm k (texts_keys l) (texts_keys (l' ++ x))) by (apply Permutation_flat_map; exact H).
  unfold texts_keys. rewrite flat_map_app, cnt_app. lia.
Qed.

Lemma mail_shrinks : forall A R wait read h read' h', shrinks (mail read h) (mail read' h') -> mail_inv A R wait read h -> mail_inv A R wait read' h'.
Proof.
  intros A R wait read h read' h' S [W M C]. constructor; [exact W|eapply shrinks_forall; eassumption|]. intro k. specialize (C k).
  pose proof (shrinks_count k _ _ S). lia.
Qed.

Lemma mail_ok_grows : forall A x t, mail_ok A t -> mail_ok (A ++ x) t.
Proof.
  intros A x t (m & H1 & H2 & H3). exists m. split; [exact H1|]. split; [exact H2|]. destruct m; auto. destruct H3 as (t0 & n & H3). exists t0, n.
  apply in_or_app. now left.
Qed.

Lemma request_text : forall hd r, wire_ok (WRequest r) -> requests_in (fst (route (wrap_handlers hd) (ser_request r))) = [r].
Proof. intros hd r (M1 & M2 & M3 & M4 & M5). erewrite route_request by (try reflexivity; auto). reflexivity. Qed.
Lemma notification_text : forall hd n, wire_ok (WNotification n) -> requests_in (fst (route (wrap_handlers hd) (ser_notification n))) = [].
Proof.
  intros hd n (M1 & M2 & M3). rewrite route_notif by auto. destruct (h_notification (wrap_handlers hd)) as [f|]; [|reflexivity]. destruct (f n); reflexivity.
Qed.
Lemma mail_requests : forall A hd text, mail_ok A text -> requests_in (fst (route (wrap_handlers hd) text)) = requests_in (fst (route (wrap_handlers none_hd) text)).
Proof.
  intros A hd text (m & -> & M & K). destruct m as [r|r|n]; [|easy|]; cbn [wire_text].
  - now rewrite !request_text.
  - now rewrite !notification_text.
Qed.

Lemma mail_ask : forall A R wait read h t n r, wire_ok (WRequest r) -> mail_inv A R wait read h ->
  mail_inv (A ++ [(t, n, r)]) R (wait ++ [(n, ser_request r)]) read (pend_request n (id_key (rq_id r)) h).
Proof.
  intros A R wait read h t n r Wr [W M C]. rewrite <- (same_mail read _ _ (same_pend n (id_key (rq_id r)) h)) in M. constructor.
  - apply Forall_app. split; [eapply Forall_impl; [|exact W]; intros x; apply mail_ok_grows|]. constructor; [|constructor]. exists (WRequest r).
    split; [reflexivity|]. split; [exact Wr|]. exists t, n. apply in_or_app. right. now left.
  - eapply Forall_impl; [|exact M]. intros x; apply mail_ok_grows.
  - intro k. specialize (C k). rewrite (same_mail read _ _ (same_pend n (id_key (rq_id r)) h)).
    rewrite !map_app. unfold texts_keys in *. rewrite flat_map_app, !cnt_app. cbn [map snd flat_map]. rewrite app_nil_r. unfold text_keys at 2. rewrite request_text by exact Wr.
    unfold akey at 2. cbn [map snd]. lia.
Qed.

(** ** The client's POSTs *)
Definition reply_ok (R : list (handlers * request)) (p : purpose * bstr) : Prop :=
  match fst p with
  | PuRequest _ => True
  | PuNotify => exists n, wire_ok (WNotification n) /\ snd p = ser_notification n
  | PuReply => exists hd r resp, In (hd, r) R /\ answers hd r resp /\ wire_ok (WResponse resp) /\ snd p = ser_response resp
  end.
Definition cli_ok (R : list (handlers * request)) (h : hcli) : Prop := Forall (reply_ok R) (hc_queue h ++ hc_flight h).

Lemma reply_ok_grows : forall R x p, reply_ok R p -> reply_ok (R ++ x) p.
Proof.
  intros R x p H. unfold reply_ok in *. destruct (fst p); auto. destruct H as (hd & r & resp & H & H2). exists hd, r, resp. split; [apply in_or_app; now left|exact H2].
Qed.

Lemma cli_more : forall R x h g y, cli_ok R h -> hc_flight g = hc_flight h -> hc_queue g = hc_queue h ++ y -> Forall (reply_ok (R ++ x)) y -> cli_ok (R ++ x) g.
Proof.
  intros R x h g y C F Q Y. unfold cli_ok in *. rewrite F, Q. apply Forall_app in C as [C1 C2].
  assert (Gr : forall l, Forall (reply_ok R) l -> Forall (reply_ok (R ++ x)) l) by (intros l; apply Forall_impl; intro; apply reply_ok_grows).
  repeat (apply Forall_app; split); auto.
Qed.
Lemma cli_same : forall R h g, cli_ok R h -> hc_flight g = hc_flight h -> hc_queue g = hc_queue h -> cli_ok R g.
Proof. intros R h g C F Q. unfold cli_ok in *. now rewrite F, Q. Qed.

Lemma cli_own : forall c R h a, cli_ok R h -> own_step a = true -> proper (WClient a) -> cli_ok R (hcstep c h a).
Proof.
  intros c R h a C O P. unfold hcstep. destruct (hc_crashed h); [exact C|].
  destruct a as [|r|n|nt|n|n ex hd|hs|text hd| | | | |]; try discriminate O; try exact C.
  - destruct (hc_thread h); exact C.
  - unfold hc_begin. destruct (hc_connected h); [|exact C]. destruct (rq_id r) as [[|c0 s]|z|]; exact C.
  - destruct (take_nth n (hc_entering h)) as [[r rest]|]; [|exact C]. rewrite <- (app_nil_r R).
    eapply cli_more; [exact C|reflexivity|reflexivity|]. constructor; [exact I|constructor].
  - destruct (hc_connected h); [|exact C]. rewrite <- (app_nil_r R).
    eapply cli_more; [exact C|reflexivity|reflexivity|]. constructor; [|constructor]. exists nt. split; [exact P|reflexivity].
  - destruct (hc_session h); [exact C|]. destruct (_ && _)%bool; exact C.
Qed.

Lemma cli_post : forall c R h n, cli_ok R h -> cli_ok R (hcstep c h (TPost n)).
Proof.
  intros c R h n C. unfold hcstep. destruct (hc_crashed h); [exact C|]. destruct (_ && _)%bool; [|exact C].
  destruct (take_nth n (hc_queue h)) as [[p rest]|] eqn:T; [|exact C]. unfold cli_ok in *. apply Forall_app in C as [C1 C2].
  destruct (take_nth_forall _ _ _ _ _ _ T C1) as [T1 T2]. hcs. repeat (apply Forall_app; split); auto.
Qed.

Lemma no_replies : forall hd text, (forall q, ~ is_request text q) -> replies_to hd text = [].
Proof.
  intros hd text H. unfold replies_to. destruct (route_kinds text) as [(r & _ & _ & Y)|[(r & Y & _)|(Y & _)]].
  - now rewrite Y.
  - now elim (H r).
  - rewrite Y. unfold route_notification. destruct (deser_notification notification0 text) as [[|] nn].
    + destruct (h_notification (wrap_handlers hd)) as [f|]; [|reflexivity]. destruct (f nn); reflexivity.
    + destruct (h_error (wrap_handlers hd)); reflexivity.
Qed.

Lemma no_resolve : forall hd text, no_response text -> forall r, ~ In (CResolve r) (fst (route hd text)).
Proof.
  intros hd text H r I.
  unfold route in I. destruct (deser_response response0 text) as [ok resp] eqn:D.
  destruct ((has_top_key (bs "result") text || has_top_key (bs "error") text) && ok)%bool eqn:B.
  - apply (H resp). intro h0. unfold route. now rewrite D, B.
  - assert (N : forall q, ~ In (CResolve q) (fst (route_notification hd text))).
    { intros q J. destruct (notification_calls hd text) as [(n & Q)|[(e & Q)|Q]]; rewrite Q in J; cbn in J; intuition discriminate. }
    destruct (h_request hd) as [f|], (deser_request request0 text) as [okr r1]; try (now apply N in I).
    destruct (_ && _ && _)%bool; [|now apply N in I]. destruct I as [I|[]]. discriminate I.
Qed.

Lemma answers_id : forall hd r resp, answers hd r resp -> rs_id resp = rq_id r.
Proof. intros hd r resp A. unfold answers in A. destruct (h_request hd) as [f|]; [destruct (f r)|]; [apply A|subst resp; reflexivity..]. Qed.

Lemma answers_one : forall hd r a b, answers hd r a -> answers hd r b -> a = b.
Proof.
  intros hd r a b A B. unfold answers in *. destruct (h_request hd) as [f|]; [destruct (f r)|]; try congruence.
  destruct A as (A1 & A2 & A3), B as (B1 & B2 & B3). destruct a, b. cbn in *. congruence.
Qed.

Lemma cli_event : forall c R h text hd A, cli_ok R h -> mail_ok A text -> answers_well hd ->
  cli_ok (R ++ (if listening h then map (fun r => (hd, r)) (requests_in (fst (route (wrap_handlers hd) text))) else [])) (hcstep c h (TEvent text hd)).
Proof.
  intros c R h text hd A C (m & -> & M & K) Aw. unfold hcstep, listening. destruct (hc_crashed h); cbn [negb andb]; [now rewrite app_nil_r|].
  destruct (hc_connected h && hc_sse h)%bool; [|now rewrite app_nil_r].
  destruct (incoming_effect false hd [] (wire_text m) h) as (S & _ & _ & _ & Q & _).
  eapply cli_more; [exact C|apply (sh_flight _ _ S)|exact Q|]. destruct m as [r|r|n]; [|easy|]; cbn [wire_text].
  - rewrite request_text by exact M. unfold replies_to. destruct (h_request (wrap_handlers hd)) as [f|] eqn:F; [|discriminate F].
    pose proof M as (M1 & M2 & M3 & M4 & M5). rewrite (route_request _ f r F) by auto. constructor; [|constructor].
    assert (An : answers hd r (reply (rq_id r) (f r))).
    { cbn in F. unfold answers. destruct (h_request hd) as [f0|]; injection F as <-; [destruct (f0 r); cbn; auto|reflexivity]. }
    exists hd, r, (reply (rq_id r) (f r)). split; [apply in_or_app; right; now left|]. split; [exact An|]. split; [now apply (Aw r)|reflexivity].
  - rewrite no_replies; [constructor|]. intros q Q0. specialize (Q0 demo_hd ltac:(discriminate)). destruct M as (M1 & M2 & M3). rewrite route_notif in Q0 by auto. discriminate Q0.
Qed.

Lemma cli_done : forall e R h n ex hd airs ran a, cli_ok R h -> winv e h airs ran -> take_nth n airs = Some a -> ar_back (fst a) = Some ex ->
  cli_ok R (hcstep (en_client e) h (TDone n ex hd)).
Proof.
  intros e R h n ex hd airs ran [a rest] C W T B. cbn [fst] in B. unfold hcstep. destruct (hc_crashed h); [exact C|]. destruct (_ && _)%bool; [|exact C].
  pose proof (take_map _ _ flown _ _ _ _ T) as Tf. rewrite (wi_air _ _ _ _ W) in Tf. rewrite Tf. cbn [fst flown].
  unfold cli_ok in C. apply Forall_app in C as [C1 C2]. destruct (take_nth_forall _ _ _ _ _ _ Tf C2) as [_ C3].
  assert (C0 : cli_ok R (hc_set_posts (hc_queue h) (map flown rest) h)) by (unfold cli_ok; hcs; apply Forall_app; now split).
  unfold hc_end. destruct (ar_purpose a) as [k| |] eqn:Pu; [|exact C0..].
  destruct (take_nth_forall _ _ _ _ _ _ T (wi_back _ _ _ _ W)) as [Bk _]. destruct (Bk k ex Pu B) as [Nr _].
  assert (C4 : cli_ok R (hc_set_heard (hc_ended h ++ [(k, ex)]) (hc_heard h) (hc_calls h) (capture (ex_headers ex) (hc_set_posts (hc_queue h) (map flown rest) h)))) by exact C0.
  destruct (ex_body ex) as [|c0 b0] eqn:Eb; [exact C4|]. rewrite <- Eb in *. clear c0 b0 Eb.
  match goal with |- context [incoming true hd k ?m ?y] => destruct (incoming_effect true hd k m y) as (Sh & _ & _ & _ & A2 & _) end.
  rewrite no_replies, app_nil_r in A2 by exact Nr. eapply cli_same; [exact C4|apply (sh_flight _ _ Sh)|exact A2].
Qed.

(** ** Sessions in the table exist *)
Definition table_ok (h : hstate) : Prop := forall i n, In (i, n) (hs_table h) -> n < length (hs_heap h).

Lemma table_same : forall h h', table_ok h -> incl (hs_table h') (hs_table h) -> length (hs_heap h) <= length (hs_heap h') -> table_ok h'.
Proof. intros h h' T I L i n J. apply I in J. apply T in J. lia. Qed.

Lemma in_aset_weak : forall k (v : nat) x m, In x (aset k v m) -> x = (k, v) \/ In x m.
Proof.
  intros k v x m. induction m as [|[k' v'] m IH]; cbn; [intuition|]. destruct (beq k k'); cbn; intuition.
Qed.

Lemma table_close : forall w n h, hs_table (close_session w n h) = hs_table h /\ length (hs_heap (close_session w n h)) = length (hs_heap h).
Proof.
  intros w n h. unfold close_session. destruct (nth_error (hs_heap h) n) eqn:E; [|now split]. cbn. split; [reflexivity|]. apply set_nth_length. now apply nth_lt in E.
Qed.

Lemma table_op : forall h o, table_ok h -> table_ok (hstep h o).
Proof.
  intros h o T. destruct o as [v d|i|n|n p|n k|n resp|n|k|k ok|]; cbn [hstep].
  - intros i n I. cbn [create_session hs_table hs_heap] in *. rewrite app_length. cbn. apply in_aset_weak in I as [I|I]; [injection I as -> ->; lia|]. apply T in I. lia.
  - unfold unlink_session. destruct (aget i (hs_table h)); [|exact T]. eapply table_same; [exact T| |cbn; lia]. cbn. intros x X. now apply in_adel in X.
  - destruct (table_close (bs "HTTP session closed") n h) as [A B]. eapply table_same; [exact T|rewrite A; apply incl_refl|lia].
  - unfold queue_outbound. destruct (nth_error (hs_heap h) n) eqn:E; [|exact T]. eapply table_same; [exact T|apply incl_refl|]. cbn. rewrite set_nth_length; [lia|]. now apply nth_lt in E.
  - unfold pend_request. destruct (nth_error (hs_heap h) n) eqn:E; [|exact T]. eapply table_same; [exact T|apply incl_refl|]. cbn. rewrite set_nth_length; [lia|]. now apply nth_lt in E.
  - eapply table_same; [exact T|rewrite resolve_table; apply incl_refl|]. destruct (same_resolve n resp h) as [A _]. lia.
  - exact T.
  - destruct (stream_take_ends k h) as [-> |[(m & _ & _ & _ & ->)|(m & s & x & q & _ & _ & _ & G & _ & _ & ->)]]; [exact T|exact T|].
    eapply table_same; [exact T|apply incl_refl|]. cbn. rewrite set_nth_length; [lia|]. now apply nth_lt in G.
  - unfold stream_write. destruct (nth_error (hs_streams h) k) as [m|]; [|exact T]. destruct (sm_alive m), (sm_held m); exact T.
  - intros i n I. cbn in I. easy.
Qed.
