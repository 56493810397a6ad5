(** The server's side of PushModel: what each critical section does to requests and messages. *)
From Coq Require Import Ascii String List Permutation Arith NArith ZArith Bool Lia.
From Verif Require Import StrModel StrProofs DoubleModel JsonModel JsonSpec JsonProofs RpcModel RpcSpec RpcProofs RouterModel RouterProofs MapModel MapProofs MemModel
  PendModel PendProofs AuthModel WwwModel GuardModel WireSpec HttpModel HttpSpec HttpProofs HttpHist HcliModel HcliSpec HcliProofs WebModel WebSpec WebProofs WebInv PushModel PushSpec.
Import ListNotations.
Local Open Scope nat_scope.

(** ** Handling a request is a sequence of critical sections *)
Definition minor (cs : list call) (o : hop) : Prop :=
  match o with
  | OPend _ _ | OQueue _ _ | OTake _ | OWrite _ _ | OStop => False
  | OResolve _ r => In (CResolve r) cs
  | _ => True
  end.

Lemma calls_ops : forall hd n cs a, exists os, snd (fold_left (take_call hd n) cs a) = hrun os (snd a) /\ Forall (minor cs) os.
Proof.
  intros hd n cs. assert (G : forall l, incl l cs -> forall a, exists os, snd (fold_left (take_call hd n) l a) = hrun os (snd a) /\ Forall (minor cs) os).
  { induction l as [|x l IH]; intros L a; [exists []; split; [reflexivity|constructor]|].
    cbn [fold_left]. destruct (IH (fun y Y => L y (or_intror Y)) (take_call hd n a x)) as (os & E & F).
    destruct x as [r|r|m|m]; [|exists os; split; [exact E|exact F]..].
    exists (OResolve n r :: os). split; [|constructor; [apply L; now left|exact F]]. rewrite E. cbn [take_call hrun fold_left hstep].
    destruct (resolve_pending n r (snd a)) as [ok h']. reflexivity. }
  intro a. apply G. now intros x.
Qed.

Lemma serve_ops : forall lb c verify now draw hd q h,
  exists os, snd (serve lb c verify now draw hd q h) = hrun os h /\ Forall (minor (fst (route hd (hq_body q)))) os.
Proof.
  intros lb c verify now draw hd q h.
  assert (N : exists os, h = hrun os h /\ Forall (minor (fst (route hd (hq_body q)))) os) by (exists []; split; [reflexivity|constructor]).
  unfold serve. destruct (_ && _ && _)%bool.
  { destruct (check_local _ _ _ _); [exact N|]. destruct (find_session (f_session q) h) as [n|]; [|exact N].
    cbv zeta. destruct (check_version _ _); [|exact N]. exists [OOpen n]. split; [reflexivity|]. repeat constructor. }
  unfold make_response. destruct (check_local _ _ _ _); [exact N|].
  destruct (_ || _)%bool; [destruct (hq_verb q); exact N|].
  destruct (_ && beq (hq_target q) (hc_endpoint c))%bool.
  - unfold handle_endpoint. destruct (enforce c verify now q) as [r|info]; [exact N|].
    destruct (hq_verb q); try exact N.
    + destruct (deser_request request0 (hq_body q)) as [isreq r]. destruct (_ && _ && _)%bool.
      * rewrite endpoint_route_state. destruct (calls_ops hd (length (hs_heap h)) (fst (route hd (hq_body q))) ([], create_session (asked_version r) draw h)) as (os & E & F).
        exists (OCreate (asked_version r) draw :: os). split; [exact E|]. constructor; [exact I|exact F].
      * destruct (find_session (f_session q) h) as [n|]; [|exact N]. cbv zeta. destruct (check_version _ _); [|exact N].
        rewrite endpoint_route_state. destruct (calls_ops hd n (fst (route hd (hq_body q))) ([], h)) as (os & E & F). exists os. split; [exact E|exact F].
    + destruct (f_session q) as [|a l]; [exact N|]. cbn [snd]. unfold remove_session. destruct (find_session (a :: l) h) as [n|]; [|exact N].
      exists [OUnlink (a :: l); OClose n]. split; [reflexivity|]. repeat constructor.
  - destruct (hq_verb q); try exact N.
    destruct (beq (hq_target q) (hc_rpc c)).
    { unfold handle_rpc. destruct (enforce c verify now q) as [r|info]; [exact N|].
      destruct (deser_request request0 (hq_body q)) as [[] rpc]; [|exact N]. cbn [negb].
      destruct (route hd (hq_body q)) as [cs [[b|]|]]; exact N. }
    destruct (beq (hq_target q) (hc_notify c)); [|exact N].
    unfold handle_notify. destruct (enforce c verify now q) as [r|info]; [exact N|].
    destruct (deser_notification notification0 (hq_body q)) as [[] rpc]; [|exact N]. cbn [negb].
    destruct (route hd (hq_body q)) as [cs [b|]]; exact N.
Qed.

(** ** Requests of the server and their completion *)
Definition akey (x : nat * nat * request) : bstr := id_key (rq_id (snd x)).
Definition aw (R : list (handlers * request)) (r : request) (resp : response) : Prop := exists hd, In (hd, r) R /\ answers hd r resp.

Record pend_ok (A : list (nat * nat * request)) (N : list (nat * request)) (R : list (handlers * request)) (h : hstate) : Prop := {
  po_pend : forall n s k t, nth_error (hs_heap h) n = Some s -> In (k, t) (ss_pending s) -> exists r, In (t, n, r) A /\ id_key (rq_id r) = k;
  po_done : forall t o, In (t, o) (hs_done h) -> exists resp, o = Some resp /\
    ((exists n r, In (t, n, r) A /\ (aw R r resp \/ server_gave_up r resp)) \/
     exists r, In (t, r) N /\ resp = gave (rq_id r) (bs "No active HTTP session"));
  po_kept : forall t n r, In (t, n, r) A -> (exists s, nth_error (hs_heap h) n = Some s /\ In (id_key (rq_id r), t) (ss_pending s)) \/
    exists o, In (t, o) (hs_done h);
  po_old : forall t, In t (map (fun x => fst (fst x)) A ++ map fst N) -> t < hs_ticket h;
  po_each : NoDup (map (fun x => fst (fst x)) A ++ map fst N)
}.

Lemma same_entry : forall (X : Type) (f : X -> bstr) l a b, NoDup (map f l) -> In a l -> In b l -> f a = f b -> a = b.
Proof.
  intros X f l a b. induction l as [|x l IH]; intros N A B E; [easy|]. cbn in N. inversion N as [|? ? N1 N2]; subst.
  destruct A as [<-|A], B as [<-|B]; auto.
  - elim N1. rewrite E. now apply in_map.
  - elim N1. rewrite <- E. now apply in_map.
Qed.

Lemma aset_new : forall (V : Type) k (v : V) m, aget k m = None -> aset k v m = m ++ [(k, v)].
Proof.
  intros V k v m. induction m as [|[k' v'] m IH]; intro H; [reflexivity|]. cbn in *. destruct (beq k k'); [discriminate H|]. now rewrite IH.
Qed.

(** Changes of the state that leave requests alone. *)
Definition like_pend (h h' : hstate) : Prop :=
  (forall n s', nth_error (hs_heap h') n = Some s' -> (exists s, nth_error (hs_heap h) n = Some s /\ ss_pending s = ss_pending s') \/ ss_pending s' = []) /\
  (forall n s, nth_error (hs_heap h) n = Some s -> exists s', nth_error (hs_heap h') n = Some s' /\ ss_pending s' = ss_pending s) /\
  hs_done h' = hs_done h /\ hs_ticket h' = hs_ticket h.

Lemma pend_same : forall A N R h h', like_pend h h' -> pend_ok A N R h -> pend_ok A N R h'.
Proof.
  intros A N R h h' (S1 & S2 & S3 & S4) [P D K O E]. constructor.
  - intros n s k t G I. destruct (S1 n s G) as [(s0 & G0 & Q)|Q]; [|rewrite Q in I; easy]. rewrite <- Q in I. exact (P n s0 k t G0 I).
  - now rewrite S3.
  - intros t n r I. rewrite S3. destruct (K t n r I) as [(s & G & Q)|Q]; [left|now right]. destruct (S2 n s G) as (s' & G' & Q'). exists s'. split; [exact G'|]. now rewrite Q'.
  - now rewrite S4.
  - exact E.
Qed.

Lemma like_pend_refl : forall h, like_pend h h.
Proof. intro h. split; [|split; [|now split]]; intros n s G; [left|]; now exists s. Qed.

Lemma like_pend_put : forall h h' n s s', nth_error (hs_heap h) n = Some s -> hs_heap h' = set_nth n s' (hs_heap h) -> ss_pending s' = ss_pending s ->
  hs_done h' = hs_done h -> hs_ticket h' = hs_ticket h -> like_pend h h'.
Proof.
  intros h h' n s s' G H Q D T. pose proof (nth_lt _ _ _ _ G) as L. split; [|split; [|now split]]; rewrite H.
  - intros m x X. left. destruct (Nat.eq_dec m n) as [->|Ne].
    + rewrite nth_set_same in X by exact L. injection X as <-. exists s. now split.
    + rewrite nth_set_other in X by assumption. now exists x.
  - intros m x X. destruct (Nat.eq_dec m n) as [->|Ne].
    + rewrite nth_set_same by exact L. exists s'. split; [reflexivity|]. congruence.
    + rewrite nth_set_other by assumption. now exists x.
Qed.

Lemma like_pend_heap : forall h h', hs_heap h' = hs_heap h -> hs_done h' = hs_done h -> hs_ticket h' = hs_ticket h -> like_pend h h'.
Proof. intros h h' H D T. split; [|split; [|now split]]; rewrite H; intros n s G; [left|]; now exists s. Qed.

Lemma pend_close : forall A N R what n h, In what [bs "HTTP session closed"; bs "Transport closed"] -> NoDup (map akey A) ->
  pend_ok A N R h -> pend_ok A N R (close_session what n h).
Proof.
  intros A N R what n h W ND [P D K O E]. unfold close_session. destruct (nth_error (hs_heap h) n) as [s|] eqn:G; [|now constructor].
  pose proof (nth_lt _ _ _ _ G) as L. constructor; cbn [hs_heap hs_done hs_ticket put_session].
  - intros m x k t X I. destruct (Nat.eq_dec m n) as [->|Ne].
    + rewrite nth_set_same in X by exact L. injection X as <-. easy.
    + rewrite nth_set_other in X by assumption. exact (P m x k t X I).
  - intros t o I. apply in_app_or in I as [I|I]; [now apply D|]. apply in_map_iff in I as ([k t'] & I & J). cbn [fst snd] in I. injection I as <- <-.
    destruct (P n s k t' G J) as (r & J1 & J2). eexists. split; [reflexivity|]. left. exists n, r. split; [exact J1|]. right. exists what. split; [exact W|]. now rewrite J2.
  - intros t m r I. destruct (K t m r I) as [(x & X & Q)|(o & Q)]; [|right; exists o; apply in_or_app; now left].
    destruct (Nat.eq_dec m n) as [->|Ne].
    + right. rewrite G in X. injection X as <-. eexists. apply in_or_app. right. apply in_map_iff. exists (id_key (rq_id r), t). split; [reflexivity|exact Q].
    + left. exists x. rewrite nth_set_other by assumption. now split.
  - exact O.
  - exact E.
Qed.

Lemma pend_resolve : forall A N R n resp h, NoDup (map akey A) ->
  (exists hd q, In (hd, q) R /\ answers hd q resp /\ rs_id resp = rq_id q /\ exists t m, In (t, m, q) A) ->
  pend_ok A N R h -> pend_ok A N R (snd (resolve_pending n resp h)).
Proof.
  intros A N R n resp h ND (hd & q & I1 & I2 & I3 & t0 & m0 & I4) W. pose proof W as [P D K O E]. unfold resolve_pending.
  destruct (nth_error (hs_heap h) n) as [s|] eqn:G; [|exact W]. destruct (id_key (rs_id resp)) as [|c k0] eqn:Ek; [exact W|]. rewrite <- Ek.
  destruct (aget (id_key (rs_id resp)) (ss_pending s)) as [t|] eqn:Ge; [|exact W]. cbn [snd].
  pose proof (nth_lt _ _ _ _ G) as L. apply aget_in in Ge. destruct (P n s _ t G Ge) as (r & J1 & J2).
  assert (Eq : (t, n, r) = (t0, m0, q)) by (apply (same_entry _ akey A); auto; unfold akey; cbn; congruence). injection Eq as -> -> ->.
  constructor; cbn [hs_heap hs_done hs_ticket put_session].
  - intros m x k u X I. destruct (Nat.eq_dec m m0) as [->|Ne].
    + rewrite nth_set_same in X by exact L. injection X as <-. cbn in I. apply in_adel in I as [I _]. exact (P m0 s k u G I).
    + rewrite nth_set_other in X by assumption. exact (P m x k u X I).
  - intros u o I. apply in_app_or in I as [I|[I|[]]]; [now apply D|]. injection I as <- <-. exists resp. split; [reflexivity|]. left. exists m0, q.
    split; [exact I4|]. left. exists hd. now split.
  - intros u m r' I. destruct (K u m r' I) as [(x & X & Q)|(o & Q)]; [|right; exists o; apply in_or_app; now left].
    destruct (Nat.eq_dec m m0) as [->|Ne].
    + rewrite G in X. injection X as <-. destruct (kdec (id_key (rq_id r')) (id_key (rs_id resp))) as [Ee|Ne].
      * right. exists (Some resp). apply in_or_app. right. left. f_equal.
        assert (Eq : (u, m0, r') = (t0, m0, q)) by (apply (same_entry _ akey A); auto; unfold akey; cbn; congruence). congruence.
      * left. eexists. rewrite nth_set_same by exact L. split; [reflexivity|]. cbn. apply in_adel. now split.
    + left. exists x. rewrite nth_set_other by assumption. now split.
  - exact O.
  - exact E.
Qed.

(** ** One critical section *)
Definition resolvable (A : list (nat * nat * request)) (R : list (handlers * request)) (o : hop) : Prop :=
  match o with
  | OPend _ _ | OQueue _ _ => False
  | OResolve _ resp => exists hd q, In (hd, q) R /\ answers hd q resp /\ rs_id resp = rq_id q /\ exists t m, In (t, m, q) A
  | _ => True
  end.

Lemma pend_op : forall A N R h o, NoDup (map akey A) -> resolvable A R o -> pend_ok A N R h -> pend_ok A N R (hstep h o).
Proof.
  intros A N R h o ND Q W. destruct o as [v d|i|n|n p|n k|n resp|n|k|k ok|]; cbn [hstep]; cbn in Q; try easy.
  - eapply pend_same; [|exact W]. split; [|split; [|now split]]; cbn [create_session hs_heap]; intros n s G.
    + destruct (lt_dec n (length (hs_heap h))) as [L|L].
      * rewrite nth_error_app1 in G by exact L. left. now exists s.
      * right. rewrite nth_error_app2 in G by lia. destruct (n - length (hs_heap h)) as [|[|x]]; try discriminate G. injection G as <-. reflexivity.
    + exists s. rewrite nth_error_app1 by now apply nth_lt in G. now split.
  - eapply pend_same; [|exact W]. unfold unlink_session. destruct (aget i (hs_table h)); apply like_pend_heap; reflexivity.
  - apply pend_close; auto. now left.
  - now apply pend_resolve.
  - eapply pend_same; [|exact W]. apply like_pend_heap; reflexivity.
  - eapply pend_same; [|exact W]. unfold stream_take. destruct (nth_error (hs_streams h) k) as [m|]; [|apply like_pend_refl].
    destruct (sm_alive m), (sm_held m); try apply like_pend_refl. destruct (nth_error (hs_heap h) (sm_session m)) as [s|] eqn:G; [|apply like_pend_refl].
    destruct (ss_closed s) eqn:C; [apply like_pend_heap; reflexivity|]. destruct (ss_queue s) as [|x q0]; [apply like_pend_refl|].
    eapply like_pend_put; [exact G|reflexivity|reflexivity..].
  - eapply pend_same; [|exact W]. unfold stream_write. destruct (nth_error (hs_streams h) k) as [m|]; [|apply like_pend_refl].
    destruct (sm_alive m), (sm_held m); try apply like_pend_refl. apply like_pend_heap; reflexivity.
  - unfold stop_sessions. assert (G : forall (l : list (bstr * nat)) h0, pend_ok A N R h0 -> pend_ok A N R (fold_left (fun a kn => close_session (bs "Transport closed") (snd kn) a) l h0)).
    { induction l as [|x l IH]; intros h0 W0; [exact W0|]. cbn [fold_left]. apply IH. apply pend_close; auto. right. now left. }
    eapply pend_same; [|apply (G (hs_table h) h W)]. apply like_pend_heap; reflexivity.
Qed.

Lemma pend_ops : forall A N R os h, NoDup (map akey A) -> Forall (resolvable A R) os -> pend_ok A N R h -> pend_ok A N R (hrun os h).
Proof.
  intros A N R os. induction os as [|o os IH]; intros h ND F W; [exact W|]. inversion F; subst. cbn [hrun fold_left]. apply IH; auto. now apply pend_op.
Qed.

Lemma pend_grows : forall A N R x h, pend_ok A N R h -> pend_ok A N (R ++ x) h.
Proof.
  intros A N R x h [P D K O E]. constructor; auto. intros t o I. destruct (D t o I) as (resp & D1 & [(n & r & D2 & D3)|D2]); exists resp; (split; [exact D1|]); [left|now right].
  exists n, r. split; [exact D2|]. destruct D3 as [(hd & D3 & D4)|D3]; [left|now right]. exists hd. split; [apply in_or_app; now left|exact D4].
Qed.

(** SendRequest. *)
Lemma pend_ask : forall A N R n r h, NoDup (map akey (A ++ [(hs_ticket h, n, r)])) -> n < length (hs_heap h) ->
  pend_ok A N R h -> pend_ok (A ++ [(hs_ticket h, n, r)]) N R (pend_request n (id_key (rq_id r)) h).
Proof.
  intros A N R n r h ND L [P D K O E]. unfold pend_request. destruct (nth_error (hs_heap h) n) as [s|] eqn:G; [|apply nth_error_None in G; lia].
  assert (Fr : forall m s0 t, nth_error (hs_heap h) m = Some s0 -> ~ In (id_key (rq_id r), t) (ss_pending s0)).
  { intros m s0 t G0 I. destruct (P m s0 _ t G0 I) as (r0 & I0 & Ek). rewrite map_app in ND. apply NoDup_remove_2 in ND. apply ND. rewrite app_nil_r.
    unfold akey at 1. cbn [snd]. rewrite <- Ek. apply (in_map akey) in I0. exact I0. }
  assert (Ge : aget (id_key (rq_id r)) (ss_pending s) = None).
  { destruct (aget _ _) as [t|] eqn:Q; [|reflexivity]. apply aget_in in Q. now elim (Fr n s t G). }
  rewrite Ge, app_nil_r. constructor; cbn [hs_heap hs_done hs_ticket put_session].
  - intros m x k t X I. destruct (Nat.eq_dec m n) as [->|Ne].
    + rewrite nth_set_same in X by exact L. injection X as <-. cbn [ss_pending] in I. rewrite aset_new in I by exact Ge. apply in_app_or in I as [I|[I|[]]].
      * destruct (P n s k t G I) as (r0 & P1 & P2). exists r0. split; [apply in_or_app; now left|exact P2].
      * injection I as <- <-. exists r. split; [apply in_or_app; right; now left|reflexivity].
    + rewrite nth_set_other in X by assumption. destruct (P m x k t X I) as (r0 & P1 & P2). exists r0. split; [apply in_or_app; now left|exact P2].
  - intros t o I. destruct (D t o I) as (resp & D1 & [(m & q & D2 & D3)|D2]); exists resp; (split; [exact D1|]); [left|now right].
    exists m, q. split; [apply in_or_app; now left|exact D3].
  - intros t m q I. apply in_app_or in I as [I|[I|[]]].
    + destruct (K t m q I) as [(x & X & Q)|Q]; [left|now right]. destruct (Nat.eq_dec m n) as [->|Ne].
      * eexists. rewrite nth_set_same by exact L. split; [reflexivity|]. cbn [ss_pending]. rewrite G in X. injection X as <-. rewrite aset_new by exact Ge. apply in_or_app. now left.
      * exists x. rewrite nth_set_other by assumption. now split.
    + injection I as <- <- <-. left. eexists. rewrite nth_set_same by exact L. split; [reflexivity|]. cbn. apply aget_in. apply aget_aset_same.
  - intros t I. rewrite map_app, <- app_assoc in I. apply in_app_or in I as [I|I]; [|cbn in I; destruct I as [<-|I]; [lia|]].
    + assert (t < hs_ticket h) by (apply O, in_or_app; now left). lia.
    + assert (t < hs_ticket h) by (apply O, in_or_app; now right). lia.
  - rewrite map_app, <- app_assoc. cbn [map fst app]. apply NoDup_Add with (a := hs_ticket h) (l := map (fun x => fst (fst x)) A ++ map fst N); [apply Add_app|].
    split; [exact E|]. intro I. apply O in I. lia.
Qed.
