(** Serialized messages have no line breaks. *)
From Coq Require Import Ascii String List Permutation Sorted Arith NArith ZArith Bool Lia ZifyBool ZifyNat ZifyN.
From Verif Require Import StrModel StrProofs DoubleModel DoubleProofs JsonModel JsonSpec JsonProofs RpcModel RpcSpec RpcProofs RouterModel RouterProofs
  MapModel MemModel AuthModel WwwModel GuardModel HttpModel HttpSpec HttpHist SseModel SseSpec SseProofs.
Import ListNotations.
Local Open Scope nat_scope.

Definition nb (c : ascii) : Prop := c <> LF /\ c <> CR.
Definition nbs (s : bstr) : Prop := Forall nb s.

Lemma nbs_iff : forall s, nbs s <-> breakless s.
Proof.
  intros s. unfold nbs, breakless. rewrite Forall_forall. split.
  - intro H. split; intro I; destruct (H _ I) as [A B]; [now apply A|now apply B].
  - intros [A B] c I. split; intros ->; [now apply A|now apply B].
Qed.

Lemma nbs_app : forall a b, nbs a -> nbs b -> nbs (a ++ b).
Proof. intros. apply Forall_app. now split. Qed.
Lemma nbs_cons : forall c b, nb c -> nbs b -> nbs (c :: b).
Proof. intros. now constructor. Qed.

Definition nbb (s : bstr) : bool := forallb (fun c => negb (Ascii.eqb c LF) && negb (Ascii.eqb c CR))%bool s.
Lemma nbb_nbs : forall s, nbb s = true -> nbs s.
Proof.
  intros s H. apply Forall_forall. intros c I. unfold nbb in H. rewrite forallb_forall in H. specialize (H _ I). cbv beta in H.
  apply andb_true_iff in H as [A B]. apply negb_true_iff in A, B. split; intros ->; [now rewrite Ascii.eqb_refl in A|now rewrite Ascii.eqb_refl in B].
Qed.

Lemma digits_nbs : forall s, forallb is_digit s = true -> nbs s.
Proof.
  intros s H. apply Forall_forall. intros c I. rewrite forallb_forall in H. specialize (H _ I).
  split; intros ->; vm_compute in H; discriminate.
Qed.

Lemma print_N_nbs : forall n, nbs (print_N n).
Proof. intro n. apply digits_nbs. apply (print_N_spec n). Qed.
Lemma print_Z_nbs : forall z, nbs (print_Z z).
Proof.
  intro z. unfold print_Z. destruct (Z.ltb z 0); [|apply print_N_nbs]. apply nbs_cons; [|apply print_N_nbs]. split; discriminate.
Qed.
Lemma sign_nbs : forall s, nbs (sign_text s). Proof. intros []; apply nbb_nbs; reflexivity. Qed.

Lemma print_double_nbs : forall d, nbs (print_double d).
Proof.
  intros [s|s m e|s|s]; unfold print_double.
  - apply nbs_app; [apply sign_nbs|now apply nbb_nbs].
  - cbv zeta. apply nbs_app; [apply sign_nbs|]. apply nbs_app; [apply print_N_nbs|].
    apply nbs_app; [now apply nbb_nbs|]. apply digits_nbs. apply (pad_digits_spec 6). apply N.mod_lt. lia.
  - apply nbs_app; [apply sign_nbs|now apply nbb_nbs].
  - apply nbs_app; [apply sign_nbs|now apply nbb_nbs].
Qed.

Lemma esc_char_nbb : forall c, nbb (esc_char c) = true.
Proof. apply all_ascii. vm_compute. reflexivity. Qed.

Lemma ser_str_nbs : forall s, nbs (ser_str s).
Proof.
  intro s. unfold ser_str. apply nbs_cons; [split; discriminate|]. apply nbs_app; [|now apply nbb_nbs].
  unfold esc. apply Forall_flat_map. apply Forall_forall. intros c _. apply nbb_nbs, esc_char_nbb.
Qed.

Lemma join_nbs : forall l, Forall nbs l -> nbs (join [COMMA] l).
Proof.
  induction l as [|x l IH]; intro F; [constructor|]. inversion F; subst. destruct l as [|y l]; [assumption|].
  change (join [COMMA] (x :: y :: l)) with (x ++ [COMMA] ++ join [COMMA] (y :: l)).
  apply nbs_app; [assumption|]. apply nbs_app; [now apply nbb_nbs|]. now apply IH.
Qed.

Lemma ser_nbs : forall v, (forall k, key_in k v -> breakless k) -> nbs (ser v).
Proof.
  induction v as [| b | z | d | s | l IH | l IH] using json_ind'; intro H; cbn [ser].
  - now apply nbb_nbs.
  - destruct b; now apply nbb_nbs.
  - apply print_Z_nbs.
  - apply print_double_nbs.
  - apply ser_str_nbs.
  - apply nbs_cons; [split; discriminate|]. apply nbs_app; [|now apply nbb_nbs]. apply join_nbs, Forall_map.
    rewrite Forall_forall in IH |- *. intros v I. apply IH; [exact I|]. intros k K. apply H. eapply key_arr; eassumption.
  - apply nbs_cons; [split; discriminate|]. apply nbs_app; [|now apply nbb_nbs]. apply join_nbs, Forall_map.
    rewrite Forall_forall in IH |- *. intros kv I. unfold ser_member. apply nbs_cons; [split; discriminate|].
    apply nbs_app; [apply nbs_iff, H; constructor; now apply in_map|]. apply nbs_app; [now apply nbb_nbs|].
    apply IH; [now apply in_map|]. intros k K. apply H. eapply key_obj; [apply in_map, I|exact K].
Qed.

Lemma opt_member_nbs : forall key v, nbs key -> params_ok v -> nbs (opt_member key v).
Proof.
  intros key [v|] K H; [|constructor]. destruct (H v eq_refl) as [_ B]. unfold opt_member.
  apply nbs_cons; [split; discriminate|]. apply nbs_cons; [split; discriminate|].
  apply nbs_app; [exact K|]. apply nbs_app; [now apply nbb_nbs|]. now apply ser_nbs.
Qed.

Lemma ser_id_nbs : forall i, (forall s, i = IdStr s -> breakless s) -> nbs (ser_id i).
Proof.
  intros [s|z|] H; unfold ser_id.
  - apply nbs_cons; [split; discriminate|]. apply nbs_app; [now apply nbs_iff, H|now apply nbb_nbs].
  - apply print_Z_nbs.
  - now apply nbb_nbs.
Qed.

Lemma message_nbs : forall m, sendable m -> nbs (message_text m).
Proof.
  intros [r|n] H; cbn [message_text sendable] in *.
  - destruct H as (_ & I & _ & _ & M & P). unfold ser_request.
    apply nbs_app; [now apply nbb_nbs|]. apply nbs_app; [now apply nbb_nbs|].
    apply nbs_app; [apply ser_id_nbs; intros s E; now apply I|]. apply nbs_app; [now apply nbb_nbs|].
    apply nbs_app; [now apply nbs_iff|]. apply nbs_app; [now apply nbb_nbs|].
    apply nbs_app; [apply opt_member_nbs; [now apply nbb_nbs|exact P]|now apply nbb_nbs].
  - destruct H as (_ & _ & M & P). unfold ser_notification.
    apply nbs_app; [now apply nbb_nbs|]. apply nbs_app; [now apply nbb_nbs|].
    apply nbs_app; [now apply nbs_iff|]. apply nbs_app; [now apply nbb_nbs|].
    apply nbs_app; [apply opt_member_nbs; [now apply nbb_nbs|exact P]|now apply nbb_nbs].
Qed.

Lemma message_line : forall m, sendable m -> one_line (message_text m).
Proof.
  intros m H. apply message_nbs, nbs_iff in H as [A B]. split; [destruct m; discriminate|]. split; [exact A|].
  intros q E. apply B. rewrite E. apply in_app_iff. right. now left.
Qed.

Lemma message_routed : forall hd m, sendable m -> h_request hd <> None -> h_notification hd <> None ->
  fst (route hd (message_text m)) = [message_call m].
Proof.
  intros hd [r|n] H Hr Hn; cbn [message_text message_call sendable] in *.
  - destruct H as (I & J & N & M & _ & P). destruct (h_request hd) as [f|] eqn:E; [|now destruct Hr].
    rewrite (route_request hd f r E I); [reflexivity|intros s Es; now apply J|exact N|exact M|intros p Ep; now apply P].
  - destruct H as (N & M & _ & P). rewrite (route_notif hd n N M) by (intros p Ep; now apply P).
    destruct (h_notification hd); [reflexivity|now destruct Hn].
Qed.

Lemma numbered_fst : forall l m x, In x (numbered m l) -> number (fst x).
Proof.
  induction l as [|p l IH]; intros m x; [intros []|]. cbn [numbered]. intros [<-|I]; [|now apply IH in I].
  cbn [fst]. destruct (print_N_spec (m mod two64)) as (_ & D & _). apply Forall_forall. intros c I.
  rewrite forallb_forall in D. specialize (D _ I). unfold is_digit, in_range, code in D. lia.
Qed.
Lemma numbered_snd : forall l m, map snd (numbered m l) = l.
Proof. induction l as [|p l IH]; intro m; [reflexivity|]. cbn [numbered map snd]. now rewrite IH. Qed.

Lemma subseq_in : forall (A : Type) (a b : list A) x, subseq a b -> In x a -> In x b.
Proof. induction 1 as [|y a b S IH|y a b S IH]; cbn [In]; intuition. Qed.
Lemma subseq_map : forall (A B : Type) (f : A -> B) a b, subseq a b -> subseq (map f a) (map f b).
Proof. induction 1; cbn [map]; now constructor. Qed.
Lemma subseq_map_inv : forall (A B : Type) (f : A -> B) b l, subseq l (map f b) -> exists a, subseq a b /\ l = map f a.
Proof.
  intros A B f. induction b as [|x b IH]; intros l H; cbn [map] in H; inversion H; subst.
  - exists []. split; [constructor|reflexivity].
  - match goal with K : subseq _ (map f b) |- _ => destruct (IH _ K) as [a' [S ->]] end. exists (x :: a'). split; [now constructor|reflexivity].
  - match goal with K : subseq _ (map f b) |- _ => destruct (IH _ K) as [a' [S ->]] end. exists a'. split; [now constructor|reflexivity].
Qed.

Lemma end_to_end : forall os k n hd ms retry extra reads, let h := hrun os hstate0 in
  serves k n h = true -> (N.of_nat (length (queued n 0 os)) < two64)%N ->
  queued n 0 os = map message_text ms -> Forall sendable ms ->
  h_request hd <> None -> h_notification hd <> None ->
  cut_into (map (pair true) (wire_of k h)) (extra :: reads) ->
  exists ms', subseq ms' ms /\ map snd (wire_of k h) = map message_text ms' /\
    flat_map (fun p => fst (route hd p)) (se_out (sse_connection retry extra reads)) = map message_call ms'.
Proof.
  intros os k n hd ms retry extra reads h Sv L Q F Hr Hn C.
  destruct (wire_increasing k n os Sv L) as [W _]. fold h in W.
  assert (S2 : subseq (map snd (wire_of k h)) (map message_text ms)).
  { rewrite <- Q, <- (numbered_snd (queued n 0 os) 1). now apply subseq_map. }
  destruct (subseq_map_inv _ _ _ _ _ S2) as [ms' [S3 E]]. exists ms'. split; [exact S3|]. split; [exact E|].
  assert (F' : Forall sendable ms').
  { rewrite Forall_forall in F |- *. intros m I. apply F. exact (subseq_in _ _ _ _ S3 I). }
  assert (G : Forall (fun e => number (fst e) /\ one_line (snd e)) (wire_of k h)).
  { apply Forall_forall. intros e I. split; [exact (numbered_fst _ _ _ (subseq_in _ _ _ _ W I))|].
    apply (in_map snd) in I. rewrite E in I. apply in_map_iff in I as [m [<- I]]. apply message_line.
    rewrite Forall_forall in F'. now apply F'. }
  destruct (stream_contained _ extra reads retry (good_kept _ G) C) as [M _].
  rewrite (made_kept _ _ M), E. clear - F' Hr Hn. induction F' as [|m ms Hm F IH]; [reflexivity|].
  cbn [map flat_map]. rewrite (message_routed hd m Hm Hr Hn), IH. reflexivity.
Qed.
