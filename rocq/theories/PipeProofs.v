From Coq Require Import Ascii String List Arith NArith ZArith Bool Lia.
From Verif Require Import StrModel FramerModel FramerProofs WireProofs PipeModel PipeSpec.
Import ListNotations.
Local Open Scope nat_scope.

Lemma messages_delivered : forall l, messages (map Delivered l) = l /\ reports (map Delivered l) = [].
Proof. induction l as [|x l [A B]]; [easy|]. split; [change (messages (map Delivered (x :: l))) with (x :: messages (map Delivered l)); now rewrite A|exact B]. Qed.

(** The messages ps are being sent: those received, the buffer, what waits in the kernel and z make them up. *)
Definition coming (ps : list bstr) (z : bstr) (p : pipe) : Prop :=
  exists ps1 ps2, ps = ps1 ++ ps2 /\ pp_got p = ps1 /\
    (pp_conn p = true -> concat (map encode ps2) = pp_buf p ++ pp_in p ++ z /\
       match ps2 with [] => pp_buf p = [] | x :: _ => length (pp_buf p) < length (encode x) end).

Lemma take_coming : forall ps z t p, fitting (pp_max p) ps -> pp_conn p = true -> coming ps z p ->
  let n := Nat.min (Nat.max 1 (tn_size t)) 4096 in
  coming ps z (take_bytes t p) /\ pp_conn (take_bytes t p) = true /\ pp_told (take_bytes t p) = pp_told p /\ pp_in (take_bytes t p) = skipn n (pp_in p) /\
  pp_kind (take_bytes t p) = pp_kind p /\ pp_max (take_bytes t p) = pp_max p /\ pp_idle (take_bytes t p) = pp_idle p /\
  pp_open (take_bytes t p) = pp_open p /\ pp_alive (take_bytes t p) = pp_alive p /\ pp_last (take_bytes t p) = tn_read t /\
  (pp_errno p = false -> tn_left t = false -> pp_errno (take_bytes t p) = false).
Proof.
  intros ps z t p F C (ps1 & ps2 & P & G & K) n. destruct (K C) as [K1 _].
  assert (Fr : Forall (fun q => (N.of_nat (length q) <= pp_max p)%N /\ (N.of_nat (length (encode q)) < two64)%N) ps2).
  { unfold fitting in F. rewrite P in F. apply Forall_app in F. apply F. }
  assert (concat (map encode ps2) = (pp_buf p ++ firstn n (pp_in p)) ++ (skipn n (pp_in p) ++ z)) as E.
  { rewrite K1. rewrite <- (firstn_skipn n (pp_in p)) at 1. now rewrite <- !app_assoc. }
  destruct (drain_prefix _ _ _ _ Fr E) as (qs1 & qs2 & fuel & r & Q & D & Cn & B & L).
  unfold take_bytes. fold n. unfold on_read. cbn [rx_connected rx_buffer]. rewrite C.
  destruct (drain_total (S (length (pp_buf p ++ firstn n (pp_in p)))) (pp_max p) true (pp_buf p ++ firstn n (pp_in p)) (Nat.lt_succ_diag_r _)) as [[e1 r1] D1].
  rewrite D1. pose proof (drain_fuel_indep _ _ _ _ _ _ _ D1 D) as X. injection X as -> ->.
  destruct (messages_delivered qs1) as [M R]. rewrite M, R, app_nil_r.
  cbn [pp_kind pp_max pp_idle pp_in pp_open pp_alive pp_conn pp_buf pp_last pp_errno pp_got pp_told].
  repeat split; auto.
  - exists (ps1 ++ qs1), qs2. cbn [pp_got pp_conn pp_buf pp_in]. split; [rewrite P, Q; apply app_assoc|]. split; [now rewrite G|]. intros _. split; [|exact L].
    rewrite Q, map_app, concat_app, B, <- app_assoc in E. now apply app_inv_head in E.
  - intros E1 E2. destruct qs1; assumption.
Qed.

Lemma fields_idle : forall t p, pp_got (idle_check t p) = pp_got p /\ pp_in (idle_check t p) = pp_in p /\ pp_buf (idle_check t p) = pp_buf p /\
  pp_max (idle_check t p) = pp_max p /\ pp_open (idle_check t p) = pp_open p /\ pp_kind (idle_check t p) = pp_kind p /\ pp_idle (idle_check t p) = pp_idle p /\
  pp_last (idle_check t p) = pp_last p /\ (pp_conn (idle_check t p) = true -> pp_conn p = true).
Proof. intros t p. unfold idle_check. destruct (_ && _)%bool; repeat split; auto; discriminate. Qed.
Lemma fields_no : forall t p, pp_got (no_bytes t p) = pp_got p /\ pp_in (no_bytes t p) = pp_in p /\ pp_buf (no_bytes t p) = pp_buf p /\
  pp_max (no_bytes t p) = pp_max p /\ pp_open (no_bytes t p) = pp_open p /\ pp_kind (no_bytes t p) = pp_kind p /\ pp_idle (no_bytes t p) = pp_idle p /\
  pp_last (no_bytes t p) = pp_last p /\ (pp_conn (no_bytes t p) = true -> pp_conn p = true).
Proof. intros t p. unfold no_bytes. destruct (pp_errno p); [repeat split; auto; discriminate|apply fields_idle]. Qed.

Lemma coming_same : forall ps z p q, pp_got q = pp_got p -> pp_in q = pp_in p -> pp_buf q = pp_buf p -> (pp_conn q = true -> pp_conn p = true) -> coming ps z p -> coming ps z q.
Proof. intros ps z p q A B C D (ps1 & ps2 & P & G & K). exists ps1, ps2. rewrite A, B, C. auto. Qed.

Lemma turn_coming : forall ps z t p, fitting (pp_max p) ps -> coming ps z p ->
  coming ps z (pp_turn t p) /\ pp_max (pp_turn t p) = pp_max p /\ pp_open (pp_turn t p) = pp_open p.
Proof.
  intros ps z t p F C. unfold pp_turn. destruct (pp_alive p) eqn:A; cbn [negb]; [|auto].
  destruct (pp_conn p) eqn:Cn; cbn [negb].
  2:{ split; [|split; reflexivity]. apply (coming_same ps z p); auto; discriminate. }
  destruct (tn_wait t) as [| |[]].
  - split; [|split; reflexivity]. apply (coming_same ps z p); auto.
  - split; [|split; reflexivity]. apply (coming_same ps z p); auto; discriminate.
  - split; [|split; reflexivity]. apply (coming_same ps z p); auto; discriminate.
  - cbv zeta. set (p1 := if (_ || _)%bool then set_errno true p else p).
    assert (pp_got p1 = pp_got p /\ pp_in p1 = pp_in p /\ pp_buf p1 = pp_buf p /\ pp_conn p1 = pp_conn p /\ pp_max p1 = pp_max p /\ pp_open p1 = pp_open p) as (E1 & E2 & E3 & E4 & E5 & E6).
    { unfold p1. destruct (_ || _)%bool; repeat split. }
    assert (coming ps z p1) as C1 by (apply (coming_same ps z p); auto; now rewrite E4).
    rewrite <- E5 in F. rewrite <- E5, <- E6. rewrite <- E4 in Cn. clearbody p1. clear p C A E1 E2 E3 E4 E5 E6.
    assert (forall q, pp_got q = pp_got p1 -> pp_in q = pp_in p1 -> pp_buf q = pp_buf p1 -> pp_conn q = pp_conn p1 -> pp_max q = pp_max p1 -> pp_open q = pp_open p1 ->
      (coming ps z (no_bytes t q) /\ pp_max (no_bytes t q) = pp_max p1 /\ pp_open (no_bytes t q) = pp_open p1) /\
      (coming ps z (leave q) /\ pp_max (leave q) = pp_max p1 /\ pp_open (leave q) = pp_open p1)) as X.
    { intros q Q1 Q2 Q3 Q4 Q5 Q6. split.
      - destruct (fields_no t q) as (N1 & N2 & N3 & N4 & N5 & _ & _ & _ & N6). rewrite N4, N5. split; [|auto].
        apply (coming_same ps z p1); try congruence; auto.
      - split; [|auto]. apply (coming_same ps z p1); auto; discriminate. }
    destruct (hung_up p1); [destruct (tn_epoll t); apply X; reflexivity|].
    destruct (readable (tn_epoll t) p1); [|apply X; reflexivity].
    destruct (pp_in p1) as [|c l] eqn:I; [apply (X (tell _ p1)); auto|].
    destruct (tn_io t); [|apply X; auto|apply X; auto].
    destruct (take_coming ps z t p1 F Cn C1) as (T1 & T2 & T3 & T4 & T5 & T6 & T7 & T8 & _).
    destruct (fields_idle t (take_bytes t p1)) as (N1 & N2 & N3 & N4 & N5 & _ & _ & _ & N6). rewrite N4, N5, T6, T8. split; [|auto].
    apply (coming_same ps z (take_bytes t p1)); auto.
Qed.

Lemma run_coming : forall h ps p z, fitting (pp_max p) ps -> coming ps (if pp_open p then wrote h ++ z else z) p ->
  exists ps1 ps2, ps = ps1 ++ ps2 /\ pp_got (pp_run p h) = ps1.
Proof.
  induction h as [|v h IH]; intros ps p z F C.
  - destruct C as (a & b & P & G & _). exists a, b. auto.
  - change (pp_run p (v :: h)) with (pp_run (pp_step p v) h).
    destruct v as [b| |t|].
    + apply (IH ps (pp_step p (PWrite b)) z); [exact F|]. cbn [pp_step pp_open]. destruct C as (p1 & p2 & P & G & K). exists p1, p2. split; [exact P|]. split; [exact G|].
      cbn [pp_step pp_conn pp_buf pp_in]. intros C. destruct (K C) as [K1 K2]. split; [|exact K2]. rewrite K1. f_equal. destruct (pp_open p); [|reflexivity].
      cbn [wrote]. now rewrite <- !app_assoc.
    + cbn [wrote] in C. apply (IH ps (pp_step p PEnd) z); [exact F|]. cbn [pp_step pp_open].
      assert (coming ps z p) as C' by (destruct (pp_open p); exact C). apply (coming_same ps z p); auto.
    + destruct (turn_coming ps _ t p F C) as (T1 & T2 & T3). cbn [wrote] in T1. apply (IH ps (pp_step p (PTurn t)) z); cbn [pp_step]; [now rewrite T2|]. rewrite T3. exact T1.
    + apply (IH ps (pp_step p PCut) z); [exact F|]. cbn [wrote] in C. cbn [pp_step pp_open]. eapply coming_same; [..|exact C]; auto; discriminate.
Qed.

Lemma coming_start : forall ps z k max idle now, concat (map encode ps) = z -> coming ps z (pp_start k max idle now).
Proof.
  intros ps z k max idle now E. exists [], ps. split; [reflexivity|]. split; [reflexivity|]. intros _. split; [exact E|].
  destruct ps; [reflexivity|]. unfold encode. rewrite app_length. cbn. lia.
Qed.

Lemma in_order : forall k max idle now h ps rest, fitting max ps -> concat (map encode ps) = wrote h ++ rest ->
  exists later, ps = pp_got (pp_run (pp_start k max idle now) h) ++ later.
Proof.
  intros k max idle now h ps rest F E. destruct (run_coming h ps (pp_start k max idle now) rest F (coming_start _ _ _ _ _ _ E)) as (a & b & P & G).
  exists b. now rewrite G.
Qed.

(** Histories in which nothing goes wrong. *)
Record fine (k : source) (max : N) (z : bstr) (ps : list bstr) (p : pipe) : Prop := {
  f_kind : pp_kind p = k; f_max : pp_max p = max; f_idle : pp_idle p = 0%Z; f_alive : pp_alive p = true; f_conn : pp_conn p = true;
  f_errno : pp_errno p = false; f_told : pp_told p = []; f_coming : coming ps z p }.

Lemma no_bytes_fine : forall t p, pp_errno p = false -> pp_idle p = 0%Z -> no_bytes t p = p.
Proof. intros t p E I. unfold no_bytes, idle_check. now rewrite E, I. Qed.

(** One turn without trouble, the other side being there. *)
Lemma turn_open : forall t p, pp_alive p = true -> pp_conn p = true -> pp_kind p <> File -> tn_epoll t = true -> tn_wait t = Waited false -> pp_open p = true ->
  pp_turn t p = match pp_in p, tn_io t with
                | [], _ => no_bytes t p
                | _, IoFine => idle_check t (take_bytes t p)
                | _, IoSoft => no_bytes t (set_errno false p)
                | _, IoHard => no_bytes t (set_errno true p)
                end.
Proof.
  intros t p A C K E W O. unfold pp_turn. rewrite A, C, W, E. cbn [negb orb].
  assert (match pp_kind p with File => true | _ => false end = false) as -> by (destruct (pp_kind p); congruence).
  assert (hung_up p = false) as -> by (unfold hung_up; rewrite O; now destruct (pp_kind p)).
  assert (readable true p = match pp_in p with [] => false | _ => true end) as -> by (unfold readable; rewrite O; destruct (pp_kind p); [reflexivity..|congruence]).
  now destruct (pp_in p).
Qed.

Lemma fine_errno : forall k max z ps p, fine k max z ps p -> fine k max z ps (set_errno false p).
Proof. intros k max z ps p [? ? ? ? ? ? ? C]. constructor; auto. Qed.

Lemma take_fine : forall k max z ps t p, fitting max ps -> fine k max z ps p -> tn_left t = false -> fine k max z ps (idle_check t (take_bytes t p)).
Proof.
  intros k max z ps t p F [K M I A C E T CM] L. rewrite <- M in F. destruct (take_coming ps z t p F C CM) as (T1 & T2 & T3 & T4 & T5 & T6 & T7 & T8 & T9 & _ & T10).
  assert (idle_check t (take_bytes t p) = take_bytes t p) as -> by (unfold idle_check; now rewrite T7, I).
  constructor; try congruence; auto.
Qed.

Lemma calm_fine : forall k max z ps t p, k <> File -> fitting max ps -> fine k max z ps p -> calm t -> pp_open p = true ->
  fine k max z ps (pp_turn t p) /\ pp_open (pp_turn t p) = true.
Proof.
  intros k max z ps t p NK F H (E & W & I & L) O. pose proof H as [K M Id A C Er T CM].
  assert (pp_open (pp_turn t p) = true) as O'. { rewrite <- O. apply (turn_coming ps z t p); [now rewrite M|exact CM]. }
  split; [|exact O']. destruct W as [W|W].
  - unfold pp_turn. rewrite A, C, W. cbn [negb]. now apply fine_errno.
  - rewrite turn_open; auto; [|congruence]. destruct (pp_in p); [now rewrite no_bytes_fine|]. destruct (tn_io t); [now apply take_fine| |easy].
    rewrite no_bytes_fine; auto. now apply fine_errno.
Qed.

Lemma undisturbed_fine : forall h k max z ps p, k <> File -> fitting max ps -> undisturbed h -> fine k max (wrote h ++ z) ps p -> pp_open p = true ->
  fine k max z ps (pp_run p h) /\ pp_open (pp_run p h) = true.
Proof.
  induction h as [|v h IH]; intros k max z ps p NK F U H O; [now split|].
  change (pp_run p (v :: h)) with (pp_run (pp_step p v) h). assert (undisturbed h) as U' by (intros w I; apply U; now right).
  destruct (U v (or_introl eq_refl)) as [[b ->]|(t & -> & Ct)].
  - apply IH; auto. destruct H as [K M Id A C Er T (p1 & p2 & P & G & X)]. constructor; auto. exists p1, p2. split; [exact P|]. split; [exact G|].
    cbn [pp_step pp_conn pp_buf pp_in]. rewrite O. intros _. destruct (X C) as [X1 X2]. split; [|exact X2]. rewrite X1. cbn [wrote]. now rewrite <- !app_assoc.
  - cbn [wrote] in H. destruct (calm_fine _ _ _ _ t p NK F H Ct O). now apply IH.
Qed.

Lemma fine_done : forall k max ps p, fine k max [] ps p -> pp_in p = [] -> pp_got p = ps.
Proof.
  intros k max ps p [_ _ _ _ C _ _ (p1 & p2 & P & G & K)] I. destruct (K C) as [K1 K2]. rewrite I in K1. cbn [app] in K1. rewrite app_nil_r in K1.
  destruct p2 as [|x p2]; [now rewrite P, app_nil_r|]. exfalso. rewrite <- K1 in K2. cbn [map concat] in K2. rewrite app_length in K2. lia.
Qed.

Definition turns (ts : list turn) : list pev := map PTurn ts.

Lemma healthy_calm : forall t, healthy t -> calm t.
Proof. intros t (A & B & C & D). repeat split; auto. now rewrite C. Qed.

Lemma take_less : forall t p ps z, fitting (pp_max p) ps -> pp_conn p = true -> coming ps z p -> length (pp_in (take_bytes t p)) <= pred (length (pp_in p)).
Proof.
  intros t p ps z F C CM. destruct (take_coming ps z t p F C CM) as (_ & _ & _ & T4 & _). rewrite T4, skipn_length. lia.
Qed.

(** Enough turns read everything. *)
Lemma healthy_drains : forall ts k max ps p, k <> File -> fitting max ps -> Forall healthy ts -> fine k max [] ps p -> pp_open p = true ->
  length (pp_in p) <= length ts -> pp_in (pp_run p (turns ts)) = [].
Proof.
  induction ts as [|t ts IH]; intros k max ps p NK F Hs H O L.
  - cbn in *. destruct (pp_in p); [reflexivity|cbn in L; lia].
  - inversion Hs as [|? ? Ht Hs']; subst. change (pp_run p (turns (t :: ts))) with (pp_run (pp_turn t p) (turns ts)).
    destruct (calm_fine _ _ _ _ t p NK F H (healthy_calm _ Ht) O) as [H' O']. apply (IH k max ps); auto.
    destruct Ht as (E & W & I & Lf). destruct H as [K M Id A C Er T CM]. rewrite turn_open; auto; [|congruence]. rewrite I.
    destruct (pp_in p) as [|c l] eqn:In; [rewrite no_bytes_fine; auto; rewrite In; cbn; lia|].
    destruct (fields_idle t (take_bytes t p)) as (_ & -> & _). pose proof (take_less t p ps [] ltac:(now rewrite M) C CM) as X. rewrite In in X. cbn in X, L |- *. lia.
Qed.

Lemma run_app : forall p a b, pp_run p (a ++ b) = pp_run (pp_run p a) b.
Proof. intros p a b. apply fold_left_app. Qed.

Lemma fine_start : forall k max now ps z, concat (map encode ps) = z -> fine k max z ps (pp_start k max 0 now).
Proof. intros k max now ps z E. constructor; try reflexivity. now apply coming_start. Qed.

Lemma received : forall k max now h ps, k <> File -> fitting max ps -> undisturbed h -> wrote h = concat (map encode ps) ->
  let p := pp_run (pp_start k max 0 now) h in
  pp_conn p = true /\ pp_told p = [] /\
  forall ts, Forall healthy ts -> length (pp_in p) <= length ts ->
    pp_got (pp_run p (turns ts)) = ps /\ pp_conn (pp_run p (turns ts)) = true /\ pp_told (pp_run p (turns ts)) = [].
Proof.
  intros k max now h ps NK F U E p.
  destruct (undisturbed_fine h k max [] ps (pp_start k max 0 now) NK F U) as [H O]; [apply fine_start; now rewrite app_nil_r|reflexivity|]. fold p in H, O.
  split; [apply H|]. split; [apply H|]. intros ts Hs L.
  assert (undisturbed (turns ts)) as U2. { intros v I. apply in_map_iff in I as (t & <- & I). right. exists t. split; [reflexivity|]. apply healthy_calm. rewrite Forall_forall in Hs. auto. }
  assert (wrote (turns ts) = []) as W by (clear; now induction ts).
  destruct (undisturbed_fine (turns ts) k max [] ps p NK F U2) as [H2 O2]; [now rewrite W|exact O|].
  split; [|split; apply H2]. apply (fine_done k max); [exact H2|]. now apply (healthy_drains ts k max ps).
Qed.

(** The end of input. *)
Lemma turn_end_terminal : forall t p, pp_alive p = true -> pp_conn p = true -> pp_kind p = Terminal -> healthy t -> pp_open p = false ->
  pp_turn t p = match pp_in p with [] => leave (tell (bs "StdioTransport: EOF on stdin") p) | _ => idle_check t (take_bytes t p) end.
Proof.
  intros t p A C K (E & W & I & L) O. unfold pp_turn. rewrite A, C, W, E, K. cbn [negb orb]. unfold hung_up, readable. rewrite K, O, I. cbn [negb orb]. now destruct (pp_in p).
Qed.

Lemma leave_stays : forall p h, pp_alive p = false -> pp_conn p = false -> pp_got (pp_run p h) = pp_got p /\ pp_conn (pp_run p h) = false /\ pp_told (pp_run p h) = pp_told p.
Proof.
  intros p h. revert p. induction h as [|v h IH]; intros p A C; [now repeat split|]. change (pp_run p (v :: h)) with (pp_run (pp_step p v) h).
  destruct v as [b| |t|].
  - exact (IH (pp_step p (PWrite b)) A C).
  - exact (IH (pp_step p PEnd) A C).
  - cbn [pp_step]. unfold pp_turn. rewrite A. now apply IH.
  - exact (IH (pp_step p PCut) A eq_refl).
Qed.

Lemma fine_end : forall max z ps p, fine Terminal max z ps p -> fine Terminal max z ps (pp_step p PEnd).
Proof. intros max z ps p [? ? ? ? ? ? ? C]. constructor; auto. Qed.

Lemma terminal_ends : forall ts max ps p, fitting max ps -> Forall healthy ts -> fine Terminal max [] ps p -> pp_open p = false -> length (pp_in p) < length ts ->
  pp_got (pp_run p (turns ts)) = ps /\ pp_conn (pp_run p (turns ts)) = false /\ pp_told (pp_run p (turns ts)) = [bs "StdioTransport: EOF on stdin"].
Proof.
  induction ts as [|t ts IH]; intros max ps p F Hs H O L; [cbn in L; lia|].
  inversion Hs as [|? ? Ht Hs']; subst. change (pp_run p (turns (t :: ts))) with (pp_run (pp_turn t p) (turns ts)).
  pose proof H as [K M Id A C Er T CM]. rewrite turn_end_terminal by assumption. destruct (pp_in p) as [|c l] eqn:I.
  - set (q := leave (tell _ p)). destruct (leave_stays q (turns ts) eq_refl eq_refl) as (X1 & X2 & X3). rewrite X1, X2, X3.
    unfold q. cbn [leave tell pp_got pp_told]. rewrite T. repeat split. now apply (fine_done Terminal max).
  - pose proof (take_less t p ps [] ltac:(now rewrite M) C CM) as X. rewrite I in X. cbn [length pred] in X, L.
    assert (tn_left t = false) as Lf by apply Ht.
    pose proof (take_fine Terminal max [] ps t p F H Lf) as H'. apply (IH max); auto.
    + destruct (fields_idle t (take_bytes t p)) as (_ & _ & _ & _ & -> & _). destruct (take_coming ps [] t p ltac:(now rewrite M) C CM) as (_ & _ & _ & _ & _ & _ & _ & -> & _). exact O.
    + destruct (fields_idle t (take_bytes t p)) as (_ & -> & _). lia.
Qed.

Lemma terminal_end : forall max now h ps ts, fitting max ps -> undisturbed h -> wrote h = concat (map encode ps) -> Forall healthy ts ->
  length (pp_in (pp_run (pp_start Terminal max 0 now) h)) < length ts ->
  let p := pp_run (pp_start Terminal max 0 now) (h ++ PEnd :: turns ts) in
  pp_got p = ps /\ pp_conn p = false /\ pp_told p = [bs "StdioTransport: EOF on stdin"].
Proof.
  intros max now h ps ts F U E Hs L p. unfold p. rewrite run_app. change (pp_run ?q (PEnd :: ?l)) with (pp_run (pp_step q PEnd) l).
  destruct (undisturbed_fine h Terminal max [] ps (pp_start Terminal max 0 now)) as [H O]; auto; [discriminate|apply fine_start; now rewrite app_nil_r|].
  apply (terminal_ends ts max); auto. now apply fine_end.
Qed.

(** A pipe whose writers are gone. *)
Lemma pipe_spins : forall ts p, Forall healthy ts -> pp_alive p = true -> pp_conn p = true -> pp_kind p = Pipe -> pp_open p = false -> pp_errno p = false -> pp_idle p = 0%Z ->
  let q := pp_run p (turns ts) in
  pp_conn q = true /\ pp_alive q = true /\ pp_got q = pp_got p /\ pp_in q = pp_in p /\ pp_told q = pp_told p ++ repeat (bs "StdioTransport: stdin closed") (length ts).
Proof.
  induction ts as [|t ts IH]; intros p Hs A C K O E I q; [cbn; now rewrite app_nil_r|].
  inversion Hs as [|? ? Ht Hs']; subst. unfold q. change (pp_run p (turns (t :: ts))) with (pp_run (pp_turn t p) (turns ts)).
  assert (pp_turn t p = tell (bs "StdioTransport: stdin closed") p) as ->.
  { destruct Ht as (Ep & W & _ & _). unfold pp_turn. rewrite A, C, W, Ep, K. cbn [negb orb]. unfold hung_up. rewrite K, O. cbn [negb]. apply no_bytes_fine; assumption. }
  destruct (IH (tell (bs "StdioTransport: stdin closed") p)) as (X1 & X2 & X3 & X4 & X5); auto.
  repeat split; auto. rewrite X5. cbn [tell pp_told length repeat]. now rewrite <- app_assoc.
Qed.

Lemma pipe_end : forall max now h ps ts, fitting max ps -> undisturbed h -> wrote h = concat (map encode ps) -> Forall healthy ts ->
  let before := pp_run (pp_start Pipe max 0 now) h in let p := pp_run (pp_start Pipe max 0 now) (h ++ PEnd :: turns ts) in
  pp_conn p = true /\ pp_got p = pp_got before /\ pp_in p = pp_in before /\ pp_told p = repeat (bs "StdioTransport: stdin closed") (length ts).
Proof.
  intros max now h ps ts F U E Hs before p.
  destruct (undisturbed_fine h Pipe max [] ps (pp_start Pipe max 0 now)) as [H O]; auto; [discriminate|apply fine_start; now rewrite app_nil_r|]. fold before in H, O.
  unfold p. rewrite run_app. fold before. change (pp_run ?q (PEnd :: ?l)) with (pp_run (pp_step q PEnd) l). destruct H as [K M Id A C Er T CM].
  destruct (pipe_spins ts (pp_step before PEnd)) as (X1 & X2 & X3 & X4 & X5); auto. rewrite X1, X3, X4, X5. cbn [pp_step pp_got pp_in pp_told]. now rewrite T.
Qed.

(** The idle timeout. *)
Lemma take_last : forall t p, pp_conn p = true -> pp_in p <> [] -> pp_last (take_bytes t p) = tn_read t /\ length (pp_in (take_bytes t p)) < length (pp_in p) /\ pp_idle (take_bytes t p) = pp_idle p.
Proof.
  intros t p C N. unfold take_bytes, on_read. cbn [rx_connected rx_buffer]. rewrite C. cbv zeta.
  set (n := Nat.min _ _). set (b := pp_buf p ++ firstn n (pp_in p)). destruct (drain_total (S (length b)) (pp_max p) true b (Nat.lt_succ_diag_r _)) as [[e r] ->].
  cbn [pp_last pp_in pp_idle]. repeat split. rewrite skipn_length. assert (1 <= n) by (unfold n; lia). destruct (pp_in p); [easy|]. cbn [length]. lia.
Qed.

(** What one turn does to lastReadTs, and when it reports idleness. *)
Lemma turn_last : forall t p, pp_idle (pp_turn t p) = pp_idle p /\
  pp_last (pp_turn t p) = (if Nat.ltb (length (pp_in (pp_turn t p))) (length (pp_in p)) then tn_read t else pp_last p).
Proof.
  intros t p. unfold pp_turn. destruct (pp_alive p); cbn [negb]; [|now rewrite Nat.ltb_irrefl].
  destruct (pp_conn p) eqn:C; cbn [negb leave pp_last pp_in pp_idle]; [|now rewrite Nat.ltb_irrefl].
  destruct (tn_wait t) as [| |[]]; cbn [set_errno leave tell pp_last pp_in pp_idle]; try now rewrite Nat.ltb_irrefl.
  cbv zeta. set (p1 := if (_ || _)%bool then set_errno true p else p).
  assert (pp_last p1 = pp_last p /\ pp_in p1 = pp_in p /\ pp_conn p1 = true /\ pp_idle p1 = pp_idle p) as (<- & <- & C1 & <-) by (unfold p1; destruct (_ || _)%bool; repeat split; exact C).
  clearbody p1.
  assert (forall q, pp_last q = pp_last p1 -> pp_in q = pp_in p1 -> pp_idle q = pp_idle p1 -> pp_idle (no_bytes t q) = pp_idle p1 /\ pp_last (no_bytes t q) = (if Nat.ltb (length (pp_in (no_bytes t q))) (length (pp_in p1)) then tn_read t else pp_last p1)) as X.
  { intros q Q1 Q2 Q3. destruct (fields_no t q) as (_ & -> & _ & _ & _ & _ & -> & -> & _). now rewrite Q1, Q2, Q3, Nat.ltb_irrefl. }
  destruct (hung_up p1); [destruct (tn_epoll t); [now apply X|cbn [leave tell pp_last pp_in pp_idle]; now rewrite Nat.ltb_irrefl]|].
  destruct (readable (tn_epoll t) p1); [|now apply X].
  destruct (pp_in p1) as [|c l] eqn:I; [cbn [leave tell pp_last pp_in pp_idle]; rewrite I; now rewrite Nat.ltb_irrefl|].
  rewrite <- I in *. destruct (tn_io t); [|apply X; reflexivity|apply X; reflexivity].
  destruct (fields_idle t (take_bytes t p1)) as (_ & -> & _ & _ & _ & _ & -> & -> & _). assert (pp_in p1 <> []) as NI by (now rewrite I).
  destruct (take_last t p1 C1 NI) as (-> & T2 & ->). now rewrite (proj2 (Nat.ltb_lt _ _) T2).
Qed.

Lemma heard : forall h p, pp_last (pp_run p h) = last_heard p (pp_last p) h /\ pp_idle (pp_run p h) = pp_idle p.
Proof.
  induction h as [|v h IH]; intros p; [now split|]. change (pp_run p (v :: h)) with (pp_run (pp_step p v) h). destruct (IH (pp_step p v)) as [-> ->].
  destruct v as [b| |t|]; try now split. cbn [pp_step last_heard]. destruct (turn_last t p) as [-> <-]. now split.
Qed.

Lemma idle_told : forall t q m, pp_told (idle_check t q) = pp_told q ++ m -> In (bs "StdioTransport: idle read timeout") m ->
  (0 < pp_idle q)%Z /\ (pp_idle q <= tn_now t - pp_last q)%Z.
Proof.
  intros t q m. unfold idle_check. destruct (_ && _)%bool eqn:B; [intros _ _; apply andb_true_iff in B as [B1 B2]; apply Z.ltb_lt in B1; now apply Z.leb_le in B2|].
  intros E. rewrite <- (app_nil_r (pp_told q)) in E at 1. apply app_inv_head in E. now subst m.
Qed.

Lemma told_grows : forall t p, exists m, pp_told (pp_turn t p) = pp_told p ++ m.
Proof.
  intros t p. assert (forall q, (exists m, pp_told q = pp_told p ++ m) -> (exists m, pp_told (idle_check t q) = pp_told p ++ m) /\ (exists m, pp_told (no_bytes t q) = pp_told p ++ m)) as X.
  { intros q [m E]. assert (exists m, pp_told (idle_check t q) = pp_told p ++ m) as Y.
    { unfold idle_check. destruct (_ && _)%bool; [|eauto]. cbn [leave tell pp_told]. rewrite E, <- app_assoc. eauto. }
    split; [exact Y|]. unfold no_bytes. destruct (pp_errno q); [|exact Y]. cbn [leave tell pp_told]. rewrite E, <- app_assoc. eauto. }
  assert (exists m, pp_told p = pp_told p ++ m) as X0 by (exists []; now rewrite app_nil_r).
  unfold pp_turn. destruct (pp_alive p); cbn [negb]; [|exact X0]. destruct (pp_conn p); cbn [negb leave pp_told]; [|exact X0].
  destruct (tn_wait t) as [| |[]]; cbn [set_errno leave tell pp_told]; [exact X0|eauto|exact X0|].
  cbv zeta. set (p1 := if (_ || _)%bool then set_errno true p else p).
  assert (pp_told p1 = pp_told p) as E1 by (unfold p1; now destruct (_ || _)%bool). clearbody p1.
  assert (forall s q, pp_told q = pp_told p ++ [s] -> (exists m, pp_told (leave q) = pp_told p ++ m) /\ exists m, pp_told (no_bytes t q) = pp_told p ++ m) as Z.
  { intros s q E. split; [exists [s]; exact E|apply X; eauto]. }
  destruct (hung_up p1); [destruct (tn_epoll t); apply (Z (bs "StdioTransport: stdin closed")); cbn [tell pp_told]; now rewrite E1|].
  assert (exists m, pp_told p1 = pp_told p ++ m) as X1 by (rewrite E1; exact X0).
  destruct (readable (tn_epoll t) p1); [|now apply X]. destruct (pp_in p1) as [|c l]; [apply (Z (bs "StdioTransport: EOF on stdin")); cbn [tell pp_told]; now rewrite E1|].
  destruct (tn_io t); apply X; try exact X1. unfold take_bytes. destruct (on_read _ _ _) as [[es r]|]; [|exact X1]. cbn [pp_told]. rewrite E1. eauto.
Qed.

Lemma not_idle : forall m, In m [bs "StdioTransport: read error"; bs "StdioTransport: stdin closed"; bs "StdioTransport: EOF on stdin"; bs "StdioTransport: epoll_wait failed";
    bs "StdioTransport: poll fallback failed"; bs "StdioTransport: body too large"] -> m <> bs "StdioTransport: idle read timeout".
Proof. intros m I E. subst m. cbn [In] in I. repeat (destruct I as [I|I]; [discriminate I|]). exact I. Qed.

Lemma reports_in : forall es m, In m (reports es) -> m = bs "StdioTransport: body too large".
Proof. intros es m I. apply in_flat_map in I as (e & _ & I). destruct e; cbn in I; intuition. Qed.

(** Idleness is reported only when it is true. *)
Lemma idle_turn : forall t p m, pp_told (pp_turn t p) = pp_told p ++ m -> In (bs "StdioTransport: idle read timeout") m ->
  (0 < pp_idle p)%Z /\ (pp_idle p <= tn_now t - pp_last (pp_turn t p))%Z /\ pp_conn (pp_turn t p) = false.
Proof.
  intros t p m.
  assert (forall q pre, pp_told q = pp_told p ++ pre -> ~ In (bs "StdioTransport: idle read timeout") pre -> pp_idle q = pp_idle p ->
    pp_told (idle_check t q) = pp_told p ++ m -> In (bs "StdioTransport: idle read timeout") m ->
    (0 < pp_idle p)%Z /\ (pp_idle p <= tn_now t - pp_last (idle_check t q))%Z /\ pp_conn (idle_check t q) = false) as IC.
  { intros q pre E N I. unfold idle_check. destruct (_ && _)%bool eqn:B.
    - intros _ _. apply andb_true_iff in B as [B1 B2]. apply Z.ltb_lt in B1. apply Z.leb_le in B2. rewrite <- I. auto.
    - rewrite E. intros Q. apply app_inv_head in Q. subst. easy. }
  assert (forall q pre, pp_told q = pp_told p ++ pre -> ~ In (bs "StdioTransport: idle read timeout") pre -> pp_idle q = pp_idle p ->
    pp_told (no_bytes t q) = pp_told p ++ m -> In (bs "StdioTransport: idle read timeout") m ->
    (0 < pp_idle p)%Z /\ (pp_idle p <= tn_now t - pp_last (no_bytes t q))%Z /\ pp_conn (no_bytes t q) = false) as NB.
  { intros q pre E N I. unfold no_bytes. destruct (pp_errno q); [|now apply IC with pre]. cbn [leave tell pp_told]. rewrite E, <- app_assoc. intros Q. apply app_inv_head in Q. subst m.
    intros J. apply in_app_iff in J as [J|[J|[]]]; [easy|]. now apply not_idle in J; [|cbn; auto]. }
  assert (forall q s, pp_told q = pp_told p ++ [s] -> s <> bs "StdioTransport: idle read timeout" -> pp_told (leave q) = pp_told p ++ m -> In (bs "StdioTransport: idle read timeout") m -> False) as LV.
  { intros q s E N Q J. change (pp_told (leave q)) with (pp_told q) in Q. rewrite E in Q. apply app_inv_head in Q. subst m. destruct J as [J|[]]. now apply N. }
  assert (pp_told p = pp_told p ++ m -> In (bs "StdioTransport: idle read timeout") m -> False) as ST.
  { intros Q J. rewrite <- (app_nil_r (pp_told p)) in Q at 1. apply app_inv_head in Q. now subst m. }
  unfold pp_turn. destruct (pp_alive p); cbn [negb]; [|intros Q J; now destruct (ST Q J)]. destruct (pp_conn p) eqn:C; cbn [negb]; [|intros Q J; now destruct (ST Q J)].
  destruct (tn_wait t) as [| |[]].
  - intros Q J; now destruct (ST Q J).
  - intros Q J. exfalso. refine (LV (tell _ p) _ eq_refl _ Q J). apply not_idle. destruct (tn_epoll t); cbn; auto 10.
  - intros Q J; now destruct (ST Q J).
  - cbv zeta. set (p1 := if (_ || _)%bool then set_errno true p else p).
    assert (pp_told p1 = pp_told p /\ pp_idle p1 = pp_idle p /\ pp_conn p1 = true) as (E1 & E2 & E3) by (unfold p1; destruct (_ || _)%bool; repeat split; exact C). clearbody p1.
    assert (pp_told (tell (bs "StdioTransport: stdin closed") p1) = pp_told p ++ [bs "StdioTransport: stdin closed"]) as T1 by (cbn [tell pp_told]; now rewrite E1).
    assert (~ In (bs "StdioTransport: idle read timeout") [bs "StdioTransport: stdin closed"]) as N1 by (intros [J|[]]; now apply not_idle in J; [|cbn; auto]).
    assert (pp_told p1 = pp_told p ++ []) as T0 by now rewrite app_nil_r.
    destruct (hung_up p1).
    { destruct (tn_epoll t); [now apply NB with [bs "StdioTransport: stdin closed"]|]. intros Q J. exfalso. refine (LV (tell _ p1) _ T1 _ Q J). apply not_idle. cbn; auto. }
    destruct (readable (tn_epoll t) p1); [|now apply NB with []].
    destruct (pp_in p1) as [|c l] eqn:I; [intros Q J; exfalso; refine (LV (tell (bs "StdioTransport: EOF on stdin") p1) (bs "StdioTransport: EOF on stdin") _ _ Q J); [cbn [tell pp_told]; now rewrite E1|apply not_idle; cbn; auto]|].
    destruct (tn_io t); [|now apply NB with []|now apply NB with []].
    assert (exists es, pp_told (take_bytes t p1) = pp_told p ++ reports es /\ pp_idle (take_bytes t p1) = pp_idle p) as (es & R1 & R2).
    { unfold take_bytes. destruct (on_read _ _ _) as [[es r]|]; [exists es|exists []]; cbn [pp_told pp_idle]; rewrite E1, E2; [auto|split; [now rewrite app_nil_r|reflexivity]]. }
    apply IC with (reports es); [exact R1| |exact R2]. intros J. apply reports_in in J. symmetry in J. now apply not_idle in J; [|cbn; auto 10].
Qed.

(** A turn that leaves the connection standing has looked at the clock. *)
Lemma idle_fires : forall t p, pp_alive p = true -> pp_conn p = true -> tn_wait t = Waited false -> pp_conn (pp_turn t p) = true -> (0 < pp_idle p)%Z ->
  (tn_now t - pp_last (pp_turn t p) < pp_idle p)%Z.
Proof.
  intros t p A C W. unfold pp_turn. rewrite A, C, W. cbn [negb]. cbv zeta. set (p1 := if (_ || _)%bool then set_errno true p else p).
  assert (pp_idle p1 = pp_idle p /\ pp_conn p1 = true) as (<- & C1) by (unfold p1; destruct (_ || _)%bool; split; auto). clearbody p1.
  assert (forall q, pp_idle q = pp_idle p1 -> pp_conn (idle_check t q) = true -> (0 < pp_idle p1)%Z -> (tn_now t - pp_last (idle_check t q) < pp_idle p1)%Z) as IC.
  { intros q E. unfold idle_check. rewrite E. destruct (_ && _)%bool eqn:B; [discriminate|]. intros _ P. apply andb_false_iff in B as [B|B]; [apply Z.ltb_ge in B; lia|apply Z.leb_gt in B; lia]. }
  assert (forall q, pp_idle q = pp_idle p1 -> pp_conn (no_bytes t q) = true -> (0 < pp_idle p1)%Z -> (tn_now t - pp_last (no_bytes t q) < pp_idle p1)%Z) as NB.
  { intros q E. unfold no_bytes. destruct (pp_errno q); [discriminate|]. now apply IC. }
  destruct (hung_up p1); [destruct (tn_epoll t); [now apply NB|discriminate]|]. destruct (readable (tn_epoll t) p1); [|now apply NB].
  destruct (pp_in p1) as [|c l] eqn:I; [discriminate|]. destruct (tn_io t); [|now apply NB|now apply NB]. apply IC. now destruct (take_last t p1 C1 ltac:(now rewrite I)) as (_ & _ & ->).
Qed.
