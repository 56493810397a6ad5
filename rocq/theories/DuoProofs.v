(** Proofs for a pair of connected transports. *)
From Coq Require Import Ascii String List Permutation Arith NArith ZArith Bool Lia ZifyBool ZifyNat ZifyN.
From Verif Require Import StrModel StrProofs FramerModel FramerProofs DoubleModel JsonModel JsonSpec JsonProofs RpcModel RpcSpec RpcProofs
  RouterModel RouterProofs MapModel MapProofs MemModel PendModel PendProofs WqModel WqProofs StdioModel StdioSpec StdioProofs WireSpec WireProofs
  DuoModel DuoSpec.
Import ListNotations.
Local Open Scope nat_scope.

(** What a step does to the lists of requests and the accepted frames. *)
Lemma enqueue_accepts : forall p w, exists new, w_accepted (snd (enqueue p w)) = w_accepted w ++ map encode new /\ Forall (eq p) new.
Proof.
  intros p w. unfold enqueue. destruct (N.ltb (w_max w) (w_bytes w + size (encode p))); cbn [snd w_accepted].
  - exists []. now rewrite app_nil_r.
  - exists [p]. split; [reflexivity|repeat constructor].
Qed.

Lemma wq_step_accepts : forall w v, w_accepted (wq_step w v) = w_accepted w.
Proof.
  intros w v. destruct v; cbn [wq_step]; destruct (w_writer w); try reflexivity;
    repeat match goal with |- context [match ?x with _ => _ end] => destruct x end; reflexivity.
Qed.

Definition new_frame (s : stdio) (v : sev) (p : bstr) : Prop :=
  match v with
  | SEnqueue n => exists rq rest, take_nth n (st_out s) = Some (rq, rest) /\ p = ser_request rq
  | SFrame q => p = q
  | SMessage h m => snd (route h m) = RReturn (Some p)
  | _ => False
  end.

Lemma resolve_calls_same : forall cs s, st_wq (resolve_calls cs s) = st_wq s /\ st_out (resolve_calls cs s) = st_out s /\
  st_entering (resolve_calls cs s) = st_entering s.
Proof.
  induction cs as [|c cs IH]; intro s; [auto|].
  change (resolve_calls (c :: cs) s) with (resolve_calls cs (match c with CResolve r => stdio_resolve r s | _ => s end)). destruct (IH (match c with CResolve r => stdio_resolve r s | _ => s end)) as (A & B & C).
  rewrite A, B, C. destruct c; auto.
Qed.

Lemma step_accepts : forall s v, exists new,
  w_accepted (st_wq (stdio_step s v)) = w_accepted (st_wq s) ++ map encode new /\ Forall (new_frame s v) new.
Proof.
  intros s v.
  assert (Z : forall s', st_wq s' = st_wq s -> exists new, w_accepted (st_wq s') = w_accepted (st_wq s) ++ map encode new /\ Forall (new_frame s v) new).
  { intros s' ->. exists []. now rewrite app_nil_r. }
  destruct v; cbn [stdio_step]; try (apply Z; reflexivity).
  - unfold stdio_begin. destruct (st_connected s); [destruct (stdio_id (st_counter s) (rq_id r))|]; apply Z; reflexivity.
  - destruct (take_nth n (st_entering s)) as [[r rest]|]; [|apply Z; reflexivity]. unfold stdio_register.
    destruct (deadline_of (st_now s) (st_timeout s)); apply Z; reflexivity.
  - destruct (take_nth n (st_out s)) as [[r rest]|] eqn:E; [|apply Z; reflexivity].
    destruct (enqueue_accepts (ser_request r) (st_wq s)) as (new & A & F). exists new. split; [exact A|].
    eapply Forall_impl; [|exact F]. cbn. intros p <-. exists r, rest. auto.
  - destruct (enqueue_accepts payload (st_wq s)) as (new & A & F). exists new. split; [exact A|].
    eapply Forall_impl; [|exact F]. cbn. auto.
  - unfold stdio_message. destruct (route h m) as [calls result] eqn:R.
    fold (resolve_calls calls (with_msg m s)). destruct (resolve_calls_same calls (with_msg m s)) as (A & B & C).
    destruct result as [[text|]|]; try (apply Z; exact A).
    unfold enqueue_in. cbn [st_wq with_wq]. rewrite A. cbn [st_wq with_msg].
    destruct (enqueue_accepts text (st_wq s)) as (new & A' & F). exists new. split; [exact A'|].
    eapply Forall_impl; [|exact F]. cbn [new_frame]. intros p <-. now rewrite R.
  - destruct (st_sleep s); try (apply Z; reflexivity). destruct (st_connected s); apply Z; reflexivity.
  - destruct (st_sleep s); try (apply Z; reflexivity); repeat match goal with |- context [match ?x with _ => _ end] => destruct x end; apply Z; reflexivity.
  - destruct (st_connected s); apply Z; reflexivity.
  - exists []. cbn [st_wq with_wq map]. rewrite app_nil_r. auto.
  - exists []. cbn [st_wq with_wq map]. rewrite app_nil_r, wq_step_accepts. auto.
Qed.

Lemma stdio_id_ok : forall c i, id_ok i -> (forall s, i = IdStr s -> plain s) ->
  id_ok (fst (stdio_id c i)) /\ (forall s, fst (stdio_id c i) = IdStr s -> plain s).
Proof.
  assert (D : forall n, plain (bs "req-" ++ print_N n)).
  { intro n. assert (K : forall c, In c (print_N n) -> is_digit c = true).
    { apply forallb_forall. apply (print_N_spec n). }
    split; intro I; apply in_app_iff in I; destruct I as [I|I];
      try (cbn in I; decompose [or] I; try contradiction; discriminate); apply K in I; discriminate. }
  intros c i O P. unfold stdio_id.
  destruct i as [[|a s]|z|]; cbn [fst]; try (split; assumption);
    (split; [apply D|intros s E; injection E as <-; apply D]).
Qed.

Lemma step_entering : forall s v rq, In rq (st_entering (stdio_step s v)) ->
  In rq (st_entering s) \/ exists r, v = SBegin r /\ rq = {| rq_id := fst (stdio_id (st_counter s) (rq_id r)); rq_method := rq_method r; rq_params := rq_params r |}.
Proof.
  intros s v rq I. destruct v; cbn [stdio_step] in I; try (left; exact I).
  - unfold stdio_begin in I. destruct (st_connected s).
    + destruct (stdio_id (st_counter s) (rq_id r)) as [i c] eqn:E. cbn [st_entering] in I. apply in_app_iff in I as [I|[I|[]]]; [now left|].
      right. exists r. rewrite E. auto.
    + left. exact I.
  - destruct (take_nth n (st_entering s)) as [[r rest]|] eqn:E; [|left; exact I]. apply take_nth_perm in E. unfold stdio_register in I.
    left. apply (Permutation_in rq (Permutation_sym E)). right.
    destruct (deadline_of (st_now s) (st_timeout s)); exact I.
  - destruct (take_nth n (st_out s)) as [[r rest]|]; left; exact I.
  - unfold stdio_message in I. destruct (route h m) as [calls result]. fold (resolve_calls calls (with_msg m s)) in I.
    destruct (resolve_calls_same calls (with_msg m s)) as (A & B & C). left. rewrite <- (C : st_entering _ = st_entering s).
    destruct result as [[text|]|]; exact I.
  - left. destruct (st_sleep s); try exact I. destruct (st_connected s); exact I.
  - left. destruct (st_sleep s); try exact I; revert I; repeat match goal with |- context [match ?x with _ => _ end] => destruct x end; intro I; exact I.
  - left. destruct (st_connected s); exact I.
Qed.

Lemma step_out : forall s v rq, In rq (st_out (stdio_step s v)) ->
  In rq (st_out s) \/ (In rq (st_entering s) /\ exists t z, In (t, (rq, z)) (st_reg (stdio_step s v))).
Proof.
  intros s v rq I. destruct v; cbn [stdio_step] in *; try (left; exact I).
  - unfold stdio_begin in I. destruct (st_connected s); [destruct (stdio_id (st_counter s) (rq_id r))|]; left; exact I.
  - destruct (take_nth n (st_entering s)) as [[r rest]|] eqn:E; [|left; exact I]. apply take_nth_perm in E. unfold stdio_register in *.
    destruct (deadline_of (st_now s) (st_timeout s)) as [d|]; [|left; exact I]. cbn [st_out st_reg] in *.
    apply in_app_iff in I as [I|[<-|[]]]; [now left|]. right. split; [apply (Permutation_in _ (Permutation_sym E)); now left|].
    exists (pt_next (st_tab s)), d. apply in_app_iff. right. now left.
  - destruct (take_nth n (st_out s)) as [[r rest]|] eqn:E; [|left; exact I]. apply take_nth_perm in E.
    left. apply (Permutation_in rq (Permutation_sym E)). right. exact I.
  - unfold stdio_message in I. destruct (route h m) as [calls result]. fold (resolve_calls calls (with_msg m s)) in I.
    destruct (resolve_calls_same calls (with_msg m s)) as (A & B & C). left. rewrite <- (B : st_out _ = st_out s).
    destruct result as [[text|]|]; exact I.
  - left. destruct (st_sleep s); try exact I. destruct (st_connected s); exact I.
  - left. destruct (st_sleep s); try exact I; revert I; repeat match goal with |- context [match ?x with _ => _ end] => destruct x end; intro I; exact I.
  - left. destruct (st_connected s); exact I.
Qed.

Lemma wrote_grows_step : forall s v, exists x, w_wrote (st_wq (stdio_step s v)) = w_wrote (st_wq s) ++ x.
Proof.
  intros s v. apply (wq_lift (fun w => exists x, w_wrote w = w_wrote (st_wq s) ++ x)).
  - intros p w [x E]. exists x. unfold enqueue. destruct (N.ltb (w_max w) (w_bytes w + size (encode p))); exact E.
  - intros w [x E]. exists x. exact E.
  - intros e w [x E]. destruct e; cbn [wq_step]; destruct (w_writer w); try (exists x; exact E);
      repeat match goal with |- context [match ?q with _ => _ end] => destruct q end; try (exists x; exact E).
    cbn [w_wrote]. rewrite E, <- app_assoc. eexists. reflexivity.
  - exists []. now rewrite app_nil_r.
Qed.

(** Every accepted frame fitted into the queue. *)
Lemma accepted_bound : forall now ms cap vs p,
  In (encode p) (w_accepted (st_wq (stdio_run (stdio_start now ms cap) vs))) -> (size (encode p) <= N.max cap 1)%N.
Proof.
  intros now ms cap vs p.
  apply (wq_lift_run (fun w => w_max w = N.max cap 1 /\ (In (encode p) (w_accepted w) -> (size (encode p) <= N.max cap 1)%N))).
  - intros q w [M I]. unfold enqueue. destruct (N.ltb_spec (w_max w) (w_bytes w + size (encode q))); cbn [snd w_max w_accepted]; (split; [exact M|]); [exact I|].
    intro K. apply in_app_iff in K as [K|[K|[]]]; [now apply I|]. rewrite <- K. lia.
  - intros w H. exact H.
  - intros v w [M I]. rewrite wq_step_accepts. split; [|exact I].
    destruct v; cbn [wq_step]; destruct (w_writer w); try exact M;
      repeat match goal with |- context [match ?x with _ => _ end] => destruct x end; exact M.
  - split; [|intros []]. cbn [st_wq stdio_start wq_start w_max]. destruct (N.eqb_spec cap 0); lia.
Qed.
