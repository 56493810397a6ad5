(** Proofs about the fields, the handlers and the last response. *)
From Coq Require Import Ascii String List Arith NArith ZArith Bool Lia.
From Verif Require Import StrModel StrProofs GearModel GearSpec.
Import ListNotations.
Local Open Scope nat_scope.

Lemma value_app : forall n a b, value_of n (a ++ b) = match value_of n a with Some x => Some x | None => value_of n b end.
Proof. induction a as [|[m v] a IH]; intro b; [reflexivity|]. cbn [List.app value_of]. destruct (beq (lower n) (lower m)); [reflexivity|apply IH]. Qed.

Lemma value_cut : forall n m l, lower n <> lower m -> value_of n (filter (fun f => negb (same_name (fst f) m)) l) = value_of n l.
Proof.
  intros n m l D. induction l as [|[k v] l IH]; [reflexivity|]. cbn [filter fst]. unfold same_name at 1.
  destruct (beq (lower k) (lower m)) eqn:E; cbn [negb value_of].
  - apply beq_eq in E. destruct (beq (lower n) (lower k)) eqn:F; [apply beq_eq in F; congruence|exact IH].
  - destruct (beq (lower n) (lower k)); [reflexivity|exact IH].
Qed.

Lemma value_gone : forall n m l, lower n = lower m -> value_of n (filter (fun f => negb (same_name (fst f) m)) l) = None.
Proof.
  intros n m l D. induction l as [|[k v] l IH]; [reflexivity|]. cbn [filter fst]. unfold same_name at 1.
  destruct (beq (lower k) (lower m)) eqn:E; cbn [negb value_of]; [exact IH|].
  destruct (beq (lower n) (lower k)) eqn:F; [|exact IH]. apply beq_eq in F. apply beq_neq in E. congruence.
Qed.

Lemma value_fset : forall n m v l, value_of n (fset m v l) = if beq (lower n) (lower m) then Some v else value_of n l.
Proof.
  intros n m v l. unfold fset. rewrite value_app. cbn [value_of]. destruct (beq (lower n) (lower m)) eqn:E.
  - apply beq_eq in E. now rewrite value_gone.
  - apply beq_neq in E. rewrite value_cut by exact E. destruct (value_of n l); reflexivity.
Qed.

Lemma value_auth : forall auth n l, value_of n (add_auth auth l) = match last_of n auth with Some x => Some x | None => value_of n l end.
Proof.
  unfold add_auth, last_of. induction auth as [|[m v] a IH]; intros n l; [reflexivity|]. cbn [fold_left fst snd rev].
  rewrite IH, value_app. destruct (value_of n (rev a)); [reflexivity|]. cbn [value_of]. rewrite value_fset.
  destruct (beq (lower n) (lower m)); reflexivity.
Qed.

Definition names (l : fields) : list bstr := map (fun f => lower (fst f)) l.
Lemma names_cut : forall m l, NoDup (names l) -> NoDup (names (filter (fun f => negb (same_name (fst f) m)) l)) /\
  ~ In (lower m) (names (filter (fun f => negb (same_name (fst f) m)) l)) /\
  incl (names (filter (fun f => negb (same_name (fst f) m)) l)) (names l).
Proof.
  intros m l. induction l as [|[k v] l IH]; intro N; [repeat split; [constructor|intros []|intros x []]|].
  inversion N as [|x y NI ND E1]; subst. destruct (IH ND) as (A & B & C). cbn [filter fst]. change (same_name k m) with (beq (lower k) (lower m)).
  destruct (beq (lower k) (lower m)) eqn:E; cbn [negb].
  - refine (conj A (conj B _)). intros x X. right. now apply C.
  - apply beq_neq in E. refine (conj _ (conj _ _)).
    + cbn [names map]. constructor; [intro X; apply NI; now apply C|exact A].
    + cbn [names map]. intros [X|X]; [now apply E|now apply B].
    + intros x [X|X]; [now left|right; now apply C].
Qed.

Lemma names_fset : forall m v l, NoDup (names l) -> NoDup (names (fset m v l)).
Proof.
  intros m v l N. destruct (names_cut m l N) as (A & B & _). unfold fset, names. rewrite map_app. cbn [map fst].
  fold (names (filter (fun f => negb (same_name (fst f) m)) l)). revert A B. generalize (names (filter (fun f => negb (same_name (fst f) m)) l)). clear.
  induction l as [|x l IH]; intros A B; [repeat constructor; intros []|]. inversion A; subst. cbn [List.app]. constructor.
  - intro X. apply in_app_or in X as [X|[X|[]]]; [contradiction|]. apply B. now left.
  - apply IH; [assumption|]. intro X. apply B. now right.
Qed.
Lemma names_some : forall m v l, NoDup (names l) -> NoDup (names (if_some m v l)).
Proof. intros m [|c v] l N; [exact N|]. now apply names_fset. Qed.
Lemma names_auth : forall auth l, NoDup (names l) -> NoDup (names (add_auth auth l)).
Proof. unfold add_auth. induction auth as [|h a IH]; intros l N; [exact N|]. cbn [fold_left]. apply IH. now apply names_fset. Qed.

Lemma sent_once : forall c k s v auth, NoDup (names (sent c k s v auth)).
Proof.
  intros c k s v auth. destruct k as [body| |]; cbn [sent]; unfold post_head, delete_head, stream_head; cbv zeta;
    repeat first [apply names_fset | apply names_auth | apply names_some | constructor | destruct (gc_streamable c)].
Qed.

Lemma whose_host : forall c, host_field c = whose c.
Proof. intro c. unfold host_field, whose. destruct (gc_https c); [|reflexivity]. destruct (gc_server c); reflexivity. Qed.

Lemma value_some : forall n m v l, value_of n (if_some m v l) = if (beq (lower n) (lower m) && negb (beq v []))%bool then Some v else value_of n l.
Proof.
  intros n m [|c v] l; unfold if_some; [cbn [beq negb]; now rewrite andb_false_r|]. rewrite value_fset. cbn [beq negb]. now rewrite andb_true_r.
Qed.
Lemma value_some_field : forall n m v, value_of n (some_field m v) = if (beq (lower n) (lower m) && negb (beq v []))%bool then Some v else None.
Proof.
  intros n m v. unfold some_field. destruct (beq v []); cbn [value_of negb]; [now rewrite andb_false_r|now rewrite andb_true_r].
Qed.

(** The names are different. *)
Ltac away E n := match goal with |- context[beq (lower n) (lower ?m)] => destruct (beq (lower n) (lower m)) eqn:E end.

Lemma sent_value : forall c k s v auth n,
  value_of n (sent c k s v auth) =
    if (match k with AStream => false | _ => true end && beq (lower n) (bs "host"))%bool then Some (whose c)
    else match last_of n auth with Some x => Some x | None => value_of n (own_fields c k s v) end.
Proof.
  intros c k s v auth n. rewrite <- whose_host.
  change (bs "host") with (lower (bs "Host")).
  destruct k as [body| |]; cbn [sent own_fields andb]; unfold post_head, delete_head, stream_head; cbv zeta.
  - rewrite value_fset, value_auth. destruct (beq (lower n) (lower (bs "Host"))) eqn:H; [reflexivity|].
    destruct (last_of n auth); [reflexivity|].
    destruct (gc_streamable c); rewrite ?value_some, ?value_fset, ?value_app, ?value_some_field; cbn [value_of]; rewrite ?H, ?whose_host.
    + destruct (beq (lower n) (lower (bs "MCP-Protocol-Version"))) eqn:E1; cbn [andb].
      * apply beq_eq in E1. rewrite E1. destruct (beq v []); reflexivity.
      * destruct (beq (lower n) (lower (bs "Mcp-Session-Id"))) eqn:E2; cbn [andb].
        -- apply beq_eq in E2. rewrite E2. destruct (beq s []); reflexivity.
        -- destruct (beq (lower n) (lower (bs "Content-Length"))) eqn:E3; [apply beq_eq in E3; rewrite E3; reflexivity|].
           destruct (beq (lower n) (lower (bs "Connection"))) eqn:E4; [apply beq_eq in E4; rewrite E4; reflexivity|].
           destruct (beq (lower n) (lower (bs "Accept"))) eqn:E5; [apply beq_eq in E5; rewrite E5; reflexivity|].
           destruct (beq (lower n) (lower (bs "Content-Type"))); reflexivity.
    + destruct (beq (lower n) (lower (bs "Content-Length"))) eqn:E3; [apply beq_eq in E3; rewrite E3; reflexivity|].
      destruct (beq (lower n) (lower (bs "Connection"))) eqn:E4; [apply beq_eq in E4; rewrite E4; reflexivity|].
      destruct (beq (lower n) (lower (bs "Accept"))) eqn:E5; [apply beq_eq in E5; rewrite E5; reflexivity|].
      destruct (beq (lower n) (lower (bs "Content-Type"))); reflexivity.
  - rewrite value_fset, value_auth. destruct (beq (lower n) (lower (bs "Host"))) eqn:H; [reflexivity|].
    destruct (last_of n auth); [reflexivity|]. rewrite ?value_some, ?value_fset, ?value_app, ?value_some_field. cbn [value_of]. rewrite ?H.
    destruct (beq (lower n) (lower (bs "MCP-Protocol-Version"))) eqn:E1; cbn [andb].
    + apply beq_eq in E1. rewrite E1. destruct (beq v []); reflexivity.
    + destruct (beq (lower n) (lower (bs "Mcp-Session-Id"))) eqn:E2; [apply beq_eq in E2; rewrite E2; reflexivity|].
      destruct (beq (lower n) (lower (bs "Connection"))) eqn:E4; [apply beq_eq in E4; rewrite E4; reflexivity|].
      destruct (beq (lower n) (lower (bs "Accept"))); reflexivity.
  - rewrite value_auth. destruct (last_of n auth); [reflexivity|]. rewrite ?value_some, ?value_fset, ?value_app, ?value_some_field. cbn [value_of].
    rewrite ?whose_host.
    destruct (beq (lower n) (lower (bs "MCP-Protocol-Version"))) eqn:E1; cbn [andb].
    + apply beq_eq in E1. rewrite E1. destruct (beq v []); reflexivity.
    + destruct (beq (lower n) (lower (bs "Mcp-Session-Id"))) eqn:E2; [apply beq_eq in E2; rewrite E2; reflexivity|].
      destruct (beq (lower n) (lower (bs "Accept"))) eqn:E4; [apply beq_eq in E4; rewrite E4; reflexivity|].
      destruct (beq (lower n) (lower (bs "Host"))); reflexivity.
Qed.

Record wired (keeps : nat -> bool) (os : list wop) (w : wiring) : Prop := {
  wi_handler : gw_handler w = handler_set os;
  wi_auth : current w = auth_set os;
  wi_one : gw_strong w = None \/ gw_weak w = None;
  wi_sink : forall h a, gw_handler w = Some h -> current w = Some a -> gw_sinks w a = if keeps a then Some h else None;
  wi_bearer : forall a, keeps a = false -> gw_sinks w a = None
}.

Lemma wired_run : forall keeps os, wired keeps os (wrun keeps os).
Proof.
  intros keeps os. induction os as [|o os IH] using rev_ind.
  - constructor; cbn; auto; discriminate.
  - unfold wrun in *. rewrite fold_left_app. cbn [fold_left]. set (w := fold_left (wstep keeps) os wiring0) in *.
    destruct IH as [H A O S B]. unfold handler_set, auth_set in *. clearbody w.
    destruct o as [h|a|a]; cbn [wstep]; unfold hand_to; cbn [gw_handler gw_strong gw_weak].
    + destruct h as [h|].
      * match goal with |- context[current ?x] => change (current x) with (current w) end.
        destruct (current w) as [x|] eqn:C; constructor; unfold handler_set, auth_set; rewrite ?fold_left_app; cbn [fold_left gw_handler gw_strong gw_weak gw_sinks]; auto.
        -- rewrite <- A. exact C.
        -- intros h' a [= <-] C2. match type of C2 with current ?y = _ => change (current y) with (current w) in C2 end. assert (a = x) as -> by congruence.
           rewrite Nat.eqb_refl. cbn [andb]. destruct (keeps x) eqn:K; [reflexivity|now apply B].
        -- intros a K. destruct (Nat.eqb_spec a x) as [->|]; [rewrite K|]; cbn [andb]; now apply B.
        -- rewrite <- A. exact C.
        -- intros h' a _ C2. match type of C2 with current ?y = _ => change (current y) with (current w) in C2 end. congruence.
      * constructor; unfold handler_set, auth_set; rewrite ?fold_left_app; cbn [fold_left gw_handler gw_strong gw_weak gw_sinks]; auto; try discriminate.
    + destruct (gw_handler w) as [h|] eqn:HH; constructor; unfold handler_set, auth_set; rewrite ?fold_left_app; cbn [fold_left gw_handler gw_strong gw_weak gw_sinks]; auto; try discriminate.
      * intros h' x [= <-] [= <-]. rewrite Nat.eqb_refl. cbn [andb]. destruct (keeps a) eqn:K; [reflexivity|now apply B].
      * intros x K. destruct (Nat.eqb_spec x a) as [->|]; [rewrite K|]; cbn [andb]; now apply B.
    + destruct (gw_handler w) as [h|] eqn:HH; [destruct a as [a|]|]; constructor; unfold handler_set, auth_set; rewrite ?fold_left_app; cbn [fold_left gw_handler gw_strong gw_weak gw_sinks]; auto; try discriminate.
      * intros h' x [= <-] [= <-]. rewrite Nat.eqb_refl. cbn [andb]. destruct (keeps a) eqn:K; [reflexivity|now apply B].
      * intros x K. destruct (Nat.eqb_spec x a) as [->|]; [rewrite K|]; cbn [andb]; now apply B.
      * unfold current. cbn [gw_strong gw_weak]. now destruct a.
Qed.

Lemma latest_snoc : forall es e, latest (es ++ [e]) = match e with XAnswered st hs => Some (st, hs) | _ => latest es end.
Proof.
  intros es e. induction es as [|x es IH]; [destruct e; reflexivity|]. cbn [List.app latest]. rewrite IH. destruct e; reflexivity.
Qed.

Lemma at_name_value : forall n l, at_name n l = match value_of n l with Some v => v | None => [] end.
Proof.
  intros n l. unfold at_name. induction l as [|[m v] l IH]; [reflexivity|]. cbn [find fst value_of]. unfold same_name at 1.
  destruct (beq (lower m) (lower n)) eqn:E.
  - apply beq_eq in E. rewrite E, beq_refl. reflexivity.
  - destruct (beq (lower n) (lower m)) eqn:F; [apply beq_eq in F; apply beq_neq in E; congruence|exact IH].
Qed.

Lemma last_latest : forall es, last_info es = match latest es with
  | Some (st, hs) => {| in_status := st; in_headers := hs; in_challenge := match value_of (bs "WWW-Authenticate") hs with Some v => v | None => [] end |}
  | None => info0
  end.
Proof.
  intro es. induction es as [|e es IH] using rev_ind; [reflexivity|]. unfold last_info in *. rewrite fold_left_app. cbn [fold_left]. rewrite latest_snoc.
  destruct e as [st hs| |st hs]; cbn [xstep]; try exact IH. unfold record_response. rewrite at_name_value. destruct (value_of (bs "WWW-Authenticate") hs) as [[|c r]|]; reflexivity.
Qed.
