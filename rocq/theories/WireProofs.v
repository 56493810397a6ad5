(** Proofs for the wire composition. *)
From Coq Require Import Ascii String List Permutation Arith NArith ZArith Bool Lia ZifyBool ZifyNat ZifyN.
From Verif Require Import StrModel StrProofs FramerModel FramerProofs DoubleModel JsonModel JsonSpec JsonProofs RpcModel RpcSpec RpcProofs
  RouterModel RouterProofs WireSpec.
Import ListNotations.
Local Open Scope nat_scope.

Lemma wire_routed : forall h m, listening h -> wire_ok m -> fst (route h (wire_text m)) = [wire_call m].
Proof.
  intros h m [Hr Hn] W. destruct m as [r|r|n]; cbn [wire_text wire_call] in *.
  - destruct W as (A & B & C & D & E). destruct (h_request h) as [f|] eqn:F; [|now destruct Hr].
    rewrite (route_request h f r); auto.
  - destruct W as (A & B & C & D & E). rewrite (route_response h r); auto.
  - destruct W as (A & B & C). rewrite (route_notif h n); auto. destruct (h_notification h); [reflexivity|now destruct Hn].
Qed.

Lemma plain_noquote : forall s, plain s -> ~ In """"%char s.
Proof. intros s [P _]. exact P. Qed.

Lemma wire_reads : forall m, wire_ok m -> wire_read m (wire_text m).
Proof.
  intros m W. destruct m as [r|r|n]; cbn [wire_text wire_read] in *.
  - destruct W as (A & B & C & D & E). apply request_roundtrip; auto using plain_noquote.
  - destruct W as (A & B & C & D & E). now apply response_roundtrip.
  - destruct W as (A & B & C). apply notification_roundtrip; auto using plain_noquote.
Qed.

Lemma calls_all : forall h ms, listening h -> Forall wire_ok ms ->
  calls_of h (map Delivered (map wire_text ms)) = map wire_call ms.
Proof.
  intros h ms L F. unfold calls_of. induction F as [|m ms W F IH]; [reflexivity|].
  cbn [map flat_map]. rewrite IH, (wire_routed h m L W). reflexivity.
Qed.

(** A strict beginning of a frame is not yet a frame. *)
Lemma decode_strict_prefix : forall max p a b, b <> [] -> encode p = a ++ b ->
  (N.of_nat (length p) <= max)%N -> (N.of_nat (length (encode p)) < two64)%N ->
  decode max a = Incomplete.
Proof.
  intros max p a b Hb E H1 H2. pose proof (decode_encode max p [] H1 H2) as D.
  rewrite app_nil_r, E in D. pose proof (decode_app max a b) as K. pose proof (decode_bounds max a) as Bd.
  assert (length b <> 0) by (destruct b; [easy|cbn; lia]).
  destruct (decode max a) eqn:A; try reflexivity;
    try (assert (K' : decode max (a ++ b) = decode max a) by (rewrite A; apply K; congruence); rewrite K', A in D;
         first [discriminate D | injection D as _ Q; rewrite app_length in Q; lia]);
    contradiction.
Qed.

Lemma app_prefix : forall (x y a b : bstr), x ++ y = a ++ b -> length x <= length a -> exists a', a = x ++ a' /\ y = a' ++ b.
Proof.
  induction x as [|c x IH]; intros y a b E L; [now exists a|]. destruct a as [|d a]; [cbn in L; lia|].
  cbn in E. injection E as -> E. destruct (IH y a b E ltac:(cbn in L; lia)) as (a' & -> & B). now exists a'.
Qed.

Lemma drain_prefix : forall ps max a b,
  Forall (fun p => (N.of_nat (length p) <= max)%N /\ (N.of_nat (length (encode p)) < two64)%N) ps ->
  concat (map encode ps) = a ++ b ->
  exists ps1 ps2 fuel r, ps = ps1 ++ ps2 /\ drain fuel max true a = Some (map Delivered ps1, r) /\
    rx_connected r = true /\ a = concat (map encode ps1) ++ rx_buffer r /\
    (match ps2 with [] => rx_buffer r = [] | p :: _ => length (rx_buffer r) < length (encode p) end).
Proof.
  induction ps as [|p ps IH]; intros max a b F E.
  - cbn [map concat] in E. symmetry in E. apply app_eq_nil in E. destruct E as [-> ->].
    exists [], [], 1, reader0. repeat split; reflexivity.
  - inversion F as [|? ? [H1 H2] F']; subst. cbn [map concat] in E.
    destruct (le_lt_dec (length (encode p)) (length a)) as [L|L].
    + assert (exists a', a = encode p ++ a' /\ concat (map encode ps) = a' ++ b) as (a' & -> & E').
      { destruct (app_prefix (encode p) (concat (map encode ps)) a b E L) as (a' & A & B). exists a'. split; assumption. }
      destruct (IH max a' b F' E') as (ps1 & ps2 & fuel & r & -> & D & Cn & Q & R).
      exists (p :: ps1), ps2, (S fuel), r. split; [reflexivity|]. split.
      { cbn [drain]. rewrite (decode_encode max p a' H1 H2).
        assert (0 < length (encode p)) by (unfold encode; rewrite app_length; cbn; lia).
        assert (T : (Nat.ltb 0 (length (encode p)) && Nat.leb (length (encode p)) (length (encode p ++ a')))%bool = true).
        { rewrite app_length. apply andb_true_iff. split; [apply Nat.ltb_lt|apply Nat.leb_le]; lia. }
        rewrite T, skipn_app, skipn_all, Nat.sub_diag. cbn [skipn app]. rewrite D. reflexivity. }
      split; [exact Cn|]. split; [|exact R]. cbn [map concat]. rewrite <- app_assoc. f_equal. exact Q.
    + exists [], (p :: ps), 1, {| rx_connected := true; rx_buffer := a |}. split; [reflexivity|].
      split; [|repeat split; exact L].
      cbn [drain]. rewrite (decode_strict_prefix max p a (skipn (length a) (encode p))); auto.
      * intro Z. apply (f_equal (@length ascii)) in Z. rewrite skipn_length in Z. cbn [length] in Z. lia.
      * symmetry in E. destruct (app_prefix a b (encode p) _ E ltac:(lia)) as (e & A & _).
        rewrite A, skipn_app, skipn_all, Nat.sub_diag. reflexivity.
Qed.

Lemma prefix_any_chunking : forall ps max chunks b,
  Forall (fun p => (N.of_nat (length p) <= max)%N /\ (N.of_nat (length (encode p)) < two64)%N) ps ->
  concat (map encode ps) = concat chunks ++ b ->
  exists ps1 ps2 r, ps = ps1 ++ ps2 /\ on_reads max reader0 chunks = Some (map Delivered ps1, r) /\
    rx_connected r = true /\ concat chunks = concat (map encode ps1) ++ rx_buffer r /\
    (match ps2 with [] => rx_buffer r = [] | p :: _ => length (rx_buffer r) < length (encode p) end).
Proof.
  intros ps max chunks b F E. destruct (drain_prefix ps max _ b F E) as (ps1 & ps2 & f & r & P & D & Cn & Q & R).
  destruct (on_reads_total chunks max reader0) as [[e1 r1] H1].
  assert (Hi : decode max (rx_buffer reader0) = Incomplete) by reflexivity.
  destruct (on_reads_concat _ _ _ _ _ (eq_refl : rx_connected reader0 = true) Hi H1) as (x1 & A1 & B1 & C1).
  unfold on_read in A1. cbn [rx_connected reader0 rx_buffer app] in A1.
  pose proof (drain_fuel_indep _ _ _ _ _ _ _ A1 D) as K. injection K as -> ->.
  rewrite Cn in B1. symmetry in B1. specialize (C1 B1).
  exists ps1, ps2, r1. split; [exact P|]. split; [exact H1|]. split; [exact B1|]. rewrite <- C1. split; assumption.
Qed.

Lemma map_split : forall (A B : Type) (f : A -> B) l a b, map f l = a ++ b ->
  exists l1 l2, l = l1 ++ l2 /\ map f l1 = a /\ map f l2 = b.
Proof.
  intros A B f l a. revert l. induction a as [|x a IH]; intros l b E; [now exists [], l|].
  destruct l as [|y l]; [discriminate|]. cbn in E. injection E as E1 E2.
  destruct (IH _ _ E2) as (l1 & l2 & -> & <- & <-). exists (y :: l1), l2. cbn. now rewrite E1.
Qed.

Lemma fits_texts : forall max ms, Forall (fits max) ms ->
  Forall (fun p => (N.of_nat (length p) <= max)%N /\ (N.of_nat (length (encode p)) < two64)%N) (map wire_text ms).
Proof. intros max ms F. apply Forall_map. exact F. Qed.
