From Coq Require Import Ascii String List Permutation Arith NArith ZArith Bool Lia ZifyBool ZifyNat ZifyN.
From Verif Require Import StrModel StrProofs DoubleModel JsonModel RpcModel HcliModel SseModel SseSpec SseProofs LoopModel LoopSpec.
Import ListNotations.
Local Open Scope nat_scope.

Lemma lrun_snoc c h vs a : lrun c h (vs ++ [a]) = lstep c (lrun c h vs) a.
Proof. unfold lrun. now rewrite fold_left_app. Qed.

(** ** The head *)
Lemma getline_lf l r : ~ In LF l -> getline (l ++ LF :: r) = (l, r).
Proof.
  induction l as [|c l IH]; intros N; cbn [getline List.app]; [reflexivity|].
  destruct (Ascii.eqb_spec c LF) as [E|E]; [exfalso; apply N; now left|]. rewrite IH by (intros X; apply N; now right). reflexivity.
Qed.
Lemma contains_iff p s : contains p s = true <-> mentions p s.
Proof.
  unfold mentions. induction s as [|c s IH]; cbn [contains].
  - rewrite orb_false_r. split.
    + intros H. apply starts_with_iff in H as (b & E). exists [], b. exact E.
    + intros (a & b & E). destruct a; [|discriminate]. cbn [List.app] in E. rewrite E. now apply starts_with_app.
  - rewrite orb_true_iff, IH. split.
    + intros [H|(a & b & E)]; [apply starts_with_iff in H as (b & E); exists [], b; exact E|exists (c :: a), b; cbn; congruence].
    + intros (a & b & E). destruct a as [|x a]; [left; cbn [List.app] in E; rewrite E; now apply starts_with_app|].
      right. exists a, b. cbn in E. congruence.
Qed.

Lemma prefix_nosep : forall (p a y b : bstr) sep, ~ In sep p -> p ++ y = a ++ sep :: b -> exists z, a = p ++ z.
Proof.
  induction p as [|c p IH]; intros a y b sep N E; [now exists a|].
  destruct a as [|d a]; cbn in E; injection E as -> E; [exfalso; apply N; now left|].
  destruct (IH a y b sep) as (z & ->); [intros X; apply N; now right|exact E|]. now exists z.
Qed.
Lemma mentions_sep p a b sep : ~ In sep p -> p <> [] -> mentions p (a ++ sep :: b) <-> mentions p a \/ mentions p b.
Proof.
  intros N Z. split.
  - intros (x & y & E). revert x E. induction a as [|c a IH]; intros x E.
    + destruct x as [|d x]; [destruct p; [congruence|cbn in E; injection E as <- _; exfalso; apply N; now left]|].
      cbn in E. injection E as _ E. right. now exists x, y.
    + destruct x as [|d x].
      * cbn [List.app] in E. symmetry in E. destruct (prefix_nosep p (c :: a) y b sep N E) as (z & F). left. now exists [], z.
      * cbn in E. injection E as -> E. destruct (IH x E) as [(u & v & ->)|H]; [left; now exists (d :: u), v|now right].
  - intros [(x & y & ->)|(x & y & ->)].
    + exists x, (y ++ sep :: b). now rewrite <- !app_assoc.
    + exists (a ++ sep :: x), y. now rewrite <- app_assoc.
Qed.
Lemma mentions_same p s : length p = length s -> mentions p s -> p = s.
Proof.
  intros L (a & b & E). pose proof (f_equal (@length ascii) E) as F. rewrite !app_length in F.
  destruct a; [|cbn in F; lia]. destruct b; [|cbn in F; lia]. cbn in E. now rewrite app_nil_r in E.
Qed.

Lemma chop_cr_snoc l : chop_cr (l ++ [CR]) = l.
Proof. unfold chop_cr. rewrite rev_app_distr. cbn. now rewrite rev_involutive. Qed.
Lemma cut_colon_app a b : ~ In COLON a -> cut_colon (a ++ COLON :: b) = Some (a, b).
Proof.
  induction a as [|c a IH]; intros N; cbn [cut_colon List.app]; [reflexivity|].
  destruct (Ascii.eqb_spec c COLON) as [E|E]; [exfalso; apply N; now left|]. rewrite IH by (intros X; apply N; now right). reflexivity.
Qed.
Lemma chop_spaces_id v : (forall r, v <> SPACE :: r) -> chop_spaces v = v.
Proof. destruct v as [|c v]; intros N; cbn [chop_spaces]; [reflexivity|]. destruct (Ascii.eqb_spec c SPACE) as [->|E]; [now destruct (N v)|reflexivity]. Qed.

Definition field_session (old : bstr) (f : bstr * bstr) : bstr := if beq (fst f) SESSION_HEADER then snd f else old.
Lemma head_line_field old f : field_ok f -> head_line old (fst f ++ bs ": " ++ snd f ++ [CR]) = field_session old f.
Proof.
  destruct f as [k v]. intros (N0 & N1 & N2 & N3 & N4 & N5). cbn [fst snd] in *. unfold head_line, field_session. cbn [fst snd].
  change (bs ": ") with (COLON :: [SPACE]).
  replace (k ++ (COLON :: [SPACE]) ++ v ++ [CR]) with ((k ++ COLON :: SPACE :: v) ++ [CR]) by (rewrite <- app_assoc; reflexivity).
  rewrite chop_cr_snoc, cut_colon_app by exact N1. cbn [chop_spaces Ascii.eqb]. change (chop_spaces (SPACE :: v)) with (chop_spaces v).
  now rewrite chop_spaces_id.
Qed.
Lemma head_lines_fields : forall fields fuel old rest, Forall field_ok fields -> length fields < fuel ->
  head_lines fuel old (flat_map field_line fields ++ CRLF ++ rest) = (fold_left field_session fields old, rest).
Proof.
  induction fields as [|f fields IH]; intros fuel old rest F L.
  - destruct fuel as [|fuel]; [cbn in L; lia|]. reflexivity.
  - destruct fuel as [|fuel]; [cbn in L; lia|]. inversion F as [|? ? Hf F']; subst.
    cbn [flat_map fold_left].
    assert (E : (field_line f ++ flat_map field_line fields) ++ CRLF ++ rest
                = (fst f ++ bs ": " ++ snd f ++ [CR]) ++ LF :: (flat_map field_line fields ++ CRLF ++ rest)).
    { unfold field_line, CRLF. change (ascii_of_nat 13) with CR. change (ascii_of_nat 10) with LF. rewrite <- !app_assoc. reflexivity. }
    rewrite E. assert (NL : ~ In LF (fst f ++ bs ": " ++ snd f ++ [CR])).
    { destruct Hf as (_ & _ & N2 & N3 & _). change (ascii_of_nat 10) with LF in N2, N3. rewrite !in_app_iff. intros [X|[X|[X|X]]]; try easy; cbn in X; intuition discriminate. }
    set (L1 := fst f ++ bs ": " ++ snd f ++ [CR]) in *.
    assert (G := getline_lf L1 (flat_map field_line fields ++ CRLF ++ rest) NL).
    destruct (L1 ++ LF :: flat_map field_line fields ++ CRLF ++ rest) as [|x xs] eqn:EX; [now destruct L1|]. cbn [head_lines]. rewrite G.
    assert (B : beq L1 [CR] = false).
    { destruct (beq L1 [CR]) eqn:B; [|reflexivity]. apply beq_eq in B. apply (f_equal (@length ascii)) in B. unfold L1 in B. rewrite !app_length in B. cbn in B. lia. }
    rewrite B. unfold L1. rewrite head_line_field by exact Hf. apply IH; [exact F'|cbn in L; lia].
Qed.
Lemma fields_after : forall fields old, session_after old fields (fold_left field_session fields old).
Proof.
  intros fields old. induction fields as [|f fields IH] using rev_ind; [right; split; [intros f []|reflexivity]|].
  rewrite fold_left_app. cbn [fold_left]. unfold field_session at 1. destruct f as [k v]. cbn [fst snd].
  destruct (beq k SESSION_HEADER) eqn:B.
  - apply beq_eq in B. subst k. left. exists fields, []. split; [reflexivity|intros f []].
  - assert (K : k <> bs "Mcp-Session-Id") by (intros ->; discriminate B).
    revert IH. generalize (fold_left field_session fields old). intros z [(a & b & E & H)|[H E]].
    + left. exists a, (b ++ [(k, v)]). split; [rewrite E, <- app_assoc; reflexivity|].
      intros f X. apply in_app_or in X. destruct X as [X|[<-|[]]]; [now apply H|exact K].
    + right. split; [|exact E]. intros f X. apply in_app_or in X. destruct X as [X|[<-|[]]]; [now apply H|exact K].
Qed.
Lemma session_after_det old fields s s' : session_after old fields s -> session_after old fields s' -> s = s'.
Proof.
  revert s s'. induction fields as [|f fields IH] using rev_ind; intros s s' H H'.
  - destruct H as [(a & b & E & _)|[_ ->]]; [now destruct a|]. destruct H' as [(a & b & E & _)|[_ ->]]; [now destruct a|reflexivity].
  - assert (K : forall s, session_after old (fields ++ [f]) s -> (f = (bs "Mcp-Session-Id", s)) \/ (fst f <> bs "Mcp-Session-Id" /\ session_after old fields s)).
    { clear. intros s [(a & b & E & H)|[H ->]].
      - destruct b as [|x b _] using rev_ind.
        + apply app_inj_tail in E. left. now destruct E.
        + rewrite app_comm_cons, app_assoc in E. apply app_inj_tail in E. destruct E as [E <-]. right. split; [apply H, in_or_app; right; now left|].
          left. exists a, b. split; [exact E|]. intros g X. apply H, in_or_app. now left.
      - right. split; [apply H, in_or_app; right; now left|]. right. split; [|reflexivity]. intros g X. apply H, in_or_app. now left. }
    destruct (K _ H) as [E|[N1 S1]]; destruct (K _ H') as [E'|[N2 S2]].
    + subst f. pose proof (f_equal snd E') as E2. exact E2.
    + subst f. now destruct N2.
    + subst f. now destruct N1.
    + now apply IH.
Qed.

Definition status_line (code reason : bstr) : bstr := bs "HTTP/1.1 " ++ code ++ bs " " ++ reason ++ [CR].
Lemma reply_lines code reason fields rest : status_code code -> reason_ok reason ->
  getline (reply_text code reason fields rest) = (status_line code reason, flat_map field_line fields ++ CRLF ++ rest).
Proof.
  intros (_ & _ & N1) N2. unfold reply_text, status_line. unfold CRLF at 1. change (ascii_of_nat 13) with CR. change (ascii_of_nat 10) with LF.
  replace (bs "HTTP/1.1 " ++ code ++ bs " " ++ reason ++ [CR; LF] ++ flat_map field_line fields ++ CRLF ++ rest)
    with ((bs "HTTP/1.1 " ++ code ++ bs " " ++ reason ++ [CR]) ++ LF :: (flat_map field_line fields ++ CRLF ++ rest)) by (rewrite <- !app_assoc; reflexivity).
  apply getline_lf. change (ascii_of_nat 10) with LF in N1. unfold reason_ok in N2. change (ascii_of_nat 10) with LF in N2.
  rewrite !in_app_iff. intros [X|[X|[X|[X|X]]]]; try easy; cbn in X; intuition discriminate.
Qed.
Definition three_digits (d : bstr) : Prop := d = bs "200" \/ d = bs "405".
Lemma status_contains d code reason : three_digits d -> status_code code -> contains d (status_line code reason) = true <-> d = code \/ mentions d reason.
Proof.
  intros D (L & N & _). rewrite contains_iff. unfold status_line.
  assert (Nd : ~ In SPACE d /\ d <> [] /\ length d = 3 /\ ~ In CR d) by (destruct D as [-> | ->]; repeat split; try discriminate; cbn; intuition discriminate).
  destruct Nd as (N1 & N2 & N3 & N4).
  change (bs "HTTP/1.1 ") with (bs "HTTP/1.1" ++ [SPACE]). change (bs " ") with [SPACE]. rewrite <- app_assoc. cbn [List.app].
  change (SPACE :: code ++ SPACE :: reason ++ [CR]) with (SPACE :: (code ++ SPACE :: (reason ++ CR :: []))).
  rewrite mentions_sep by assumption. rewrite mentions_sep by assumption. rewrite mentions_sep by assumption.
  assert (X : ~ mentions d (bs "HTTP/1.1")).
  { rewrite <- contains_iff. destruct D as [-> | ->]; discriminate. }
  assert (Y : ~ mentions d []).
  { intros (a & b & E). destruct a; [|discriminate]. destruct d; [congruence|discriminate]. }
  split.
  - intros [H|[H|[H|H]]]; [now destruct X|left; apply mentions_same in H; [auto|congruence]|now right|now destruct Y].
  - intros [-> |H]; [right; left; exists [], []; now rewrite app_nil_r|right; right; now left].
Qed.
Lemma fields_length fields : length fields <= length (flat_map field_line fields).
Proof. induction fields as [|f fields IH]; [reflexivity|]. cbn [flat_map]. rewrite app_length. unfold field_line at 1. rewrite !app_length. unfold CRLF. cbn [length]. lia. Qed.
Lemma head_read session code reason fields rest : status_code code -> reason_ok reason -> Forall field_ok fields ->
  read_head session (reply_text code reason fields rest) =
    if contains (bs "200") (status_line code reason) then VStream (fold_left field_session fields session) rest
    else if contains (bs "405") (status_line code reason) then VOff else VAgain.
Proof.
  intros S R F. unfold read_head. rewrite reply_lines by assumption. rewrite head_lines_fields; [reflexivity|exact F|].
  rewrite !app_length. pose proof (fields_length fields). unfold CRLF. cbn [length]. lia.
Qed.

(** ** The log *)
Definition closed_log (l : list glog) : Prop := forall a t s b, l = a ++ GGet t s :: b -> exists t' d, In (GEnd t' d) b.
Definition gets_ok (l : list glog) : Prop := forall l1 t s l2, l = l1 ++ GGet t s :: l2 ->
  current_session l1 s /\ s <> [] /\ (forall t0 d, In (GEnd t0 d) l1 -> (t0 + d <= t)%N) /\ closed_log l1.
Definition is_get (g : glog) : bool := match g with GGet _ _ => true | _ => false end.

Lemma split_snoc {A} (l : list A) g a x b : l ++ [g] = a ++ x :: b ->
  (b = [] /\ l = a /\ x = g) \/ (exists b', b = b' ++ [g] /\ l = a ++ x :: b').
Proof.
  intros E. destruct b as [|y b _] using rev_ind.
  - apply app_inj_tail in E. left. destruct E. auto.
  - rewrite app_comm_cons, app_assoc in E. apply app_inj_tail in E. destruct E as [E <-]. right. exists b. auto.
Qed.
Lemma gets_snoc l g : is_get g = false -> gets_ok l -> gets_ok (l ++ [g]).
Proof.
  intros G H l1 t s l2 E. apply split_snoc in E. destruct E as [(_ & _ & <-)|(b & _ & E)]; [discriminate|]. exact (H _ _ _ _ E).
Qed.
Lemma gets_get l t s : gets_ok l -> current_session l s -> s <> [] -> (forall t0 d, In (GEnd t0 d) l -> (t0 + d <= t)%N) -> closed_log l ->
  gets_ok (l ++ [GGet t s]).
Proof.
  intros H C N T K l1 t1 s1 l2 E. apply split_snoc in E. destruct E as [(_ & -> & E)|(b & _ & E)]; [injection E as -> ->; auto|exact (H _ _ _ _ E)].
Qed.
Lemma closed_end l t d : closed_log (l ++ [GEnd t d]).
Proof.
  intros a t1 s1 b E. apply split_snoc in E. destruct E as [(_ & _ & E)|(b' & -> & E)]; [discriminate|].
  exists t, d. apply in_or_app. right. now left.
Qed.
Lemma closed_snoc l g : is_get g = false -> closed_log l -> closed_log (l ++ [g]).
Proof.
  intros G H a t s b E. apply split_snoc in E. destruct E as [(_ & _ & <-)|(b' & -> & E)]; [discriminate|].
  destruct (H _ _ _ _ E) as (t' & d & I). exists t', d. apply in_or_app. now left.
Qed.
Lemma current_snoc l g s : issue g = None -> current_session l s -> current_session (l ++ [g]) s.
Proof.
  intros G [(a & x & b & -> & I & N)|[N ->]].
  - left. exists a, x, (b ++ [g]). rewrite <- app_assoc. split; [reflexivity|]. split; [exact I|].
    intros y Y. apply in_app_or in Y. destruct Y as [Y|[<-|[]]]; auto.
  - right. split; [|reflexivity]. intros y Y. apply in_app_or in Y. destruct Y as [Y|[<-|[]]]; auto.
Qed.
Lemma current_issue l g s : issue g = Some s -> current_session (l ++ [g]) s.
Proof. intros G. left. exists l, g, []. split; [reflexivity|]. split; [exact G|intros y []]. Qed.
Lemma current_det l s s' : current_session l s -> current_session l s' -> s = s'.
Proof.
  revert s s'. induction l as [|g l IH] using rev_ind; intros s s' H H'.
  - destruct H as [(a & x & b & E & _)|[_ ->]]; [now destruct a|]. destruct H' as [(a & x & b & E & _)|[_ ->]]; [now destruct a|reflexivity].
  - assert (K : forall s, current_session (l ++ [g]) s -> issue g = Some s \/ (issue g = None /\ current_session l s)).
    { clear. intros s [(a & x & b & E & I & N)|[N ->]].
      - apply split_snoc in E. destruct E as [(_ & _ & ->)|(b' & -> & E)]; [now left|]. right. split; [apply N, in_or_app; right; now left|].
        left. exists a, x, b'. repeat split; auto. intros y Y. apply N, in_or_app. now left.
      - right. split; [apply N, in_or_app; right; now left|]. right. split; [|reflexivity]. intros y Y. apply N, in_or_app. now left. }
    destruct (K _ H) as [I|[I C]]; destruct (K _ H') as [I'|[I' C']]; try congruence. now apply IH.
Qed.

(** ** The invariant *)
Definition ends_ok (h : loop) : Prop := forall t d, In (GEnd t d) (lp_log h) ->
  (t + d <= lp_now h)%N \/ (exists till, lp_thread h = ThRuns (PNap till) /\ (t + d <= till)%N) \/
  (lp_enabled h = false /\ (lp_thread h = ThRuns PTop \/ lp_thread h = ThOver \/ lp_thread h = ThNone)).
Definition open_ok (h : loop) : Prop :=
  closed_log (lp_log h) \/ in_connection h \/ (lp_enabled h = false /\ (lp_thread h = ThOver \/ lp_thread h = ThNone)).
Definition base_ok (h : loop) : Prop :=
  (lp_close h = 0 \/ lp_enabled h = false) /\ (lp_close h = 2 -> lp_thread h = ThNone) /\ (lp_close h <> 2 -> lp_connected h = true) /\ lp_close h <= 2 /\
  (lp_running h = true <-> exists p, lp_thread h = ThRuns p) /\
  (lp_close h = 0 -> streaming h -> lp_enabled h = true).
Record linv (h : loop) : Prop := {
  li_base : base_ok h;
  li_nap : forall till, lp_thread h = ThRuns (PNap till) -> (till <= lp_now h + se_retry (lp_sse h))%N;
  li_ends : ends_ok h;
  li_open : open_ok h;
  li_session : lp_close h <> 2 -> current_session (lp_log h) (lp_session h);
  li_gets : gets_ok (lp_log h)
}.

Lemma linv0 c : linv (loop0 c).
Proof.
  constructor; cbn.
  - unfold base_ok, streaming. cbn. repeat split; auto; try discriminate; try lia. intros (p & E). discriminate.
  - discriminate.
  - intros t d [].
  - left. intros a t s b E. now destruct a.
  - intros _. right. split; [intros x []|reflexivity].
  - intros l1 t s l2 E. now destruct l1.
Qed.

(** What a phase that is neither asleep nor at the top knows. *)
Lemma ends_past h p : linv h -> lp_thread h = ThRuns p -> p <> PTop -> (forall till, p <> PNap till) ->
  forall t d, In (GEnd t d) (lp_log h) -> (t + d <= lp_now h)%N.
Proof.
  intros I T N1 N2 t d E. destruct (li_ends h I t d E) as [H|[(till & H & _)|(_ & [H|[H|H]])]]; rewrite ?T in *; try congruence.
Qed.

Lemma nap_ok h p : linv h -> lp_thread h = ThRuns p -> p <> PTop -> (forall till, p <> PNap till) -> linv (lp_nap h).
Proof.
  intros I T N1 N2. assert (P := ends_past h p I T N1 N2). destruct I as [B A E O S G]. destruct B as (B1 & B2 & B3 & B4 & B5 & B6).
  assert (C2 : lp_close h <> 2) by (intros X; rewrite (B2 X) in T; discriminate).
  unfold lp_nap. constructor; cbn [lp_close lp_enabled lp_thread lp_connected lp_running lp_now lp_sse lp_log lp_session lp_note lp_at].
  - unfold base_ok, streaming. cbn [lp_close lp_enabled lp_thread lp_connected lp_running lp_now lp_sse lp_log lp_session lp_note lp_at].
    repeat split; auto; try congruence; try (intros; eexists; reflexivity).
    + intros _. apply B5. eauto.
    + intros X _. apply B6; [exact X|exists p; exact T].
  - intros till. destruct (lp_enabled h && lp_connected h)%bool; intros X; [injection X as <-; lia|discriminate].
  - intros t d X. cbn [lp_close lp_enabled lp_thread lp_connected lp_running lp_now lp_sse lp_log lp_session lp_note lp_at] in *.
    apply in_app_or in X. destruct X as [X|[X|[]]]; [left; now apply P|]. injection X as <- <-.
    rewrite (B3 C2), andb_true_r. destruct (lp_enabled h); [right; left; eexists; split; [reflexivity|lia]|right; right; auto].
  - left. apply closed_end.
  - intros _. apply current_snoc; [reflexivity|auto].
  - now apply gets_snoc.
Qed.

Ltac lcbn := cbn [lp_close lp_enabled lp_thread lp_connected lp_running lp_now lp_sse lp_log lp_session lp_crashed
  lp_note lp_at lp_in lp_reads lp_flags lp_closes lp_tick lp_crash] in *.
Definition conn (h : loop) : Prop := exists p, lp_thread h = ThRuns p /\ p <> PTop /\ (forall till, p <> PNap till).
Lemma in_conn h : in_connection h -> conn h.
Proof. intros [T|(b & T)]; eexists; (split; [exact T|split; [discriminate|intros; discriminate]]). Qed.

Lemma reads_ok s h : linv h -> conn h -> linv (lp_reads s h).
Proof.
  intros [B A E O S G] (p & T & N1 & N2). constructor; lcbn; auto.
  intros till X. congruence.
Qed.
Lemma body_ok b h : linv h -> conn h -> linv (lp_at (ThRuns (PBody b)) h).
Proof.
  intros I (p & T & N1 & N2). assert (P := ends_past h p I T N1 N2). destruct I as [B A E O S G]. destruct B as (B1 & B2 & B3 & B4 & B5 & B6).
  constructor; lcbn; auto.
  - unfold base_ok, streaming. lcbn. repeat split; auto.
    + intros X. rewrite (B2 X) in T. discriminate.
    + eauto.
    + intros _. apply B5. eauto.
    + intros X _. apply B6; [exact X|exists p; exact T].
  - discriminate.
  - intros t d X. left. now apply P.
  - right. left. right. exists b. reflexivity.
Qed.
Lemma head_ok s h : linv h -> in_connection h -> linv (lp_note (GHead s) (lp_in s h)).
Proof.
  intros I C. destruct (in_conn _ C) as (p & T & N1 & N2). assert (P := ends_past h p I T N1 N2). destruct I as [B A E O S G].
  constructor; lcbn; auto.
  - intros t d X. lcbn. apply in_app_or in X. destruct X as [X|[X|[]]]; [|discriminate]. left. now apply P.
  - right. left. exact C.
  - intros _. now apply current_issue.
  - now apply gets_snoc.
Qed.
Lemma parse_ok ok buf h : linv h -> conn h -> linv (lp_parse ok buf h).
Proof.
  intros I C. unfold lp_parse. destruct (feed ok (getlines [] buf) (lp_sse h)) as [s fine]. cbv zeta.
  assert (I' := reads_ok s h I C). assert (C' : conn (lp_reads s h)) by exact C.
  destruct (fine && _ && _)%bool; [now apply body_ok|]. destruct C' as (p & T & N1 & N2). exact (nap_ok _ p I' T N1 N2).
Qed.
Lemma over_ok h p : linv h -> lp_thread h = ThRuns p -> lp_enabled h = false \/ p = PDial -> linv (lp_over h).
Proof.
  intros I T W. assert (P : forall t d, p = PDial -> In (GEnd t d) (lp_log h) -> (t + d <= lp_now h)%N).
  { intros t d Ep X. subst p. revert X. apply (ends_past h PDial I T); [discriminate|intros; discriminate]. }
  destruct I as [B A E O S G]. destruct B as (B1 & B2 & B3 & B4 & B5 & B6). unfold lp_over. constructor; lcbn; auto.
  - unfold base_ok, streaming. lcbn. repeat split; auto; try discriminate.
    + intros X. rewrite (B2 X) in T. discriminate.
    + intros (q & X). discriminate.
    + intros X (q & Y). discriminate.
  - discriminate.
  - intros t d X. lcbn. destruct W as [W|W]; [right; right; auto|left; now apply P].
  - destruct W as [W|W]; [right; right; lcbn; auto|]. subst p. destruct O as [O|[[O|(b & O)]|(O1 & [O|O])]]; lcbn; try congruence. now left.
Qed.

Lemma off_ok h : linv h -> lp_thread h = ThRuns PHead -> linv (lp_over (lp_flags false (lp_running h) h)).
Proof.
  intros I T. destruct I as [B A E O S G]. destruct B as (B1 & B2 & B3 & B4 & B5 & B6). unfold lp_over. constructor; lcbn; auto.
  - unfold base_ok, streaming. lcbn. repeat split; auto; try discriminate.
    + intros X. rewrite (B2 X) in T. discriminate.
    + intros (q & X). discriminate.
    + intros X (q & Y). discriminate.
  - discriminate.
  - intros t d X. right. right. lcbn. auto.
  - right. right. lcbn. auto.
Qed.

Lemma lstep_ok c h a : linv h -> linv (lstep c h a).
Proof.
  intros I. unfold lstep. destruct (lp_crashed h); [exact I|].
  destruct a as [d|init s| | | |text ok|piece ok| | |].
  - (* LTick *) destruct I as [B A E O S G]. constructor; lcbn; auto.
    + intros till T. specialize (A till T). lia.
    + intros t x X. lcbn. destruct (E t x X) as [H|[(till & H & L)|H]]; [left; lia|right; left; eauto|right; right; auto].
  - (* LReply *)
    assert (C : linv (lp_capture s h)).
    { unfold lp_capture. destruct s as [|x s]; [exact I|]. destruct I as [B A E O S G]. constructor; lcbn; auto.
      - intros t d X. lcbn. apply in_app_or in X. destruct X as [X|[X|[]]]; [|discriminate]. exact (E t d X).
      - destruct O as [O|O]; [left; now apply closed_snoc|now right].
      - intros _. now apply current_issue.
      - now apply gets_snoc. }
    cbv zeta. destruct (init && negb (beq s []))%bool; [|exact C]. revert C. generalize (lp_capture s h). clear h I. intros h I.
    unfold lp_start. destruct (lc_stream c && lp_enabled h && negb (beq (lp_session h) []) && negb (lp_running h))%bool eqn:K; [|exact I].
    apply andb_true_iff in K. destruct K as [K K4]. apply andb_true_iff in K. destruct K as [K K3]. apply andb_true_iff in K. destruct K as [K1 K2].
    destruct (lp_thread h) as [|p|] eqn:T; destruct I as [B A E O S G]; try (constructor; lcbn; auto; fail).
    destruct B as (B1 & B2 & B3 & B4 & B5 & B6). constructor; lcbn; auto.
    + unfold base_ok, streaming. lcbn. repeat split; auto; try (intros; eauto; fail).
      intros X. destruct B1 as [B1|B1]; congruence.
    + discriminate.
    + intros t d X. lcbn. destruct (E t d X) as [H|[(till & H & L)|(H & _)]]; [now left|congruence|congruence].
    + destruct O as [O|[[O|(b & O)]|(O1 & O)]]; lcbn; try congruence. now left.
  - (* LTest *)
    destruct (lp_thread h) as [|[| | | |]|] eqn:T; try exact I.
    destruct (lp_connected h && lp_enabled h)%bool eqn:K.
    + apply andb_true_iff in K. destruct K as [K1 K2]. destruct I as [B A E O S G]. destruct B as (B1 & B2 & B3 & B4 & B5 & B6). constructor; lcbn; auto.
      * unfold base_ok, streaming. lcbn. repeat split; auto.
        -- intros X. rewrite (B2 X) in T. discriminate.
        -- eauto.
        -- intros _. apply B5. eauto.
      * discriminate.
      * intros t d X. lcbn. destruct (E t d X) as [H|[(till & H & L)|(H & _)]]; [now left|congruence|congruence].
      * destruct O as [O|[[O|(b & O)]|(O1 & O)]]; lcbn; try congruence. now left.
    + apply (over_ok h PTop I T). left. apply andb_false_iff in K. destruct K as [K|K]; [|exact K].
      destruct I as [B A E O S G]. destruct B as (B1 & B2 & B3 & B4 & B5 & B6).
      destruct (Nat.eq_dec (lp_close h) 2) as [X|X]; [rewrite (B2 X) in T; discriminate|]. rewrite (B3 X) in K. discriminate.
  - (* LConnect *)
    destruct (lp_thread h) as [|[| | | |]|] eqn:T; try exact I.
    destruct (lp_session h) as [|x s] eqn:Es; [apply (over_ok h PDial I T); now right|].
    assert (P : forall t d, In (GEnd t d) (lp_log h) -> (t + d <= lp_now h)%N) by (apply (ends_past h PDial I T); [discriminate|intros; discriminate]).
    destruct I as [B A E O S G]. destruct B as (B1 & B2 & B3 & B4 & B5 & B6).
    assert (C2 : lp_close h <> 2) by (intros X; rewrite (B2 X) in T; discriminate).
    assert (CL : closed_log (lp_log h)) by (destruct O as [O|[[O|(b & O)]|(O1 & [O|O])]]; [exact O|congruence..]).
    constructor; lcbn; auto.
    + unfold base_ok, streaming. lcbn. repeat split; auto; try congruence.
      * eauto.
      * intros _. apply B5. eauto.
      * intros X _. apply B6; [exact X|eexists; exact T].
    + discriminate.
    + intros t d X. lcbn. apply in_app_or in X. destruct X as [X|[X|[]]]; [left; now apply P|discriminate].
    + right. left. left. reflexivity.
    + intros _. apply current_snoc; [reflexivity|auto].
    + rewrite <- Es. apply gets_get; auto. rewrite Es. discriminate.
  - (* LFail *)
    destruct (lp_thread h) as [|[| | | |]|] eqn:T; try exact I;
      (eapply nap_ok; [exact I|exact T|discriminate|intros; discriminate]).
  - (* LHead *)
    destruct (lp_thread h) as [|[| | | |]|] eqn:T; try exact I.
    destruct (read_head (lp_session h) text) as [s rest| |].
    + cbv zeta. assert (I1 := head_ok s h I (or_introl T)). assert (C1 : conn (lp_note (GHead s) (lp_in s h))).
      { exists PHead. split; [exact T|]. split; [discriminate|intros; discriminate]. }
      revert I1 C1. generalize (lp_note (GHead s) (lp_in s h)). intros h1 I1 C1.
      assert (I2 := reads_ok {| se_pending := []; se_retry := se_retry (lp_sse h1); se_out := se_out (lp_sse h1) |} h1 I1 C1).
      revert I2. generalize (eq_refl (lp_thread (lp_reads {| se_pending := []; se_retry := se_retry (lp_sse h1); se_out := se_out (lp_sse h1) |} h1))).
      destruct C1 as (p & T1 & N1 & N2). intros _ I2. match goal with |- linv (if _ then lp_parse _ _ ?h2 else _) => assert (C2 : conn h2) by (exists p; auto) end.
      destruct (_ && _)%bool; [now apply parse_ok|]. eapply nap_ok; [exact I2|exact T1|exact N1|exact N2].
    + now apply off_ok.
    + eapply nap_ok; [exact I|exact T|discriminate|intros; discriminate].
  - (* LBytes *)
    destruct (lp_thread h) as [|[| | |buf|]|] eqn:T; try exact I. cbv zeta.
    assert (C : conn h) by (exists (PBody buf); split; [exact T|]; split; [discriminate|intros; discriminate]).
    destruct (has_lf (buf ++ piece)); [|now apply body_ok].
    destruct (lp_connected h && lp_enabled h)%bool; [now apply parse_ok|].
    eapply nap_ok; [exact I|exact T|discriminate|intros; discriminate].
  - (* LWake *)
    destruct (lp_thread h) as [|[| | | |till]|] eqn:T; try exact I. destruct (N.leb_spec till (lp_now h)) as [L|L]; [|exact I].
    destruct I as [B A E O S G]. destruct B as (B1 & B2 & B3 & B4 & B5 & B6). constructor; lcbn; auto.
    + unfold base_ok, streaming. lcbn. repeat split; auto.
      * intros X. rewrite (B2 X) in T. discriminate.
      * eauto.
      * intros _. apply B5. eauto.
      * intros X _. apply B6; [exact X|eexists; exact T].
    + discriminate.
    + intros t d X. lcbn. destruct (E t d X) as [H|[(u & H & Lu)|(H & [H2|[H2|H2]])]]; try congruence; left; [exact H|]. rewrite T in H. injection H as <-. lia.
    + destruct O as [O|[[O|(b & O)]|(O1 & [O|O])]]; lcbn; try congruence. now left.
  - (* LClose *)
    destruct (lp_close h) as [|n] eqn:K; [|exact I].
    destruct I as [B A E O S G]. destruct B as (B1 & B2 & B3 & B4 & B5 & B6).
    assert (X : lp_close h <> 2) by (rewrite K; discriminate).
    constructor; lcbn; auto.
    + unfold base_ok, streaming. lcbn. repeat split; auto; try (intros; discriminate); try apply B5.
    + intros t d Y. lcbn. destruct (E t d Y) as [H|[H|(H & H2)]]; [now left|right; now left|right; right; auto].
    + destruct O as [O|[O|(O1 & O2)]]; [now left|right; now left|right; right; lcbn; auto].
  - (* LJoin *)
    assert (J : (lp_thread h = ThNone \/ lp_thread h = ThOver) -> lp_close h = 1 ->
                linv (lp_in [] (lp_closes 2 false (lp_at ThNone (lp_flags (lp_enabled h) false h))))).
    { intros T K. destruct I as [B A E O S G]. destruct B as (B1 & B2 & B3 & B4 & B5 & B6).
      assert (D : lp_enabled h = false) by (destruct B1 as [B1|B1]; [congruence|exact B1]).
      constructor; lcbn; auto.
      - unfold base_ok, streaming. lcbn. repeat split; auto; try (intros; discriminate); try congruence.
        + intros (p & X). discriminate.
      - discriminate.
      - intros t d Y. right. right. lcbn. auto.
      - right. right. lcbn. auto.
      - congruence. }
    destruct (lp_thread h) as [|p|] eqn:T; try exact I; destruct (lp_close h) as [|[|n]] eqn:K; try exact I; apply J; auto.
Qed.

Lemma lrun_ok c vs : linv (lrun c (loop0 c) vs).
Proof. induction vs as [|a vs IH] using rev_ind; [apply linv0|]. rewrite lrun_snoc. now apply lstep_ok. Qed.

(** ** The log only grows *)
Lemma nap_log h : exists g, lp_log (lp_nap h) = lp_log h ++ [g] /\ is_get g = false /\ issue g = None.
Proof. eexists. repeat split. Qed.
Lemma parse_log ok b h : exists l, lp_log (lp_parse ok b h) = lp_log h ++ l /\ forall g, In g l -> is_get g = false /\ issue g = None.
Proof.
  unfold lp_parse. destruct (feed _ _ _) as [s fine]. cbv zeta. destruct (_ && _ && _)%bool.
  - exists []. split; [symmetry; apply app_nil_r|intros g []].
  - destruct (nap_log (lp_reads s h)) as (g & E & G & G'). exists [g]. split; [exact E|]. intros x [<-|[]]. auto.
Qed.
Lemma start_log c h : lp_log (lp_start c h) = lp_log h.
Proof. unfold lp_start. destruct (_ && _ && _ && _)%bool; [destruct (lp_thread h)|]; reflexivity. Qed.
Lemma lstep_log c h a : exists l, lp_log (lstep c h a) = lp_log h ++ l.
Proof.
  assert (Z : exists l, lp_log h = lp_log h ++ l) by (exists []; symmetry; apply app_nil_r).
  unfold lstep. destruct (lp_crashed h); [exact Z|]. destruct a as [d|init s| | | |text ok|piece ok| | |]; try exact Z.
  - cbv zeta. destruct (init && _)%bool; [rewrite start_log|]; unfold lp_capture; destruct s; try exact Z; eexists; reflexivity.
  - destruct (lp_thread h) as [|[| | | |]|]; try exact Z. destruct (_ && _)%bool; exact Z.
  - destruct (lp_thread h) as [|[| | | |]|]; try exact Z. destruct (lp_session h); [exact Z|eexists; reflexivity].
  - destruct (lp_thread h) as [|[| | | |]|]; try exact Z; eexists; reflexivity.
  - destruct (lp_thread h) as [|[| | | |]|]; try exact Z. destruct (read_head _ _) as [s rest| |]; [|exact Z|eexists; reflexivity].
    cbv zeta. destruct (_ && _)%bool.
    + match goal with |- context [lp_parse ok rest ?x] => destruct (parse_log ok rest x) as (l & E & _) end. rewrite E. lcbn. rewrite <- app_assoc. eexists. reflexivity.
    + match goal with |- context [lp_nap ?x] => destruct (nap_log x) as (g & E & _) end. rewrite E. lcbn. rewrite <- app_assoc. eexists. reflexivity.
  - destruct (lp_thread h) as [|[| | |buf|]|]; try exact Z. cbv zeta. destruct (has_lf _); [|exact Z]. destruct (_ && _)%bool.
    + destruct (parse_log ok (buf ++ piece) h) as (l & E & _). eauto.
    + eexists. reflexivity.
  - destruct (lp_thread h) as [|[| | | |till]|]; try exact Z. destruct (N.leb _ _); exact Z.
  - destruct (lp_close h); exact Z.
  - destruct (lp_thread h) as [|p|]; try exact Z; destruct (lp_close h) as [|[|n]]; exact Z.
Qed.
Lemma lrun_log c h vs : exists l, lp_log (lrun c h vs) = lp_log h ++ l.
Proof.
  induction vs as [|a vs IH] using rev_ind; [exists []; symmetry; apply app_nil_r|]. rewrite lrun_snoc.
  destruct IH as (l & E). destruct (lstep_log c (lrun c h vs) a) as (l' & E'). exists (l ++ l'). now rewrite E', E, app_assoc.
Qed.

(** ** No crash, and the stream kept *)
Definition heads_named (h : loop) : Prop := forall s, In (GHead s) (lp_log h) -> s <> [].
Definition safe (h : loop) : Prop :=
  lp_crashed h = false /\ (streaming h -> lp_session h <> []) /\ (lp_thread h = ThOver -> lp_enabled h = false).

Lemma nap_thread h : exists p, lp_thread (lp_nap h) = ThRuns p.
Proof. eexists. reflexivity. Qed.
Lemma parse_thread ok b h : (exists p, lp_thread (lp_parse ok b h) = ThRuns p) /\ lp_session (lp_parse ok b h) = lp_session h /\
  lp_crashed (lp_parse ok b h) = lp_crashed h /\ lp_enabled (lp_parse ok b h) = lp_enabled h /\ lp_connected (lp_parse ok b h) = lp_connected h /\
  lp_close (lp_parse ok b h) = lp_close h /\ lp_now (lp_parse ok b h) = lp_now h.
Proof. unfold lp_parse. destruct (feed _ _ _) as [s fine]. cbv zeta. destruct (_ && _ && _)%bool; repeat split; eexists; reflexivity. Qed.

Lemma heads_before c h a : heads_named (lstep c h a) -> heads_named h.
Proof. intros H s X. destruct (lstep_log c h a) as (l & E). apply H. rewrite E. apply in_or_app. now left. Qed.

Lemma safe_step c h a : linv h -> safe h -> heads_named (lstep c h a) -> safe (lstep c h a).
Proof.
  intros I (Cr & Se & Ov) H. pose proof I as I0. destruct I0 as [B _ _ _ _ _]. destruct B as (B1 & B2 & B3 & B4 & B5 & B6). unfold lstep in *. rewrite Cr in *.
  assert (Z : safe h) by (repeat split; auto).
  destruct a as [d|init s| | | |text ok|piece ok| | |]; try exact Z.
  - cbv zeta in *.
    assert (C : safe (lp_capture s h)).
    { unfold lp_capture. destruct s as [|x s]; [exact Z|]. unfold safe, streaming. lcbn. repeat split; auto. discriminate. }
    assert (T : lp_thread (lp_capture s h) = lp_thread h) by (unfold lp_capture; destruct s; reflexivity).
    assert (R : lp_running (lp_capture s h) = lp_running h) by (unfold lp_capture; destruct s; reflexivity).
    destruct (init && _)%bool; [|exact C]. unfold lp_start. destruct (_ && _ && _ && _)%bool eqn:K; [|exact C].
    apply andb_true_iff in K. destruct K as [K K4]. apply andb_true_iff in K. destruct K as [K K3]. apply andb_true_iff in K. destruct K as [K1 K2].
    destruct C as (C1 & C2 & C3).
    destruct (lp_thread (lp_capture s h)) as [|p|] eqn:TT.
    + unfold safe, streaming. lcbn. repeat split; auto; [|discriminate].
      intros _ X. rewrite X in K3. discriminate.
    + rewrite R in K4. assert (X : lp_running h = true) by (apply B5; exists p; congruence). rewrite X in K4. discriminate.
    + rewrite (C3 eq_refl) in K2. discriminate.
  - destruct (lp_thread h) as [|[| | | |]|] eqn:T; try exact Z. destruct (_ && _)%bool eqn:K.
    + unfold safe, streaming. lcbn. repeat split; auto; [|discriminate]. intros _. apply Se. exists PTop. exact T.
    + unfold safe, streaming, lp_over. lcbn. repeat split; auto; [intros (p & X); discriminate|]. intros _.
      apply andb_false_iff in K. destruct K as [K|K]; [|exact K].
      destruct (Nat.eq_dec (lp_close h) 2) as [X|X]; [specialize (B2 X); discriminate|]. rewrite (B3 X) in K. discriminate.
  - destruct (lp_thread h) as [|[| | | |]|] eqn:T; try exact Z. assert (N : lp_session h <> []) by (apply Se; exists PDial; exact T).
    destruct (lp_session h) as [|x s] eqn:Es; [congruence|]. unfold safe, streaming. lcbn. rewrite Es. repeat split; auto; discriminate.
  - destruct (lp_thread h) as [|[| | | |]|] eqn:T; try exact Z; unfold safe, streaming, lp_nap; lcbn;
      (repeat split; auto; [intros _; apply Se; eexists; exact T|destruct (_ && _)%bool; discriminate]).
  - destruct (lp_thread h) as [|[| | | |]|] eqn:T; try exact Z. assert (N : lp_session h <> []) by (apply Se; exists PHead; exact T).
    destruct (read_head _ _) as [s rest| |] eqn:V.
    + cbv zeta in *.
      assert (Ns : s <> []).
      { apply (H s). destruct (_ && _)%bool.
        - match goal with |- context [lp_parse ok rest ?x] => destruct (parse_log ok rest x) as (l & E & _) end. rewrite E. lcbn.
          apply in_or_app. left. apply in_or_app. right. now left.
        - match goal with |- context [lp_nap ?x] => destruct (nap_log x) as (g & E & _) end. rewrite E. lcbn.
          apply in_or_app. left. apply in_or_app. right. now left. }
      destruct (_ && _)%bool.
      * match goal with |- safe (lp_parse ok rest ?x) => destruct (parse_thread ok rest x) as ((p & T1) & S1 & C1 & E1 & _) end.
        unfold safe, streaming. rewrite T1, S1, C1, E1. lcbn. repeat split; auto. discriminate.
      * unfold safe, streaming, lp_nap. lcbn. repeat split; auto. destruct (_ && _)%bool; discriminate.
    + unfold safe, streaming, lp_over. lcbn. repeat split; auto; try (intros (p & X); discriminate).
    + unfold safe, streaming, lp_nap. lcbn. repeat split; auto. destruct (_ && _)%bool; discriminate.
  - destruct (lp_thread h) as [|[| | |buf|]|] eqn:T; try exact Z. cbv zeta in *. assert (N : lp_session h <> []) by (apply Se; eexists; exact T).
    destruct (has_lf _).
    + destruct (_ && _)%bool.
      * destruct (parse_thread ok (buf ++ piece) h) as ((p & T1) & S1 & C1 & E1 & _). unfold safe, streaming. rewrite T1, S1, C1, E1. repeat split; auto. discriminate.
      * unfold safe, streaming, lp_nap. lcbn. repeat split; auto. destruct (_ && _)%bool; discriminate.
    + unfold safe, streaming. lcbn. repeat split; auto. discriminate.
  - destruct (lp_thread h) as [|[| | | |till]|] eqn:T; try exact Z. destruct (N.leb _ _); [|exact Z].
    unfold safe, streaming. lcbn. repeat split; auto; [|discriminate]. intros _. apply Se. eexists; exact T.
  - destruct (lp_close h); [|exact Z]. unfold safe, streaming. lcbn. repeat split; auto.
  - destruct (lp_thread h) as [|p|] eqn:T; try exact Z; (destruct (lp_close h) as [|[|n]] eqn:K; try exact Z;
      unfold safe, streaming; lcbn; repeat split; auto; try discriminate; try (intros (q & X); discriminate)).
Qed.
Lemma lrun_safe c vs : heads_named (lrun c (loop0 c) vs) -> safe (lrun c (loop0 c) vs).
Proof.
  induction vs as [|a vs IH] using rev_ind; intros H.
  - unfold safe, streaming. cbn. repeat split; auto; try discriminate. intros (p & X). discriminate.
  - rewrite lrun_snoc in *. apply safe_step; [apply lrun_ok| |exact H]. apply IH. now apply (heads_before c _ a).
Qed.

Lemma off_any s s' text : read_head s text = VOff -> read_head s' text = VOff.
Proof.
  unfold read_head. destruct (getline text) as [st r]. destruct (contains _ st).
  - destruct (head_lines (length r) s r). discriminate.
  - auto.
Qed.
Lemma capture_same s h : lp_thread (lp_capture s h) = lp_thread h /\ lp_running (lp_capture s h) = lp_running h /\
  lp_enabled (lp_capture s h) = lp_enabled h /\ lp_close (lp_capture s h) = lp_close h /\ (s <> [] -> lp_session (lp_capture s h) = s).
Proof. unfold lp_capture. destruct s; repeat split; auto; congruence. Qed.
Lemma keep_step c h a : linv h -> safe h -> lp_enabled h = true -> lp_close h = 0 -> a <> LClose ->
  (forall text ok, a = LHead text ok -> read_head [] text <> VOff) ->
  let h' := lstep c h a in
  lp_enabled h' = true /\ lp_close h' = 0 /\ (streaming h -> streaming h') /\
  (lc_stream c = true -> forall s, a = LReply true s -> s <> [] -> streaming h').
Proof.
  intros I (Cr & Se & Ov) En Cl Na Nh. cbv zeta. destruct I as [B _ _ _ _ _]. destruct B as (B1 & B2 & B3 & B4 & B5 & B6).
  unfold lstep. rewrite Cr. assert (Co : lp_connected h = true) by (apply B3; rewrite Cl; discriminate).
  assert (Z : lp_enabled h = true /\ lp_close h = 0 /\ (streaming h -> streaming h) /\ (lc_stream c = true -> forall s, LTick 0 = LReply true s -> s <> [] -> streaming h))
    by (repeat split; auto; discriminate).
  destruct a as [d|init s| | | |text ok|piece ok| | |]; try congruence.
  - repeat split; auto. discriminate.
  - cbv zeta. destruct (capture_same s h) as (T1 & R1 & E1 & C1 & S1).
    destruct (init && negb (beq s []))%bool eqn:K.
    + apply andb_true_iff in K. destruct K as [-> K]. assert (Ns : s <> []) by (intros ->; discriminate K).
      unfold lp_start. destruct (_ && _ && _ && _)%bool eqn:K2.
      * apply andb_true_iff in K2. destruct K2 as [K2 K4]. destruct (lp_thread (lp_capture s h)) as [|p|] eqn:T.
        -- unfold streaming. lcbn. rewrite E1, C1. repeat split; eauto.
        -- assert (X : lp_running h = true) by (apply B5; exists p; congruence). rewrite R1, X in K4. discriminate.
        -- assert (X := Ov (eq_sym T1)). congruence.
      * unfold streaming. rewrite E1, C1, T1. repeat split; auto. intros St s0 _ _.
        rewrite St, E1, En, (S1 Ns) in K2. rewrite K in K2. cbn in K2. rewrite R1 in K2. apply B5. destruct (lp_running h); [reflexivity|discriminate].
    + unfold streaming. rewrite E1, C1, T1. repeat split; auto. intros _ s0 X Y. injection X as -> ->.
      destruct s0; [congruence|discriminate].
  - destruct (lp_thread h) as [|[| | | |]|] eqn:T; rewrite ?Co, ?En; cbn [andb]; unfold streaming; lcbn; rewrite ?T; repeat split; eauto; discriminate.
  - destruct (lp_thread h) as [|[| | | |]|] eqn:T; try (unfold streaming; rewrite ?T; repeat split; eauto; discriminate).
    assert (N : lp_session h <> []) by (apply Se; exists PDial; exact T). destruct (lp_session h); [congruence|].
    unfold streaming; lcbn; repeat split; eauto; discriminate.
  - destruct (lp_thread h) as [|[| | | |]|] eqn:T; unfold streaming, lp_nap; lcbn; rewrite ?T; repeat split; eauto; discriminate.
  - destruct (lp_thread h) as [|[| | | |]|] eqn:T; try (unfold streaming; rewrite ?T; repeat split; eauto; discriminate).
    destruct (read_head _ _) as [s rest| |] eqn:V.
    + cbv zeta. lcbn. rewrite Co, En. cbn [andb].
      match goal with |- context [lp_parse ok rest ?x] => destruct (parse_thread ok rest x) as ((p & T1) & S1 & C1 & E1 & _ & K1 & _) end.
      unfold streaming. rewrite T1, E1, K1. lcbn. repeat split; eauto; discriminate.
    + exfalso. apply (Nh text ok eq_refl). exact (off_any _ _ _ V).
    + unfold streaming, lp_nap; lcbn; repeat split; eauto; discriminate.
  - destruct (lp_thread h) as [|[| | |buf|]|] eqn:T; try (unfold streaming; rewrite ?T; repeat split; eauto; discriminate). cbv zeta.
    destruct (has_lf _); [|unfold streaming; lcbn; repeat split; eauto; discriminate]. rewrite Co, En. cbn [andb].
    destruct (parse_thread ok (buf ++ piece) h) as ((p & T1) & S1 & C1 & E1 & _ & K1 & _).
    unfold streaming. rewrite T1, E1, K1. repeat split; eauto; discriminate.
  - destruct (lp_thread h) as [|[| | | |till]|] eqn:T; try (unfold streaming; rewrite ?T; repeat split; eauto; discriminate).
    destruct (N.leb _ _); unfold streaming; lcbn; rewrite ?T; repeat split; eauto; discriminate.
  - rewrite Cl. destruct (lp_thread h) as [|p|] eqn:T; unfold streaming; rewrite ?T; repeat split; eauto; discriminate.
Qed.
Lemma keep_run c vs : lc_stream c = true -> ~ In LClose vs -> (forall text ok, In (LHead text ok) vs -> read_head [] text <> VOff) ->
  heads_named (lrun c (loop0 c) vs) ->
  let h := lrun c (loop0 c) vs in
  lp_enabled h = true /\ lp_close h = 0 /\ ((exists s, s <> [] /\ In (LReply true s) vs) -> streaming h).
Proof.
  intros St. induction vs as [|a vs IH] using rev_ind; intros NC NH H.
  - cbn. repeat split. intros (s & _ & []).
  - rewrite lrun_snoc in *. assert (H0 := heads_before c _ a H).
    destruct IH as (E & C & K); [intros X; apply NC, in_or_app; now left|intros text ok X; apply (NH text ok), in_or_app; now left|exact H0|].
    destruct (keep_step c (lrun c (loop0 c) vs) a (lrun_ok c vs) (lrun_safe c vs H0) E C) as (E' & C' & S1 & S2).
    + intros ->. apply NC, in_or_app. right. now left.
    + intros text ok ->. apply (NH text ok), in_or_app. right. now left.
    + cbv zeta. split; [exact E'|]. split; [exact C'|]. intros (s & Ns & X). apply in_app_or in X. destruct X as [X|[X|[]]]; [apply S1, K; eauto|].
      apply (S2 St s); auto.
Qed.
Lemma wanted_kept c vs : wanted c vs -> let h := lrun c (loop0 c) vs in
  lp_crashed h = false /\ streaming h /\ lp_enabled h = true /\ lp_connected h = true /\ lp_session h <> [].
Proof.
  intros (St & R & NC & NH & H). cbv zeta. destruct (keep_run c vs St NC NH H) as (E & C & K). destruct (lrun_safe c vs H) as (A & B & _).
  assert (S := K R). repeat split; auto. destruct (lrun_ok c vs) as [(_ & _ & B3 & _) _ _ _ _ _]. apply B3. rewrite C. discriminate.
Qed.

(** ** Reconnecting *)
Lemma reconnect c h d : lp_crashed h = false -> lp_enabled h = true -> lp_connected h = true -> lp_session h <> [] ->
  (in_connection h \/ lp_thread h = ThRuns PDial) -> (delay_of h <= d)%N ->
  lp_log (lrun c h [LFail; LTick d; LWake; LTest; LConnect]) = lp_log h ++ [GEnd (lp_now h) (delay_of h); GGet (lp_now h + d) (lp_session h)].
Proof.
  intros Cr En Co Se IC L. unfold delay_of in *.
  assert (F : lstep c h LFail = lp_at (ThRuns (PNap (lp_now h + se_retry (lp_sse h)))) (lp_note (GEnd (lp_now h) (se_retry (lp_sse h))) h)).
  { unfold lstep. rewrite Cr. destruct IC as [[T|(b & T)]|T]; rewrite T; unfold lp_nap; now rewrite En, Co. }
  unfold lrun. cbn [fold_left]. rewrite F. unfold lstep at 4. lcbn. rewrite Cr. unfold lstep at 3. lcbn. rewrite Cr. lcbn.
  destruct (N.leb_spec (lp_now h + se_retry (lp_sse h)) (lp_now h + d)); [|lia].
  unfold lstep at 2. lcbn. rewrite Cr, Co, En. cbn [andb]. unfold lstep. lcbn. rewrite Cr.
  destruct (lp_session h) as [|x s] eqn:Es; [congruence|]. lcbn. now rewrite <- app_assoc.
Qed.
Lemma wakes c h till d : lp_crashed h = false -> lp_enabled h = true -> lp_connected h = true -> lp_session h <> [] ->
  lp_thread h = ThRuns (PNap till) -> (till <= lp_now h + d)%N ->
  lp_log (lrun c h [LTick d; LWake; LTest; LConnect]) = lp_log h ++ [GGet (lp_now h + d) (lp_session h)].
Proof.
  intros Cr En Co Se T L. unfold lrun. cbn [fold_left]. unfold lstep at 4. lcbn. rewrite Cr. unfold lstep at 3. lcbn. rewrite Cr, T.
  destruct (N.leb_spec till (lp_now h + d)); [|lia].
  unfold lstep at 2. lcbn. rewrite Cr, Co, En. cbn [andb]. unfold lstep. lcbn. rewrite Cr.
  destruct (lp_session h) as [|x s] eqn:Es; [congruence|]. reflexivity.
Qed.

(** ** Off for good *)
Definition off (h : loop) : Prop := lp_enabled h = false /\ (lp_thread h = ThOver \/ lp_thread h = ThNone).
Lemma off_step c h a : off h -> off (lstep c h a) /\ exists l, lp_log (lstep c h a) = lp_log h ++ l /\ forall g, In g l -> is_get g = false.
Proof.
  intros (E & T). assert (Z : off h /\ exists l, lp_log h = lp_log h ++ l /\ forall g, In g l -> is_get g = false).
  { split; [split; auto|]. exists []. split; [symmetry; apply app_nil_r|intros g []]. }
  unfold lstep. destruct (lp_crashed h); [exact Z|].
  destruct a as [d|init s| | | |text ok|piece ok| | |]; try exact Z; try (destruct T as [T|T]; rewrite T; exact Z).
  - cbv zeta. assert (X : lp_start c (lp_capture s h) = lp_capture s h).
    { unfold lp_start. destruct (capture_same s h) as (_ & _ & E1 & _). rewrite E1, E, andb_false_r. reflexivity. }
    rewrite X. assert (Y : (if (init && negb (beq s []))%bool then lp_capture s h else lp_capture s h) = lp_capture s h) by (now destruct (init && _)%bool).
    rewrite Y. unfold lp_capture. destruct s; [exact Z|]. split; [split; lcbn; auto|]. lcbn. eexists. split; [reflexivity|]. intros g [<-|[]]. reflexivity.
  - destruct (lp_close h); [|exact Z]. split; [split; lcbn; auto|]. lcbn. exact (proj2 Z).
  - destruct T as [T|T]; rewrite T; (destruct (lp_close h) as [|[|n]]; try exact Z; split; [split; lcbn; auto|]; lcbn; exact (proj2 Z)).
Qed.
Lemma off_run c h ws : off h -> off (lrun c h ws) /\ exists l, lp_log (lrun c h ws) = lp_log h ++ l /\ forall g, In g l -> is_get g = false.
Proof.
  intros O. induction ws as [|a ws IH] using rev_ind.
  - split; [exact O|]. exists []. split; [symmetry; apply app_nil_r|intros g []].
  - rewrite lrun_snoc. destruct IH as (O1 & l & E & G). destruct (off_step c _ a O1) as (O2 & l2 & E2 & G2). split; [exact O2|].
    exists (l ++ l2). rewrite E2, E, app_assoc. split; [reflexivity|]. intros g X. apply in_app_or in X. destruct X; auto.
Qed.

(** ** What is received *)
Definition shift (o : list bstr) (s : sse) : sse := {| se_pending := se_pending s; se_retry := se_retry s; se_out := o ++ se_out s |}.
Lemma line_shift o s l : sse_line (shift o s) l = shift o (sse_line s l).
Proof.
  unfold sse_line. destruct (chop_cr l) as [|c r]; cbn [se_pending shift].
  - destruct (se_pending s); [reflexivity|]. unfold shift. cbn. now rewrite app_assoc.
  - destruct (starts_with _ _); [reflexivity|]. destruct (starts_with _ _); reflexivity.
Qed.
Lemma lines_shift o ls : forall s, fold_left sse_line ls (shift o s) = shift o (fold_left sse_line ls s).
Proof. induction ls as [|l ls IH]; intros s; [reflexivity|]. cbn [fold_left]. now rewrite line_shift, IH. Qed.
Lemma reads_shift o reads : forall buf s, sse_reads buf reads (shift o s) = shift o (sse_reads buf reads s).
Proof.
  induction reads as [|r reads IH]; intros buf s; [reflexivity|]. cbn [sse_reads]. destruct (has_lf _); [|apply IH].
  unfold parse_events. now rewrite lines_shift, IH.
Qed.
Lemma feed_all ok ls : (forall p, ok p = true) -> forall s, feed ok ls s = (fold_left sse_line ls s, true).
Proof.
  intros K. induction ls as [|l ls IH]; intros s; [reflexivity|]. cbn [feed fold_left]. cbv zeta. rewrite IH.
  destruct (skipn _ _) as [|p q]; [reflexivity|]. now rewrite K.
Qed.
Lemma parse_all ok b h : (forall p, ok p = true) -> lp_connected h = true -> lp_enabled h = true ->
  lp_parse ok b h = lp_at (ThRuns (PBody [])) (lp_reads (parse_events b (lp_sse h)) h).
Proof. intros K C E. unfold lp_parse. rewrite feed_all by exact K. lcbn. now rewrite C, E. Qed.
Lemma bytes_run c ok : (forall p, ok p = true) -> forall reads h buf, lp_crashed h = false -> lp_connected h = true -> lp_enabled h = true ->
  lp_thread h = ThRuns (PBody buf) -> lp_sse (lrun c h (map (fun r => LBytes r ok) reads)) = sse_reads buf reads (lp_sse h).
Proof.
  intros K. induction reads as [|r reads IH]; intros h buf Cr C E T; [reflexivity|].
  cbn [map]. change (lrun c h (?a :: ?w)) with (lrun c (lstep c h a) w). cbn [sse_reads]. unfold lstep. rewrite Cr, T. cbv zeta.
  destruct (has_lf (buf ++ r)).
  - rewrite C, E. cbn [andb]. rewrite parse_all by assumption. now rewrite (IH _ []).
  - now rewrite (IH _ (buf ++ r)).
Qed.
Lemma connection_received c ok h text s extra reads : (forall p, ok p = true) -> lp_crashed h = false -> lp_connected h = true -> lp_enabled h = true ->
  lp_thread h = ThRuns PHead -> read_head (lp_session h) text = VStream s extra ->
  received (lrun c h (LHead text ok :: map (fun r => LBytes r ok) reads)) = received h ++ se_out (sse_connection (delay_of h) extra reads).
Proof.
  intros K Cr C E T V. change (lrun c h (?a :: ?w)) with (lrun c (lstep c h a) w). unfold lstep. rewrite Cr, T, V. cbv zeta. lcbn. rewrite C, E. cbn [andb].
  rewrite parse_all by (assumption || reflexivity). unfold received. rewrite (bytes_run c ok K reads _ []); try assumption || reflexivity. lcbn.
  replace {| se_pending := []; se_retry := se_retry (lp_sse h); se_out := se_out (lp_sse h) |} with (shift (se_out (lp_sse h)) (sse0 (delay_of h)))
    by (unfold shift, sse0, delay_of; cbn; now rewrite app_nil_r).
  unfold sse_connection, parse_events. now rewrite lines_shift, reads_shift.
Qed.

(** ** Close *)
Lemma close_returns c h d : linv h -> lp_crashed h = false -> close_pending h -> (delay_of h <= d)%N ->
  close_done (lrun c h [LFail; LTick d; LWake; LTest; LJoin]).
Proof.
  unfold close_pending, close_done, delay_of. intros I Cr K L. pose proof I as J. destruct J as [(B1 & B2 & B3 & B4 & B5 & B6) A _ _ _ _].
  assert (E : lp_enabled h = false) by (destruct B1 as [X|X]; [congruence|exact X]).
  unfold lrun. cbn [fold_left]. destruct (lp_thread h) as [|p|] eqn:T.
  - unfold lstep at 5. rewrite Cr, T. unfold lstep at 4. rewrite Cr. unfold lstep at 3. lcbn. rewrite Cr, T. unfold lstep at 2. lcbn. rewrite Cr, T.
    unfold lstep. lcbn. rewrite Cr, T, K. reflexivity.
  - assert (D : forall q, p = q -> (q = PDial \/ q = PHead \/ exists b, q = PBody b) -> lp_close (lstep c (lstep c (lstep c (lstep c (lstep c h LFail) (LTick d)) LWake) LTest) LJoin) = 2).
    { intros q -> Q. unfold lstep at 5. rewrite Cr, T.
      assert (X : (match q with PDial | PHead | PBody _ => lp_nap h | _ => h end) = lp_nap h) by (destruct Q as [->|[->|(b & ->)]]; reflexivity).
      assert (Y : match q with PTop => h | PNap _ => h | _ => lp_nap h end = lp_nap h) by (destruct Q as [->|[->|(b & ->)]]; reflexivity).
      assert (Z : lp_nap h = lp_at (ThRuns PTop) (lp_note (GEnd (lp_now h) (se_retry (lp_sse h))) h)) by (unfold lp_nap; rewrite E; reflexivity).
      destruct Q as [->|[->|(b & ->)]]; rewrite Z; (unfold lstep at 4; lcbn; rewrite Cr; unfold lstep at 3; lcbn; rewrite Cr;
        unfold lstep at 2; lcbn; rewrite Cr, E, andb_false_r; unfold lstep, lp_over; lcbn; rewrite Cr, K; reflexivity). }
    destruct p as [| | |b|till].
    + unfold lstep at 5. rewrite Cr, T. unfold lstep at 4. rewrite Cr. unfold lstep at 3. lcbn. rewrite Cr, T. unfold lstep at 2. lcbn. rewrite Cr, T, E, andb_false_r.
      unfold lstep, lp_over. lcbn. rewrite Cr, K. reflexivity.
    + apply (D PDial); auto.
    + apply (D PHead); auto.
    + apply (D (PBody b)); eauto.
    + unfold lstep at 5. rewrite Cr, T. unfold lstep at 4. rewrite Cr. unfold lstep at 3. lcbn. rewrite Cr, T.
      specialize (A till eq_refl). destruct (N.leb_spec till (lp_now h + d)); [|lia].
      unfold lstep at 2. lcbn. rewrite Cr, E, andb_false_r. unfold lstep, lp_over. lcbn. rewrite Cr, K. reflexivity.
  - unfold lstep at 5. rewrite Cr, T. unfold lstep at 4. rewrite Cr. unfold lstep at 3. lcbn. rewrite Cr, T. unfold lstep at 2. lcbn. rewrite Cr, T.
    unfold lstep. lcbn. rewrite Cr, T, K. reflexivity.
Qed.

Lemma asleep_run c ws : forall h till, lp_thread h = ThRuns (PNap till) -> lp_close h = 1 -> lp_enabled h = false -> (lp_now h + total_ticks ws < till)%N ->
  lp_close (lrun c h ws) = 1.
Proof.
  induction ws as [|a ws IH]; intros h till T K E L; [exact K|]. change (lrun c h (a :: ws)) with (lrun c (lstep c h a) ws). cbn [total_ticks fold_right] in L. fold (total_ticks ws) in L.
  unfold lstep. destruct (lp_crashed h) eqn:Cr; [apply (IH h till); auto; destruct a; lia|].
  destruct a as [d|init s| | | |text ok|piece ok| | |]; rewrite ?T.
  - apply (IH _ till); lcbn; auto. lia.
  - cbv zeta. destruct (capture_same s h) as (T1 & R1 & E1 & C1 & _).
    assert (X : lp_start c (lp_capture s h) = lp_capture s h) by (unfold lp_start; rewrite E1, E, andb_false_r; reflexivity).
    rewrite X. assert (N : lp_now (lp_capture s h) = lp_now h) by (unfold lp_capture; destruct s; reflexivity).
    destruct (init && _)%bool; apply (IH _ till); congruence || (rewrite ?N; exact L).
  - now apply (IH h till).
  - now apply (IH h till).
  - now apply (IH h till).
  - now apply (IH h till).
  - now apply (IH h till).
  - destruct (N.leb_spec till (lp_now h)); [lia|]. now apply (IH h till).
  - rewrite K. now apply (IH h till).
  - now apply (IH h till).
Qed.
Lemma silent_run c ws : forall h b, lp_thread h = ThRuns (PBody b) -> lp_close h = 1 -> Forall silent ws -> lp_close (lrun c h ws) = 1.
Proof.
  induction ws as [|a ws IH]; intros h b T K F; [exact K|]. change (lrun c h (a :: ws)) with (lrun c (lstep c h a) ws).
  inversion F as [|? ? Fa F']; subst. unfold lstep. destruct (lp_crashed h) eqn:Cr; [now apply (IH h b)|].
  destruct a as [d|init s| | | |text ok|piece ok| | |]; cbn in Fa; try contradiction; rewrite ?T, ?K; try (now apply (IH h b)). apply (IH _ b); lcbn; auto.
Qed.
