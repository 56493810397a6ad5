From Coq Require Import Ascii String List Arith NArith ZArith Bool Lia ZifyBool ZifyNat ZifyN.
From Verif Require Import StrModel StrProofs FramerModel FramerSpec.
Import ListNotations.
Local Open Scope nat_scope.

(** Line-by-line scan equivalent to the index-based loop. *)
Fixpoint scan_lines (max : N) (ls : list bstr) (cl : option N) : loop_result :=
  match ls with
  | [] => HLen cl
  | l :: ls' =>
      match header_line l with
      | LSkip => scan_lines max ls' cl
      | LBad => HInvalid
      | LLen v => if N.ltb max v then HTooLarge else scan_lines max ls' (Some v)
      end
  end.

Lemma header_line_nil : header_line [] = LSkip.
Proof. reflexivity. Qed.

Lemma find_crlf_app : forall l t, find_sub CRLF l = None ->
  find_sub CRLF (l ++ CR :: LF :: t) = Some (length l).
Proof.
  induction l as [|c l IH]; intros t H.
  - reflexivity.
  - cbn [find_sub] in H. destruct (starts_with CRLF (c :: l)) eqn:E; [discriminate|].
    destruct (find_sub CRLF l) eqn:F; [discriminate|].
    cbn [app find_sub].
    assert (starts_with CRLF (c :: l ++ CR :: LF :: t) = false) as ->.
    { destruct l as [|d l]; [|exact E].
      cbn. now rewrite andb_false_r. }
    rewrite IH by easy. reflexivity.
Qed.

Lemma find_sub_prefix_none : forall p a b, find_sub p (a ++ b) = None -> find_sub p a = None.
Proof.
  intros p a b H. destruct (find_sub p a) eqn:E; [|easy].
  apply (find_sub_app _ _ b) in E. congruence.
Qed.

Lemma header_loop_lines : forall ls fuel max pre rest cl,
  ls <> [] -> Forall (fun l => find_sub CRLF l = None) ls ->
  length (join CRLF ls) < fuel ->
  header_loop fuel max (pre ++ join CRLF ls ++ SEP ++ rest)
    (length pre + length (join CRLF ls)) (length pre) cl = scan_lines max ls cl.
Proof.
  induction ls as [|l ls IH]; intros fuel max pre rest cl Hne Hall Hf; [easy|].
  destruct fuel as [|f]; [lia|].
  inversion Hall as [|? ? Hl Hall']; subst.
  cbn [header_loop].
  destruct ls as [|l2 ls].
  - cbn [join scan_lines] in *.
    destruct (Nat.ltb_spec (length pre) (length pre + length l)) as [Hlt|Hge].
    + unfold find_from. rewrite skipn_app_len.
      assert (find_sub CRLF (l ++ SEP ++ rest) = Some (length l)) as ->.
      { apply (find_crlf_app l (CR :: LF :: rest) Hl). }
      cbn [option_map].
      destruct (Nat.ltb_spec (length pre + length l) (length pre + length l)); [lia|].
      unfold substr. rewrite skipn_app_len.
      replace (length pre + length l - length pre) with (length l) by lia.
      rewrite firstn_app_len.
      assert (forall cl', header_loop f max (pre ++ l ++ SEP ++ rest) (length pre + length l)
                (length pre + length l + 2) cl' = HLen cl') as Hend.
      { intros cl'. destruct f; [lia|]. cbn [header_loop].
        destruct (Nat.ltb_spec (length pre + length l + 2) (length pre + length l)); [lia|easy]. }
      destruct (header_line l); try easy.
      destruct (N.ltb max n); easy.
    + assert (l = []) as -> by (destruct l; [easy|cbn in Hge; lia]).
      easy.
  - change (join CRLF (l :: l2 :: ls)) with (l ++ CRLF ++ join CRLF (l2 :: ls)) in *.
    set (J := join CRLF (l2 :: ls)) in *.
    rewrite !app_length in Hf. cbn [length CRLF] in Hf.
    destruct (Nat.ltb_spec (length pre) (length pre + length (l ++ CRLF ++ J))) as [Hlt|Hge];
      [|rewrite !app_length in Hge; cbn in Hge; lia].
    unfold find_from. rewrite skipn_app_len.
    assert (find_sub CRLF ((l ++ CRLF ++ J) ++ SEP ++ rest) = Some (length l)) as ->.
    { rewrite <- app_assoc. apply (find_crlf_app l ((J) ++ SEP ++ rest) Hl). }
    cbn [option_map].
    destruct (Nat.ltb_spec (length pre + length (l ++ CRLF ++ J)) (length pre + length l)) as [Hc|_];
      [rewrite !app_length in Hc; lia|].
    unfold substr. rewrite skipn_app_len.
    replace (length pre + length l - length pre) with (length l) by lia.
    rewrite <- (app_assoc l), firstn_app_len.
    assert (forall cl', header_loop f max (pre ++ l ++ (CRLF ++ J) ++ SEP ++ rest)
              (length pre + length (l ++ CRLF ++ J)) (length pre + length l + 2) cl'
            = scan_lines max (l2 :: ls) cl') as Hrec.
    { intros cl'. rewrite <- (IH f max (pre ++ l ++ CRLF) rest cl'); [|easy|easy|fold J; lia].
      fold J. f_equal.
      - rewrite <- !app_assoc. reflexivity.
      - rewrite !app_length. cbn. lia.
      - rewrite !app_length. cbn. lia. }
    cbn [scan_lines]. destruct (header_line l); try easy.
    + now rewrite Hrec.
    + destruct (N.ltb max n); [easy|now rewrite Hrec].
Qed.

(** Splitting a block into lines. *)
Fixpoint split_crlf (fuel : nat) (h : bstr) : list bstr :=
  match fuel with
  | O => [h]
  | S f => match find_sub CRLF h with
           | None => [h]
           | Some k => firstn k h :: split_crlf f (skipn (k + 2) h)
           end
  end.

Lemma find_sub_split : forall p s k, find_sub p s = Some k ->
  s = firstn k s ++ p ++ skipn (k + length p) s /\ length (firstn k s) = k.
Proof.
  intros p s k H. apply find_sub_some in H as ([r Hr] & Hl & _). split.
  - rewrite <- (firstn_skipn k s) at 1. f_equal. rewrite Hr. f_equal.
    rewrite <- skipn_skipn_add, Hr. now rewrite skipn_app_len.
  - apply firstn_length_le. lia.
Qed.

Lemma find_sub_firstn_none : forall p s k, p <> [] -> find_sub p s = Some k -> find_sub p (firstn k s) = None.
Proof.
  intros p s k Hp H. destruct (find_sub p (firstn k s)) as [j|] eqn:E; [|easy]. exfalso.
  pose proof (find_sub_split _ _ _ H) as [Hs Hlen].
  pose proof E as E'. apply find_sub_some in E' as (_ & Hl & _).
  apply (find_sub_app _ _ (p ++ skipn (k + length p) s)) in E. rewrite <- Hs in E.
  rewrite H in E. injection E as ->.
  rewrite Hlen in Hl. destruct p; [easy|cbn in Hl; lia].
Qed.

Lemma split_crlf_spec : forall fuel h, length h < fuel ->
  split_crlf fuel h <> [] /\ join CRLF (split_crlf fuel h) = h /\
  Forall (fun l => find_sub CRLF l = None) (split_crlf fuel h).
Proof.
  induction fuel as [|f IH]; intros h Hf; [lia|]. cbn [split_crlf].
  destruct (find_sub CRLF h) as [k|] eqn:E.
  - pose proof (find_sub_split _ _ _ E) as [Hs Hlen]. cbn [length CRLF] in Hs.
    assert (length (skipn (k + 2) h) < f) as Hlt.
    { rewrite skipn_length. apply find_sub_some in E as (_ & E & _). cbn in E. lia. }
    destruct (IH _ Hlt) as (H1 & H2 & H3). repeat split; [easy| |].
    + destruct (split_crlf f (skipn (k + 2) h)) as [|x xs] eqn:F; [easy|].
      change (join CRLF (firstn k h :: x :: xs)) with (firstn k h ++ CRLF ++ join CRLF (x :: xs)).
      rewrite H2. now rewrite <- Hs.
    + constructor; [|easy]. apply find_sub_firstn_none; easy.
  - split; [easy|split; [reflexivity|]]. now constructor.
Qed.

(** The decoder in terms of lines. *)
Definition finish (max : N) (buffer : bstr) (k : nat) (r : loop_result) : decode_result :=
  match r with
  | HFuel => Diverged
  | HTooLarge => BodyTooLarge (k + 4)
  | HInvalid => InvalidHeader (k + 4)
  | HLen None => InvalidHeader (k + 4)
  | HLen (Some len) =>
      if N.ltb (two64 - 1 - N.of_nat (k + 4)) len then InvalidHeader (k + 4)
      else if N.ltb (N.of_nat (length buffer)) (N.of_nat (k + 4) + len) then Incomplete
      else Ok (substr buffer (k + 4) (N.to_nat len)) (k + 4 + N.to_nat len)
  end.

Definition lines_of (h : bstr) : list bstr := split_crlf (S (length h)) h.

Lemma decode_lines : forall max buffer k, find_sub SEP buffer = Some k ->
  decode max buffer = finish max buffer k (scan_lines max (lines_of (firstn k buffer)) None).
Proof.
  intros max buffer k H. unfold decode. rewrite H.
  pose proof (find_sub_split _ _ _ H) as [Hs Hlen]. cbn [length SEP] in Hs.
  destruct (split_crlf_spec (S (length (firstn k buffer))) (firstn k buffer)) as (H1 & H2 & H3); [lia|].
  assert (header_loop (S k) max buffer k 0 None =
          scan_lines max (lines_of (firstn k buffer)) None) as ->.
  { pose proof (header_loop_lines (lines_of (firstn k buffer)) (S k) max [] (skipn (k + 4) buffer) None
                  H1 H3) as L.
    unfold lines_of in *. rewrite H2 in L. cbn [app length plus] in L.
    rewrite Hlen in L. rewrite <- Hs in L. rewrite Hlen. apply L. lia. }
  reflexivity.
Qed.

Lemma scan_lines_nofuel : forall max ls cl, scan_lines max ls cl <> HFuel.
Proof.
  induction ls as [|l ls IH]; intros cl; cbn; [easy|].
  destruct (header_line l); [apply IH|easy|]. destruct (N.ltb max n); [easy|apply IH].
Qed.

Lemma decode_not_diverged : forall max b, decode max b <> Diverged.
Proof.
  intros max b H. destruct (find_sub SEP b) as [k|] eqn:E.
  - rewrite (decode_lines _ _ _ E) in H.
    destruct (scan_lines max (lines_of (firstn k b)) None) as [[]| | |] eqn:F; cbn in H; try discriminate.
    + destruct (N.ltb _ n); [discriminate|]. destruct (N.ltb _ _); discriminate.
    + now apply scan_lines_nofuel in F.
  - unfold decode in H. now rewrite E in H.
Qed.

Lemma header_loop_le : forall fuel max b he pos cl v, header_loop fuel max b he pos cl = HLen (Some v) ->
  (forall w, cl = Some w -> (w <= max)%N) -> (v <= max)%N.
Proof.
  induction fuel as [|f IH]; intros max b he pos cl v H Hcl; [discriminate|].
  cbn [header_loop] in H.
  destruct (Nat.ltb pos he); [|injection H as ->; now apply Hcl].
  destruct (find_from CRLF b pos); [|injection H as ->; now apply Hcl].
  destruct (Nat.ltb he n); [injection H as ->; now apply Hcl|].
  destruct (header_line _); [eauto|discriminate|].
  destruct (N.ltb_spec max n0); [discriminate|].
  eapply IH; [exact H|]. intros w [= <-]. easy.
Qed.

(** Stability under appending bytes. *)
Lemma decode_app : forall max b t,
  decode max b <> Incomplete -> decode max (b ++ t) = decode max b.
Proof.
  intros max b t H. destruct (find_sub SEP b) as [k|] eqn:E.
  2:{ unfold decode in H. now rewrite E in H. }
  pose proof (find_sub_app _ _ t _ E) as E2.
  pose proof (find_sub_split _ _ _ E) as [_ Hlen].
  pose proof E as E3. apply find_sub_some in E3 as (_ & Hl & _). cbn [length SEP] in Hl.
  rewrite (decode_lines _ _ _ E) in *. rewrite (decode_lines _ _ _ E2).
  assert (firstn k (b ++ t) = firstn k b) as ->.
  { rewrite firstn_app. replace (k - length b) with 0 by lia. cbn. now rewrite app_nil_r. }
  destruct (scan_lines max (lines_of (firstn k b)) None) as [[len|]| | |]; cbn [finish] in *; try easy.
  destruct (N.ltb_spec (two64 - 1 - N.of_nat (k + 4)) len); [easy|].
  destruct (N.ltb_spec (N.of_nat (length b)) (N.of_nat (k + 4) + len)) as [|Hb]; [easy|].
  destruct (N.ltb_spec (N.of_nat (length (b ++ t))) (N.of_nat (k + 4) + len)) as [Hc|_];
    [rewrite app_length in Hc; lia|].
  f_equal. unfold substr. rewrite skipn_app. rewrite firstn_app.
  replace (k + 4 - length b) with 0 by lia. rewrite skipn_length.
  replace (N.to_nat len - (length b - (k + 4))) with 0 by lia. cbn. now rewrite app_nil_r.
Qed.

(** Consumption bounds. *)
Lemma decode_ok_bounds : forall max b p n, decode max b = Ok p n ->
  4 <= n <= length b /\ (N.of_nat (length p) <= max)%N /\
  exists h rest, b = h ++ SEP ++ p ++ rest /\ n = length h + 4 + length p.
Proof.
  intros max b p n H. unfold decode in H.
  destruct (find_sub SEP b) as [k|] eqn:E; [|discriminate].
  destruct (header_loop (S k) max b k 0 None) as [[len|]| | |] eqn:F; try discriminate.
  destruct (N.ltb_spec (two64 - 1 - N.of_nat (k + 4)) len); [discriminate|].
  destruct (N.ltb_spec (N.of_nat (length b)) (N.of_nat (k + 4) + len)) as [|Hb]; [discriminate|].
  injection H as <- <-.
  pose proof (find_sub_split _ _ _ E) as [Hs Hlen]. cbn [length SEP] in Hs.
  assert (length (substr b (k + 4) (N.to_nat len)) = N.to_nat len) as Hp.
  { unfold substr. rewrite firstn_length, skipn_length. lia. }
  rewrite Hp. repeat split; try lia.
  - apply header_loop_le in F; [lia|]. discriminate.
  - exists (firstn k b), (skipn (N.to_nat len) (skipn (k + 4) b)). split; [|lia].
    unfold substr. rewrite firstn_skipn. exact Hs.
Qed.

Lemma decode_invalid_bounds : forall max b n,
  decode max b = InvalidHeader n \/ decode max b = BodyTooLarge n -> 4 <= n <= length b.
Proof.
  intros max b n H. unfold decode in H.
  destruct (find_sub SEP b) as [k|] eqn:E; [|now destruct H].
  apply find_sub_some in E as (_ & Hl & _). cbn [length SEP] in Hl.
  assert (n = k + 4); [|lia].
  destruct (header_loop (S k) max b k 0 None) as [[len|]| | |];
    try (destruct H as [H|H]; [injection H as <-; easy|discriminate] || discriminate);
    try (destruct H as [H|H]; injection H as <-; easy).
  - destruct (N.ltb _ len); [destruct H as [H|H]; [injection H as <-; easy|discriminate]|].
    destruct (N.ltb _ _); now destruct H.
  - destruct H as [H|H]; [discriminate|injection H as <-; easy].
  - now destruct H.
Qed.

(** drain: fuel suffices *)
Lemma drain_total : forall fuel max conn b, length b < fuel -> exists r, drain fuel max conn b = Some r.
Proof.
  induction fuel as [|f IH]; intros max conn b Hf; [lia|]. cbn [drain].
  destruct conn; [|eauto].
  destruct (decode max b) as [|p n|n|n|] eqn:E; eauto.
  - apply decode_ok_bounds in E as (H & _).
    destruct (Nat.ltb_spec 0 n); [|lia]. destruct (Nat.leb_spec n (length b)); [|lia]. cbn [andb].
    destruct (IH max true (skipn n b)) as [[evs r] ->]; [rewrite skipn_length; lia|eauto].
  - pose proof (decode_invalid_bounds max b n (or_introl E)) as H.
    destruct (Nat.ltb_spec 0 n); [|lia]. destruct (Nat.leb_spec n (length b)); [|lia]. cbn [andb].
    destruct (IH max true (skipn n b)) as [[evs r] ->]; [rewrite skipn_length; lia|eauto].
  - now apply decode_not_diverged in E.
Qed.

Lemma drain_mono : forall fuel max conn b r, drain fuel max conn b = Some r ->
  forall fuel', fuel <= fuel' -> drain fuel' max conn b = Some r.
Proof.
  induction fuel as [|f IH]; intros max conn b r H fuel' Hle; [discriminate|].
  destruct fuel' as [|f']; [lia|]. cbn [drain] in *.
  destruct conn; [|easy].
  destruct (decode max b); try easy.
  - destruct (drain f max true _) as [[evs r']|] eqn:E; [|discriminate].
    rewrite (IH _ _ _ _ E f') by lia. easy.
  - destruct (drain f max true _) as [[evs r']|] eqn:E; [|discriminate].
    rewrite (IH _ _ _ _ E f') by lia. easy.
Qed.

(** Draining b then appending t and draining again = draining b ++ t. *)
Lemma drain_split : forall fuel max b e1 r1, drain fuel max true b = Some (e1, r1) ->
  forall t fuel2 e2 r2, rx_connected r1 = true ->
  drain fuel2 max true (rx_buffer r1 ++ t) = Some (e2, r2) ->
  drain (fuel + fuel2) max true (b ++ t) = Some (e1 ++ e2, r2).
Proof.
  induction fuel as [|f IH]; intros max b e1 r1 H t fuel2 e2 r2 Hc H2; [discriminate|].
  cbn [drain] in H.
  destruct (decode max b) as [|p n|n|n|] eqn:E; try discriminate.
  - injection H as <- <-. cbn [rx_buffer rx_connected app] in *.
    eapply drain_mono; [exact H2|lia].
  - pose proof (decode_ok_bounds _ _ _ _ E) as (Hn & _).
    destruct (Nat.ltb_spec 0 n); [|lia]. destruct (Nat.leb_spec n (length b)); [|lia].
    cbn [andb] in H.
    destruct (drain f max true (skipn n b)) as [[evs r']|] eqn:F; [|discriminate].
    injection H as <- <-. cbn [plus drain].
    rewrite decode_app, E by now rewrite E.
    destruct (Nat.ltb_spec 0 n); [|lia].
    destruct (Nat.leb_spec n (length (b ++ t))); [|rewrite app_length in *; lia]. cbn [andb].
    rewrite skipn_app. replace (n - length b) with 0 by lia. cbn [skipn].
    rewrite (IH _ _ _ _ F t fuel2 e2 r2) by easy. easy.
  - pose proof (decode_invalid_bounds _ _ _ (or_introl E)) as Hn.
    destruct (Nat.ltb_spec 0 n); [|lia]. destruct (Nat.leb_spec n (length b)); [|lia].
    cbn [andb] in H.
    destruct (drain f max true (skipn n b)) as [[evs r']|] eqn:F; [|discriminate].
    injection H as <- <-. cbn [plus drain].
    rewrite decode_app, E by now rewrite E.
    destruct (Nat.ltb_spec 0 n); [|lia].
    destruct (Nat.leb_spec n (length (b ++ t))); [|rewrite app_length in *; lia]. cbn [andb].
    rewrite skipn_app. replace (n - length b) with 0 by lia. cbn [skipn].
    rewrite (IH _ _ _ _ F t fuel2 e2 r2) by easy. easy.
  - injection H as <- <-. discriminate.
Qed.

Lemma drain_split_dead : forall fuel max b e1 r1, drain fuel max true b = Some (e1, r1) ->
  rx_connected r1 = false -> forall t,
  exists r2, drain fuel max true (b ++ t) = Some (e1, r2) /\ rx_connected r2 = false.
Proof.
  induction fuel as [|f IH]; intros max b e1 r1 H Hc t; [discriminate|].
  cbn [drain] in *.
  destruct (decode max b) as [|p n|n|n|] eqn:E; try discriminate.
  - injection H as <- <-. discriminate.
  - pose proof (decode_ok_bounds _ _ _ _ E) as (Hn & _).
    destruct (Nat.ltb_spec 0 n); [|lia]. destruct (Nat.leb_spec n (length b)); [|lia].
    cbn [andb] in H.
    destruct (drain f max true (skipn n b)) as [[evs r']|] eqn:F; [|discriminate].
    injection H as <- <-.
    rewrite decode_app, E by now rewrite E.
    destruct (Nat.ltb_spec 0 n); [|lia].
    destruct (Nat.leb_spec n (length (b ++ t))); [|rewrite app_length in *; lia]. cbn [andb].
    rewrite skipn_app. replace (n - length b) with 0 by lia. cbn [skipn].
    destruct (IH _ _ _ _ F Hc t) as (r2 & -> & ?). eauto.
  - pose proof (decode_invalid_bounds _ _ _ (or_introl E)) as Hn.
    destruct (Nat.ltb_spec 0 n); [|lia]. destruct (Nat.leb_spec n (length b)); [|lia].
    cbn [andb] in H.
    destruct (drain f max true (skipn n b)) as [[evs r']|] eqn:F; [|discriminate].
    injection H as <- <-.
    rewrite decode_app, E by now rewrite E.
    destruct (Nat.ltb_spec 0 n); [|lia].
    destruct (Nat.leb_spec n (length (b ++ t))); [|rewrite app_length in *; lia]. cbn [andb].
    rewrite skipn_app. replace (n - length b) with 0 by lia. cbn [skipn].
    destruct (IH _ _ _ _ F Hc t) as (r2 & -> & ?). eauto.
  - injection H as <- <-. rewrite decode_app, E by now rewrite E. eauto.
Qed.

Lemma on_reads_total : forall chunks max r, exists res, on_reads max r chunks = Some res.
Proof.
  induction chunks as [|c cs IH]; intros max r; cbn [on_reads]; [eauto|].
  assert (exists x, on_read max r c = Some x) as [[e1 r1] ->].
  { unfold on_read. destruct (rx_connected r); [apply drain_total; lia|eauto]. }
  destruct (IH max r1) as [[e2 r2] ->]. eauto.
Qed.

Lemma on_reads_dead : forall chunks max r, rx_connected r = false ->
  on_reads max r chunks = Some ([], r).
Proof.
  induction chunks as [|c cs IH]; intros max r H; cbn [on_reads]; [easy|].
  unfold on_read. rewrite H. rewrite IH by easy. easy.
Qed.

Lemma drain_fuel_indep : forall f1 f2 max c b r1 r2,
  drain f1 max c b = Some r1 -> drain f2 max c b = Some r2 -> r1 = r2.
Proof.
  intros f1 f2 max c b r1 r2 H1 H2.
  apply drain_mono with (fuel' := f1 + f2) in H1; [|lia].
  apply drain_mono with (fuel' := f1 + f2) in H2; [|lia]. congruence.
Qed.

Lemma drain_incomplete_buffer : forall fuel max b e r, drain fuel max true b = Some (e, r) ->
  rx_connected r = true -> decode max (rx_buffer r) = Incomplete.
Proof.
  induction fuel as [|f IH]; intros max b e r H Hc; [discriminate|]. cbn [drain] in H.
  destruct (decode max b) as [|p n|n|n|] eqn:E; try discriminate.
  - injection H as <- <-. easy.
  - destruct (drain f max true _) as [[evs r']|] eqn:F; [|discriminate]. injection H as <- <-. eauto.
  - destruct (drain f max true _) as [[evs r']|] eqn:F; [|discriminate]. injection H as <- <-. eauto.
  - injection H as <- <-. discriminate.
Qed.

(** Main chunking lemma. *)
Lemma on_reads_concat : forall chunks max r e1 r1,
  rx_connected r = true -> decode max (rx_buffer r) = Incomplete ->
  on_reads max r chunks = Some (e1, r1) ->
  exists r2, on_read max r (concat chunks) = Some (e1, r2) /\
    rx_connected r2 = rx_connected r1 /\
    (rx_connected r1 = true -> rx_buffer r2 = rx_buffer r1).
Proof.
  induction chunks as [|c cs IH]; intros max r e1 r1 Hc Hi H.
  - cbn [on_reads] in H. injection H as <- <-. unfold on_read. rewrite Hc. cbn [concat].
    rewrite app_nil_r. cbn [drain]. rewrite Hi. eexists. split; [reflexivity|]. cbn. easy.
  - cbn [on_reads] in H. destruct (on_read max r c) as [[ea ra]|] eqn:E; [|discriminate].
    destruct (on_reads max ra cs) as [[eb rb]|] eqn:F; [|discriminate]. injection H as <- <-.
    unfold on_read in E. rewrite Hc in E.
    destruct (rx_connected ra) eqn:Ca.
    + pose proof (drain_incomplete_buffer _ _ _ _ _ E Ca) as Ia.
      destruct (IH _ _ _ _ Ca Ia F) as (r2 & G & H1 & H2).
      unfold on_read in G. rewrite Ca in G.
      pose proof (drain_split _ _ _ _ _ E (concat cs) _ _ _ Ca G) as K.
      exists r2. split; [|easy]. unfold on_read. rewrite Hc. cbn [concat]. rewrite app_assoc.
      destruct (drain_total (S (length ((rx_buffer r ++ c) ++ concat cs))) max true
                  ((rx_buffer r ++ c) ++ concat cs)) as [x Hx]; [lia|].
      rewrite Hx. f_equal. eapply drain_fuel_indep; [exact Hx|exact K].
    + rewrite on_reads_dead in F by easy. injection F as <- <-. rewrite app_nil_r.
      destruct (drain_split_dead _ _ _ _ _ E Ca (concat cs)) as (r2 & K & Hd).
      exists r2. split; [|now rewrite Ca].
      unfold on_read. rewrite Hc. cbn [concat]. rewrite app_assoc.
      eapply drain_mono; [exact K|]. rewrite !app_length. lia.
Qed.

Lemma chunking_same : forall max chunks1 chunks2, concat chunks1 = concat chunks2 ->
  exists e r1 r2,
    on_reads max reader0 chunks1 = Some (e, r1) /\
    on_reads max reader0 chunks2 = Some (e, r2) /\
    rx_connected r1 = rx_connected r2 /\
    (rx_connected r1 = true -> rx_buffer r1 = rx_buffer r2).
Proof.
  intros max c1 c2 H.
  destruct (on_reads_total c1 max reader0) as [[e1 r1] H1].
  destruct (on_reads_total c2 max reader0) as [[e2 r2] H2].
  assert (decode max (rx_buffer reader0) = Incomplete) as Hi by reflexivity.
  destruct (on_reads_concat _ _ _ _ _ (eq_refl : rx_connected reader0 = true) Hi H1) as (x1 & A1 & B1 & C1).
  destruct (on_reads_concat _ _ _ _ _ (eq_refl : rx_connected reader0 = true) Hi H2) as (x2 & A2 & B2 & C2).
  rewrite H, A2 in A1. injection A1 as -> ->.
  exists e1, r1, r2. rewrite H1, H2. repeat split; [congruence|].
  intros Hc. rewrite <- C1 by easy. apply C2. congruence.
Qed.

(** Encoding *)
Lemma print_N_no_cr : forall n, ~ In CR (print_N n).
Proof.
  intros n H. destruct (print_N_spec n) as (_ & H2 & _).
  rewrite forallb_forall in H2. specialize (H2 _ H). discriminate.
Qed.

Lemma find_sub_head_skip : forall c p a b, ~ In c a ->
  find_sub (c :: p) (a ++ b) = option_map (fun k => length a + k) (find_sub (c :: p) b).
Proof.
  intros c p a b. induction a as [|x a IH]; intros H.
  - cbn [app length plus]. destruct (find_sub (c :: p) b); reflexivity.
  - cbn [app]. cbn [find_sub]. cbn [starts_with].
    destruct (Ascii.eqb c x) eqn:E; [apply eqb_eq in E; subst; cbn in H; tauto|]. cbn [andb].
    rewrite IH by (cbn in H; tauto).
    destruct (find_sub (c :: p) b); reflexivity.
Qed.

Lemma find_sub_head_none : forall c p a, ~ In c a -> find_sub (c :: p) a = None.
Proof.
  intros c p a H. rewrite <- (app_nil_r a). rewrite find_sub_head_skip by easy. reflexivity.
Qed.

Definition enc_header (n : N) : bstr := bs "Content-Length: " ++ print_N n.

Lemma enc_header_no_cr : forall n, ~ In CR (enc_header n).
Proof.
  intros n H. unfold enc_header in H. apply in_app_or in H as [H|H].
  - cbn in H. repeat (destruct H as [H|H]; [discriminate|]). easy.
  - now apply print_N_no_cr in H.
Qed.

Lemma header_line_enc : forall n, (n < two64)%N -> header_line (enc_header n) = LLen n.
Proof.
  intros n Hn. unfold header_line, enc_header.
  assert (find_char (chr 58) (bs "Content-Length: " ++ print_N n) = Some 14) as -> by reflexivity.
  assert (beq (lower (substr (bs "Content-Length: " ++ print_N n) 0 14)) (bs "content-length") = true)
    as -> by reflexivity.
  assert (drop_while is_space (skipn (14 + 1) (bs "Content-Length: " ++ print_N n)) = print_N n) as ->.
  { change (skipn (14 + 1) (bs "Content-Length: " ++ print_N n)) with ([SPACE] ++ print_N n).
    apply drop_while_all; [reflexivity|].
    destruct (print_N_head n) as (d & ds & -> & Hd). now apply digit_not_space. }
  rewrite <- (app_nil_r (print_N n)). now rewrite stoull_print_N.
Qed.

Lemma decode_encode : forall max p rest,
  (N.of_nat (length p) <= max)%N -> (N.of_nat (length (encode p)) < two64)%N ->
  decode max (encode p ++ rest) = Ok p (length (encode p)).
Proof.
  intros max p rest Hmax Hlen. set (n := N.of_nat (length p)).
  assert (encode p ++ rest = enc_header n ++ SEP ++ p ++ rest) as Henc.
  { unfold encode, enc_header. fold n. rewrite <- !app_assoc. reflexivity. }
  assert (length (encode p) = length (enc_header n) + 4 + length p) as HL.
  { unfold encode, enc_header. fold n. rewrite !app_length. cbn [length SEP]. lia. }
  rewrite Henc.
  assert (find_sub SEP (enc_header n ++ SEP ++ p ++ rest) = Some (length (enc_header n))) as Hf.
  { unfold SEP at 1. rewrite find_sub_head_skip by apply enc_header_no_cr.
    cbn [app SEP]. cbn. f_equal. lia. }
  rewrite (decode_lines _ _ _ Hf). rewrite firstn_app_len.
  assert (n < two64)%N as Hn by lia.
  assert (lines_of (enc_header n) = [enc_header n]) as ->.
  { unfold lines_of. cbn [split_crlf].
    rewrite (find_sub_head_none CR [LF]) by apply enc_header_no_cr. easy. }
  cbn [scan_lines]. rewrite header_line_enc by easy.
  destruct (N.ltb_spec max n); [lia|]. cbn [finish].
  destruct (N.ltb_spec (two64 - 1 - N.of_nat (length (enc_header n) + 4)) n); [lia|].
  destruct (N.ltb_spec (N.of_nat (length (enc_header n ++ SEP ++ p ++ rest)))
             (N.of_nat (length (enc_header n) + 4) + n)) as [Hc|_].
  { rewrite !app_length in Hc. cbn [length SEP] in Hc. lia. }
  f_equal; [|lia]. unfold substr.
  rewrite (app_assoc (enc_header n)).
  replace (length (enc_header n) + 4) with (length (enc_header n ++ SEP)) by (rewrite app_length; easy).
  rewrite skipn_app_len. unfold n. rewrite Nat2N.id. apply firstn_app_len.
Qed.

Lemma decode_encode_too_large : forall max p rest,
  (max < N.of_nat (length p))%N -> (N.of_nat (length (encode p)) < two64)%N ->
  exists k, decode max (encode p ++ rest) = BodyTooLarge k.
Proof.
  intros max p rest Hmax Hlen. set (n := N.of_nat (length p)).
  assert (encode p ++ rest = enc_header n ++ SEP ++ p ++ rest) as Henc.
  { unfold encode, enc_header. fold n. rewrite <- !app_assoc. reflexivity. }
  assert (length (encode p) = length (enc_header n) + 4 + length p) as HL.
  { unfold encode, enc_header. fold n. rewrite !app_length. cbn [length SEP]. lia. }
  rewrite Henc.
  assert (find_sub SEP (enc_header n ++ SEP ++ p ++ rest) = Some (length (enc_header n))) as Hf.
  { unfold SEP at 1. rewrite find_sub_head_skip by apply enc_header_no_cr.
    cbn [app SEP]. cbn. f_equal. lia. }
  rewrite (decode_lines _ _ _ Hf). rewrite firstn_app_len.
  assert (n < two64)%N as Hn by lia.
  assert (lines_of (enc_header n) = [enc_header n]) as ->.
  { unfold lines_of. cbn [split_crlf].
    rewrite (find_sub_head_none CR [LF]) by apply enc_header_no_cr. easy. }
  cbn [scan_lines]. rewrite header_line_enc by easy.
  destruct (N.ltb_spec max n); [|lia]. cbn [finish]. eauto.
Qed.

(** Streams of frames *)
Lemma frames_any_chunking : forall ps max chunks,
  Forall (fun p => (N.of_nat (length p) <= max)%N /\ (N.of_nat (length (encode p)) < two64)%N) ps ->
  concat chunks = concat (map encode ps) ->
  on_reads max reader0 chunks = Some (map Delivered ps, reader0).
Proof.
  intros ps max chunks H Hc.
  assert (exists fuel, drain fuel max true (concat (map encode ps)) = Some (map Delivered ps, reader0)) as [f Hf].
  { clear Hc. induction ps as [|p ps IH].
    - exists 1. reflexivity.
    - inversion H as [|? ? [H1 H2] H3]; subst. destruct (IH H3) as [f Hf].
      exists (S f). cbn [map concat drain]. rewrite decode_encode by easy.
      rewrite app_length.
      assert (0 < length (encode p)) by (unfold encode; rewrite app_length; cbn; lia).
      destruct (Nat.ltb_spec 0 (length (encode p))); [|lia].
      destruct (Nat.leb_spec (length (encode p)) (length (encode p) + length (concat (map encode ps)))); [|lia].
      cbn [andb]. rewrite skipn_app_len, Hf. reflexivity. }
  destruct (on_reads_total chunks max reader0) as [[e1 r1] H1].
  assert (decode max (rx_buffer reader0) = Incomplete) as Hi by reflexivity.
  destruct (on_reads_concat _ _ _ _ _ (eq_refl : rx_connected reader0 = true) Hi H1) as (x1 & A1 & B1 & C1).
  unfold on_read in A1. cbn [rx_connected reader0 rx_buffer app] in A1. rewrite Hc in A1.
  pose proof (drain_fuel_indep _ _ _ _ _ _ _ A1 Hf) as K. injection K as -> ->.
  rewrite H1. f_equal. f_equal. destruct r1 as [c b]. cbn in *. rewrite <- B1 in *.
  unfold reader0. f_equal. symmetry. now apply C1.
Qed.

(** Agreement with the independent specification of header blocks. *)
Lemma occurs_find : forall p s, p <> [] -> (find_sub p s = None <-> ~ occurs p s).
Proof.
  intros p s Hp. split.
  - intros H (a & b & ->).
    pose proof (find_sub_none _ _ H (length a)) as K.
    rewrite skipn_app_len, starts_with_app in K. rewrite app_length in K.
    assert (true = false) by (apply K; lia). discriminate.
  - intros H. destruct (find_sub p s) as [k|] eqn:E; [|easy]. exfalso. apply H.
    apply find_sub_split in E as [E _]. now exists (firstn k s), (skipn (k + length p) s).
Qed.

Lemma header_lines_iff : forall h ls, header_lines h ls <->
  (ls <> [] /\ h = join CRLF ls /\ Forall (fun l => find_sub CRLF l = None) ls).
Proof.
  intros h ls. unfold header_lines. change [CR; LF] with CRLF.
  assert (forall l, find_sub CRLF l = None <-> ~ occurs CRLF l) as H by (intros; now apply occurs_find).
  split; intros (H1 & H2 & H3); repeat split; try easy;
    (eapply Forall_impl; [|exact H3]); intros a Ha; now apply H.
Qed.

Lemma header_line_iff : forall l, 
  match header_line l with
  | LSkip => ~ is_content_length_line l
  | LBad => exists v, content_length_line l v /\ stoull v = None
  | LLen n => exists v, content_length_line l v /\ stoull v = Some n
  end.
Proof.
  intro l. unfold header_line.
  destruct (find_char (chr 58) l) as [k|] eqn:E.
  - apply find_char_some in E as (a & b & -> & <- & Hn).
    change (chr 58) with ":"%char in *.
    unfold substr. cbn [skipn]. rewrite firstn_app_len.
    replace (skipn (length a + 1) (a ++ ":"%char :: b)) with b
      by (rewrite <- skipn_skipn_add, skipn_app_len; reflexivity).
    assert (forall x, lower x = bs "content-length" <-> map to_lower x = bs "content-length") by easy.
    destruct (beq (lower a) (bs "content-length")) eqn:B.
    + apply beq_eq in B.
      assert (content_length_line (a ++ ":"%char :: b) (drop_while is_space b)) as C.
      { destruct (drop_while_suffix is_space b) as (sp & Hsp & Hall).
        exists a, sp. repeat split; try easy.
        - cbn [app]. now rewrite <- Hsp.
        - clear -b. induction b as [|c b IH]; cbn; [easy|].
          destruct (is_space c) eqn:E; easy. }
      destruct (stoull (drop_while is_space b)) eqn:S; eauto.
    + apply beq_neq in B. intros (v & name & sp & H1 & H2 & H3 & _). apply B.
      cbn [app] in H1.
      assert (a = name) as ->; [|easy].
      clear -H1 H2 Hn. revert name H1 H2. induction a as [|x a IH]; intros [|y name] H1 H2; try easy.
      * injection H1 as E1 _. exfalso. apply H2. left. congruence.
      * injection H1 as E1 _. exfalso. apply Hn. left. congruence.
      * injection H1 as -> H1. f_equal. apply IH; [|easy|]; cbn in *; tauto.
  - apply find_char_none in E. intros (v & name & sp & -> & _). apply E.
    apply in_or_app. right. now left.
Qed.

Lemma stoull_numeral : forall v n, (match v with [] => True | c :: _ => is_space c = false end) ->
  stoull v = Some n -> numeral_prefix v n.
Proof.
  intros v n Ht H. unfold stoull, scan_int in H. cbv zeta in H.
  assert (drop_while is_space v = v) as Hd.
  { destruct v as [|c v]; [easy|]. cbn. now rewrite Ht. }
  rewrite Hd in H.
  assert (exists sign s2 neg, v = sign ++ s2 /\
     ((neg = false /\ (sign = [] \/ sign = ["+"%char])) \/ (neg = true /\ sign = ["-"%char])) /\
     split_sign v = (neg, s2)) as (sign & s2 & neg & Hv & Hsign & Hm).
  { destruct v as [|c v].
    - exists [], [], false. auto 12.
    - unfold split_sign. destruct (Ascii.eqb c (chr 45)) eqn:E1.
      + apply eqb_eq in E1 as ->. exists ["-"%char], v, true. auto 12.
      + destruct (Ascii.eqb c (chr 43)) eqn:E2.
        * apply eqb_eq in E2 as ->. exists ["+"%char], v, false. auto 12.
        * exists [], (c :: v), false. auto 12. }
  rewrite Hm in H.
  pose proof (span_app is_digit s2) as Hs. destruct (span is_digit s2) as [ds rest].
  destruct Hs as (-> & Hds & Hrest). cbn [fst] in H.
  destruct ds as [|d ds]; [discriminate|].
  destruct (N.leb_spec two64 (digits_val (d :: ds))); [discriminate|].
  exists sign, (d :: ds), rest. repeat split; try easy.
  change (2 ^ 64)%N with two64.
  destruct Hsign as [[-> Hs]|[-> ->]].
  - left. injection H as ->. auto.
  - right. injection H as <-. auto.
Qed.

Lemma scan_lines_last : forall max ls cl n, scan_lines max ls cl = HLen (Some n) ->
  (cl = Some n /\ Forall (fun l => header_line l = LSkip) ls) \/
  exists before line after, ls = before ++ line :: after /\ header_line line = LLen n /\
    Forall (fun l => header_line l = LSkip) after.
Proof.
  induction ls as [|l ls IH]; intros cl n H; cbn in H.
  - left. injection H as ->. auto.
  - destruct (header_line l) eqn:E; [|discriminate|].
    + destruct (IH _ _ H) as [[-> H2]|(b & x & a & -> & H2 & H3)].
      * left. auto.
      * right. now exists (l :: b), x, a.
    + destruct (N.ltb max n0); [discriminate|].
      destruct (IH _ _ H) as [[[= ->] H2]|(b & x & a & -> & H2 & H3)].
      * right. now exists [], l, ls.
      * right. now exists (l :: b), x, a.
Qed.

Lemma decode_sound : forall max b p n, decode max b = Ok p n ->
  exists h rest,
    b = h ++ [CR; LF; CR; LF] ++ p ++ rest /\
    ~ occurs [CR; LF; CR; LF] (h ++ [CR; LF; CR]) /\
    n = length (h ++ [CR; LF; CR; LF] ++ p) /\
    designates h (N.of_nat (length p)) /\
    (N.of_nat (length p) <= max)%N.
Proof.
  intros max b p n H. pose proof H as H0.
  destruct (find_sub SEP b) as [k|] eqn:E; [|unfold decode in H; now rewrite E in H].
  rewrite (decode_lines _ _ _ E) in H.
  destruct (scan_lines max (lines_of (firstn k b)) None) as [[len|]| | |] eqn:F; try discriminate.
  cbn [finish] in H.
  destruct (N.ltb_spec (two64 - 1 - N.of_nat (k + 4)) len); [discriminate|].
  destruct (N.ltb_spec (N.of_nat (length b)) (N.of_nat (k + 4) + len)) as [|Hb]; [discriminate|].
  injection H as <- <-.
  pose proof (find_sub_split _ _ _ E) as [Hs Hlen]. cbn [length SEP] in Hs.
  assert (length (substr b (k + 4) (N.to_nat len)) = N.to_nat len) as Hp.
  { unfold substr. rewrite firstn_length, skipn_length. lia. }
  exists (firstn k b), (skipn (N.to_nat len) (skipn (k + 4) b)). repeat split.
  - unfold substr. rewrite firstn_skipn. exact Hs.
  - intros (x & y & Hxy).
    assert (length x < k) as Hx.
    { apply (f_equal (@length ascii)) in Hxy. rewrite !app_length in Hxy. cbn in Hxy.
      rewrite Hlen in Hxy. lia. }
    apply find_sub_some in E as (_ & _ & E). specialize (E _ Hx).
    rewrite Hs in E.
    change (SEP ++ skipn (k + 4) b) with ([CR; LF; CR] ++ LF :: skipn (k + 4) b) in E.
    rewrite app_assoc, Hxy in E. rewrite <- app_assoc, skipn_app_len, <- app_assoc in E.
    now rewrite starts_with_app in E.
  - rewrite !app_length. rewrite Hlen, Hp. cbn [length]. lia.
  - rewrite Hp, N2Nat.id.
    destruct (scan_lines_last _ _ _ _ F) as [[? _]|(bf & line & af & G1 & H2 & H3)]; [discriminate|].
    pose proof (header_line_iff line) as HL. rewrite H2 in HL. destruct HL as (v & Hv & Hn).
    exists bf, line, v, af. split; [|split; [easy|split]].
    + apply header_lines_iff. rewrite <- G1.
      destruct (split_crlf_spec (S (length (firstn k b))) (firstn k b)) as (A1 & A2 & A3); [lia|].
      unfold lines_of. auto.
    + apply stoull_numeral; [|easy]. destruct Hv as (? & ? & _ & _ & _ & _ & Hv). exact Hv.
    + eapply Forall_impl; [|exact H3]. intros l Hl.
      pose proof (header_line_iff l) as K. now rewrite Hl in K.
  - apply decode_ok_bounds in H0. tauto.
Qed.

Lemma join_unique : forall ls1 ls2, ls1 <> [] -> ls2 <> [] ->
  Forall (fun l => find_sub CRLF l = None) ls1 ->
  Forall (fun l => find_sub CRLF l = None) ls2 ->
  join CRLF ls1 = join CRLF ls2 -> ls1 = ls2.
Proof.
  induction ls1 as [|a ls1 IH]; intros ls2 N1 N2 F1 F2 H; [easy|].
  destruct ls2 as [|b ls2]; [easy|].
  inversion F1 as [|? ? Ha F1']; subst. inversion F2 as [|? ? Hb F2']; subst.
  destruct ls1 as [|a2 ls1]; destruct ls2 as [|b2 ls2].
  - cbn in H. congruence.
  - change (join CRLF (b :: b2 :: ls2)) with (b ++ CR :: LF :: join CRLF (b2 :: ls2)) in H.
    change (join CRLF [a]) with a in H. pose proof (find_crlf_app b (join CRLF (b2 :: ls2)) Hb) as K.
    rewrite <- H in K. congruence.
  - change (join CRLF (a :: a2 :: ls1)) with (a ++ CR :: LF :: join CRLF (a2 :: ls1)) in H.
    change (join CRLF [b]) with b in H. pose proof (find_crlf_app a (join CRLF (a2 :: ls1)) Ha) as K.
    rewrite H in K. congruence.
  - change (join CRLF (b :: b2 :: ls2)) with (b ++ CR :: LF :: join CRLF (b2 :: ls2)) in H.
    change (join CRLF (a :: a2 :: ls1)) with (a ++ CR :: LF :: join CRLF (a2 :: ls1)) in H.
    pose proof (find_crlf_app a (join CRLF (a2 :: ls1)) Ha) as K1.
    pose proof (find_crlf_app b (join CRLF (b2 :: ls2)) Hb) as K2.
    rewrite H, K2 in K1. injection K1 as K1.
    assert (a = b /\ join CRLF (a2 :: ls1) = join CRLF (b2 :: ls2)) as [-> Hj].
    { assert (length b = length a) as K by easy. clear -H K. revert b H K.
      induction a as [|x a IHa]; intros [|y b] H K; try discriminate.
      - injection H as H. auto.
      - injection H as -> H. injection K as K. destruct (IHa _ H K) as [-> ?]. auto. }
    f_equal. apply IH; easy.
Qed.

(** The converse: a complete frame whose Content-Length lines are all numerals within the cap
    is accepted, with the last one deciding. *)
Lemma decode_complete : forall max h ls p rest,
  (max < two64)%N -> (N.of_nat (length (h ++ SEP ++ p)) < two64)%N ->
  header_lines h ls ->
  ~ occurs SEP (h ++ [CR; LF; CR]) ->
  (forall l v, In l ls -> content_length_line l v -> exists m, stoull v = Some m /\ (m <= max)%N) ->
  (exists before line after v, ls = before ++ line :: after /\ content_length_line line v /\
      stoull v = Some (N.of_nat (length p)) /\ Forall (fun l => ~ is_content_length_line l) after) ->
  decode max (h ++ SEP ++ p ++ rest) = Ok p (length (h ++ SEP ++ p)).
Proof.
  intros max h ls p rest Hmax Hsz Hls Hocc Hok (before & line & after & v & Hsplit & Hv & Hn & Hafter).
  apply header_lines_iff in Hls as (N1 & Hh & HF).
  assert (find_sub SEP (h ++ SEP ++ p ++ rest) = Some (length h)) as Hf.
  { apply find_sub_intro.
    - rewrite skipn_app_len. apply starts_with_app.
    - rewrite app_length. lia.
    - intros j Hj. destruct (starts_with SEP (skipn j (h ++ SEP ++ p ++ rest))) eqn:S; [|easy].
      exfalso. apply Hocc. apply starts_with_iff in S as [r S].
      exists (firstn j h).
      assert (skipn j (h ++ [CR; LF; CR]) = firstn (length h + 3 - j) (skipn j (h ++ SEP ++ p ++ rest))) as K.
      { change (h ++ SEP ++ p ++ rest) with (h ++ [CR; LF; CR] ++ LF :: p ++ rest).
        rewrite app_assoc. rewrite (skipn_app j (h ++ [CR; LF; CR])).
        replace (j - length (h ++ [CR; LF; CR])) with 0 by (rewrite app_length; cbn; lia).
        cbn [skipn].
        replace (length h + 3 - j) with (length (skipn j (h ++ [CR; LF; CR])))
          by (rewrite skipn_length, app_length; cbn; lia).
        now rewrite firstn_app_len. }
      exists (firstn (length h + 3 - j - 4) r).
      rewrite <- (firstn_skipn j (h ++ [CR; LF; CR])). f_equal.
      + rewrite firstn_app. replace (j - length h) with 0 by lia. cbn. now rewrite app_nil_r.
      + rewrite K, S. rewrite firstn_app. f_equal.
        apply firstn_all2. cbn [length SEP]. lia. }
  rewrite (decode_lines _ _ _ Hf), firstn_app_len.
  assert (lines_of h = ls) as ->.
  { destruct (split_crlf_spec (S (length h)) h) as (A1 & A2 & A3); [lia|].
    unfold lines_of. apply join_unique; try easy. congruence. }
  assert (forall cl, scan_lines max ls cl = HLen (Some (N.of_nat (length p)))) as ->.
  { clear Hf. intros cl.
    assert (forall l v1 v2, content_length_line l v1 -> content_length_line l v2 -> v1 = v2) as Huniq.
    { intros l v1 v2 (n1 & s1 & A1 & A2 & A3 & A4 & A5) (n2 & s2 & B1 & B2 & B3 & B4 & B5).
      rewrite A1 in B1. cbn [app] in B1.
      assert (s1 ++ v1 = s2 ++ v2) as K.
      { clear -A2 B2 B1. revert n2 B1 B2. induction n1 as [|x n1 IH]; intros [|y n2] B1 B2.
        - now injection B1.
        - injection B1 as <- _. exfalso. apply B2. now left.
        - injection B1 as -> _. exfalso. apply A2. now left.
        - injection B1 as -> B1. apply IH with n2; [|easy|]; cbn in *; tauto. }
      rewrite <- (drop_while_all is_space s1 v1), <- (drop_while_all is_space s2 v2); try easy. now rewrite K. }
    assert (forall pre cl', (forall l, In l pre -> In l ls) ->
             exists cl'', forall tl, scan_lines max (pre ++ tl) cl' = scan_lines max tl cl'') as Hpre.
    { induction pre as [|l pre IH]; intros cl' Hin; [now exists cl'|].
      cbn [app scan_lines]. pose proof (header_line_iff l) as HL.
      destruct (header_line l).
      - apply IH. intros; apply Hin; now right.
      - destruct HL as (v' & H1 & H2). destruct (Hok l v') as (m & K & _); [apply Hin; now left|easy|].
        congruence.
      - destruct HL as (v' & H1 & H2). destruct (Hok l v') as (m & K & Km); [apply Hin; now left|easy|].
        rewrite K in H2. injection H2 as ->.
        destruct (N.ltb_spec max n); [lia|]. apply IH. intros; apply Hin; now right. }
    destruct (Hpre before cl) as (cl'' & Hb). { intros l Hl. subst ls. apply in_or_app. now left. }
    rewrite Hsplit, Hb. cbn [scan_lines]. pose proof (header_line_iff line) as HL.
    destruct (header_line line).
    - exfalso. apply HL. now exists v.
    - destruct HL as (v' & H1 & H2). rewrite (Huniq _ _ _ H1 Hv) in H2. congruence.
    - destruct HL as (v' & H1 & H2). rewrite (Huniq _ _ _ H1 Hv) in H2.
      rewrite Hn in H2. injection H2 as <-.
      destruct (Hok line v) as (m & K & Km); [subst ls; apply in_or_app; right; now left|easy|].
      rewrite Hn in K. injection K as <-.
      destruct (N.ltb_spec max (N.of_nat (length p))); [lia|].
      clear -Hafter. induction after as [|l after IH]; [easy|].
      inversion Hafter; subst. cbn [scan_lines]. pose proof (header_line_iff l) as HL.
      destruct (header_line l).
      + now apply IH.
      + exfalso. destruct HL as (v & Hv & _). apply H1. now exists v.
      + exfalso. destruct HL as (v & Hv & _). apply H1. now exists v. }
  cbn [finish]. rewrite !app_length in Hsz. cbn [length SEP] in Hsz.
  destruct (N.ltb_spec (two64 - 1 - N.of_nat (length h + 4)) (N.of_nat (length p))); [lia|].
  destruct (N.ltb_spec (N.of_nat (length (h ++ SEP ++ p ++ rest)))
             (N.of_nat (length h + 4) + N.of_nat (length p))) as [Hc|_].
  { rewrite !app_length in Hc. cbn [length SEP] in Hc. lia. }
  rewrite Nat2N.id. f_equal.
  - unfold substr. rewrite (app_assoc h).
    replace (length h + 4) with (length (h ++ SEP)) by (rewrite app_length; easy).
    rewrite skipn_app_len. apply firstn_app_len.
  - rewrite !app_length. cbn [length SEP]. lia.
Qed.

Lemma try_decode_encode : forall (max : N) (payload rest : bstr),
  (N.of_nat (length payload) <= max)%N ->
  (N.of_nat (length (encode payload)) < two64)%N ->
  try_decode max (encode payload ++ rest) = (Some payload, rest).
Proof.
  intros max p rest H1 H2. unfold try_decode. rewrite decode_encode by easy.
  rewrite app_length.
  assert (0 < length (encode p)) by (unfold encode; rewrite app_length; cbn; lia).
  destruct (Nat.ltb_spec 0 (length (encode p))); [|lia].
  destruct (Nat.leb_spec (length (encode p)) (length (encode p) + length rest)); [|lia].
  cbn [andb]. now rewrite skipn_app_len.
Qed.

Lemma decode_bounds : forall (max : N) (buffer : bstr),
  match decode max buffer with
  | Ok _ n | InvalidHeader n | BodyTooLarge n => 0 < n <= length buffer
  | Incomplete => True
  | Diverged => False
  end.
Proof.
  intros max b. destruct (decode max b) eqn:E; [easy| | | |].
  - apply decode_ok_bounds in E. lia.
  - pose proof (decode_invalid_bounds max b consumed (or_introl E)). lia.
  - pose proof (decode_invalid_bounds max b consumed (or_intror E)). lia.
  - now apply decode_not_diverged in E.
Qed.

Lemma decode_progress : forall (max : N) (b : bstr) n,
  (exists p, decode max b = Ok p n) \/ decode max b = InvalidHeader n ->
  length (skipn n b) + 4 <= length b.
Proof.
  intros max b n [[p H]|H]; rewrite skipn_length.
  - apply decode_ok_bounds in H. lia.
  - pose proof (decode_invalid_bounds max b n (or_introl H)). lia.
Qed.

Lemma oversize_disconnects : forall (max : N) (payload : bstr) (chunks : list bstr) (rest : bstr),
  (max < N.of_nat (length payload))%N ->
  (N.of_nat (length (encode payload)) < two64)%N ->
  concat chunks = encode payload ++ rest ->
  exists r, on_reads max reader0 chunks = Some ([TooLarge], r) /\ rx_connected r = false.
Proof.
  intros max p chunks rest H1 H2 Hc.
  destruct (on_reads_total chunks max reader0) as [[e1 r1] K].
  assert (decode max (rx_buffer reader0) = Incomplete) as Hi by reflexivity.
  destruct (on_reads_concat _ _ _ _ _ (eq_refl : rx_connected reader0 = true) Hi K) as (x1 & A1 & B1 & C1).
  unfold on_read in A1. cbn [rx_connected reader0 rx_buffer app] in A1. rewrite Hc in A1.
  cbn [drain] in A1. destruct (decode_encode_too_large max p rest H1 H2) as [k Hk].
  rewrite Hk in A1. injection A1 as <- <-. exists r1. rewrite K. split; [reflexivity|]. cbn in B1. symmetry. exact B1.
Qed.
