(** The invariant of a pair of connected transports. *)
From Coq Require Import Ascii String List Permutation Arith NArith ZArith Bool Lia ZifyBool ZifyNat ZifyN.
From Verif Require Import StrModel StrProofs FramerModel FramerProofs DoubleModel JsonModel JsonSpec JsonProofs RpcModel RpcSpec RpcProofs
  RouterModel RouterProofs MapModel MapProofs MemModel PendModel PendProofs WqModel WqProofs StdioModel StdioSpec StdioProofs WireSpec WireProofs
  DuoModel DuoSpec DuoProofs.
Import ListNotations.
Local Open Scope nat_scope.

Definition texts (evs : list rx_event) : list bstr := flat_map (fun e => match e with Delivered t => [t] | _ => [] end) evs.
Definition received (vs : list sev) : list bstr := flat_map (fun v => match v with SMessage _ m => [m] | _ => [] end) vs.
Definition delivered (e : rx_event) : Prop := exists t, e = Delivered t.

Lemma texts_map : forall l, texts (map Delivered l) = l.
Proof. induction l as [|x l IH]; [reflexivity|]. cbn. now f_equal. Qed.
Lemma received_app : forall a b, received (a ++ b) = received a ++ received b.
Proof. intros. apply flat_map_app. Qed.

Lemma other_side : forall c b, c <> b -> c = negb b.
Proof. intros [|] [|] N; try reflexivity; now destruct N. Qed.

Lemma put_same : forall b x d, put b x d b = x.
Proof. intros. unfold put. now rewrite eqb_reflx. Qed.
Lemma put_other : forall b x d, put b x d (negb b) = d (negb b).
Proof. intros [|] x d; reflexivity. Qed.

Lemma firstn_more : forall (W : bstr) m n, m <= length W ->
  firstn (m + length (firstn n (skipn m W))) W = firstn m W ++ firstn n (skipn m W).
Proof.
  induction W as [|c W IH]; intros m n L.
  - destruct m; [|cbn in L; lia]. destruct n; reflexivity.
  - destruct m as [|m].
    + cbn [skipn firstn Nat.add app]. rewrite firstn_length. destruct (le_lt_dec n (length (c :: W))).
      * now rewrite Nat.min_l.
      * rewrite Nat.min_r by lia. rewrite firstn_all. symmetry. apply firstn_all2. lia.
    + cbn [skipn Nat.add]. rewrite !firstn_cons. cbn [app]. f_equal. apply IH. cbn in L. lia.
Qed.

Definition upd (b : bool) (x : list wire) (s : bool -> list wire) : bool -> list wire := fun c => if Bool.eqb b c then x else s c.
Lemma upd_same : forall b x s, upd b x s b = x.
Proof. intros. unfold upd. now rewrite eqb_reflx. Qed.
Lemma upd_other : forall b x s, upd b x s (negb b) = s (negb b).
Proof. intros [|] x d; reflexivity. Qed.

Definition registered (s : stdio) (rq : request) : Prop := exists t z, In (t, (rq, z)) (st_reg s).

Record side_inv (u : bool -> setup) (es : list dev) (d : duo) (sent : bool -> list wire) (b : bool) : Prop := {
  i_acc : w_accepted (st_wq (peer u d b)) = map (fun m => encode (wire_text m)) (sent b);
  i_ok : Forall wire_ok (sent b);
  i_ent : forall rq, In rq (st_entering (peer u d b)) -> request_ok rq;
  i_out : forall rq, In rq (st_out (peer u d b)) -> request_ok rq /\ registered (peer u d b) rq;
  i_req : forall rq, In (WRequest rq) (sent b) -> registered (peer u d b) rq;
  i_resp : forall r, In (WResponse r) (sent b) -> exists h f rq,
    handled_with u es b h (ser_request rq) /\ h_request h = Some f /\ r = reply (rq_id rq) (f rq) /\ In (WRequest rq) (sent (negb b));
  i_got : exists got rest, sent (negb b) = got ++ rest /\
    received (sd_steps (d b)) ++ texts (sd_inbox (d b)) = map wire_text got /\
    firstn (sd_read (d b)) (w_wrote (st_wq (peer u d (negb b)))) = concat (map encode (map wire_text got)) ++ rx_buffer (sd_reader (d b)) /\
    sd_read (d b) <= length (w_wrote (st_wq (peer u d (negb b))));
  i_inbox : Forall delivered (sd_inbox (d b));
  i_rx : rx_connected (sd_reader (d b)) = true
}.

Definition inv (u : bool -> setup) (es : list dev) : Prop := exists sent, forall b, side_inv u es (duo_run u es) sent b.

Lemma handled_mono : forall u es e b h t, handled_with u es b h t -> handled_with u (es ++ [e]) b h t.
Proof.
  intros u es e b h t (es1 & es2 & rest & -> & E). exists es1, (es2 ++ [e]), rest. rewrite <- app_assoc. auto.
Qed.

Lemma registered_step : forall s v rq, registered s rq -> registered (stdio_step s v) rq.
Proof.
  intros s v rq (t & z & I). destruct (reg_grows_step s v) as [a E]. exists t, z. rewrite E. apply in_app_iff. now left.
Qed.

Lemma peer_put_same : forall u d b x, peer u (put b x d) b = stdio_run (stdio_start (su_now (u b)) (su_timeout (u b)) (su_cap (u b))) (sd_steps x).
Proof. intros. unfold peer. now rewrite put_same. Qed.
Lemma peer_put_other : forall u d b x, peer u (put b x d) (negb b) = peer u d (negb b).
Proof. intros. unfold peer. now rewrite put_other. Qed.

Definition side_step (x : side) (v : sev) (inbox : list rx_event) : side :=
  {| sd_steps := sd_steps x ++ [v]; sd_read := sd_read x; sd_reader := sd_reader x; sd_inbox := inbox |}.

Lemma peer_step : forall u d b v inbox, peer u (put b (side_step (d b) v inbox) d) b = stdio_step (peer u d b) v.
Proof. intros. rewrite peer_put_same. cbn [sd_steps side_step]. apply stdio_run_snoc. Qed.

Definition wire_from (u : bool -> setup) (es : list dev) (d : duo) (sent : bool -> list wire) (b : bool) (w : wire) : Prop :=
  wire_ok w /\
  match w with
  | WRequest rq => In rq (st_out (peer u d b))
  | WResponse r => exists h f rq, handled_with u es b h (ser_request rq) /\ h_request h = Some f /\
                     r = reply (rq_id rq) (f rq) /\ In (WRequest rq) (sent (negb b))
  | WNotification _ => True
  end.

(** One process takes a step and may queue new frames. *)
Lemma push : forall u es e d sent b v inbox ws,
  (forall c, side_inv u es d sent c) ->
  received [v] ++ texts inbox = texts (sd_inbox (d b)) \/ (received [v] = [] /\ inbox = sd_inbox (d b)) ->
  Forall delivered inbox ->
  w_accepted (st_wq (stdio_step (peer u d b) v)) = w_accepted (st_wq (peer u d b)) ++ map encode (map wire_text ws) ->
  Forall (wire_from u (es ++ [e]) d sent b) ws ->
  (forall r, v = SBegin r -> request_ok r) ->
  forall c, side_inv u (es ++ [e]) (put b (side_step (d b) v inbox) d) (upd b (sent b ++ ws) sent) c.
Proof.
  intros u es e d sent b v inbox ws H Hin Hd Ha Hw Hb c.
  assert (Hin' : received [v] ++ texts inbox = texts (sd_inbox (d b))) by (destruct Hin as [E|[E ->]]; [exact E|now rewrite E]).
  destruct (bool_dec c b) as [->|Nc].
  - destruct (H b) as [A B C D E F (got & rest & G1 & G2 & G3 & G4) I J].
    constructor; rewrite ?peer_step, ?peer_put_other, ?put_same, ?upd_same, ?upd_other; cbn [side_step sd_inbox sd_reader sd_read sd_steps]; auto.
    + rewrite Ha, A, map_app, (map_map wire_text encode). reflexivity.
    + apply Forall_app. split; [exact B|]. eapply Forall_impl; [|exact Hw]. now intros w [W _].
    + intros rq K. apply step_entering in K as [K|(r & Ev & ->)]; [now apply C|].
      destruct (Hb r Ev) as (O & P & M). destruct (stdio_id_ok (st_counter (peer u d b)) (rq_id r) O P) as [O' P'].
      split; [exact O'|]. split; [exact P'|exact M].
    + intros rq K. apply step_out in K as [K|[K R]].
      * destruct (D rq K) as [W R]. split; [exact W|now apply registered_step].
      * split; [now apply C|exact R].
    + intros rq K. apply registered_step. apply in_app_iff in K as [K|K]; [now apply E|].
      rewrite Forall_forall in Hw. apply Hw in K as [_ K]. now apply D.
    + intros r K. apply in_app_iff in K as [K|K].
      * destruct (F r K) as (h & f & rq & K1 & K2 & K3 & K4). exists h, f, rq. split; [now apply handled_mono|auto].
      * rewrite Forall_forall in Hw. apply Hw in K as [_ K]. exact K.
    + exists got, rest. split; [exact G1|]. split; [|split; [exact G3|exact G4]].
      rewrite received_app, <- app_assoc, Hin'. exact G2.
  - assert (c = negb b) as -> by now apply other_side.
    destruct (H (negb b)) as [A B C D E F (got & rest & G1 & G2 & G3 & G4) I J].
    rewrite negb_involutive in *.
    constructor; rewrite ?peer_put_other, ?put_other, ?upd_other, ?negb_involutive, ?upd_same, ?peer_step; auto.
    + intros r K. destruct (F r K) as (h & f & rq & K1 & K2 & K3 & K4). exists h, f, rq. split; [now apply handled_mono|].
      split; [exact K2|]. split; [exact K3|]. apply in_app_iff. now left.
    + destruct (wrote_grows_step (peer u d b) v) as [x X].
      exists got, (rest ++ ws). split; [rewrite G1; now rewrite app_assoc|]. split; [exact G2|]. rewrite X. split.
      * rewrite firstn_app. replace (sd_read (d (negb b)) - length (w_wrote (st_wq (peer u d b)))) with 0 by lia.
        rewrite firstn_O, app_nil_r. exact G3.
      * rewrite app_length. lia.
Qed.

Lemma Forall_exists_map : forall (P : bstr -> wire -> Prop) l, Forall (fun p => exists w, P p w) l ->
  exists ws, Forall2 P l ws.
Proof.
  intros P l F. induction F as [|p l [w K] F [ws IH]]; [now exists []|]. exists (w :: ws). now constructor.
Qed.

Lemma wires_of : forall (P : wire -> Prop) l, Forall (fun p => exists w, p = wire_text w /\ P w) l ->
  exists ws, l = map wire_text ws /\ Forall P ws.
Proof.
  intros P l F. induction F as [|p l (w & -> & K) F (ws & -> & IH)]; [now exists []|]. exists (w :: ws). split; [reflexivity|now constructor].
Qed.

(** Which texts make the router answer. *)
Lemma route_reply : forall h w p, wire_ok w -> snd (route h (wire_text w)) = RReturn (Some p) ->
  exists f rq, w = WRequest rq /\ h_request h = Some f /\ p = ser_response (reply (rq_id rq) (f rq)).
Proof.
  intros h w p W R. destruct w as [rq|r|n]; cbn [wire_text wire_ok] in *.
  - destruct W as (A & B & C & D & E). destruct (h_request h) as [f|] eqn:F.
    + rewrite (route_request h f rq) in R; auto. cbn [snd] in R. injection R as <-. exists f, rq. auto.
    + exfalso. unfold route in R. destruct (deser_response response0 (ser_request rq)) as [ok resp].
      destruct ((has_top_key (bs "result") (ser_request rq) || has_top_key (bs "error") (ser_request rq)) && ok)%bool; [discriminate|].
      destruct (deser_request request0 (ser_request rq)) as [okr q]. rewrite F in R. unfold route_notification in R.
      destruct (deser_notification notification0 (ser_request rq)) as [[|] x]; [|discriminate].
      destruct (h_notification h) as [g|]; [|discriminate]. cbn [snd] in R. destruct (g x); discriminate.
  - destruct W as (A & B & C & D & E). rewrite (route_response h r) in R; auto. discriminate.
  - destruct W as (A & B & C). rewrite (route_notif h n) in R; auto. destruct (h_notification h) as [g|]; [|discriminate].
    cbn [snd] in R. destruct (g n); discriminate.
Qed.

Lemma duo_snoc : forall u es e, duo_run u (es ++ [e]) = duo_step u (duo_run u es) e.
Proof. intros. unfold duo_run. now rewrite fold_left_app. Qed.

Lemma inv_step : forall u es e, inv u es -> proper e -> (forall b, small (peer u (duo_run u es) b)) -> inv u (es ++ [e]).
Proof.
  intros u es e [sent H] Pr Sm. unfold inv. rewrite duo_snoc. set (d := duo_run u es) in *.
  assert (Same : forall d', d' = d -> exists sent, forall b, side_inv u (es ++ [e]) d' sent b).
  { intros d' ->. exists sent. intro b. destruct (H b) as [A B C D E F G I J]. constructor; auto.
    intros r K. destruct (F r K) as (h & f & rq & K1 & K2). exists h, f, rq. split; [now apply handled_mono|exact K2]. }
  destruct e as [b v|b n|b h]; cbn [duo_step].
  - destruct (local_step v) eqn:Lv; [|now apply Same].
    destruct (step_accepts (peer u d b) v) as (new & Ea & Fn).
    assert (exists ws, new = map wire_text ws /\ Forall (wire_from u (es ++ [DLocal b v]) d sent b) ws) as (ws & -> & Fw).
    { apply wires_of. eapply Forall_impl; [|exact Fn]. intros p K. destruct v; cbn [new_frame] in K; try contradiction; try discriminate.
      - destruct K as (rq & rest & T & ->). apply take_nth_perm in T.
        assert (I : In rq (st_out (peer u d b))) by (apply (Permutation_in rq (Permutation_sym T)); now left).
        exists (WRequest rq). split; [reflexivity|]. split; [|exact I]. now apply (i_out _ _ _ _ _ (H b)).
      - subst p. destruct Pr as (m & -> & W). exists (WNotification m). split; [reflexivity|]. split; [exact W|exact Logic.I]. }
    exists (upd b (sent b ++ ws) sent). apply (push u es (DLocal b v) d sent b v (sd_inbox (d b)) ws H); auto.
    + right. split; [|reflexivity]. destruct v; try reflexivity; discriminate.
    + apply (i_inbox _ _ _ _ _ (H b)).
    + intros r ->. exact Pr.
  - destruct (sd_inbox (d b)) as [|x inb] eqn:Ei; [|now apply Same].
    destruct (st_connected (peer u d b)); [|now apply Same].
    destruct (H b) as [A B C D E F (got & rest & G1 & G2 & G3 & G4) I J].
    set (chunk := firstn n (skipn (sd_read (d b)) (w_wrote (st_wq (peer u d (negb b)))))).
    pose proof (i_acc _ _ _ _ _ (H (negb b))) as A'.
    assert (exists z, concat (w_accepted (st_wq (peer u d (negb b)))) = w_wrote (st_wq (peer u d (negb b))) ++ z) as [z Z].
    { apply stdio_written_prefix. }
    assert (R : exists z', concat (map encode (map wire_text rest)) = (rx_buffer (sd_reader (d b)) ++ chunk) ++ z').
    { exists (skipn n (skipn (sd_read (d b)) (w_wrote (st_wq (peer u d (negb b))))) ++ z).
      rewrite <- app_assoc, (app_assoc chunk). unfold chunk. rewrite firstn_skipn.
      apply (app_inv_head (concat (map encode (map wire_text got)))).
      rewrite app_assoc, <- G3, app_assoc, firstn_skipn, <- Z, A', <- concat_app, <- !map_app, <- G1, map_map. reflexivity. }
    destruct R as [z' R].
    assert (Fr : Forall (fun p => (N.of_nat (length p) <= max_content)%N /\ (N.of_nat (length (encode p)) < two64)%N) (map wire_text rest)).
    { apply Forall_map. apply Forall_forall. intros w K. apply (Sm (negb b)). rewrite A'.
      apply (in_map (fun m => encode (wire_text m))). rewrite G1. apply in_app_iff. now right. }
    destruct (drain_prefix _ _ _ _ Fr R) as (ps1 & ps2 & fuel & r & P & Dr & Cn & Q & _).
    destruct (map_split _ _ _ _ _ _ P) as (got2 & rest2 & -> & <- & <-).
    unfold on_read. rewrite J.
    destruct (drain_total (S (length (rx_buffer (sd_reader (d b)) ++ chunk))) max_content true (rx_buffer (sd_reader (d b)) ++ chunk) (Nat.lt_succ_diag_r _)) as [[e1 r1] D1].
    rewrite D1. pose proof (drain_fuel_indep _ _ _ _ _ _ _ D1 Dr) as K. injection K as -> ->.
    exists sent. intro c. destruct (bool_dec c b) as [->|Nc].
    + constructor; rewrite ?peer_put_same, ?peer_put_other, ?put_same; cbn [sd_steps sd_read sd_reader sd_inbox]; auto.
      * intros q K. destruct (F q K) as (h & f & rq & K1 & K2). exists h, f, rq. split; [now apply handled_mono|exact K2].
      * exists (got ++ got2), rest2. split; [rewrite G1; apply app_assoc|]. split; [|split].
        -- rewrite Ei in G2. cbn [texts flat_map] in G2. rewrite app_nil_r in G2. rewrite texts_map, G2. now rewrite map_app.
        -- rewrite !map_app, concat_app, <- app_assoc.
           transitivity (concat (map encode (map wire_text got)) ++ (rx_buffer (sd_reader (d b)) ++ chunk)); [|now rewrite Q].
           rewrite app_assoc, <- G3.
           apply firstn_more. exact G4.
        -- unfold chunk. rewrite firstn_length, skipn_length. lia.
      * apply Forall_map. apply Forall_forall. intros t _. now exists t.
    + assert (c = negb b) as -> by now apply other_side.
      destruct (H (negb b)) as [A2 B2 C2 D2 E2 F2 G5 I2 J2]. rewrite negb_involutive in *.
      constructor; rewrite ?peer_put_other, ?put_other, ?negb_involutive, ?peer_put_same; cbn [sd_steps]; auto.
      intros q K. destruct (F2 q K) as (h & f & rq & K1 & K2). exists h, f, rq. split; [now apply handled_mono|exact K2].
  - destruct (sd_inbox (d b)) as [|x inb] eqn:Ei; [now apply Same|].
    pose proof (i_inbox _ _ _ _ _ (H b)) as Hi. rewrite Ei in Hi. inversion Hi as [|? ? [t Ht] Hi']; subst.
    destruct (i_got _ _ _ _ _ (H b)) as (got & rest & G1 & G2 & G3 & G4).
    assert (exists w, In w (sent (negb b)) /\ t = wire_text w) as (w & Iw & ->).
    { assert (K : In t (map wire_text got)) by (rewrite <- G2, Ei; apply in_app_iff; right; now left).
      apply in_map_iff in K as (w & <- & K). exists w. split; [|reflexivity]. rewrite G1. apply in_app_iff. now left. }
    assert (Ww : wire_ok w).
    { pose proof (i_ok _ _ _ _ _ (H (negb b))) as K. rewrite Forall_forall in K. now apply K. }
    destruct (step_accepts (peer u d b) (SMessage h (wire_text w))) as (new & Ea & Fn).
    assert (exists ws, new = map wire_text ws /\ Forall (wire_from u (es ++ [DHandle b h]) d sent b) ws) as (ws & -> & Fw).
    { apply wires_of. eapply Forall_impl; [|exact Fn]. intros p K. cbn [new_frame] in K.
      destruct (route_reply h w p Ww K) as (f & rq & -> & Hf & ->).
      exists (WResponse (reply (rq_id rq) (f rq))). split; [reflexivity|]. split; [now apply (Pr f rq)|].
      exists h, f, rq. split; [|auto]. exists es, [], inb. split; [reflexivity|exact Ei]. }
    exists (upd b (sent b ++ ws) sent).
    apply (push u es (DHandle b h) d sent b (SMessage h (wire_text w)) inb ws H); auto.
    + left. rewrite Ei. reflexivity.
    + discriminate.
Qed.

Lemma acc_grows : forall u d e b, exists x, w_accepted (st_wq (peer u (duo_step u d e) b)) = w_accepted (st_wq (peer u d b)) ++ x.
Proof.
  intros u d e b.
  assert (Z : forall d', d' b = d b -> exists x, w_accepted (st_wq (peer u d' b)) = w_accepted (st_wq (peer u d b)) ++ x).
  { intros d' E. exists []. unfold peer. now rewrite E, app_nil_r. }
  assert (St : forall c x v, sd_steps x = sd_steps (d c) ++ v ->
    exists y, w_accepted (st_wq (peer u (put c x d) b)) = w_accepted (st_wq (peer u d b)) ++ y).
  { intros c x v E. destruct (bool_dec b c) as [->|N].
    - rewrite peer_put_same, E, stdio_run_app. fold (peer u d c). generalize (peer u d c). clear. induction v as [|v vs IH]; intro s.
      + exists []. now rewrite app_nil_r.
      + cbn [stdio_run fold_left]. fold (stdio_run (stdio_step s v) vs). destruct (IH (stdio_step s v)) as [y ->].
        destruct (step_accepts s v) as (new & -> & _). rewrite <- app_assoc. eexists. reflexivity.
    - assert (b = negb c) as -> by now apply other_side. apply Z. apply put_other. }
  destruct e as [c v|c n|c h]; cbn [duo_step].
  - destruct (local_step v); [|now apply Z]. now apply (St c _ [v]).
  - destruct (sd_inbox (d c)); [|now apply Z]. destruct (st_connected (peer u d c)); [|now apply Z].
    match goal with |- context [on_read ?a ?b ?c] => destruct (on_read a b c) as [[evs r]|] end; [|now apply Z].
    apply (St c _ []). symmetry. apply app_nil_r.
  - destruct (sd_inbox (d c)) as [|ev evs]; [now apply Z|]. eapply (St c). reflexivity.
Qed.

Lemma inv_reachable : forall u es, Forall proper es -> (forall b, small (peer u (duo_run u es) b)) -> inv u es.
Proof.
  intros u es. induction es as [|e es IH] using rev_ind; intros P S.
  - exists (fun _ => []). intro b. constructor; try (intros ? []); try reflexivity; try constructor.
    exists [], []. repeat split; cbn; lia.
  - apply Forall_app in P as [P Pe]. inversion Pe; subst.
    assert (S' : forall b, small (peer u (duo_run u es) b)).
    { intros b p K. apply (S b). rewrite duo_snoc. destruct (acc_grows u (duo_run u es) e b) as [x ->]. apply in_app_iff. now left. }
    apply inv_step; auto.
Qed.

Lemma nodup_snd : forall (l : list (nat * bstr)) a b k, NoDup (map snd l) -> In (a, k) l -> In (b, k) l -> a = b.
Proof.
  induction l as [|[x y] l IH]; intros a b k N I J; [easy|]. cbn in N. inversion N as [|? ? N1 N2]; subst.
  destruct I as [I|I]; destruct J as [J|J].
  - congruence.
  - injection I as -> ->. exfalso. apply N1. exact (in_map snd _ _ J).
  - injection J as -> ->. exfalso. apply N1. exact (in_map snd _ _ I).
  - now apply (IH a b k).
Qed.

Lemma reply_eq : forall i h, reply i h =
  {| rs_id := i;
     rs_result := match h with HReturn x => rs_result x | _ => None end;
     rs_error := match h with
                 | HReturn x => rs_error x
                 | HNull => Some (JObj [(bs "code", JInt (-32603)); (bs "message", JStr (bs "Null response from handler"))])
                 | HThrow what => Some (JObj [(bs "code", JInt (-32603)); (bs "message", JStr what)])
                 end |}.
Proof. intros i [r| |w]; reflexivity. Qed.

Lemma classify_wire : forall m, wire_ok m -> classify (wire_text m) = match m with WRequest _ => KRequest | WResponse _ => KResponse | WNotification _ => KNotification end.
Proof.
  intros m W. destruct m as [r|r|n]; cbn [wire_text wire_ok] in *.
  - destruct W as (A & B & C & D & E). now apply classify_request.
  - destruct W as (A & B & C & D & E). apply classify_response; auto. intros p [K|K]; [now apply D|now apply E].
  - destruct W as (A & B & C). now apply classify_notification.
Qed.

Lemma own_answer : forall u es b t o, Forall proper es -> (forall c, small (peer u (duo_run u es) c)) ->
  let s := peer u (duo_run u es) b in
  NoDup (keys_used s) -> In (t, o) (pt_done (st_tab s)) ->
  exists k r, In (t, k) (pt_keys (st_tab s)) /\ o = Some r /\
    ((exists rq dl h f, In (t, (rq, dl)) (st_reg s) /\ handled_with u es (negb b) h (ser_request rq) /\ h_request h = Some f /\
        r = {| rs_id := rq_id rq;
               rs_result := match f rq with HReturn x => rs_result x | _ => None end;
               rs_error := match f rq with
                           | HReturn x => rs_error x
                           | HNull => Some (JObj [(bs "code", JInt (-32603)); (bs "message", JStr (bs "Null response from handler"))])
                           | HThrow what => Some (JObj [(bs "code", JInt (-32603)); (bs "message", JStr what)])
                           end |}) \/
     r = failure k (bs "Request timeout") \/ r = failure k (bs "Transport closed") \/ r = failure k (bs "Transport not connected")).
Proof.
  intros u es b t o P Sm s N I. destruct (inv_reachable u es P Sm) as [sent H].
  destruct (stdio_for_cause _ _ _ _ t o N I) as (k & r & Ik & -> & Cause). fold (peer u (duo_run u es) b) in Ik. fold s in Ik.
  exists k, r. split; [exact Ik|]. split; [reflexivity|].
  destruct Cause as [[Ek (h & m & Im & Cl & De)]|[[-> _]|[[-> _]|[-> _]]]]; [left|auto..].
  destruct (i_got _ _ _ _ _ (H b)) as (got & rest & G1 & G2 & _).
  assert (Im' : In m (map wire_text got)).
  { rewrite <- G2. apply in_app_iff. left. apply in_flat_map. exists (SMessage h m). split; [exact Im|now left]. }
  apply in_map_iff in Im' as (w & <- & Iw).
  assert (Iw' : In w (sent (negb b))) by (rewrite G1; apply in_app_iff; now left).
  assert (Ww : wire_ok w). { pose proof (i_ok _ _ _ _ _ (H (negb b))) as K. rewrite Forall_forall in K. now apply K. }
  rewrite (classify_wire w Ww) in Cl. destruct w as [|r0|]; try discriminate.
  pose proof (wire_reads _ Ww) as Rd. cbn [wire_read wire_text] in Rd, De. rewrite Rd in De. injection De as ->.
  destruct (i_resp _ _ _ _ _ (H (negb b)) r Iw') as (h' & f & rq & Hh & Hf & Er & Iq). rewrite negb_involutive in Iq.
  destruct (i_req _ _ _ _ _ (H b) rq Iq) as (t' & z & Ir). fold s in Ir.
  assert (Kk : In (t', id_key (rq_id rq)) (pt_keys (st_tab s))).
  { destruct (tinv_reachable (su_now (u b)) (su_timeout (u b)) (su_cap (u b)) (sd_steps (duo_run u es b))) as (_ & _ & _ & _ & K & _).
    apply (K t' rq z). exact Ir. }
  assert (id_key (rq_id rq) = k) as Ek'. { rewrite <- Ek, Er, reply_eq. reflexivity. }
  rewrite Ek' in Kk. pose proof (nodup_snd _ _ _ _ N Ik Kk) as ->.
  exists rq, z, h', f. split; [exact Ir|]. split; [exact Hh|]. split; [exact Hf|]. now rewrite <- reply_eq.
Qed.

Lemma handles_in : forall u es b h m, In (SMessage h m) (sd_steps (duo_run u es b)) -> In (DHandle b h) es.
Proof.
  intros u es b h m. induction es as [|e es IH] using rev_ind; [intros []|]. rewrite duo_snoc. intro I. apply in_app_iff.
  assert (Z : forall c x v, sd_steps x = sd_steps (duo_run u es c) ++ v -> (b = c -> In (SMessage h m) v -> In (DHandle b h) [e]) ->
    In (SMessage h m) (sd_steps (put c x (duo_run u es) b)) -> In (DHandle b h) es \/ In (DHandle b h) [e]).
  { intros c x v E K J. destruct (bool_dec b c) as [->|N].
    - rewrite put_same, E in J. apply in_app_iff in J as [J|J]; [left; now apply IH|right; now apply K].
    - rewrite (other_side b c N), put_other, <- (other_side b c N) in J. left. now apply IH. }
  destruct e as [c v|c n|c h']; cbn [duo_step] in I.
  - destruct (local_step v) eqn:L; [|left; now apply IH]. apply (Z c _ [v]) in I; auto. intros -> [->|[]]. discriminate.
  - destruct (sd_inbox (duo_run u es c)); [|left; now apply IH]. destruct (st_connected (peer u (duo_run u es) c)); [|left; now apply IH].
    match type of I with context [on_read ?a ?b ?c] => destruct (on_read a b c) as [[evs r]|] end; [|left; now apply IH].
    apply (Z c _ []) in I; auto; [symmetry; apply app_nil_r|intros _ []].
  - destruct (sd_inbox (duo_run u es c)) as [|ev evs]; [left; now apply IH|].
    eapply Z in I; [exact I|reflexivity|]. intros ->. destruct ev as [t| |]; intros J.
    + destruct J as [J|[]]. injection J as -> ->. now left.
    + destruct J.
    + destruct J as [J|[]]. discriminate.
Qed.

Lemma calls_received : forall h0 vs got, Forall wire_ok got -> (forall h m, In (SMessage h m) vs -> listening h) ->
  received vs ++ h0 = map wire_text got ->
  exists g1 g2, got = g1 ++ g2 /\ calls_made vs = map wire_call g1.
Proof.
  intros h0 vs. induction vs as [|v vs IH]; intros got W L E.
  - exists [], got. auto.
  - cbn [calls_made flat_map] in *. fold (calls_made vs).
    assert (L' : forall h m, In (SMessage h m) vs -> listening h) by (intros h m K; apply (L h m); now right).
    destruct v as [| | | | | h m | | | | | | |]; cbn [received flat_map app] in E; try (fold (received vs) in E; apply (IH got W L' E)).
    fold (received vs) in E. destruct got as [|w got]; [discriminate|]. cbn [map] in E. injection E as -> E.
    inversion W as [|? ? W1 W2]; subst. destruct (IH got W2 L' E) as (g1 & g2 & -> & ->).
    exists (w :: g1), g2. split; [reflexivity|]. rewrite (wire_routed h w); [reflexivity| |exact W1]. apply (L h (wire_text w)). now left.
Qed.

Lemma only_calls : forall u es b, Forall proper es -> (forall c, small (peer u (duo_run u es) c)) ->
  (forall h, In (DHandle b h) es -> listening h) ->
  exists ms1 ms2, w_accepted (st_wq (peer u (duo_run u es) (negb b))) = map (fun m => encode (wire_text m)) (ms1 ++ ms2) /\
    calls_made (sd_steps (duo_run u es b)) = map wire_call ms1.
Proof.
  intros u es b P Sm L. destruct (inv_reachable u es P Sm) as [sent H].
  destruct (i_got _ _ _ _ _ (H b)) as (got & rest & G1 & G2 & _).
  assert (W : Forall wire_ok got). { pose proof (i_ok _ _ _ _ _ (H (negb b))) as K. rewrite G1 in K. now apply Forall_app in K. }
  destruct (calls_received _ _ got W (fun h m K => L h (handles_in _ _ _ _ _ K)) G2) as (g1 & g2 & -> & C).
  exists g1, (g2 ++ rest). split; [|exact C]. rewrite (i_acc _ _ _ _ _ (H (negb b))), G1. now rewrite <- app_assoc.
Qed.
