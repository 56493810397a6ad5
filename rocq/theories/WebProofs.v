(** Proofs about an HTTP client joined to an HTTP server. *)
From Coq Require Import Ascii String List Permutation Arith NArith ZArith Bool Lia.
From Verif Require Import StrModel StrProofs DoubleModel JsonModel JsonSpec JsonProofs RpcModel RpcSpec RpcProofs RouterModel RouterProofs MapModel MapProofs MemModel
  PendModel PendProofs AuthModel WwwModel GuardModel WireSpec HttpModel HttpProofs HttpProps HcliModel HcliSpec HcliProofs WebModel WebSpec.
Import ListNotations.
Local Open Scope nat_scope.

(** ** Texts that answer nothing *)
Definition safe (b : bstr) : Prop := (forall q, ~ is_request b q) /\ forall q, is_response b q -> id_key (rs_id q) = [].

Lemma response_not_request : forall b q r, is_response b q -> ~ is_request b r.
Proof.
  intros b q r A B. specialize (A demo_hd). specialize (B demo_hd ltac:(discriminate)). rewrite A in B. discriminate B.
Qed.

Ltac closed_safe :=
  split; [intros q H; specialize (H demo_hd ltac:(discriminate)); vm_compute in H; discriminate H
         |intros q H; specialize (H demo_hd); vm_compute in H; first [discriminate H|injection H as <-; reflexivity]].

Lemma safe_nil : safe [].
Proof. closed_safe. Qed.
Lemma safe_parse_error : safe PARSE_ERROR.
Proof. closed_safe. Qed.
Lemma safe_invalid_note : safe (ser_response (error_response IdNull (-32600) (bs "Invalid notification") None)).
Proof. closed_safe. Qed.
Lemma safe_braces : safe (bs "{}").
Proof. closed_safe. Qed.
Lemma safe_texts : forall b, In b (map bs ["{""error"":""Forbidden Host header""}"; "{""error"":""Forbidden Origin header""}"; "{""error"":""GET required""}";
    "{""error"":""Not found""}"; "{""error"":""POST required""}"; "{""error"":""Missing or invalid session""}"; "{""error"":""Unsupported protocol version""}";
    "{""error"":""Missing session id""}"; "{""error"":""POST or DELETE required""}"])%string -> safe b.
Proof.
  intros b H. repeat destruct H as [<-|H]; try easy; closed_safe.
Qed.

Lemma safe_error : forall m, no_escapes m -> safe (bs "{""error"":""" ++ m ++ bs """}").
Proof.
  intros m N.
  assert (E : bs "{""error"":""" ++ m ++ bs """}" = ser (JObj [(bs "error", JStr m)])).
  { cbn [ser map join fst snd]. unfold ser_str. rewrite (esc_same _ N). cbn. now rewrite <- app_assoc. }
  assert (O : ok (JObj [(bs "error", JStr m)])) by (apply okb_ok; reflexivity).
  assert (T : has_top_key (bs "error") (ser (JObj [(bs "error", JStr m)])) = true) by (apply has_top_key_iff; [exact O|now left]).
  assert (A : after (bs """id"":") (ser (JObj [(bs "error", JStr m)])) = None).
  { pose proof (read_value_obj (bs "id") [(bs "error", JStr m)] ltac:(keyok) O) as H.
    apply H. intros v [<-|[]]. now apply scalar_nokey. }
  rewrite E. remember (ser (JObj [(bs "error", JStr m)])) as b eqn:Eb.
  assert (R : forall hd, exists q, route hd b = ([CResolve q], RReturn None) /\ id_key (rs_id q) = []).
  { intro hd. unfold route. destruct (deser_response response0 b) as [o q] eqn:D. unfold deser_response in D. injection D as <- <-.
    rewrite T, orb_true_r. cbn [andb]. eexists. split; [reflexivity|]. cbn [rs_id]. unfold read_id. now rewrite A. }
  split.
  - intros q H. specialize (H demo_hd ltac:(discriminate)). destruct (R demo_hd) as (q0 & R0 & _). rewrite R0 in H. discriminate H.
  - intros q H. specialize (H demo_hd). destruct (R demo_hd) as (q0 & R0 & R1). rewrite R0 in H. now injection H as <-.
Qed.

(** ** What the server does with a POST *)
Definition reqs (cs : list call) : list request := flat_map (fun c => match c with CRequest r => [r] | _ => [] end) cs.
Lemma reqs_app : forall a b, reqs (a ++ b) = reqs a ++ reqs b.
Proof. intros. unfold reqs. apply flat_map_app. Qed.

Lemma reqs_user : forall cs, reqs (user_calls cs) = reqs cs.
Proof.
  unfold user_calls. induction cs as [|c cs IH]; [reflexivity|]. change (c :: cs) with ([c] ++ cs). rewrite filter_app, !reqs_app, IH.
  now destruct c.
Qed.

Lemma tagged_calls : forall i cs, map snd (tagged i cs) = cs.
Proof. intros i cs. unfold tagged. rewrite map_map. cbn. apply map_id. Qed.

Lemma route_requests : forall hd m, wire_ok m -> (forall r, m <> WRequest r) -> reqs (fst (route hd (wire_text m))) = [].
Proof.
  intros hd m W N. destruct m as [r|r|n]; [now elim (N r)| |]; cbn [wire_text wire_ok] in *.
  - destruct W as (A & B & C & D & E). now rewrite (route_response hd r).
  - destruct W as (A & B & C). rewrite (route_notif hd n) by auto. destruct (h_notification hd); reflexivity.
Qed.

Lemma reqs_errors : forall cs hd, reqs (flat_map (fun x => match x with
    | CResolve _ => if h_error hd then [CError (bs "HTTPServer: unexpected response received on /rpc")] else [] | _ => [] end) cs) = [].
Proof.
  intros cs hd. match goal with |- reqs (flat_map ?g cs) = [] => set (f := g) end.
  induction cs as [|c cs IH]; [reflexivity|]. cbn [flat_map]. rewrite reqs_app, IH. unfold f. destruct c; try reflexivity. now destruct (h_error hd).
Qed.

Lemma endpoint_reqs : forall hd info b n h x calls h', endpoint_route hd info b n h = (x, calls, h') ->
  reqs (map snd calls) = reqs (fst (route hd b)).
Proof.
  intros hd info b n h x calls h'. unfold endpoint_route. destruct (route hd b) as [cs out].
  match goal with |- context [fold_left ?f cs ([], h)] => set (g := f) end.
  assert (F : forall l a, reqs (fst a) = [] -> reqs (fst (fold_left g l a)) = []).
  { induction l as [|y l IH]; intros a A; [exact A|]. cbn [fold_left]. apply IH. unfold g. destruct y; auto.
    destruct (resolve_pending n r (snd a)) as [ok h0]. cbn [fst]. rewrite reqs_app, A. cbn [app]. destruct (negb ok && h_error hd)%bool; reflexivity. }
  specialize (F cs ([], h) eq_refl). destruct (fold_left g cs ([], h)) as [extra h0]. cbn [fst] in F.
  intro H. assert (C : calls = tagged info (user_calls cs ++ extra)) by (destruct out as [[?|]|]; now injection H). subst calls.
  now rewrite tagged_calls, reqs_app, reqs_user, F, app_nil_r.
Qed.

(** The calls of request handlers are those of the router for the body, or none. *)
Lemma serve_reqs : forall e now draw hd q h x calls h',
  serve (en_loopback e) (en_server e) (en_verify e) now draw hd q h = (x, calls, h') ->
  reqs (map snd calls) = [] \/ reqs (map snd calls) = reqs (fst (route hd (hq_body q))).
Proof.
  intros e now draw hd q h x calls h' H. unfold serve in H.
  match type of H with (if ?b then _ else _) = _ => destruct b end.
  - left. destruct (check_local _ _ _ _); [now injection H as <- <- <-|]. destruct (find_session _ _); [|now injection H as <- <- <-].
    destruct (check_version _ _); now injection H as <- <- <-.
  - unfold make_response in H. destruct (check_local _ _ _ _); [left; now injection H as <- <- <-|].
    match type of H with (if ?b then _ else _) = _ => destruct b end; [left; destruct (hq_verb q); now injection H as <- <- <-|].
    match type of H with (if ?b then _ else _) = _ => destruct b end.
    + unfold handle_endpoint in H. destruct (enforce _ _ _ _) as [|info]; [left; now injection H as <- <- <-|].
      destruct (hq_verb q).
      * left; now injection H as <- <- <-.
      * destruct (deser_request request0 (hq_body q)) as [isreq r].
        match type of H with (if ?b then _ else _) = _ => destruct b end; [right; now apply endpoint_reqs in H|].
        destruct (find_session _ _); [|left; now injection H as <- <- <-].
        destruct (check_version _ _); [right; now apply endpoint_reqs in H|left; now injection H as <- <- <-].
      * left. destruct (f_session q); now injection H as <- <- <-.
      * left; now injection H as <- <- <-.
    + destruct (hq_verb q); try (left; now injection H as <- <- <-).
      destruct (beq (hq_target q) (hc_rpc (en_server e))).
      * unfold handle_rpc in H. destruct (enforce _ _ _ _) as [|info]; [left; now injection H as <- <- <-|].
        destruct (deser_request request0 (hq_body q)) as [isreq r]. destruct (negb isreq); [left; now injection H as <- <- <-|].
        destruct (route hd (hq_body q)) as [cs out].
        assert (C : map snd calls = user_calls cs ++ flat_map (fun x => match x with
          | CResolve _ => if h_error hd then [CError (bs "HTTPServer: unexpected response received on /rpc")] else [] | _ => [] end) cs)
          by (destruct out as [[?|]|]; injection H as <- <- <-; apply tagged_calls).
        right. rewrite C, reqs_app, reqs_errors, app_nil_r. cbn [fst]. apply reqs_user.
      * destruct (beq (hq_target q) (hc_notify (en_server e))); [|left; now injection H as <- <- <-].
        unfold handle_notify in H. destruct (enforce _ _ _ _) as [|info]; [left; now injection H as <- <- <-|].
        destruct (deser_notification notification0 (hq_body q)) as [isn r]. destruct (negb isn); [left; now injection H as <- <- <-|].
        destruct (route hd (hq_body q)) as [cs out]. right. cbn [fst].
        destruct out; injection H as <- <- <-; rewrite tagged_calls; apply reqs_user.
Qed.

Lemma enforce_safe : forall e now q r, refusals_plain e -> enforce (en_server e) (en_verify e) now q = inl r -> safe (hr_body r).
Proof.
  intros e now q r P H. unfold enforce in H. destruct (hc_auth (en_server e)) eqn:A; [|discriminate H]. cbn [negb] in H.
  destruct P as [P|P]; [congruence|].
  destruct (br_ok (check_bearer (f_auth q) (en_verify e) (hc_bearer (en_server e)) now)); [discriminate H|].
  assert (B : hr_body r = bs "{""error"":""" ++ br_message (check_bearer (f_auth q) (en_verify e) (hc_bearer (en_server e)) now) ++ bs """}")
    by (injection H as <-; reflexivity). rewrite B. apply safe_error.
  assert (D : forall s, forallb (fun c => (N.leb 32 (code c) && negb (Ascii.eqb c QUOTE) && negb (Ascii.eqb c BACKSLASH))%bool) s = true -> no_escapes s).
  { intros s F c I. rewrite forallb_forall in F. apply F in I. apply andb_true_iff in I as [I I3]. apply andb_true_iff in I as [I1 I2].
    split; [now apply N.leb_le|]. split; intros ->; [now rewrite Ascii.eqb_refl in I2|now rewrite Ascii.eqb_refl in I3]. }
  unfold check_bearer. destruct (f_auth q) as [|c0 s0]; [now apply D|]. destruct (negb (icase_prefix BEARER (c0 :: s0))); [now apply D|].
  destruct (drop_while is_space _) as [|c1 s1]; [now apply D|]. destruct (en_verify e (c1 :: s1)) as [i|err] eqn:V.
  - match goal with |- context [if ?b then _ else _] => destruct b end; [now apply D|].
    destruct (Z.eqb _ _); [now apply D|]. destruct (Z.leb _ _); now apply D.
  - destruct err as [|c2 err]; [now apply D|]. exact (P _ _ V).
Qed.

Lemma safe_local : forall lb a h o b, check_local lb a h o = Some b -> safe b.
Proof.
  intros lb a h o b H. unfold check_local in H. apply safe_texts.
  assert (X : b = bs "{""error"":""Forbidden Host header""}" \/ b = bs "{""error"":""Forbidden Origin header""}"); [|destruct X as [-> | ->]; cbn; tauto].
  destruct (negb (guarded lb a)); [discriminate H|]. destruct (negb _); [injection H as <-; now left|].
  destruct o as [|c o]; [discriminate H|]. destruct (origin_host _) as [g|]; [|injection H as <-; now right].
  destruct (local_host lb g); [discriminate H|injection H as <-; now right].
Qed.

(** What a POST of request r can be answered with. *)
Lemma serve_body : forall e path s v r now draw hd f h x calls h',
  wire_ok (WRequest r) -> refusals_plain e -> h_request hd = Some f ->
  serve (en_loopback e) (en_server e) (en_verify e) now draw hd (post_of e path s v (ser_request r)) h = (x, calls, h') ->
  safe (ex_body (exchange_of x)) \/ ex_body (exchange_of x) = ser_response (reply (rq_id r) (f r)) /\ In (CRequest r) (map snd calls).
Proof.
  intros e path s v r now draw hd f h x calls h' W P F H.
  assert (R : route hd (ser_request r) = ([CRequest r], RReturn (Some (ser_response (reply (rq_id r) (f r)))))).
  { destruct W as (A & B & C & D & E). now apply route_request. }
  assert (T : forall st b, safe b -> (Answer (plain st b), [], h) = (x, calls, h') -> safe (ex_body (exchange_of x)))
    by (intros st b S Q; injection Q as <- <- <-; exact S).
  assert (T2 : forall y, safe (hr_body y) -> (Answer y, [], h) = (x, calls, h') -> safe (ex_body (exchange_of x)))
    by (intros y S Q; injection Q as <- <- <-; exact S).
  assert (EP : forall info n h0, endpoint_route hd info (ser_request r) n h0 = (x, calls, h') ->
    ex_body (exchange_of x) = ser_response (reply (rq_id r) (f r)) /\ In (CRequest r) (map snd calls)).
  { intros info n h0 Q. unfold endpoint_route in Q. rewrite R in Q. cbn [fold_left user_calls filter app] in Q. injection Q as <- <- <-.
    split; [reflexivity|]. cbn. now left. }
  unfold serve in H. cbn [post_of hq_verb] in H. rewrite andb_false_r in H. cbn [andb] in H.
  unfold make_response in H. destruct (check_local _ _ _ _) as [b|] eqn:CL; [left; apply (T 403%N b); [now apply safe_local in CL|exact H]|].
  cbn [post_of hq_verb hq_target] in H.
  match type of H with (if ?b then _ else _) = _ => destruct b end; [left; revert H; apply T, safe_texts; cbn; tauto|].
  match type of H with (if ?b then _ else _) = _ => destruct b end.
  - unfold handle_endpoint in H. destruct (enforce _ _ _ _) as [y|info] eqn:EN; [left; revert H; apply T2; now apply enforce_safe in EN|].
    cbn [post_of hq_verb hq_body] in H. destruct (deser_request request0 (ser_request r)) as [isreq r0].
    match type of H with (if ?b then _ else _) = _ => destruct b end; [right; now apply EP in H|].
    destruct (find_session _ _); [|left; revert H; apply T, safe_texts; cbn; tauto].
    destruct (check_version _ _); [right; now apply EP in H|left; revert H; apply T, safe_texts; cbn; tauto].
  - destruct (beq path (hc_rpc (en_server e))).
    + unfold handle_rpc in H. destruct (enforce _ _ _ _) as [y|info] eqn:EN; [left; revert H; apply T2; now apply enforce_safe in EN|].
      cbn [post_of hq_body] in H. destruct (deser_request request0 (ser_request r)) as [isreq r0].
      destruct (negb isreq); [left; revert H; apply T, safe_parse_error|]. rewrite R in H. right. injection H as <- <- <-.
      split; [reflexivity|]. cbn. now left.
    + destruct (beq path (hc_notify (en_server e))); [|left; revert H; apply T, safe_texts; cbn; tauto].
      unfold handle_notify in H. destruct (enforce _ _ _ _) as [y|info] eqn:EN; [left; revert H; apply T2; now apply enforce_safe in EN|].
      cbn [post_of hq_body] in H. destruct (deser_notification notification0 (ser_request r)) as [isn r0].
      destruct (negb isn); [left; revert H; apply T, safe_invalid_note|]. rewrite R in H. injection H as <- <- <-.
      left. apply safe_braces.
Qed.

Lemma reply_answers : forall hd f r, h_request hd = Some f -> answers hd r (reply (rq_id r) (f r)).
Proof. intros hd f r H. unfold answers. rewrite H. destruct (f r); cbn; auto. Qed.

Lemma wire_response : forall q m, wire_ok (WResponse q) -> m = ser_response q -> is_response m q.
Proof. intros q m (A & B & C & D & E) -> hd. now rewrite (route_response hd q). Qed.
