(** C185: refused HTTP requests (src/mcp/HTTPServer.cpp). *)
From Coq Require Import Ascii String List Arith NArith ZArith Bool Lia.
From Verif Require Import StrModel StrProofs DoubleModel JsonModel RpcModel RouterModel MapModel MemModel AuthModel AuthSpec AuthProofs AuthProps WwwModel
  GuardModel GuardSpec HttpModel HttpSpec HttpProofs HttpProps RefuseSpec RefuseProofs.
Import ListNotations.
Local Open Scope nat_scope.

(** C185: whatever the handlers, the sessions and the settings are, an answer of 400 or more means that
    no handler was called, that nothing changed, and that no session is named. *)
Theorem C185_no_effect : forall loopback c verify now draw hd q h r calls h',
  serve loopback c verify now draw hd q h = (Answer r, calls, h') -> (400 <= hr_status r)%N ->
  calls = [] /\ h' = h /\ hr_session r = None.
Proof. exact no_effect. Qed.
Print Assumptions C185_no_effect.

(** C185: each kind of refusal, with the status and the text that tell which it is. *)
Theorem C185_told : forall loopback c verify now draw hd q h st body,
  check_local loopback (hc_address c) (f_host q) (f_origin q) = None -> ~ at_stream c q -> refused c verify now q h st body ->
  exists r, serve loopback c verify now draw hd q h = (Answer r, [], h) /\
    hr_status r = st /\ hr_body r = body /\ hr_challenge r = None /\ hr_session r = None.
Proof.
  intros loopback c verify now draw hd q h st body L S R. exists (plain st body).
  rewrite (refuse_serve loopback c verify now draw hd q h st body L S R). auto.
Qed.
Print Assumptions C185_told.

(** C185: and the event stream of no session. *)
Theorem C185_stream : forall loopback c verify now draw hd q h,
  check_local loopback (hc_address c) (f_host q) (f_origin q) = None -> at_stream c q -> find_session (f_session q) h = None ->
  exists r, serve loopback c verify now draw hd q h = (Answer r, [], h) /\
    hr_status r = 400%N /\ hr_body r = bs "{""error"":""Missing or invalid session""}".
Proof.
  intros loopback c verify now draw hd q h L (E & V & T) F. unfold serve. rewrite V, T, beq_refl, L, F.
  destruct (hc_endpoint c); [contradiction|]. eexists. split; [reflexivity|]. auto.
Qed.
Print Assumptions C185_stream.

(** A request of most kinds. *)
Definition bad_req (v : verb) (target body : string) : hreq :=
  {| hq_verb := v; hq_target := bs target; hq_fields := [(bs "Host", bs "localhost:9443"); (bs "authorization", bs "bearer good")]; hq_body := bs body |}.

Example C185_meets :
  let refuse q st body := check_local demo_loopback (hc_address demo_conf) (f_host q) (f_origin q) = None /\ ~ at_stream demo_conf q /\
    refused demo_conf demo_verifier 50 q hstate0 st body in
  refuse (bad_req POST "/.well-known/oauth-protected-resource" "") 405%N (bs "{""error"":""GET required""}") /\
  refuse (bad_req POST "/other" "") 404%N (bs "{""error"":""Not found""}") /\
  refuse (bad_req POST "/mcp/rpc" "not json") 200%N NO_REQUEST /\
  refuse (bad_req POST "/mcp/notify" "{}") 200%N NO_NOTIFICATION /\
  refuse (bad_req POST "/mcp" "{""id"":1,""method"":""ping""}") 400%N (bs "{""error"":""Missing or invalid session""}").
Proof.
  assert (forall t b, let_in demo_conf demo_verifier 50 (bad_req POST t b)) as LI.
  { intros t b. right. eexists. apply admitted_iff. split; vm_compute; reflexivity. }
  assert (forall t b, ~ at_stream demo_conf (bad_req POST t b)) as NS by (intros t b (_ & V & _); discriminate).
  assert (forall t b, beq (bs t) WELL_KNOWN = false -> beq (bs t) (well_known_base demo_conf) = false -> ~ asks_metadata demo_conf (bad_req POST t b)) as NM.
  { intros t b E1 E2 H0. apply metadata_iff in H0 as [H|H]; cbn [bad_req hq_target] in H; rewrite H, beq_refl in *; discriminate. }
  cbv zeta. refine (conj _ (conj _ (conj _ (conj _ _)))); (refine (conj _ (conj (NS _ _) _)); [vm_compute; reflexivity|]).
  - apply ref_metadata; [now left|discriminate].
  - apply ref_path; try reflexivity; try discriminate; [now apply NM|intros [_ H]; discriminate].
  - apply ref_request; try reflexivity; [now apply NM|intros [_ H]; discriminate|apply LI].
  - apply ref_notification; try reflexivity; try discriminate; [now apply NM|intros [_ H]; discriminate|apply LI].
  - apply ref_session; try reflexivity; [now apply NM|split; [discriminate|reflexivity]|apply LI|].
    right. right. vm_compute. discriminate.
Qed.
