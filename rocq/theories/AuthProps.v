(** C43, C44, C46 and C47: bearer checks and challenges. *)
From Coq Require Import Ascii String List Arith NArith ZArith Bool Lia.
From Verif Require Import StrModel StrProofs MapModel MapProofs AuthModel AuthSpec AuthProofs WwwModel WwwSpec WwwProofs.
Import ListNotations.
Local Open Scope nat_scope.

(** C43: a request is let through, with token info i, exactly if it carries a bearer token
    which the verifier accepted with info i, which has all required scopes and whose expiry
    is set and lies strictly in the future. *)
Theorem C43_admitted : forall header verify o now i,
  (br_ok (check_bearer header verify o now) = true /\
   br_info (check_bearer header verify o now) = Some i)
  <-> admitted header verify o now i.
Proof. exact admitted_iff. Qed.
Print Assumptions C43_admitted.

(** C43: nothing but the token the header carries is shown to the verifier. *)
Theorem C43_verifier_asked : forall header v w o now,
  (forall t, carries header t -> v t = w t) ->
  check_bearer header v o now = check_bearer header w o now.
Proof. exact verifier_asked. Qed.
Print Assumptions C43_verifier_asked.

(** C43: a header carries at most one token. *)
Theorem C43_one_token : forall header t u, carries header t -> carries header u -> t = u.
Proof. exact carries_unique. Qed.
Print Assumptions C43_one_token.

(** C43: in every interleaving of threads entering and leaving token scopes, each thread sees
    the info of its own innermost open scope, and nothing if it has none open. *)
Theorem C43_exposed : forall es n,
  current_token_info es n = match opened n es [] with [] => None | i :: _ => i end.
Proof. exact scope_current. Qed.
Print Assumptions C43_exposed.

(** C44: the status is 403 exactly when the accepted token lacks a required scope. *)
Theorem C44_forbidden : forall header verify o now,
  br_status (check_bearer header verify o now) = 403%N <-> unscoped header verify o.
Proof. exact unscoped_403. Qed.
Print Assumptions C44_forbidden.

(** C44: the status is 401 exactly when there is no token, the verifier rejects it, or it is
    accepted, has the scopes, and is expired or has no expiry. *)
Theorem C44_unauthorized : forall header verify o now,
  br_status (check_bearer header verify o now) = 401%N <->
  (no_token header \/ (exists err, unverified header verify err) \/
   (expired header verify now /\ ~ unscoped header verify o)).
Proof. exact failed_401. Qed.
Print Assumptions C44_unauthorized.

(** C44: any other request is let through; no other status exists; every refusal asks for a
    challenge; the verifier's own words reach the caller. *)
Theorem C44_rest : forall header verify o now,
  In (br_status (check_bearer header verify o now)) [200; 401; 403]%N /\
  (br_status (check_bearer header verify o now) = 200%N <-> br_ok (check_bearer header verify o now) = true) /\
  br_challenge (check_bearer header verify o now) = negb (br_ok (check_bearer header verify o now)) /\
  (forall err, unverified header verify err -> err <> [] -> br_message (check_bearer header verify o now) = err).
Proof.
  intros. split; [apply three_statuses|]. split; [apply ok_200|]. split; [apply challenge_iff|].
  intros err U N. now apply verifier_message.
Qed.
Print Assumptions C44_rest.

(** C44, the case the English leaves open: a token that is expired and lacks a scope is
    refused with 403, not 401. *)
Theorem C44_expired_and_unscoped : forall header verify o now,
  expired header verify now -> unscoped header verify o ->
  br_status (check_bearer header verify o now) = 403%N.
Proof. intros header verify o now _ U. now apply unscoped_403. Qed.
Print Assumptions C44_expired_and_unscoped.

(** C44 is false of the HTTP response: without a metadata URL a refused request gets no
    challenge header at all. *)
Theorem C44_challenge_refuted : exists header verify o now,
  br_ok (check_bearer header verify o now) = false /\
  challenge o (check_bearer header verify o now) = None.
Proof.
  exists [], (fun _ => Rejects []), {| bo_metadata_url := []; bo_required := []; bo_servers := []; bo_supported := [] |}, 5%Z.
  split; reflexivity.
Qed.
Print Assumptions C44_challenge_refuted.

(** C44: with a metadata URL it always gets one. *)
Theorem C44_challenge : forall header verify o now, bo_metadata_url o <> [] ->
  (br_ok (check_bearer header verify o now) = false <->
   challenge o (check_bearer header verify o now) <> None).
Proof.
  intros header verify o now U. unfold challenge. rewrite challenge_iff.
  destruct (bo_metadata_url o); [congruence|].
  destruct (br_ok (check_bearer header verify o now)); cbn; split; congruence.
Qed.
Print Assumptions C44_challenge.

(** C46: a Bearer challenge with any parameters, names in any case, values quoted with any
    choice of escapes, bare or absent, and any blanks around, is read as the map from lower
    case names to the values meant; the last value given for a name counts. *)
Theorem C46_roundtrip : forall l h, bearer_text l h ->
  exists m, parse_www h = WwwTrue m /\ forall k, aget k m = value_of l k.
Proof. exact www_values. Qed.
Print Assumptions C46_roundtrip.

(** C46: a header whose first word is not Bearer is rejected. *)
Theorem C46_not_bearer : forall h, ~ is_bearer h -> parse_www h = WwwFalse.
Proof. exact not_bearer_false. Qed.
Print Assumptions C46_not_bearer.

(** C46: a header with an unclosed quoted value is rejected, after any parameters. *)
Theorem C46_unclosed : forall w1 s c w2 pre k w3 w4 b,
  blank w1 -> blank (c :: w2) -> lower s = bs "bearer" ->
  (pre = [] \/ exists l t w, params_text l t /\ blank w /\ pre = t ++ COMMA_ :: w) ->
  name k -> blank w3 -> blank w4 -> unclosed b ->
  parse_www (w1 ++ s ++ c :: w2 ++ pre ++ k ++ w3 ++ [EQUALS] ++ w4 ++ [QUOTE] ++ b) = WwwFalse.
Proof. exact unclosed_false. Qed.
Print Assumptions C46_unclosed.

(** C46: parsing always terminates. *)
Theorem C46_terminates : forall h, parse_www h <> WwwStuck.
Proof. exact www_ends. Qed.
Print Assumptions C46_terminates.

(** C46 is false of other malformed headers: a parameter without a name is accepted, and
    what follows it is silently dropped. *)
Theorem C46_malformed_refuted : exists h,
  (forall l, ~ bearer_text l h) /\ parse_www h = WwwTrue [].
Proof.
  exists (bs "Bearer =x, realm=y"). assert (W : parse_www (bs "Bearer =x, realm=y") = WwwTrue []) by reflexivity.
  split; [|exact W]. intros l H. pose proof (www_values _ _ H) as (m & E & V). rewrite W in E. injection E as <-.
  assert (L : l = []).
  { destruct l as [|p l]; [reflexivity|]. exfalso. specialize (V (lower (fst p))). unfold value_of in V.
    destruct (find _ (rev (p :: l))) as [q|] eqn:F; [discriminate V|].
    pose proof (find_none _ _ F p (proj1 (in_rev (p :: l) p) (in_eq p l))) as Q. cbv beta in Q.
    rewrite beq_refl in Q. discriminate Q. }
  subst l.
  assert (G : forall l h, bearer_text l h -> l = [] -> ~ In EQUALS h).
  { clear. intros l h [w1 s w2 B1 B2 S|w1 s c w2 l' t B1 B2 S P]; [intros _ I|intros ->; inversion P].
    apply in_app_or in I as [I|I]; [destruct (B1 _ I) as [Q|Q]; discriminate Q|].
    apply in_app_or in I as [I|I]; [|destruct (B2 _ I) as [Q|Q]; discriminate Q].
    apply lower_in in I. rewrite S in I. cbn in I. decompose [or] I; try contradiction; discriminate. }
  apply (G _ _ H eq_refl). apply (in_or_app (bs "Bearer ") (EQUALS :: bs "x, realm=y")). right. now left.
Qed.
Print Assumptions C46_malformed_refuted.

(** C47: whenever a request is refused and the metadata URL has no comma, quote or blank at
    its ends, the challenge is read by the client's parser as exactly the URL, the required
    scopes if there are any, and for a 403 the error and its description. *)
Theorem C47_understood : forall header verify o now,
  let r := check_bearer header verify o now in
  br_ok r = false -> bo_metadata_url o <> [] -> bare (bo_metadata_url o) ->
  exists h m, challenge o r = Some h /\ parse_www h = WwwTrue m /\
    aget (bs "resource_metadata") m = Some (bo_metadata_url o) /\
    aget (bs "scope") m = match bo_required o with [] => None | l => Some (join [SPACE] l) end /\
    aget (bs "error") m = (if N.eqb (br_status r) 403 then Some (bs "insufficient_scope") else None) /\
    aget (bs "error_description") m = (if N.eqb (br_status r) 403 then Some (bs "insufficient scope") else None) /\
    (forall k, ~ In k [bs "resource_metadata"; bs "scope"; bs "error"; bs "error_description"] -> aget k m = None).
Proof.
  intros header verify o now r F U B.
  destruct (challenge o r) as [h|] eqn:C; [|exfalso; now apply (proj1 (C44_challenge header verify o now U) F)].
  pose proof (www_values _ _ (challenge_text o r h C B)) as (m & P & V). exists h, m.
  split; [reflexivity|]. split; [exact P|]. rewrite !V. clear C P.
  assert (M : br_status r = 403%N -> br_message r = bs "insufficient scope").
  { unfold r. destruct (check_ends header verify o now) as
      [q N ->|q t err K W ->|q t j K W S ->|q t j K W S Z0 ->|q t j K W S Z0 L ->|q t j K W S Z0 L ->];
      cbn; intros E; try discriminate E; reflexivity. }
  assert (O : forall k, ~ In k [bs "resource_metadata"; bs "scope"; bs "error"; bs "error_description"] ->
              forall l, (forall p, In p l -> In (lower (fst p)) [bs "resource_metadata"; bs "scope"; bs "error"; bs "error_description"]) ->
              value_of l k = None).
  { intros k NI l H. unfold value_of. destruct (find _ (rev l)) as [q|] eqn:E; [|reflexivity].
    apply find_some in E as [E1 E2]. apply beq_eq in E2. apply in_rev in E1. specialize (H q E1).
    rewrite E2 in H. contradiction. }
  assert (OO : forall k, ~ In k [bs "resource_metadata"; bs "scope"; bs "error"; bs "error_description"] -> aget k m = None).
  { intros k NI. rewrite V. apply O; [exact NI|]. intros p. unfold told.
    destruct (N.eqb (br_status r) 403), (bo_required o), (br_message r); cbn [app In];
      intros I; decompose [or] I; try contradiction; subst p; cbn [fst In]; vm_compute; tauto. }
  unfold told, value_of. destruct (N.eqb_spec (br_status r) 403) as [E|E].
  - rewrite (M E). clear -OO. destruct (bo_required o); repeat split; auto.
  - clear -OO. destruct (bo_required o); repeat split; auto.
Qed.
Print Assumptions C47_understood.

(** Outside C47's condition: a metadata URL with a comma is cut short. *)
Theorem C47_comma_cut : exists o r h m,
  challenge o r = Some h /\ parse_www h = WwwTrue m /\
  bo_metadata_url o = bs "https://h/a,b" /\ aget (bs "resource_metadata") m = Some (bs "https://h/a").
Proof.
  exists {| bo_metadata_url := bs "https://h/a,b"; bo_required := []; bo_servers := []; bo_supported := [] |},
    (refuse 401 (bs "no bearer token")).
  eexists _, _. split; [reflexivity|]. split; [vm_compute; reflexivity|]. split; reflexivity.
Qed.
Print Assumptions C47_comma_cut.

(** Examples: the hypotheses are met. *)
Definition demo_verifier : verifier := fun t =>
  if beq t (bs "good") then Accepts {| ti_scopes := [bs "read"; bs "write"]; ti_expiration := 100; ti_extra := [] |}
  else if beq t (bs "weak") then Accepts {| ti_scopes := [bs "read"]; ti_expiration := 100; ti_extra := [] |}
  else Rejects (bs "unknown").
Definition demo_opts : bearer_opts :=
  {| bo_metadata_url := bs "https://h/.well-known/oauth-protected-resource"; bo_required := [bs "write"; bs "read"];
     bo_servers := []; bo_supported := [] |}.

Example demo_check :
  map (fun h => let r := check_bearer (bs h) demo_verifier demo_opts 50 in (br_status r, br_message r))
    ["bEARER  good"; "Bearer weak"; "Bearer bad"; "Basic good"; ""; "Bearer "]%string =
  [(200, []); (403, bs "insufficient scope"); (401, bs "unknown"); (401, bs "no bearer token");
   (401, bs "no bearer token"); (401, bs "no bearer token")]%N.
Proof. reflexivity. Qed.

Example demo_boundary :
  map (fun now => br_status (check_bearer (bs "Bearer good") demo_verifier demo_opts now)) [99; 100; 101]%Z = [200; 401; 401]%N.
Proof. reflexivity. Qed.

Example demo_url_bare : bare (bo_metadata_url demo_opts).
Proof.
  split; [vm_compute; intros I; decompose [or] I; try contradiction; discriminate|].
  split; [discriminate|]. intros c [H|H]; vm_compute in H; injection H as <-; split; discriminate.
Qed.

Example demo_challenge : exists h, challenge demo_opts (check_bearer (bs "Bearer weak") demo_verifier demo_opts 50) = Some h /\
  parse_www h = WwwTrue [(bs "resource_metadata", bs "https://h/.well-known/oauth-protected-resource");
    (bs "error", bs "insufficient_scope"); (bs "scope", bs "write read"); (bs "error_description", bs "insufficient scope")].
Proof. eexists. split; [reflexivity|]. vm_compute. reflexivity. Qed.

Example demo_header : bearer_text [(bs "Realm", bs "a""b"); (bs "x", [])] (bs "BEARER Realm = ""a\""b"" ,x").
Proof.
  apply (bt_params [] (bs "BEARER") SPACE [] [(bs "Realm", bs "a""b"); (bs "x", [])] (bs "Realm = ""a\""b"" ,x")).
  - exact blank_nil.
  - exact blank_one.
  - reflexivity.
  - apply (ps_cons (bs "Realm", bs "a""b") (bs "Realm = ""a\""b"" ") [] [(bs "x", [])] (bs "x")).
    + apply (pt_quoted (bs "Realm") (bs "a""b") (bs "a\""b") [SPACE] [SPACE] [SPACE]); try exact blank_one.
      * apply check_name. reflexivity.
      * apply (esc_plain (chr 97)); [discriminate | discriminate|]. apply (esc_slash QUOTE).
        apply (esc_plain (chr 98)); [discriminate | discriminate | constructor].
    + exact blank_nil.
    + constructor. apply (pt_alone (bs "x") []); [apply check_name; reflexivity | exact blank_nil].
Qed.

Example demo_scopes :
  let i := Some {| ti_scopes := []; ti_expiration := 1; ti_extra := [] |} in
  current_token_info [EnterScope 1 i; EnterScope 2 None; EnterScope 1 None; LeaveScope 1] 1 = i /\
  current_token_info [EnterScope 1 i; EnterScope 2 None; LeaveScope 1] 1 = None.
Proof. split; reflexivity. Qed.
