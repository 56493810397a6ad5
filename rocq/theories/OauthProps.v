(** C56, C57, C86, C87: OAuth 2.0 client credentials. *)
From Coq Require Import Ascii String List Arith NArith ZArith Bool Lia.
From Verif Require Import StrModel JsonModel JsonSpec JsonProofs RpcModel OauthModel OauthSpec OauthProofs LayoutSpec LayoutProofs.
Import ListNotations.
Local Open Scope nat_scope.

(** C56: the credentials arrive unchanged. Every byte string survives encoding and the
    decoding any server does. *)
Theorem C56_roundtrip : forall s, form_decode (url_encode_form s) = Some s.
Proof. exact decode_encode. Qed.
Print Assumptions C56_roundtrip.

(** Nothing that has a meaning in a form body comes out unescaped. *)
Theorem C56_alphabet : forall s, Forall form_safe (url_encode_form s).
Proof. exact encode_safe. Qed.
Print Assumptions C56_alphabet.

(** The whole body reads back as exactly the grant type and the non-empty settings. *)
Theorem C56_body : forall c, form_fields (token_form c) = Some (grant_fields c).
Proof. exact token_form_fields. Qed.
Print Assumptions C56_body.

(** So two configurations post the same body only if the credentials and the scope agree. *)
Theorem C56_injective : forall c c', token_form c = token_form c' ->
  oc_id c = oc_id c' /\ oc_secret c = oc_secret c' /\ oc_scope c = oc_scope c'.
Proof. exact token_form_inj. Qed.
Print Assumptions C56_injective.

Definition demo : oauth_conf := mkOauth (bs "my app&x=1") (bs "p%20+~/""" ++ [chr 255; chr 0]) [] 60.

Example C56_ex : token_form demo =
  bs "grant_type=client_credentials&client_id=my+app%26x%3D1&client_secret=p%2520%2B~%2F%22%FF%00" /\
  form_fields (token_form demo) =
    Some [(bs "grant_type", bs "client_credentials"); (bs "client_id", oc_id demo); (bs "client_secret", oc_secret demo)].
Proof. split; vm_compute; reflexivity. Qed.

(** C57: over every interleaving of calls and replies, ensureReady returns without asking
    the endpoint exactly when the last token read from a reply is not empty and will be
    valid for more than the skew; in every other case it posts the credentials. *)
Theorem C57_cached : forall c es now, possible c es ->
  (snd (ostep c (OCall now) (fst (orun c es oauth0))) = OReturns <->
   exists t m life, issued es t m life /\ t <> [] /\
     (now + Z.of_N (oc_skew c) * 1000000000 < m + life * 1000000000)%Z).
Proof. exact call_cached. Qed.
Print Assumptions C57_cached.

Theorem C57_otherwise_posts : forall c es now,
  snd (ostep c (OCall now) (fst (orun c es oauth0))) = OReturns \/
  snd (ostep c (OCall now) (fst (orun c es oauth0))) = OPosts (token_form c).
Proof. exact call_posts. Qed.
Print Assumptions C57_otherwise_posts.

(** What is sent with requests is always that same token. *)
Theorem C57_header : forall c es v, possible c es ->
  (oauth_header (fst (orun c es oauth0)) = Some v <->
   exists t m life, issued es t m life /\ t <> [] /\ v = bs "Bearer " ++ t).
Proof. exact header_last. Qed.
Print Assumptions C57_header.

(** The lifetime is the one the endpoint stated, in any layout of its reply, and an hour
    when it states none or one that is not positive. *)
Theorem C57_lifetime : forall l doc, writes (JObj l) doc -> unmentioned (bs "expires_in") l ->
  match obj_get (bs "expires_in") l with
  | Some (JInt z) => (-2147483648 <= z <= 2147483647)%Z -> lifetime doc = if Z.ltb 0 z then z else 3600%Z
  | None => lifetime doc = 3600%Z
  | _ => True
  end.
Proof.
  intros l doc W U. assert (nkey (bs "expires_in")) as K by nkeyok.
  destruct (obj_get (bs "expires_in") l) as [[| |z| | | |]|] eqn:G; try exact I.
  - intro Z. unfold lifetime. rewrite (int_field_doc _ l doc z K U W G) by lia.
    reflexivity.
  - unfold lifetime. now rewrite (proj2 (field_missing _ l doc K U W G)).
Qed.
Print Assumptions C57_lifetime.

Definition reply1 : bstr := bs "{ ""access_token"" : ""abc"",""expires_in"": 100 }".
Definition second : Z := 1000000000%Z.

Example C57_ex :
  let h := [OCall 0; OCall 1; OReply reply1 (5 * second); OReply [] (6 * second)] in
  possible demo h /\ issued h (bs "abc") (5 * second) 100 /\
  snd (ostep demo (OCall (40 * second)) (fst (orun demo h oauth0))) = OReturns /\
  snd (ostep demo (OCall (45 * second)) (fst (orun demo h oauth0))) = OPosts (token_form demo) /\
  oauth_header (fst (orun demo h oauth0)) = Some (bs "Bearer abc").
Proof.
  cbv zeta. repeat split.
  - unfold possible. vm_compute. intuition discriminate.
  - exists [OCall 0; OCall 1], reply1, [OReply [] (6 * second)].
    split; [reflexivity|]. split; [vm_compute; reflexivity|]. split; [vm_compute; reflexivity|].
    repeat constructor.
Qed.

(** C86, as wanted: once ensureReady has returned, no header carries a token past its
    lifetime. Refuted: when the refresh fails, the expired token stays and is sent. *)
Theorem C86_refuted : exists c h now, possible c h /\
  snd (orun c h oauth0) = [OPosts (token_form c); OResumes; OPosts (token_form c); OResumes] /\
  (exists t m life, issued h t m life /\ (m + life * 1000000000 < now)%Z /\
     h = [OCall 0; OReply reply1 m; OCall now; OReply [] (now + 1)] /\
     oauth_header (fst (orun c h oauth0)) = Some (bs "Bearer " ++ t)).
Proof.
  exists demo, [OCall 0; OReply reply1 second; OCall (1000 * second); OReply [] (1000 * second + 1)], (1000 * second)%Z.
  split; [unfold possible; vm_compute; intuition discriminate|].
  split; [vm_compute; reflexivity|].
  exists (bs "abc"), second, 100%Z. split; [|split; [vm_compute; reflexivity|split; [reflexivity|vm_compute; reflexivity]]].
  exists [OCall 0], reply1, [OCall (1000 * second); OReply [] (1000 * second + 1)].
  split; [reflexivity|]. split; [vm_compute; reflexivity|]. split; [vm_compute; reflexivity|]. repeat constructor.
Qed.
Print Assumptions C86_refuted.

(** What holds: when the call needed no refresh, the header's token is still valid for
    more than the skew. *)
Theorem C86_partial : forall c es now v, possible c es ->
  snd (ostep c (OCall now) (fst (orun c es oauth0))) = OReturns ->
  oauth_header (fst (ostep c (OCall now) (fst (orun c es oauth0)))) = Some v ->
  exists t m life, issued es t m life /\ v = bs "Bearer " ++ t /\
    (now + Z.of_N (oc_skew c) * 1000000000 < m + life * 1000000000)%Z.
Proof.
  intros c es now v P R H. apply (call_cached c es now P) in R as (t & m & life & I & N & L).
  exists t, m, life. split; [exact I|]. split; [|exact L].
  assert (oauth_header (fst (ostep c (OCall now) (fst (orun c es oauth0)))) = oauth_header (fst (orun c es oauth0))) as E.
  { cbn [ostep]. destruct (cached_ok _ _ _); reflexivity. }
  rewrite E in H. apply (header_last c es v P) in H as (t' & m' & life' & I' & _ & ->).
  now destruct (issued_unique es _ _ _ _ _ _ I I') as (<- & _ & _).
Qed.
Print Assumptions C86_partial.

(** And a reply with a token replaces whatever was there. *)
Theorem C86_replaced_partial : forall c es resp now t, possible c (es ++ [OReply resp now]) ->
  string_field resp (bs "access_token") = Some t -> t <> [] ->
  oauth_header (fst (orun c (es ++ [OReply resp now]) oauth0)) = Some (bs "Bearer " ++ t).
Proof.
  intros c es resp now t P F N. apply header_last; [exact P|]. exists t, now, (lifetime resp).
  split; [|auto]. exists es, resp, []. repeat split; auto.
Qed.
Print Assumptions C86_replaced_partial.

(** C87, as wanted: for every JSON reply, the token used is the string member access_token
    of the document. Refuted: an escaped slash, as many encoders write it, stays escaped ... *)
Theorem C87_escape_refuted : exists l doc, writes (JObj l) doc /\
  l = [(bs "access_token", JStr (bs "ab/cd"))] /\ doc = bs "{""access_token"":""ab\/cd""}" /\
  string_field doc (bs "access_token") = Some (bs "ab\/cd").
Proof.
  exists [(bs "access_token", JStr (bs "ab/cd"))], (bs "{""access_token"":""ab\/cd""}").
  split; [|split; [reflexivity|split; [reflexivity|vm_compute; reflexivity]]].
  apply (w_obj _ [bs """access_token"":""ab\/cd"""]); [discriminate|].
  constructor; [|constructor]. exists [], [], [], (bs """ab\/cd"""), [].
  split; [reflexivity|]. do 4 (split; [constructor|]). split.
  - split; cbn; intuition discriminate.
  - apply (w_str (bs "ab/cd") (bs "ab\/cd")).
    repeat (apply st_char; [discriminate|discriminate|]). apply st_esc; [constructor|].
    repeat (apply st_char; [discriminate|discriminate|]). constructor.
Qed.
Print Assumptions C87_escape_refuted.

(** ... a null token is replaced by the next quoted text, here the name of another member ... *)
Theorem C87_null_refuted : exists l doc, writes (JObj l) doc /\
  l = [(bs "access_token", JNull); (bs "error", JStr (bs "invalid_client"))] /\
  doc = bs "{""access_token"":null,""error"":""invalid_client""}" /\
  string_field doc (bs "access_token") = Some (bs "error").
Proof.
  eexists _, _. split; [|split; [reflexivity|split; [reflexivity|vm_compute; reflexivity]]].
  match goal with |- writes ?v ?d => replace d with (ser v) by (vm_compute; reflexivity) end.
  apply writes_ser. now apply okb_ok.
Qed.
Print Assumptions C87_null_refuted.

(** ... and a value that is the member's name is taken for the key. *)
Theorem C87_mention_refuted : exists l doc, writes (JObj l) doc /\
  l = [(bs "kind", JStr (bs "access_token")); (bs "ttl", JInt 5); (bs "access_token", JStr (bs "abc"))] /\
  doc = bs "{""kind"":""access_token"",""ttl"":5,""access_token"":""abc""}" /\
  string_field doc (bs "access_token") = Some (bs "access_token").
Proof.
  eexists _, _. split; [|split; [reflexivity|split; [reflexivity|vm_compute; reflexivity]]].
  match goal with |- writes ?v ?d => replace d with (ser v) by (vm_compute; reflexivity) end.
  apply writes_ser. now apply okb_ok.
Qed.
Print Assumptions C87_mention_refuted.

(** What holds: in every layout, for every reply without backslashes whose values do not
    mention the name, the token read is the member's value, and no token is read if the
    member is missing. *)
Theorem C87_token_partial : forall l doc, writes (JObj l) doc -> unmentioned (bs "access_token") l ->
  match obj_get (bs "access_token") l with
  | Some (JStr t) => ~ In "\"%char doc -> string_field doc (bs "access_token") = Some t
  | None => string_field doc (bs "access_token") = None
  | _ => True
  end.
Proof.
  intros l doc W U. assert (nkey (bs "access_token")) as K by nkeyok.
  destruct (obj_get (bs "access_token") l) as [[| | | |t| |]|] eqn:G; try exact I.
  - intro B. exact (string_field_doc _ l doc t K U W G B).
  - exact (proj1 (field_missing _ l doc K U W G)).
Qed.
Print Assumptions C87_token_partial.

(** More than that: in every layout, escapes or not, the token read is the member's text as it
    stands between its quotes, escapes and all, unless that text escapes a backslash. *)
Theorem C87_raw_partial : forall l doc t, writes (JObj l) doc -> unmentioned (bs "access_token") l ->
  obj_get (bs "access_token") l = Some (JStr t) -> exists raw, str_text t raw /\
    ((forall a b, raw <> a ++ BACKSLASH :: BACKSLASH :: b) -> string_field doc (bs "access_token") = Some raw).
Proof.
  intros l doc t W U G. assert (nkey (bs "access_token")) as K by nkeyok.
  exact (string_field_raw _ l doc t K U W G).
Qed.
Print Assumptions C87_raw_partial.

(** The premises are met by a reply laid out over several lines. *)
Example C87_ex : exists l doc, writes (JObj l) doc /\ unmentioned (bs "access_token") l /\
  obj_get (bs "access_token") l = Some (JStr (bs "a+b=")) /\
  doc = bs "{" ++ [LF] ++ bs " ""token_type"": ""Bearer""," ++ [LF] ++ bs " ""access_token"": ""a+b=""" ++ [LF] ++ bs "}" /\
  ~ In "\"%char doc /\ string_field doc (bs "access_token") = Some (bs "a+b=").
Proof.
  exists [(bs "token_type", JStr (bs "Bearer")); (bs "access_token", JStr (bs "a+b="))], 
    (bs "{" ++ [LF] ++ bs " ""token_type"": ""Bearer""," ++ [LF] ++ bs " ""access_token"": ""a+b=""" ++ [LF] ++ bs "}").
  split; [|split; [|split; [reflexivity|split; [reflexivity|split; [vm_compute; intuition discriminate|vm_compute; reflexivity]]]]].
  - apply (w_obj _ [[LF] ++ bs " ""token_type"": ""Bearer"""; [LF] ++ bs " ""access_token"": ""a+b=""" ++ [LF]]); [discriminate|].
    assert (forall s, ~ In """"%char s -> ~ In "\"%char s -> str_text s s) as R.
    { induction s as [|c s IH]; intros H1 H2; [constructor|]. cbn in H1, H2. constructor; intuition. }
    constructor; [|constructor; [|constructor]].
    + exists [LF; SPACE], [], [SPACE], (bs """Bearer"""), [].
      split; [reflexivity|]. do 4 (split; [repeat (apply Forall_cons; [cbn; tauto|]); constructor|]).
      split; [split; cbn; intuition discriminate|]. apply (w_str (bs "Bearer") (bs "Bearer")). apply R; cbn; intuition discriminate.
    + exists [LF; SPACE], [], [SPACE], (bs """a+b="""), [LF].
      split; [reflexivity|]. do 4 (split; [repeat (apply Forall_cons; [cbn; tauto|]); constructor|]).
      split; [split; cbn; intuition discriminate|]. apply (w_str (bs "a+b=") (bs "a+b=")). apply R; cbn; intuition discriminate.
  - unfold unmentioned. repeat constructor; intro K; inversion K as [s [E|(a & E)]| | |]; subst; try discriminate;
      apply (f_equal (@length _)) in E; rewrite !app_length in E; cbn in E; lia.
Qed.
