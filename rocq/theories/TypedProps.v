From Coq Require Import Ascii String List Permutation Arith NArith ZArith Bool Lia.
From Verif Require Import StrModel StrProofs DoubleModel JsonModel JsonSpec JsonProofs ObjSpec ObjProofs MapModel RpcModel TaskModel TaskSpec DescModel DescSpec RegModel RegSpec ValModel ValSpec ValProofs TmplModel ReadModel ReadSpec ReadProofs ReadProps SubModel LogModel ErrModel ServModel ServSpec ServProofs CallProofs ServProps TypedModel TypedSpec TypedProofs.
Import ListNotations.
Local Open Scope nat_scope.

(** C160. callTool of the typed client gives its caller the very result that the tool returned (items,
    structured content, metadata and error flag), and throws the text of the exception if the tool
    threw. *)
Theorem C160_returns_partial : forall ops w pre q s n a t h, n <> [] -> sv_reg s = reg_run ops ->
  tool_now n (rev ops) = Some (t, Some h) -> ~ supports t Required ->
  requests q (bs "tools/call") (call_params n a) ->
  exists a', same a a' /\
    (forall out, w_tool w h a' = Ret out -> (sv_strict s = true -> Forall Content (to_content out)) ->
       exists r, dispatch w pre false false q s = (Reply r, s) /\
         forall strict r', delivered r r' -> (strict = true -> Forall keyed (to_content out) /\ Forall Content (to_content out)) ->
           exists res, typed_call strict (Some r') = Ret res /\ same_out out res) /\
    (forall out, w_tool w h a' = Ret out -> sv_strict s = true -> ~ Forall Content (to_content out) ->
       exists r, dispatch w pre false false q s = (Reply r, s) /\
         forall strict r', delivered r r' -> typed_call strict (Some r') = Threw (bs "Invalid tool result shape")) /\
    (forall what, w_tool w h a' = Threw what ->
       exists r, dispatch w pre false false q s = (Reply r, s) /\ forall strict r', delivered r r' -> typed_call strict (Some r') = Threw what) /\
    (forall out, w_tool w h a' = Ret out ->
       exists r, dispatch w pre true false q s = (Reply r, s) /\ forall strict r', delivered r r' -> typed_call strict (Some r') = Threw (bs "Cancelled")).
Proof. intros ops w pre q s n a t h Hn Hr Ht Hs Q. exact (call_through ops w q s n a Hr pre t h Hn Ht Hs Q). Qed.
Print Assumptions C160_returns_partial.

(** Any error the server answers with is thrown with its message. *)
Theorem C160_throws : forall strict r r' c m, fails r c m -> delivered r r' -> typed_call strict (Some r') = Threw m.
Proof. exact call_throws. Qed.
Print Assumptions C160_throws.

(** Whatever server it talks to, a strict client returns valid content only, and nothing if nothing
    was received. *)
Theorem C160_strict : forall resp res, typed_call true resp = Ret res -> Forall Content (to_content res) /\ ~ nothing resp.
Proof. exact call_strict. Qed.
Print Assumptions C160_strict.

(** A client that is not strict makes a lost reply a successful empty result: the caller is told that
    the tool ran without error. *)
Theorem C160_lost_refuted : exists resp, nothing resp /\
  typed_call false resp = Ret {| to_content := []; to_struct := None; to_meta := None; to_error := false |}.
Proof. exists None. split; [intros r H; discriminate H|reflexivity]. Qed.
Print Assumptions C160_lost_refuted.

(** And an error without a message is a success too. *)
Theorem C160_no_message_refuted : exists r, rs_result r = None /\ rs_error r = Some (JObj [(bs "code", JInt (-32603))]) /\
  typed_call false (Some r) = Ret {| to_content := []; to_struct := None; to_meta := None; to_error := false |}.
Proof. exists {| rs_id := IdInt 1; rs_result := None; rs_error := Some (JObj [(bs "code", JInt (-32603))]) |}. repeat split. Qed.
Print Assumptions C160_no_message_refuted.

(** While a valid result that happens to have members named code and message is thrown. *)
Theorem C160_named_refuted : exists r v, succeeds r v /\ CallToolResult v /\ typed_call true (Some r) = Threw (bs "tools/call error").
Proof.
  set (v := JObj [(bs "content", JArr []); (bs "code", JStr (bs "E7")); (bs "message", JStr (bs "fine"))]).
  exists {| rs_id := IdInt 1; rs_result := Some v; rs_error := None |}, v. split; [now split|]. split; [|reflexivity].
  apply call_tool_iff. reflexivity.
Qed.
Print Assumptions C160_named_refuted.

Definition shuffled : json :=
  JObj [(bs "isError", JBool true); (bs "structuredContent", JObj [(bs "b", JInt 2); (bs "a", JInt 1)]);
        (bs "content", JArr [JObj [(bs "text", JStr (bs "no")); (bs "type", JStr (bs "text"))]])].
Definition sample : tool_out :=
  {| to_content := [make_text (bs "no")]; to_struct := Some (JObj [(bs "a", JInt 1); (bs "b", JInt 2)]); to_meta := None; to_error := true |}.
Example C160_ex : typed_call true (Some {| rs_id := IdInt 4; rs_result := Some shuffled; rs_error := None |}) =
    Ret {| to_content := [JObj [(bs "text", JStr (bs "no")); (bs "type", JStr (bs "text"))]];
           to_struct := Some (JObj [(bs "b", JInt 2); (bs "a", JInt 1)]); to_meta := None; to_error := true |} /\
  Forall keyed (to_content sample) /\ Forall Content (to_content sample) /\
  exists res, typed_call true (Some {| rs_id := IdInt 4; rs_result := Some (tool_json_out sample); rs_error := None |}) = Ret res /\ same_out sample res.
Proof.
  assert (Forall keyed (to_content sample)) as K.
  { constructor; [|constructor]. constructor; [|repeat constructor]. cbn. repeat constructor; cbn; intuition discriminate. }
  assert (Forall Content (to_content sample)) as V by (constructor; [apply content_iff; reflexivity|constructor]).
  split; [vm_compute; reflexivity|]. split; [exact K|]. split; [exact V|].
  apply (call_returns true {| rs_id := IdInt 4; rs_result := Some (tool_json_out sample); rs_error := None |}).
  - now split.
  - split; [reflexivity|]. split; [|constructor]. constructor. apply same_refl.
  - intros _. now split.
Qed.

(** C161. The same for getPrompt and readResource. *)
Theorem C161_prompt_partial : forall ops w q s n a d h, sv_reg s = reg_run ops -> prompt_now n (rev ops) = Some (d, Some h) ->
  requests q (bs "prompts/get") (call_params n a) ->
  exists a', same a a' /\
    (forall x ms, w_prompt w h a' = Ret (x, ms) -> (sv_strict s = true -> Forall PromptMessage ms) ->
       exists r, dispatch w false false false q s = (Reply r, s) /\
         forall strict r', delivered r r' -> (strict = true -> Forall keyed ms /\ Forall PromptMessage ms) ->
           exists ms', typed_prompt strict (Some r') = Ret (x, ms') /\ Forall2 same ms ms') /\
    (forall what, w_prompt w h a' = Threw what ->
       exists r, dispatch w false false false q s = (Reply r, s) /\ forall strict r', delivered r r' -> typed_prompt strict (Some r') = Threw what).
Proof. intros ops w q s n a d h Hr Ht Q. exact (prompt_through ops w q s n a Hr d h Ht Q). Qed.
Print Assumptions C161_prompt_partial.

Theorem C161_read_partial : forall w pre q s u contents, u <> [] -> yields (sv_reg s) (w_read w) u contents ->
  sv_strict s = false \/ Forall (fun v => TextContent v \/ ResourceContents v) contents ->
  requests q (bs "resources/read") (read_params u None None) ->
  exists r, dispatch w pre false false q s = (Reply r, s) /\
    forall strict r', delivered r r' -> (strict = true -> Forall keyed contents /\ Forall (fun v => TextContent v \/ ResourceContents v) contents) ->
      exists items, typed_read strict (Some r') = Ret items /\ Forall2 same contents items.
Proof. exact read_through. Qed.
Print Assumptions C161_read_partial.

Theorem C161_throws : forall strict r r' c m, fails r c m -> delivered r r' ->
  typed_prompt strict (Some r') = Threw m /\ typed_read strict (Some r') = Threw m.
Proof. intros strict r r' c m F D. split; [exact (prompt_throws strict r r' c m F D)|exact (read_throws strict r r' c m F D)]. Qed.
Print Assumptions C161_throws.

Theorem C161_strict : forall resp,
  (forall d ms, typed_prompt true resp = Ret (d, ms) -> Forall PromptMessage ms /\ ~ nothing resp) /\
  (forall items, typed_read true resp = Ret items -> Forall (fun v => TextContent v \/ ResourceContents v) items /\ ~ nothing resp).
Proof. intro resp. split; [intros d ms; apply prompt_strict|intros items; apply read_strict]. Qed.
Print Assumptions C161_strict.

Theorem C161_lost_refuted : exists resp, nothing resp /\ typed_prompt false resp = Ret ([], []) /\ typed_read false resp = Ret [].
Proof. exists None. split; [intros r H; discriminate H|split; reflexivity]. Qed.
Print Assumptions C161_lost_refuted.

Example C161_ex : exists r, dispatch demo_world false false false (ask (bs "prompts/get") (call_params (bs "greet") JNull)) demo_server = (Reply r, demo_server) /\
  typed_prompt true (Some r) = Ret (bs "greeting", [make_text (bs "hello")]).
Proof. eexists. split; vm_compute; reflexivity. Qed.

(** C162. A chunked read with a stop token returns the text up to some point, in pieces within the
    chunk size and the server's limit. It is the whole text unless a stop was requested, and no piece
    is fetched once the loop has seen the request. *)
Theorem C162_prefix_partial : forall (net : json -> json) (stop : nat -> bool) (strict : bool) (c : read_cfg) (g : registry) (rd : readers) (u : bstr)
  (contents : list json) (text : bstr) (chunk : N) (fuel : nat),
  (forall v, same v (net v)) -> u <> [] -> yields g rd u contents -> text_of contents text ->
  (0 < chunk < 2 ^ 63)%N -> (N.of_nat (length text) < 2 ^ 63)%N -> length text < fuel ->
  exists items before after, read_all_stop stop strict (read_call net c g rd) u chunk fuel = CDone items /\
    text = before ++ after /\ text_of items before /\
    (forall clamp, advertises (rc_exp c) clamp ->
       Forall (fun v => exists t, text_item v t /\ t <> [] /\ (N.of_nat (length t) <= chunk)%N /\ within clamp (length t)) items) /\
    (forall j, j < length items -> stop j = false) /\ (stop (length items) = true \/ after = []).
Proof.
  intros net stop strict c g rd u contents text chunk fuel Hn Hu Hy Ht Hc Hs Hf. unfold read_all_stop.
  assert (N.eqb chunk 0 = false) as -> by lia.
  destruct (stop_reads net Hn stop strict c g rd u contents text Hu Hy Ht chunk Hc Hs fuel 0 [] []) as (items & off & E & T & P & J & K);
    [lia|lia|now exists []|constructor|reflexivity|intros j H; inversion H|].
  exists items, (firstn off text), (skipn off text). split; [exact E|]. split; [now rewrite firstn_skipn|]. split; [exact T|].
  split. { intros clamp A. rewrite (advertises_clamp _ _ A). exact P. }
  split; [exact J|]. destruct K as [K|K]; [now left|right]. now apply skipn_all2.
Qed.
Print Assumptions C162_prefix_partial.

(** Without a stop it is the plain read, for every server and chunk size; so are the overloads with a
    hint and with the server's capabilities. *)
Theorem C162_never : forall strict ask u chunk hint exp fuel,
  read_all_stop (fun _ => false) strict ask u chunk fuel = read_all strict ask u chunk fuel /\
  read_all_stop_clamped (fun _ => false) strict ask u chunk hint fuel = read_all_clamped strict ask u chunk hint fuel /\
  read_all_stop_caps (fun _ => false) strict ask u chunk exp fuel = read_all_caps strict ask u chunk exp fuel.
Proof.
  assert (forall strict ask u chunk fuel, read_all_stop (fun _ => false) strict ask u chunk fuel = read_all strict ask u chunk fuel) as H.
  { intros strict ask u chunk fuel. unfold read_all_stop, read_all. destruct (N.eqb chunk 0); [reflexivity|apply stop_never]. }
  intros strict ask u chunk hint exp fuel. split; [apply H|split; apply H].
Qed.
Print Assumptions C162_never.

(** Once a stop is seen the read ends, whatever the server answers. *)
Theorem C162_ends : forall stop strict ask u chunk fuel j, stop j = true -> j < fuel ->
  read_all_stop stop strict ask u chunk fuel <> CFuel.
Proof.
  intros stop strict ask u chunk fuel j Hj H. unfold read_all_stop. destruct (N.eqb chunk 0); [discriminate|].
  apply (stop_ends stop strict ask u chunk fuel 0 0%N [] j Hj); lia.
Qed.
Print Assumptions C162_ends.

(** The overloads that look at the limit of the server never ask for more than it. *)
Theorem C162_capped : forall preferred exp clamp, advertises exp clamp -> (0 < preferred)%N ->
  (0 < effective_chunk preferred (clamp_hint exp) <= preferred)%N /\ (clamp = 0%N \/ (effective_chunk preferred (clamp_hint exp) <= clamp)%N).
Proof.
  intros preferred exp clamp A Hp. apply advertises_clamp in A. revert A. unfold clamp_hint, clamp_of, effective_chunk.
  destruct (obj_get CHUNKING exp) as [[| | | | | |o]|]; try (intros ->; split; [lia|now left]).
  destruct (obj_get MAXBYTES o) as [[| |z| | | |]|]; try (intros ->; split; [lia|now left]).
  destruct (Z.ltb 0 z) eqn:E1; destruct (Z.leb z 0) eqn:E2; intros ->; try (exfalso; lia).
  - assert (N.ltb 0 (Z.to_N z) = true) as -> by lia. lia.
  - split; [lia|now left].
Qed.
Print Assumptions C162_capped.

(** Without a stop nothing bounds the read: a server that answers every window with some text keeps it
    going for ever. *)
Theorem C162_endless_refuted : exists ask, forall u chunk fuel, (0 < chunk)%N -> read_all false ask u chunk fuel = CFuel.
Proof.
  exists (fun _ => JObj [(bs "contents", JArr [make_text (bs "x")])]). intros u chunk fuel H. unfold read_all.
  assert (N.eqb chunk 0 = false) as -> by lia. apply endless.
Qed.
Print Assumptions C162_endless_refuted.

(** The result does not say whether it is complete: a stopped read of one resource and a complete read
    of a shorter one are the same to the caller. *)
Theorem C162_silent_refuted : exists (stop : nat -> bool) (c : read_cfg) (g : registry) (rd rd' : readers) (u : bstr) (contents contents' : list json) (chunk : N),
  u <> [] /\ yields g rd u contents /\ text_of contents (bs "hello world") /\ yields g rd' u contents' /\ text_of contents' (bs "hello ") /\
  forall fuel, 11 < fuel ->
    read_all_stop stop true (read_call (fun v => v) c g rd) u chunk fuel = read_all true (read_call (fun v => v) c g rd') u chunk fuel.
Proof.
  exists (Nat.leb 1), {| rc_strict := true; rc_ui := false; rc_exp := [] |}, ex_reg, ex_rd,
    {| rd_direct := fun _ _ => POkay [make_text (bs "hello ")]; rd_template := fun _ _ _ => PThrow (bs "no") |}, (bs "a"), two_items, [make_text (bs "hello ")], 6%N.
  split; [discriminate|]. split; [left; now exists 3|]. split; [exact (proj1 (proj2 C34_ex))|]. split; [left; now exists 3|].
  split. { exists [bs "hello "]. split; [|reflexivity]. constructor; [apply make_text_item|constructor]. }
  intros fuel H. do 12 (destruct fuel as [|fuel]; [lia|]). reflexivity.
Qed.
Print Assumptions C162_silent_refuted.

Example C162_ex : read_all_stop (Nat.leb 2) true (read_call (fun v => v) {| rc_strict := true; rc_ui := false; rc_exp := ex_exp |} ex_reg ex_rd) (bs "a") 7 12 =
    CDone [make_text (bs "hell"); make_text (bs "o wo")] /\
  advertises ex_exp 4 /\ effective_chunk 7 (clamp_hint ex_exp) = 4%N.
Proof. split; [reflexivity|]. split; [exact C34_ex_clamp|reflexivity]. Qed.
