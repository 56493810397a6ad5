(** Reading resources: C34, C35, C71, C72, and the answers of C33. *)
From Coq Require Import Ascii String List Permutation Arith NArith ZArith Bool Lia ZifyBool ZifyNat ZifyN.
From Verif Require Import StrModel StrProofs DoubleModel JsonModel JsonSpec JsonProofs RpcModel ObjSpec ObjProofs MapModel TaskModel TaskSpec TaskProofs DescModel DescSpec DescProofs RegModel RegSpec ValModel ValSpec ValProofs TmplModel TmplSpec TmplProps ReadModel ReadSpec ReadProofs.
Import ListNotations.
Local Open Scope nat_scope.

(** C34: a window of a text resource is the text from the offset on, cut to the length and the
    clamp. Either bound may be missing. *)
Theorem C34_window : forall (c : read_cfg) (g : registry) (rd : readers) (u : bstr) (contents : list json) (text : bstr)
  (offset len : option Z) (params : option json),
  u <> [] -> yields g rd u contents -> text_of contents text -> sensible offset len -> offset <> None \/ len <> None ->
  wants u offset len params -> forall clamp, advertises (rc_exp c) clamp ->
  carries (handle_read c g rd false params) (part clamp offset len text).
Proof.
  intros c g rd u contents text offset len params H1 H2 H3 H4 H5 H6 clamp A. rewrite (advertises_clamp _ _ A).
  exact (window_carries c g rd u contents text offset len params H1 H2 H3 H4 H5 H6).
Qed.
Print Assumptions C34_window.

(** C34: no window is longer than asked for or than the clamp. *)
Theorem C34_bounds : forall (clamp : N) (offset : option Z) (len : Z) (text : bstr),
  within clamp (length (part clamp offset (Some len) text)) /\ (N.of_nat (length (part clamp offset (Some len) text)) <= Z.to_N len)%N.
Proof. exact part_length. Qed.
Print Assumptions C34_bounds.

(** C34: a window is empty exactly when it starts at or past the end. *)
Theorem C34_end : forall (clamp : N) (off : nat) (len : Z) (text : bstr), (0 < len)%Z ->
  part clamp (Some (Z.of_nat off)) (Some len) text = [] <-> length text <= off.
Proof. exact part_nil. Qed.
Print Assumptions C34_end.

(** C34: the full read returns what the handler returned. *)
Theorem C34_full : forall (c : read_cfg) (g : registry) (rd : readers) (u : bstr) (contents : list json) (params : option json),
  u <> [] -> yields g rd u contents -> rc_strict c = false \/ Forall (fun v => TextContent v \/ ResourceContents v) contents ->
  wants u None None params ->
  exists o, handle_read c g rd false params = AResult (JObj o) /\ obj_get (bs "contents") o = Some (JArr contents).
Proof. exact full_read. Qed.
Print Assumptions C34_full.

(** C34: windows that start where the previous one ended, until an empty one, give the text. *)
Theorem C34_tiles : forall (c : read_cfg) (g : registry) (rd : readers) (u : bstr) (contents : list json) (text : bstr) (ts : list bstr),
  u <> [] -> yields g rd u contents -> text_of contents text ->
  tiles (handle_read c g rd false) u 0 ts -> concat ts = text.
Proof. intros c g rd u contents text ts H1 H2 H3 H4. exact (tiles_all c g rd u contents text H1 H2 H3 0 ts H4). Qed.
Print Assumptions C34_tiles.

(** C34: and there are such windows, of any size. *)
Theorem C34_tiles_exist : forall (c : read_cfg) (g : registry) (rd : readers) (u : bstr) (contents : list json) (text : bstr) (len : Z),
  u <> [] -> yields g rd u contents -> text_of contents text -> (0 < len)%Z ->
  exists ts, tiles (handle_read c g rd false) u 0 ts.
Proof. intros c g rd u contents text len H1 H2 H3 H4. exact (tiles_exist c g rd u contents text len H1 H2 H3 H4 (length text - 0) 0 (le_n _)). Qed.
Print Assumptions C34_tiles_exist.

Definition two_items : list json := [make_text (bs "hello "); make_text (bs "world")].
Definition ex_rd : readers := {| rd_direct := fun _ _ => POkay two_items; rd_template := fun _ _ _ => PThrow (bs "no") |}.
Definition ex_reg : registry := reg_run [RegResourceUri (bs "a") (Some 3)].
Definition ex_exp : obj := set_clamp (Some 4%N) [].

Example C34_ex_clamp : advertises ex_exp 4.
Proof. left. exists 4%Z. split; [|reflexivity]. exists [(bs "enabled", JBool true); (bs "maxChunkBytes", JInt 4)]. repeat split; reflexivity. Qed.

Example C34_ex :
  yields ex_reg ex_rd (bs "a") two_items /\ text_of two_items (bs "hello world") /\
  handle_read {| rc_strict := true; rc_ui := false; rc_exp := ex_exp |} ex_reg ex_rd false (Some (read_params (bs "a") (Some 3%Z) (Some 100%Z))) =
    AResult (JObj [(bs "contents", JArr [make_text (bs "lo w")])]).
Proof.
  split; [left; now exists 3|]. split; [|reflexivity].
  exists [bs "hello "; bs "world"]. split; [|reflexivity]. constructor; [apply make_text_item|]. constructor; [apply make_text_item|constructor].
Qed.

(** C35: the client's chunked read ends with the whole text, in pieces that are not empty and no
    longer than the chunk size and the clamp, over any connection that delivers what is sent.
    Here for chunk sizes and texts below 2^63. *)
Theorem C35_whole_text_partial : forall (net : json -> json) (strict : bool) (c : read_cfg) (g : registry) (rd : readers) (u : bstr)
  (contents : list json) (text : bstr) (chunk : N) (fuel : nat),
  (forall v, same v (net v)) -> u <> [] -> yields g rd u contents -> text_of contents text ->
  (0 < chunk < 2 ^ 63)%N -> (N.of_nat (length text) < 2 ^ 63)%N -> length text < fuel ->
  exists items, read_all strict (read_call net c g rd) u chunk fuel = CDone items /\ text_of items text /\
    forall clamp, advertises (rc_exp c) clamp ->
    Forall (fun v => exists t, text_item v t /\ t <> [] /\ (N.of_nat (length t) <= chunk)%N /\ within clamp (length t)) items.
Proof.
  intros net strict c g rd u contents text chunk fuel Hn Hu Hy Ht Hc Hs Hf.
  enough (exists items, read_all strict (read_call net c g rd) u chunk fuel = CDone items /\ text_of items text /\
    Forall (fun v => exists t, text_item v t /\ t <> [] /\ (N.of_nat (length t) <= chunk)%N /\ within (clamp_of (rc_exp c)) (length t)) items) as (items & Q1 & Q2 & Q3).
  { exists items. split; [exact Q1|]. split; [exact Q2|]. intros clamp A. now rewrite (advertises_clamp _ _ A). }
  unfold read_all.
  assert (N.eqb chunk 0 = false) as -> by lia.
  apply (loop_reads net Hn strict c g rd u contents text Hu Hy Ht chunk Hc Hs fuel 0 [] []); [lia|lia| |constructor|reflexivity].
  exists []. split; [constructor|reflexivity].
Qed.
Print Assumptions C35_whole_text_partial.

(** C35: also with a hint for the chunk size. *)
Theorem C35_with_hint_partial : forall (net : json -> json) (strict : bool) (c : read_cfg) (g : registry) (rd : readers) (u : bstr)
  (contents : list json) (text : bstr) (preferred : N) (hint : option N) (fuel : nat),
  (forall v, same v (net v)) -> u <> [] -> yields g rd u contents -> text_of contents text ->
  (0 < preferred < 2 ^ 63)%N -> (N.of_nat (length text) < 2 ^ 63)%N -> length text < fuel ->
  exists items, read_all_clamped strict (read_call net c g rd) u preferred hint fuel = CDone items /\ text_of items text.
Proof.
  intros net strict c g rd u contents text preferred hint fuel Hn Hu Hy Ht Hc Hs Hf.
  destruct (C35_whole_text_partial net strict c g rd u contents text (effective_chunk preferred hint) fuel Hn Hu Hy Ht) as (items & E & T & _); try assumption.
  - unfold effective_chunk. destruct hint as [h|]; [|exact Hc]. destruct (N.ltb 0 h) eqn:E; [|exact Hc]. lia.
  - exists items. now split.
Qed.
Print Assumptions C35_with_hint_partial.

(** C35: a chunk size of 2^63 or more becomes a negative length, which the server refuses. *)
Theorem C35_huge_chunk_refuted : exists (c : read_cfg) (g : registry) (rd : readers) (u : bstr) (contents : list json) (chunk : N),
  u <> [] /\ yields g rd u contents /\ text_of contents (bs "hello world") /\ (0 < chunk < 2 ^ 64)%N /\
  forall fuel, 0 < fuel -> read_all false (read_call (fun v => v) c g rd) u chunk fuel = CThrow (bs "Invalid offset/length").
Proof.
  exists {| rc_strict := false; rc_ui := false; rc_exp := [] |}, ex_reg, ex_rd, (bs "a"), two_items, (2 ^ 63)%N.
  split; [discriminate|]. split; [left; now exists 3|]. split; [exact (proj1 (proj2 C34_ex))|]. split; [lia|].
  intros [|fuel] H; [lia|]. reflexivity.
Qed.
Print Assumptions C35_huge_chunk_refuted.

Example C35_ex :
  read_all true (read_call (fun v => v) {| rc_strict := true; rc_ui := false; rc_exp := ex_exp |} ex_reg ex_rd) (bs "a") 7 12 =
    CDone [make_text (bs "hell"); make_text (bs "o wo"); make_text (bs "rld")].
Proof. reflexivity. Qed.

(** C33: what the client is told when the URI is ambiguous or unknown. *)
Theorem C33_answer_ambiguous : forall (c : read_cfg) (ops : list reg_op) (rd : readers) (u : bstr) (t1 t2 : template) (h1 h2 : nat)
  (params : option json) (cancelled : bool),
  u <> [] -> resource_now u (rev ops) = None -> serves ops u t1 h1 -> serves ops u t2 h2 -> tp_uri t1 <> tp_uri t2 -> wants u None None params ->
  handle_read c (reg_run ops) rd cancelled params = AError (-32603) (bs "Ambiguous resource template match").
Proof.
  intros c ops rd u t1 t2 h1 h2 params cancelled Hu H0 H1 H2 N (o & -> & E1 & E2 & E3). unfold handle_read, get_str, get_int.
  rewrite E1, E2, E3. cbn [or_empty option_map]. rewrite (C33_ambiguous ops u t1 t2 h1 h2 H0 H1 H2 N). now destruct u.
Qed.
Print Assumptions C33_answer_ambiguous.

Theorem C33_answer_none : forall (c : read_cfg) (ops : list reg_op) (rd : readers) (u : bstr) (params : option json) (cancelled : bool),
  u <> [] -> resource_now u (rev ops) = None -> (forall t h, ~ serves ops u t h) -> wants u None None params ->
  handle_read c (reg_run ops) rd cancelled params = AError (-32002) (bs "Resource not found").
Proof.
  intros c ops rd u params cancelled Hu H0 H (o & -> & E1 & E2 & E3). unfold handle_read, get_str, get_int.
  rewrite E1, E2, E3. cbn [or_empty option_map]. rewrite (C33_none ops u H0 H). now destruct u.
Qed.
Print Assumptions C33_answer_none.

(** C71: whatever a strict server delivers has the shape of a read result, for every handler. *)
Theorem C71_server : forall (c : read_cfg) (g : registry) (rd : readers) (cancelled : bool) (params : option json) (v : json),
  rc_strict c = true -> handle_read c g rd cancelled params = AResult v -> ReadResourceResult v.
Proof. exact strict_server. Qed.
Print Assumptions C71_server.

(** C71: whatever a strict client returns has that shape, for every server. *)
Theorem C71_client_range : forall (ask : json -> json) (u : bstr) (offset len : option Z) (items : list json),
  read_range true ask u offset len = inr items -> Forall (fun v => TextContent v \/ ResourceContents v) items.
Proof. intros ask u offset len items. apply strict_client. Qed.
Print Assumptions C71_client_range.
Theorem C71_client_whole : forall (ask : json -> json) (u : bstr) (items : list json),
  read_whole true ask u = inr items -> Forall (fun v => TextContent v \/ ResourceContents v) items.
Proof. intros ask u items. apply strict_client. Qed.
Print Assumptions C71_client_whole.

Example C71_ex :
  let c s := {| rc_strict := s; rc_ui := false; rc_exp := [] |} in
  let rd := {| rd_direct := fun _ _ => POkay [JInt 1]; rd_template := fun _ _ _ => PThrow (bs "no") |} in
  handle_read (c true) ex_reg rd false (Some (read_params (bs "a") None None)) = AError (-32603) (bs "Invalid resource read result shape") /\
  read_whole false (read_call (fun v => v) (c false) ex_reg rd) (bs "a") = inr [JInt 1] /\
  read_whole true (read_call (fun v => v) (c false) ex_reg rd) (bs "a") = inl (bs "Validation failed: resources/read result shape").
Proof. repeat split. Qed.

(** C72: the metadata of a read result shows ui only to clients with the ui extension. *)
Theorem C72_hidden_partial : forall (c : read_cfg) (g : registry) (rd : readers) (cancelled : bool) (params : option json) (o m : obj),
  rc_ui c = false -> handle_read c g rd cancelled params = AResult (JObj o) ->
  obj_get (bs "_meta") o = Some (JObj m) -> obj_get (bs "ui") m = None.
Proof. exact ui_hidden. Qed.
Print Assumptions C72_hidden_partial.

(** C72: all else in it is passed on. *)
Theorem C72_rest : forall (c : read_cfg) (g : registry) (rd : readers) (u : bstr) (contents : list json) (params : option json)
  (m : obj) (k : bstr) (x : json),
  u <> [] -> yields g rd u contents -> rc_strict c = false -> first_meta contents (JObj m) -> wants u None None params ->
  obj_get k m = Some x -> k <> bs "ui" \/ rc_ui c = true ->
  exists o m', handle_read c g rd false params = AResult (JObj o) /\ obj_get (bs "_meta") o = Some (JObj m') /\ obj_get k m' = Some x.
Proof.
  intros c g rd u contents params m k x Hu Hy Hs Hm. apply (meta_kept c g rd u contents params m k x Hu Hy Hs). now apply meta_candidate_first.
Qed.
Print Assumptions C72_rest.

(** C72: but the same metadata is sent inside the content item it came from. *)
Theorem C72_item_refuted : exists (c : read_cfg) (g : registry) (rd : readers) (params : option json) (o item m : obj),
  rc_ui c = false /\ handle_read c g rd false params = AResult (JObj o) /\ obj_get (bs "contents") o = Some (JArr [JObj item]) /\
  obj_get (bs "_meta") item = Some (JObj m) /\ obj_get (bs "ui") m <> None.
Proof.
  exists {| rc_strict := true; rc_ui := false; rc_exp := [] |}, ex_reg,
    {| rd_direct := fun _ _ => POkay [JObj [(bs "type", JStr (bs "text")); (bs "text", JStr (bs "x")); (bs "_meta", JObj [(bs "ui", JInt 1); (bs "k", JInt 2)])]];
       rd_template := fun _ _ _ => PThrow (bs "no") |}, (Some (read_params (bs "a") None None)).
  eexists. eexists. eexists. repeat split. discriminate.
Qed.
Print Assumptions C72_item_refuted.
