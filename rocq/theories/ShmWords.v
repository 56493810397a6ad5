(** Which texts the shared-memory transport takes for responses. *)
From Coq Require Import Ascii String List Permutation Arith NArith ZArith Bool Lia ZifyBool ZifyNat ZifyN.
From Verif Require Import StrModel StrProofs DoubleModel JsonModel JsonSpec DoubleProofs JsonProofs RpcModel RpcSpec RpcProofs RouterModel RouterProofs MapModel MapProofs MemModel MemSpec MemProofs PendModel PendProofs FramerSpec OauthModel LayoutSpec LayoutProofs ShmModel ShmSpec ShmProofs.
Import ListNotations.
Local Open Scope nat_scope.

Lemma contains_after : forall p s, contains p s = false <-> after p s = None.
Proof.
  intros p s. unfold contains, after. destruct (find_sub p s); cbn; split; intro H; try discriminate; reflexivity.
Qed.

Lemma esc_app : forall a b, esc (a ++ b) = esc a ++ esc b.
Proof. intros. unfold esc. apply flat_map_app. Qed.

Lemma join_in : forall (sep : bstr) ts t, In t ts -> exists a b, join sep ts = a ++ t ++ b.
Proof.
  intros sep ts t. induction ts as [|t1 ts IH]; intro H; [destruct H|].
  destruct ts as [|t2 ts].
  - destruct H as [<-|[]]. exists [], []. now rewrite app_nil_r.
  - change (join sep (t1 :: t2 :: ts)) with (t1 ++ sep ++ join sep (t2 :: ts)). destruct H as [<-|H].
    + exists []. eexists. reflexivity.
    + destruct (IH H) as (a & b & ->). exists (t1 ++ sep ++ a), b. now rewrite <- !app_assoc.
Qed.

Lemma says_contains : forall k v, clean k -> says k v -> contains (needle k) (ser v) = true.
Proof.
  intros k v Hk H. induction H as [s [->|(a & ->)]|l v Hin Hs IH|l Hin|l v Hin Hs IH].
  - cbn [ser]. unfold ser_str. rewrite esc_clean by exact Hk.
    pose proof (contains_app (needle k) [] []) as E. rewrite app_nil_r in E. exact E.
  - cbn [ser]. unfold ser_str. rewrite esc_app. change """"%char with QUOTE. cbn [esc flat_map]. fold (esc k).
    rewrite (esc_clean k Hk). pose proof (contains_app (needle k) (QUOTE :: esc a ++ [BACKSLASH]) []) as E.
    rewrite app_nil_r in E. unfold needle in E. cbn [app] in E. rewrite <- app_assoc in E. cbn [app] in E.
    rewrite <- app_assoc. exact E.
  - cbn [ser]. destruct (join_in [COMMA] (map ser l) (ser v)) as (a & b & ->); [now apply in_map|].
    replace (LBRACK :: (a ++ ser v ++ b) ++ [RBRACK]) with ((LBRACK :: a) ++ ser v ++ (b ++ [RBRACK])).
    + now apply contains_more.
    + cbn [app]. now rewrite <- !app_assoc.
  - now apply contains_ser_obj.
  - apply in_map_iff in Hin as ([k1 v1] & E & Hin). cbn [snd] in E. subst v1. cbn [ser].
    destruct (join_in [COMMA] (map (fun kv : bstr * json => ser_member (fst kv) (ser (snd kv))) l) (ser_member k1 (ser v)))
      as (a & b & ->); [now apply (in_map (fun kv : bstr * json => ser_member (fst kv) (ser (snd kv))) _ (k1, v))|].
    unfold ser_member.
    match goal with |- contains _ ?t = _ =>
      replace t with ((LBRACE :: a ++ QUOTE :: k1 ++ [QUOTE; COLON]) ++ ser v ++ (b ++ [RBRACE])) end.
    + now apply contains_more.
    + repeat (cbn [app]; rewrite <- ?app_assoc). reflexivity.
Qed.

Lemma contains_says : forall k v, nkey k -> ok v -> ~ says k v -> contains (needle k) (ser v) = false.
Proof.
  intros k v Hk Ho Hn. apply contains_after. pose proof (still_writes k v (ser v) Hk (writes_ser v Ho) Hn [] I) as E.
  rewrite app_nil_r in E. rewrite E. now apply after_nil.
Qed.

Lemma nkey_result : nkey (bs "result").
Proof. apply nkey_dec; [reflexivity|]. cbn. lia. Qed.
Lemma nkey_error : nkey (bs "error").
Proof. apply nkey_dec; [reflexivity|]. cbn. lia. Qed.
Lemma clean_result : clean (bs "result").
Proof. now apply cleanb_clean. Qed.
Lemma clean_error : clean (bs "error").
Proof. now apply cleanb_clean. Qed.

Definition mistaken (s : bstr) : bool := (contains (bs """result""") s || contains (bs """error""") s)%bool.

(** Exactly the documents that say one of the words are taken for responses. *)
Lemma mistaken_silent : forall v, ok v -> silent v -> mistaken (ser v) = false.
Proof.
  intros v H [S1 S2]. unfold mistaken. change (bs """result""") with (needle (bs "result")).
  change (bs """error""") with (needle (bs "error")).
  rewrite (contains_says _ _ nkey_result H S1), (contains_says _ _ nkey_error H S2). reflexivity.
Qed.

Lemma mistaken_says : forall v, says (bs "result") v \/ says (bs "error") v -> mistaken (ser v) = true.
Proof.
  intros v H. unfold mistaken. change (bs """result""") with (needle (bs "result")).
  change (bs """error""") with (needle (bs "error")). destruct H as [H|H].
  - now rewrite (says_contains _ _ clean_result H).
  - now rewrite (says_contains _ _ clean_error H), orb_true_r.
Qed.

Lemma mistaken_iff : forall v, ok v -> mistaken (ser v) = true <-> ~ silent v.
Proof.
  intros v H. split.
  - intros E S. now rewrite mistaken_silent in E.
  - intro N. destruct (mistaken (ser v)) eqn:E; [reflexivity|]. exfalso. apply N. split; intro S.
    + rewrite mistaken_says in E; [discriminate|now left].
    + rewrite mistaken_says in E; [discriminate|now right].
Qed.

(** The documents of requests and notifications. *)
Lemma ok_id : forall i, id_ok i -> ok (id_json i).
Proof. intros [s|z|] H; constructor. exact H. Qed.

Lemma ok_request : forall r, id_ok (rq_id r) -> (forall p, rq_params r = Some p -> ok p) -> ok (JObj (request_object r)).
Proof.
  intros r Hi Hp. unfold request_object. destruct (rq_params r) as [p|] eqn:E; cbn [opt_json app]; constructor; cbn [map fst snd].
  - now apply nodupb_nodup.
  - repeat (apply Forall_cons; [now apply plainb_plain|]). apply Forall_nil.
  - apply Forall_cons; [constructor|]. apply Forall_cons; [now apply ok_id|]. apply Forall_cons; [constructor|].
    apply Forall_cons; [now apply Hp|apply Forall_nil].
  - now apply nodupb_nodup.
  - repeat (apply Forall_cons; [now apply plainb_plain|]). apply Forall_nil.
  - apply Forall_cons; [constructor|]. apply Forall_cons; [now apply ok_id|]. apply Forall_cons; [constructor|]. apply Forall_nil.
Qed.

Lemma ok_notification : forall n, (forall p, nt_params n = Some p -> ok p) -> ok (JObj (notification_object n)).
Proof.
  intros r Hp. unfold notification_object. destruct (nt_params r) as [p|] eqn:E; cbn [opt_json app]; constructor; cbn [map fst snd].
  - now apply nodupb_nodup.
  - repeat (apply Forall_cons; [now apply plainb_plain|]). apply Forall_nil.
  - apply Forall_cons; [constructor|]. apply Forall_cons; [constructor|].
    apply Forall_cons; [now apply Hp|apply Forall_nil].
  - now apply nodupb_nodup.
  - repeat (apply Forall_cons; [now apply plainb_plain|]). apply Forall_nil.
  - apply Forall_cons; [constructor|]. apply Forall_cons; [constructor|]. apply Forall_nil.
Qed.

Lemma quotes_no : forall k s, ~ In QUOTE s -> s <> k -> ~ quotes k s.
Proof. intros k s H N [->|(a & ->)]; [easy|]. apply H. apply in_or_app. right. now left. Qed.

Lemma says_request : forall k r, ~ In k [bs "jsonrpc"; bs "id"; bs "method"; bs "params"] -> k <> bs "2.0" ->
  says k (JObj (request_object r)) ->
  says k (JStr (rq_method r)) \/ (exists s, rq_id r = IdStr s /\ says k (JStr s)) \/ (exists p, rq_params r = Some p /\ says k p).
Proof.
  intros k r Hk Hv H. inversion H as [| |l Hin|l v Hin Hs]; subst.
  - exfalso. apply Hk. unfold request_object in Hin.
    destruct (rq_params r); cbn in Hin |- *; intuition.
  - unfold request_object in Hin. rewrite map_app in Hin. apply in_app_iff in Hin as [[<-|[<-|[<-|[]]]]|Hin].
    + exfalso. inversion Hs as [s Q| | |]. subst. revert Q. apply quotes_no; [cbn; intuition discriminate|intro E; apply Hv; symmetry; exact E].
    + right. left. cbn [snd] in Hs. destruct (rq_id r) as [s|z|]; cbn in Hs; try solve [inversion Hs]. now exists s.
    + now left.
    + right. right. destruct (rq_params r) as [p|]; [|destruct Hin]. destruct Hin as [<-|[]]. now exists p.
Qed.

Lemma request_says : forall k r,
  says k (JStr (rq_method r)) \/ (exists s, rq_id r = IdStr s /\ says k (JStr s)) \/ (exists p, rq_params r = Some p /\ says k p) ->
  says k (JObj (request_object r)).
Proof.
  intros k r [H|[(s & E & H)|(p & E & H)]]; unfold request_object.
  - apply says_val with (JStr (rq_method r)); [|exact H]. right. right. now left.
  - rewrite E. apply says_val with (JStr s); [|exact H]. right. now left.
  - rewrite E. apply says_val with p; [|exact H]. right. right. right. now left.
Qed.

Lemma silent_request_iff : forall r, silent_request r <-> silent (JObj (request_object r)).
Proof.
  intro r. split.
  - intros ((M1 & M2) & I1 & P1). split; intro H; apply says_request in H; try discriminate;
      try (cbn; intuition discriminate).
    + destruct H as [H|[(s & E & H)|(p & E & H)]]; [easy|destruct (I1 s E); easy|destruct (P1 p E); easy].
    + destruct H as [H|[(s & E & H)|(p & E & H)]]; [easy|destruct (I1 s E); easy|destruct (P1 p E); easy].
  - intros [H1 H2]. split; [|split].
    + split; intro H; [apply H1|apply H2]; apply request_says; now left.
    + intros s E. split; intro H; [apply H1|apply H2]; apply request_says; right; left; now exists s.
    + intros p E. split; intro H; [apply H1|apply H2]; apply request_says; right; right; now exists p.
Qed.

Lemma silent_notification_obj : forall n, silent_notification n -> silent (JObj (notification_object n)).
Proof.
  intros n ((M1 & M2) & P1).
  assert (forall k, ~ In k [bs "jsonrpc"; bs "method"; bs "params"] -> k <> bs "2.0" ->
    ~ says k (JStr (nt_method n)) -> (forall p, nt_params n = Some p -> ~ says k p) -> ~ says k (JObj (notification_object n))) as A.
  { intros k Hk Hv Hm Hp H. inversion H as [| |l Hin|l v Hin Hs]; subst.
    - apply Hk. unfold notification_object in Hin. destruct (nt_params n); cbn in Hin |- *; intuition.
    - unfold notification_object in Hin. rewrite map_app in Hin. apply in_app_iff in Hin as [[<-|[<-|[]]]|Hin].
      + inversion Hs as [s Q| | |]. subst. revert Q. apply quotes_no; [cbn; intuition discriminate|intro E; apply Hv; symmetry; exact E].
      + easy.
      + destruct (nt_params n) as [p|]; [|destruct Hin]. destruct Hin as [<-|[]]. now apply (Hp p). }
  split; apply A; try discriminate; try (cbn; intuition discriminate); try assumption; intros p E; now apply P1.
Qed.

Lemma mistaken_request : forall r, clean_request r -> silent_request r -> mistaken (ser_request r) = false.
Proof.
  intros r ((H1 & H2 & H3 & H4 & H5) & C1 & C2) S. rewrite request_text by assumption.
  apply mistaken_silent; [now apply ok_request|]. now apply silent_request_iff.
Qed.

Lemma mistaken_request_iff : forall r, clean_request r -> mistaken (ser_request r) = true <-> ~ silent_request r.
Proof.
  intros r ((H1 & H2 & H3 & H4 & H5) & C1 & C2). rewrite request_text by assumption.
  rewrite mistaken_iff by now apply ok_request. now rewrite silent_request_iff.
Qed.

Lemma mistaken_notification : forall n, clean_notification n -> silent_notification n ->
  mistaken (ser_notification n) = false.
Proof.
  intros n ((H1 & H2 & H3) & C1) S. rewrite notification_text by assumption.
  apply mistaken_silent; [now apply ok_notification|]. now apply silent_notification_obj.
Qed.

Lemma mistaken_process : forall m e, mistaken m = false -> shm_process m e = shm_request m e.
Proof. intros m e H. unfold shm_process. unfold mistaken in H. now rewrite H. Qed.

Lemma mistaken_process_true : forall m e, mistaken m = true ->
  shm_process m e = shm_resolve (snd (deser_response response0 m)) e.
Proof. intros m e H. unfold shm_process. unfold mistaken in H. rewrite H. reflexivity. Qed.

(** What becomes of well-formed messages. *)
Lemma process_request : forall r e, clean_request r -> silent_request r -> hm_handler e = true ->
  shm_process (ser_request r) e = hset_work (hm_running e ++ [r]) (hm_got e) (hm_served e) (hm_notified e) e.
Proof.
  intros r e C S H. rewrite mistaken_process by now apply mistaken_request.
  destruct C as ((H1 & H2 & H3 & H4 & H5) & C1 & C2). unfold shm_request.
  rewrite request_contains_method, classify_request by assumption.
  rewrite request_roundtrip; [|assumption|assumption|apply H4|assumption]. now rewrite H.
Qed.

(** Without a request handler the request is passed on as a notification. *)
Lemma process_request_nohandler : forall r e, clean_request r -> silent_request r -> hm_handler e = false ->
  shm_process (ser_request r) e = shm_notification (ser_request r) e.
Proof.
  intros r e C S H. rewrite mistaken_process by now apply mistaken_request.
  destruct C as ((H1 & H2 & H3 & H4 & H5) & C1 & C2). unfold shm_request.
  rewrite request_contains_method, classify_request by assumption.
  rewrite request_roundtrip; [|assumption|assumption|apply H4|assumption]. now rewrite H.
Qed.

Lemma process_notification : forall n e, clean_notification n -> silent_notification n ->
  nt_method n <> bs "transport/disconnected" ->
  shm_process (ser_notification n) e = hset_work (hm_running e) (hm_got e) (hm_served e) (hm_notified e ++ [n]) e.
Proof.
  intros n e C S H. rewrite mistaken_process by now apply mistaken_notification.
  destruct C as ((H1 & H2 & H3) & C1). unfold shm_request.
  rewrite notification_contains_method, classify_notification by assumption.
  unfold shm_notification. rewrite notification_roundtrip; [|assumption|apply H2|assumption].
  destruct (beq (nt_method n) (bs "transport/disconnected")) eqn:B; [apply beq_eq in B; easy|reflexivity].
Qed.

Lemma process_notification_running : forall n e, clean_notification n -> silent_notification n ->
  shm_process (ser_notification n) e = shm_notification (ser_notification n) e.
Proof.
  intros n e C S. rewrite mistaken_process by now apply mistaken_notification.
  destruct C as ((H1 & H2 & H3) & C1). unfold shm_request.
  now rewrite notification_contains_method, classify_notification by assumption.
Qed.

Lemma response_mistaken : forall r, rs_result r <> None \/ rs_error r <> None -> mistaken (ser_response r) = true.
Proof.
  intros r H. unfold mistaken. rewrite ser_response_message. unfold rs_members, message.
  destruct (rs_result r) as [v|].
  - match goal with |- context[contains (bs """result""") ?t] => assert (contains (bs """result""") t = true) as -> end; [|reflexivity].
    cbn [opt_list]. match goal with |- contains ?p ?t = true => 
      change t with ((LBRACE :: join [COMMA] (map member_text ([(bs "jsonrpc", bs """2.0"""); (bs "id", ser_id (rs_id r))] ++ [(bs "result", ser v)] ++ opt_list (bs "error") (rs_error r))) ++ [RBRACE])) end.
    destruct (join_in [COMMA] (map member_text ([(bs "jsonrpc", bs """2.0"""); (bs "id", ser_id (rs_id r))] ++ [(bs "result", ser v)] ++ opt_list (bs "error") (rs_error r))) (member_text (bs "result", ser v))) as (a & b & ->).
    { apply in_map. apply in_or_app. right. apply in_or_app. left. now left. }
    change (LBRACE :: (a ++ member_text (bs "result", ser v) ++ b) ++ [RBRACE])
      with ([LBRACE] ++ (a ++ member_text (bs "result", ser v) ++ b) ++ [RBRACE]).
    apply contains_more, contains_more. apply (contains_app (bs """result""") [] (COLON :: ser v)).
  - destruct (rs_error r) as [v|]; [|now destruct H].
    match goal with |- context[(_ || contains (bs """error""") ?t)%bool] => assert (contains (bs """error""") t = true) as -> end; [|apply orb_true_r].
    cbn [opt_list]. 
    destruct (join_in [COMMA] (map member_text ([(bs "jsonrpc", bs """2.0"""); (bs "id", ser_id (rs_id r))] ++ [] ++ [(bs "error", ser v)])) (member_text (bs "error", ser v))) as (a & b & E).
    { apply in_map. apply in_or_app. right. now left. }
    match goal with |- contains _ (LBRACE :: ?j ++ _) = true => replace j with (a ++ member_text (bs "error", ser v) ++ b) by (symmetry; exact E) end.
    change (LBRACE :: (a ++ member_text (bs "error", ser v) ++ b) ++ [RBRACE])
      with ([LBRACE] ++ (a ++ member_text (bs "error", ser v) ++ b) ++ [RBRACE]).
    apply contains_more, contains_more. apply (contains_app (bs """error""") [] (COLON :: ser v)).
Qed.

Lemma process_response : forall r e, id_ok (rs_id r) -> good_body r ->
  shm_process (ser_response r) e = shm_resolve r e.
Proof.
  intros r e Hi (H1 & H2 & H3). rewrite mistaken_process_true by now apply response_mistaken.
  rewrite response_roundtrip by assumption. reflexivity.
Qed.

(** A request that says one of the words is never handled. *)
Lemma process_lost : forall r e, clean_request r -> ~ silent_request r ->
  shm_process (ser_request r) e = shm_resolve (snd (deser_response response0 (ser_request r))) e.
Proof. intros r e C S. apply mistaken_process_true. now apply mistaken_request_iff. Qed.

Lemma lost_id : forall r, good_request r -> rs_id (snd (deser_response response0 (ser_request r))) = rq_id r.
Proof.
  intros r (H1 & H2 & H3 & H4 & H5). pose proof (request_roundtrip r H1 H3 (proj1 H4) H5) as E.
  apply (f_equal (fun x => rq_id (snd x))) in E. cbn [snd] in E. rewrite <- E. unfold deser_request, deser_response.
  cbn [snd rs_id rq_id]. now destruct (read_value (bs "params") (ser_request r)) as [[]|].
Qed.
