(** C184: reports of failed token fetches (src/mcp/auth/OAuth2ClientCredentialsAuth.cpp). *)
From Coq Require Import Ascii String List Arith NArith ZArith Bool Lia.
From Verif Require Import StrModel StrProofs DoubleModel JsonModel JsonSpec JsonProofs LayoutSpec LayoutProofs
  OauthModel OauthSpec OauthProofs OauthProps OfailSpec.
Import ListNotations.
Local Open Scope nat_scope.

Lemma errors_run : forall c es s, ~ In ONothing (snd (orun c es s)) -> ok_errors (fst (orun c es s)) = ok_errors s ++ flat_map failure es.
Proof.
  intros c es. induction es as [|e es IH]; intros s P; [cbn; now rewrite app_nil_r|]. cbn [orun flat_map] in *.
  destruct (ostep c e s) as [s1 o] eqn:E. specialize (IH s1). destruct (orun c es s1) as [s2 os]. cbn [fst snd] in *.
  rewrite IH by (intro H; apply P; now right). rewrite app_assoc. f_equal.
  destruct e as [now|r now]; cbn [ostep] in E.
  - destruct (cached_ok c now s); injection E as <- <-; cbn; now rewrite app_nil_r.
  - destruct (ok_waiting s) eqn:W; [injection E as <- <-; destruct P; now left|]. injection E as <- _. unfold on_reply, failure.
    destruct r as [|x r]; [reflexivity|]. destruct (string_field (x :: r) (bs "access_token")); [now rewrite app_nil_r|reflexivity].
Qed.

(** C184: in every history of overlapping calls, each reply in which no token is found is reported once,
    in order, and nothing else is. *)
Theorem C184_reported_partial : forall c es, possible c es ->
  ok_errors (fst (orun c es oauth0)) = flat_map failure es.
Proof. intros c es P. now rewrite errors_run. Qed.
Print Assumptions C184_reported_partial.

(** C184: of JSON replies, in any layout in which no value mentions the name: one without the member is
    reported; one whose member is a string is used and not reported. *)
Theorem C184_documents_partial : forall c es l doc now, possible c (es ++ [OReply doc now]) ->
  writes (JObj l) doc -> unmentioned (bs "access_token") l -> ~ In "\"%char doc ->
  let s := fst (orun c es oauth0) in let s' := fst (orun c (es ++ [OReply doc now]) oauth0) in
  match obj_get (bs "access_token") l with
  | None => ok_errors s' = ok_errors s ++ [NONE_IN_IT] /\ oauth_header s' = oauth_header s
  | Some (JStr t) => ok_errors s' = ok_errors s /\ (t <> [] -> oauth_header s' = Some (bs "Bearer " ++ t))
  | _ => True
  end.
Proof.
  intros c es l doc now P W U B. cbv zeta.
  assert (possible c es) as P'.
  { intro H. apply P. clear - H. revert H. generalize oauth0. induction es as [|e es IH]; intros s H; [destruct H|]. cbn [orun List.app] in *.
    destruct (ostep c e s) as [s1 o]. specialize (IH s1). destruct (orun c es s1), (orun c (es ++ [OReply doc now]) s1). cbn [snd] in *.
    destruct H as [H|H]; [now left|right; auto]. }
  assert (doc <> []) as D by (intros ->; inversion W).
  pose proof (C87_token_partial l doc W U) as T.
  pose proof (C184_reported_partial c _ P) as E. rewrite flat_map_app in E. rewrite E, (C184_reported_partial c es P').
  destruct (obj_get (bs "access_token") l) as [[| | | |t| |]|] eqn:G; try exact I.
  - specialize (T B). split.
    + cbn [flat_map failure]. destruct doc; [contradiction|]. rewrite T. now rewrite ?app_nil_r.
    + intro N. now apply C86_replaced_partial.
  - split; [cbn [flat_map failure]; destruct doc; [contradiction|]; now rewrite T|].
    rewrite orun_app. cbn [fst orun]. set (s := fst (orun c es oauth0)). cbn [ostep]. destruct (ok_waiting s); [reflexivity|].
    unfold on_reply. destruct doc; [contradiction|]. rewrite T. reflexivity.
Qed.
Print Assumptions C184_documents_partial.

(** C184 fails for an empty token: there is nothing to send, and nobody is told. *)
Theorem C184_silent_refuted : exists c es l doc now, possible c (es ++ [OReply doc now]) /\
  writes (JObj l) doc /\ obj_get (bs "access_token") l = Some (JStr []) /\
  oauth_header (fst (orun c (es ++ [OReply doc now]) oauth0)) = None /\
  ok_errors (fst (orun c (es ++ [OReply doc now]) oauth0)) = [].
Proof.
  exists demo, [OCall 0], [(bs "access_token", JStr [])], (ser (JObj [(bs "access_token", JStr [])])), 1%Z.
  split; [unfold possible; vm_compute; intuition discriminate|].
  split; [apply writes_ser; now apply okb_ok|]. vm_compute. auto.
Qed.
Print Assumptions C184_silent_refuted.

(** Two calls at once; the endpoint fails, then refuses, then answers. *)
Example C184_ex :
  let es := [OCall 0; OCall 1; OReply [] 2; OReply (bs "{""error"":""invalid_client""}") 3; OCall 4; OReply (bs "{""access_token"":""abc""}") 5] in
  possible demo es /\ flat_map failure es = [NOTHING_CAME; NONE_IN_IT] /\
  oauth_header (fst (orun demo es oauth0)) = Some (bs "Bearer abc").
Proof. split; [unfold possible; vm_compute; intuition discriminate|]. vm_compute. auto. Qed.
