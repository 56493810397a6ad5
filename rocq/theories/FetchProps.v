(** C204: what the error handler learns of a token fetch, and what it does to it. *)
From Coq Require Import Ascii String List Arith NArith ZArith Bool Lia.
From Verif Require Import StrModel StrProofs RpcModel OauthModel DiscoModel FetchModel FetchSpec FetchProofs.
Import ListNotations.
Local Open Scope nat_scope.

(** An operation fails: no token, and the handler is told the reason. It is told of this one failure twice. *)
Theorem C204_failed_partial : forall h url n why, calm h -> failed url n why ->
  exists told, ready h url n = (NoToken, told) /\
    errors told = [bs "HTTP coPostFormUrlencoded failed: " ++ why; bs "OAuth2: empty response from token endpoint"].
Proof. exact ready_failed. Qed.
Print Assumptions C204_failed_partial.

(** All operations succeed. A reply with no token, or an empty one, is reported once; one with a token is not reported as an error. *)
Theorem C204_reached_partial : forall h url n, calm h -> reached url n ->
  exists told, snd (ready h url n) = told /\
  match na_body n with
  | [] => fst (ready h url n) = NoToken /\ errors told = [bs "OAuth2: empty response from token endpoint"]
  | body =>
      match string_field body (bs "access_token") with
      | Some t => fst (ready h url n) = Token t (lifetime body) /\ errors told = []
      | None => fst (ready h url n) = NoToken /\ errors told = [bs "OAuth2: token endpoint response missing access_token"]
      end
  end.
Proof.
  intros h url n C R. destruct (ready_reached h url n C R) as (m & Z & H). eexists. split; [reflexivity|].
  destruct (na_body n) as [|c r]; [rewrite H; cbn [fst snd]; rewrite errors_app, Z; split; reflexivity|].
  cbv beta iota zeta in *. destruct (string_field (c :: r) (bs "access_token")) as [t|]; rewrite H; cbn [fst snd]; rewrite ?errors_app, ?Z; split; reflexivity.
Qed.
Print Assumptions C204_reached_partial.

(** Whether the handler is set makes no difference to the result, if it does not throw. *)
Theorem C204_same_partial : forall h url n, calm h -> fst (ready h url n) = fst (ready None url n).
Proof. exact same. Qed.
Print Assumptions C204_same_partial.

(** An exception that reaches the caller is one that the handler threw when told of an error; nothing on the network causes one. *)
Theorem C204_escapes : forall h url n w told, ready h url n = (Threw w, told) ->
  exists f before t, h = Some f /\ told = before ++ [t] /\ f before t = Some w /\ is_debug t = false.
Proof. exact escapes. Qed.
Print Assumptions C204_escapes.

(** But the error handler is also told what is no error, and that in every fetch that succeeds: four or five times at least. *)
Theorem C204_noise_refuted : forall h url n, calm h -> reached url n ->
  (if secure url then 5 else 4) <= length (snd (ready h url n)).
Proof. exact told_always. Qed.
Print Assumptions C204_noise_refuted.

(** And a handler that throws, even when told what is no error, loses the token that the endpoint issues. *)
Definition issue : net :=
  {| na_resolve := None; na_verify := None; na_sni := true; na_connect := None; na_handshake := None; na_write := None; na_read := None;
     na_body := QUOTE :: bs "access_token" ++ [QUOTE; ":"%char; QUOTE] ++ bs "abc" ++ [QUOTE] |}.
Theorem C204_throws_refuted : exists f url n t life,
  reached url n /\ fst (ready None url n) = Token t life /\
  (forall told x, is_debug x = false -> f told x = None) /\
  fst (ready (Some f) url n) = NoToken.
Proof.
  exists (fun _ x => if is_debug x then Some (bs "no debug output, please") else None), (bs "https://auth.example/token"), issue, (bs "abc"), 3600%Z.
  split; [repeat constructor|]. split; [reflexivity|]. split; [intros _ x ->; reflexivity|]. reflexivity.
Qed.
Print Assumptions C204_throws_refuted.

(** Cases that meet the hypotheses. *)
Example some_fetch : let h := Some (fun _ _ => None) in let url := bs "https://auth.example/token" in
  calm h /\ reached url issue /\ fst (ready h url issue) = Token (bs "abc") 3600 /\ length (snd (ready h url issue)) = 5 /\
  failed url {| na_resolve := None; na_verify := Some None; na_sni := false; na_connect := None; na_handshake := Some (bs "bad certificate"); na_write := Some (bs "x"); na_read := None; na_body := [] |} (bs "bad certificate").
Proof.
  cbv zeta. split; [eexists; split; reflexivity|]. split; [repeat constructor|]. split; [reflexivity|]. split; [reflexivity|].
  exists [None; None], [Some (bs "x"); None]. split; [reflexivity|repeat constructor].
Qed.
Example some_escape : exists told, ready (Some (fun _ x => if is_debug x then None else Some (bs "boom"))) (bs "http://auth.example") 
  {| na_resolve := Some (bs "no such host"); na_verify := None; na_sni := true; na_connect := None; na_handshake := None; na_write := None; na_read := None; na_body := [] |} = (Threw (bs "boom"), told).
Proof. eexists. reflexivity. Qed.
