(** Properties C49 and C50: the event stream. *)
From Coq Require Import Ascii String List Permutation Arith NArith ZArith Bool Lia ZifyBool ZifyNat ZifyN.
From Verif Require Import StrModel DoubleModel JsonModel JsonSpec JsonProofs RpcModel RpcSpec RouterModel RouterProofs
  MapModel MemModel AuthModel WwwModel GuardModel HttpModel HttpSpec SseModel SseSpec SseProofs SseText.
Import ListNotations.
Local Open Scope nat_scope.

(** C49: events whose payloads are single lines, written one after another and read at once or in
    reads that end where an event ends, are delivered in order, each once, unchanged. *)
Theorem C49_payloads : forall retry first (rest : list (list (bstr * bstr))),
  Forall (fun e => number (fst e) /\ one_line (snd e)) (first ++ concat rest) ->
  se_out (sse_connection retry (flat_map event_text first) (map (flat_map event_text) rest)) = map snd (first ++ concat rest).
Proof.
  intros retry first rest F.
  destruct (stream_contained (map (pair true) (first ++ concat rest)) _ _ retry (good_kept _ F) (whole_cut (first :: rest))) as [M _].
  exact (made_kept _ _ M).
Qed.
Print Assumptions C49_payloads.

(** C49, from the server's send functions to the client's handlers: whatever happened on the server,
    if all that was queued to a session are messages without line breaks in their names, then what a
    stream of the session has written reaches the client's handlers: the messages written, in order,
    each once, equal to those sent. *)
Theorem C49_end_to_end : forall os k n hd ms retry extra reads, let h := hrun os hstate0 in
  serves k n h = true -> (N.of_nat (length (queued n 0 os)) < two64)%N ->
  queued n 0 os = map message_text ms -> Forall sendable ms ->
  h_request hd <> None -> h_notification hd <> None ->
  cut_into (map (pair true) (wire_of k h)) (extra :: reads) ->
  exists ms', subseq ms' ms /\ map snd (wire_of k h) = map message_text ms' /\
    flat_map (fun p => fst (route hd p)) (se_out (sse_connection retry extra reads)) = map message_call ms'.
Proof. exact end_to_end. Qed.
Print Assumptions C49_end_to_end.

(** A stream whose lines end in CR LF, which other servers may send, is read like one whose lines end
    in LF. *)
Theorem C49_crlf : forall ls retry, Forall (fun l => ~ In (ascii_of_nat 10) l /\ forall q, l <> q ++ [ascii_of_nat 13]) ls ->
  sse_connection retry (flat_map (fun l => l ++ [ascii_of_nat 13; ascii_of_nat 10]) ls) [] = sse_connection retry (flat_map (fun l => l ++ [ascii_of_nat 10]) ls) [].
Proof. intros ls retry F. exact (crlf_parsed ls (sse0 retry) F). Qed.
Print Assumptions C49_crlf.
Example C49_crlf_ex : se_out (sse_connection 5 (flat_map (fun l => l ++ [CR; LF]) [bs "id: 1"; bs "data: x"; []]) []) = [bs "x"].
Proof. vm_compute. reflexivity. Qed.

(** C49 fails for line breaks: object keys are written unescaped. A notification with a line break in
    a key does not reach the client's handler. *)
Theorem C49_lost_refuted : exists n : notification,
  nt_method n <> [] /\ JsonSpec.plain (nt_method n) /\ (forall v, nt_params n = Some v -> ok v) /\
  forall retry hd, h_notification hd <> None ->
  ~ In (CNotification n) (flat_map (fun p => fst (route hd p)) (se_out (sse_connection retry (event_text (bs "1", ser_notification n)) []))).
Proof.
  set (n := {| nt_method := bs "m"; nt_params := Some (JObj [([LF; LF], JNull)]) |}).
  exists n. split; [discriminate|]. split; [now apply plainb_plain|].
  split; [intros v E; cbn in E; injection E as <-; apply okb_ok; reflexivity|].
  intros retry hd Hf.
  assert (E : se_out (sse_connection retry (event_text (bs "1", ser_notification n)) []) =
              [bs "{""jsonrpc"":""2.0"",""method"":""m"",""params"":{"""]) by (vm_compute; reflexivity).
  rewrite E. cbn [flat_map]. rewrite app_nil_r. intro I.
  set (t := bs "{""jsonrpc"":""2.0"",""method"":""m"",""params"":{""") in *.
  assert (Ht : has_top_key (bs "id") t = false) by (vm_compute; reflexivity).
  assert (Hd : fst (deser_notification notification0 t) = false) by (vm_compute; reflexivity).
  assert (Hk : (has_top_key (bs "result") t || has_top_key (bs "error") t)%bool = false) by (vm_compute; reflexivity).
  unfold route in I. destruct (deser_response response0 t) as [ok r]. rewrite Hk in I. cbn [andb] in I.
  destruct (deser_request request0 t) as [okr q]. rewrite Ht, andb_false_r in I. cbn [andb] in I.
  assert (K : In (CNotification n) (fst (route_notification hd t))) by (destruct (h_request hd); exact I).
  unfold route_notification in K. destruct (deser_notification notification0 t) as [okn m]. cbn [fst] in Hd. subst okn.
  destruct (h_error hd); cbn [fst In] in K; [destruct K as [K|[]]; discriminate|destruct K].
Qed.
Print Assumptions C49_lost_refuted.

(** C49 fails for hostile keys: one notification makes the client handle another that was never
    sent. *)
Theorem C49_injection_refuted : exists (n evil : notification), n <> evil /\
  forall retry hd, h_notification hd <> None ->
  In (CNotification evil) (flat_map (fun p => fst (route hd p)) (se_out (sse_connection retry (event_text (bs "1", ser_notification n)) []))).
Proof.
  set (evil := {| nt_method := bs "evil"; nt_params := None |}).
  set (n := {| nt_method := bs "m"; nt_params := Some (JObj [(LF :: LF :: bs "data:{""method"":""evil""}" ++ [LF; LF], JNull)]) |}).
  exists n, evil. split; [discriminate|]. intros retry hd Hf.
  set (t := bs "{""method"":""evil""}").
  assert (E : exists a b, se_out (sse_connection retry (event_text (bs "1", ser_notification n)) []) = a ++ t :: b).
  { exists [bs "{""jsonrpc"":""2.0"",""method"":""m"",""params"":{"""], []. vm_compute. reflexivity. }
  destruct E as (a & b & ->). rewrite flat_map_app. apply in_app_iff. right. cbn [flat_map]. apply in_app_iff. left.
  assert (Ht : has_top_key (bs "id") t = false) by (vm_compute; reflexivity).
  assert (Hd : deser_notification notification0 t = (true, evil)) by (vm_compute; reflexivity).
  assert (Hk : (has_top_key (bs "result") t || has_top_key (bs "error") t)%bool = false) by (vm_compute; reflexivity).
  unfold route. destruct (deser_response response0 t) as [ok r]. rewrite Hk. cbn [andb].
  destruct (deser_request request0 t) as [okr q]. rewrite Ht, andb_false_r. cbn [andb].
  assert (K : In (CNotification evil) (fst (route_notification hd t))).
  { unfold route_notification. rewrite Hd. destruct (h_notification hd); [now left|now destruct Hf]. }
  destruct (h_request hd); exact K.
Qed.
Print Assumptions C49_injection_refuted.

Example C49_ex :
  let es := [(bs "1", bs "{""a"": 1}"); (bs "2", bs "x"); (bs "30", bs " data: ")] in
  Forall (fun e => number (fst e) /\ one_line (snd e)) es /\
  se_out (sse_connection 5 (flat_map event_text es) []) = [bs "{""a"": 1}"; bs "x"; bs " data: "].
Proof.
  cbv zeta. split; [|vm_compute; reflexivity].
  repeat (constructor; [split; [repeat constructor; cbn; lia|split; [discriminate|split; [cbn; intro H; decompose [or] H; try contradiction; discriminate|
    intros q E; apply (f_equal (@rev ascii)) in E; rewrite rev_app_distr in E; cbn in E; discriminate]]]|]).
  constructor.
Qed.

(** C50: the reads may end anywhere except inside a data line. *)
Theorem C50_partial : forall retry (es : list (bstr * bstr)) extra reads,
  Forall (fun e => number (fst e) /\ one_line (snd e)) es -> cut_into (map (pair true) es) (extra :: reads) ->
  se_out (sse_connection retry extra reads) = map snd es.
Proof.
  intros retry es extra reads F C. destruct (stream_contained _ extra reads retry (good_kept _ F) C) as [M _].
  exact (made_kept _ _ M).
Qed.
Print Assumptions C50_partial.

(** C50, for reads that end anywhere: an event whose data line is not cut is delivered unchanged and in
    its place; every other event leads to at most one payload, in its place, and nothing of it is left
    behind. *)
Theorem C50_contained_partial : forall retry (es : list (bool * (bstr * bstr))) extra reads,
  Forall (fun x : bool * (bstr * bstr) => number (fst (snd x)) /\ if fst x then one_line (snd (snd x)) else breakless (snd (snd x))) es ->
  cut_into es (extra :: reads) ->
  (exists ds, Forall2 (fun (x : bool * (bstr * bstr)) (d : list bstr) => length d <= 1 /\ (fst x = true -> d = [snd (snd x)])) es ds /\
     se_out (sse_connection retry extra reads) = concat ds) /\
  se_pending (sse_connection retry extra reads) = [].
Proof. intros retry es extra reads F C. exact (stream_contained es extra reads retry F C). Qed.
Print Assumptions C50_contained_partial.

(** The two theorems speak of all reads: reads that are pieces of the events are reads of the stream,
    and any reads of the stream are pieces of events that may be cut. *)
Theorem C50_reads : forall (es : list (bool * (bstr * bstr))) reads,
  cut_into es reads -> concat reads = flat_map event_text (map snd es).
Proof. exact cut_text. Qed.
Print Assumptions C50_reads.
Theorem C50_any_reads : forall (es : list (bstr * bstr)) reads,
  concat reads = flat_map event_text es -> cut_into (map (pair false) es) reads.
Proof. exact any_cut. Qed.
Print Assumptions C50_any_reads.

(** C50 fails: cut inside the data line, a payload is cut short, or not delivered at all. *)
Theorem C50_refuted : exists (e : bstr * bstr) reads1 reads2 reads3,
  number (fst e) /\ one_line (snd e) /\
  concat reads1 = event_text e /\ concat reads2 = event_text e /\ concat reads3 = event_text e /\
  forall retry,
    se_out (sse_connection retry [] reads1) = [snd e] /\
    se_out (sse_connection retry [] reads2) <> [snd e] /\
    se_out (sse_connection retry [] reads3) = [].
Proof.
  exists (bs "1", bs "{""jsonrpc"":""2.0"",""method"":""x""}").
  exists [event_text (bs "1", bs "{""jsonrpc"":""2.0"",""method"":""x""}")].
  exists [firstn 20 (event_text (bs "1", bs "{""jsonrpc"":""2.0"",""method"":""x""}")); skipn 20 (event_text (bs "1", bs "{""jsonrpc"":""2.0"",""method"":""x""}"))].
  exists [firstn 8 (event_text (bs "1", bs "{""jsonrpc"":""2.0"",""method"":""x""}")); skipn 8 (event_text (bs "1", bs "{""jsonrpc"":""2.0"",""method"":""x""}"))].
  split; [repeat constructor; cbn; lia|].
  split; [split; [discriminate|split; [cbn; intro H; decompose [or] H; try contradiction; discriminate|
    intros q E; apply (f_equal (@rev ascii)) in E; rewrite rev_app_distr in E; cbn in E; discriminate]]|].
  split; [reflexivity|]. split; [reflexivity|]. split; [reflexivity|].
  intro retry. split; [vm_compute; reflexivity|]. split; [vm_compute; discriminate|vm_compute; reflexivity].
Qed.
Print Assumptions C50_refuted.

(** C50 fails: cut in front of the text data: inside a string, the notification still reaches the
    handler but with another content. *)
Theorem C50_altered_refuted : exists (n m : notification) r1 r2,
  JsonSpec.plain (nt_method n) /\ (forall v, nt_params n = Some v -> ok v) /\ n <> m /\
  r1 ++ r2 = event_text (bs "1", ser_notification n) /\
  forall retry hd, h_notification hd <> None ->
  flat_map (fun p => fst (route hd p)) (se_out (sse_connection retry [] [r1; r2])) = [CNotification m].
Proof.
  set (n := {| nt_method := bs "m"; nt_params := Some (JStr (bs "rm old data: new")) |}).
  set (m := {| nt_method := bs "m"; nt_params := Some (JStr (bs "rm old " ++ [LF] ++ bs "new")) |}).
  exists n, m, (firstn 59 (event_text (bs "1", ser_notification n))), (skipn 59 (event_text (bs "1", ser_notification n))).
  split; [now apply plainb_plain|]. split; [intros v E; cbn in E; injection E as <-; constructor|].
  split; [discriminate|]. split; [apply firstn_skipn|]. intros retry hd Hf.
  set (t := bs "{""jsonrpc"":""2.0"",""method"":""m"",""params"":""rm old " ++ [LF] ++ bs "new""}").
  assert (E : se_out (sse_connection retry [] [firstn 59 (event_text (bs "1", ser_notification n)); skipn 59 (event_text (bs "1", ser_notification n))]) = [t])
    by (vm_compute; reflexivity).
  rewrite E. cbn [flat_map]. rewrite app_nil_r.
  assert (Ht : has_top_key (bs "id") t = false) by (vm_compute; reflexivity).
  assert (Hd : deser_notification notification0 t = (true, m)) by (vm_compute; reflexivity).
  assert (Hk : (has_top_key (bs "result") t || has_top_key (bs "error") t)%bool = false) by (vm_compute; reflexivity).
  unfold route. destruct (deser_response response0 t) as [ok r]. rewrite Hk. cbn [andb].
  destruct (deser_request request0 t) as [okr q]. rewrite Ht, andb_false_r. cbn [andb].
  assert (K : fst (route_notification hd t) = [CNotification m]).
  { unfold route_notification. rewrite Hd. destruct (h_notification hd); [reflexivity|now destruct Hf]. }
  destruct (h_request hd); exact K.
Qed.
Print Assumptions C50_altered_refuted.

Example C50_ex :
  let es := [(bs "1", bs "ab"); (bs "2", bs "cd")] in
  cut_into (map (pair true) es) [bs "i"; bs "d: 1" ++ [LF] ++ bs "data: ab"; [LF]; [LF] ++ bs "id:"; bs " 2" ++ [LF]; bs "data: cd" ++ [LF; LF]] /\
  se_out (sse_connection 5 (bs "i") [bs "d: 1" ++ [LF] ++ bs "data: ab"; [LF]; [LF] ++ bs "id:"; bs " 2" ++ [LF]; bs "data: cd" ++ [LF; LF]]) = [bs "ab"; bs "cd"].
Proof.
  cbv zeta. split; [|vm_compute; reflexivity].
  exists [[bs "i"]; [bs "d"; bs ":"; bs " "; bs "1"; [LF]; bs "data: ab"]; [[LF]]; [[LF]; bs "i"; bs "d"; bs ":"]; [bs " "; bs "2"; [LF]]; [bs "data: cd"; [LF]; [LF]]].
  split; reflexivity.
Qed.
