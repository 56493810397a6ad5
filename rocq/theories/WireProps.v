(** Property C64: wire composition. *)
From Coq Require Import Ascii String List Permutation Arith NArith ZArith Bool Lia ZifyBool ZifyNat ZifyN.
From Verif Require Import StrModel StrProofs FramerModel FramerProofs DoubleModel JsonModel JsonSpec JsonProofs RpcModel RpcSpec RpcProofs
  RouterModel RouterProofs PendModel WqModel StdioModel StdioProofs WireSpec WireProofs.
Import ListNotations.
Local Open Scope nat_scope.

(** C64: messages serialized, framed, sent one after another and cut into reads anywhere arrive as the
    same messages, in order, each once: every text decodes to its message, and the receiver's router
    makes exactly the calls the messages ask for. *)
Theorem C64_wire_partial : forall (ms : list wire) (max : N) (chunks : list bstr) (h : handlers),
  Forall wire_ok ms -> Forall (fits max) ms -> listening h ->
  concat chunks = concat (map (fun m => encode (wire_text m)) ms) ->
  exists texts, on_reads max reader0 chunks = Some (map Delivered texts, reader0) /\
    Forall2 wire_read ms texts /\ calls_of h (map Delivered texts) = map wire_call ms.
Proof.
  intros ms max chunks h W F L E. exists (map wire_text ms). split; [|split].
  - apply frames_any_chunking; [now apply fits_texts|]. now rewrite map_map.
  - clear - W. induction W; constructor; auto using wire_reads.
  - now apply calls_all.
Qed.
Print Assumptions C64_wire_partial.

(** C64 from one transport to another: whatever happened at the sender, if it accepted frames for these
    messages then what it has written so far, cut into reads anywhere, makes the receiver act on a
    first part of them, in order, each once, and on nothing else; on all of them if all was written. *)
Theorem C64_stdio_partial : forall now ms0 cap vs (ms : list wire) (max : N) (chunks : list bstr) (h : handlers),
  let w := st_wq (stdio_run (stdio_start now ms0 cap) vs) in
  w_accepted w = map (fun m => encode (wire_text m)) ms -> concat chunks = w_wrote w ->
  Forall wire_ok ms -> Forall (fits max) ms -> listening h ->
  exists ms1 ms2 evs r, ms = ms1 ++ ms2 /\ on_reads max reader0 chunks = Some (evs, r) /\ rx_connected r = true /\
    evs = map (fun m => Delivered (wire_text m)) ms1 /\ calls_of h evs = map wire_call ms1 /\
    (w_wrote w = concat (w_accepted w) -> ms2 = []).
Proof.
  intros now ms0 cap vs ms max chunks h w A E W F L.
  destruct (stdio_written_prefix now ms0 cap vs) as [rest P]. fold w in P. rewrite A, <- E, <- (map_map wire_text encode) in P.
  destruct (prefix_any_chunking (map wire_text ms) max chunks rest (fits_texts max ms F) P) as (ps1 & ps2 & r & S1 & R & Cn & Q & Z).
  destruct (map_split _ _ _ _ _ _ S1) as (ms1 & ms2 & -> & <- & <-). exists ms1, ms2, (map Delivered (map wire_text ms1)), r.
  split; [reflexivity|]. split; [exact R|]. split; [exact Cn|]. split; [now rewrite map_map|].
  split; [apply Forall_app in W; now apply calls_all|]. intro Hw. rewrite <- E in Hw.
  rewrite Hw, A, <- (map_map wire_text encode), !map_app, concat_app in Q. apply app_inv_head in Q.
  destruct ms2 as [|m ms2]; [reflexivity|]. cbn [map concat] in Q, Z. rewrite <- Q, app_length in Z. lia.
Qed.
Print Assumptions C64_stdio_partial.

(** C64 fails for a response whose result uses the key error somewhere inside. *)
Theorem C64_refuted : exists (r : response) (r' : response) chunks,
  id_ok (rs_id r) /\ (forall v, rs_result r = Some v -> ok v) /\ rs_error r = None /\ r <> r' /\
  concat chunks = encode (ser_response r) /\ forall h,
  exists evs, on_reads 1048576 reader0 chunks = Some (evs, reader0) /\ calls_of h evs = [CResolve r'].
Proof.
  set (r := {| rs_id := IdInt 1; rs_result := Some (JObj [(bs "error", JBool false)]); rs_error := None |}).
  set (r' := {| rs_id := IdInt 1; rs_result := Some (JObj [(bs "error", JBool false)]); rs_error := Some (JBool false) |}).
  exists r, r', [encode (ser_response r)]. split; [cbn; lia|].
  split; [intros v E; cbn in E; injection E as <-; apply okb_ok; reflexivity|]. split; [reflexivity|].
  split; [discriminate|]. split; [apply app_nil_r|]. intro h. exists [Delivered (ser_response r)]. split; [vm_compute; reflexivity|].
  unfold calls_of. cbn [flat_map]. rewrite app_nil_r.
  assert (D : deser_response response0 (ser_response r) = (true, r')) by (vm_compute; reflexivity).
  assert (K : (has_top_key (bs "result") (ser_response r) || has_top_key (bs "error") (ser_response r))%bool = true) by (vm_compute; reflexivity).
  unfold route. rewrite D, K. reflexivity.
Qed.
Print Assumptions C64_refuted.

Example C64_ex :
  let q := WRequest {| rq_id := IdInt 7; rq_method := bs "tools/call"; rq_params := Some (JObj [(bs "n", JInt 1)]) |} in
  let n := WNotification {| nt_method := bs "notifications/x"; nt_params := None |} in
  let s := WResponse {| rs_id := IdStr (bs "a"); rs_result := Some (JStr [LF; """"%char]); rs_error := None |} in
  Forall wire_ok [q; n; s] /\ Forall (fits 1048576) [q; n; s].
Proof.
  cbv zeta. split.
  - constructor; [|constructor; [|constructor; [|constructor]]]; cbn [wire_ok rq_id rq_method rq_params nt_method nt_params rs_id rs_result rs_error].
    + split; [cbn; lia|]. split; [discriminate|]. split; [discriminate|]. split; [now apply plainb_plain|].
      intros p E; injection E as <-; apply okb_ok; reflexivity.
    + split; [discriminate|]. split; [now apply plainb_plain|discriminate].
    + split; [cbn; intros [H|[]]; discriminate|]. split; [intros s E; injection E as <-; now apply plainb_plain|].
      split; [left; discriminate|]. split; [|discriminate]. intros v E; injection E as <-. split; [apply okb_ok; reflexivity|].
      intro K; inversion K.
  - repeat constructor; vm_compute; try reflexivity; discriminate.
Qed.
