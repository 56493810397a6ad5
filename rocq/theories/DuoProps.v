(** Property C84: requests between two connected processes. *)
From Coq Require Import Ascii String List Permutation Arith NArith ZArith Bool Lia ZifyBool ZifyNat ZifyN.
From Verif Require Import StrModel StrProofs FramerModel FramerProofs DoubleModel JsonModel JsonSpec JsonProofs RpcModel RpcSpec RpcProofs
  RouterModel RouterProofs MapModel MapProofs MemModel PendModel PendProofs WqModel WqProofs StdioModel StdioSpec StdioProofs WireSpec WireProofs
  DuoModel DuoSpec DuoProofs DuoInv.
Import ListNotations.
Local Open Scope nat_scope.

(** C84: two processes connected by pipes send each other requests and notifications, in any
    interleaving, with any cutting of the bytes. If a future completes, it holds what the other side's
    handler returned for this very request, or says that the request timed out, that the transport was
    closed or that it was not connected. *)
Theorem C84_own_answer_partial : forall u es b t o, Forall proper es -> (forall c, small (peer u (duo_run u es) c)) ->
  let s := peer u (duo_run u es) b in
  NoDup (keys_used s) -> In (t, o) (pt_done (st_tab s)) ->
  exists k r, In (t, k) (pt_keys (st_tab s)) /\ o = Some r /\
    ((exists rq dl h f, In (t, (rq, dl)) (st_reg s) /\ handled_with u es (negb b) h (ser_request rq) /\ h_request h = Some f /\
        r = {| rs_id := rq_id rq;
               rs_result := match f rq with HReturn x => rs_result x | _ => None end;
               rs_error := match f rq with
                           | HReturn x => rs_error x
                           | HNull => Some (JObj [(bs "code", JInt (-32603)); (bs "message", JStr (bs "Null response from handler"))])
                           | HThrow what => Some (JObj [(bs "code", JInt (-32603)); (bs "message", JStr what)])
                           end |}) \/
     r = failure k (bs "Request timeout") \/ r = failure k (bs "Transport closed") \/ r = failure k (bs "Transport not connected")).
Proof. exact own_answer. Qed.
Print Assumptions C84_own_answer_partial.

(** C84, the other half: what the router of one side does is what the other side asked for: the
    messages it queued, in order, each at most once, unchanged. *)
Theorem C84_calls_partial : forall u es b, Forall proper es -> (forall c, small (peer u (duo_run u es) c)) ->
  (forall h, In (DHandle b h) es -> listening h) ->
  exists ms1 ms2, w_accepted (st_wq (peer u (duo_run u es) (negb b))) = map (fun m => encode (wire_text m)) (ms1 ++ ms2) /\
    calls_made (sd_steps (duo_run u es b)) = map wire_call ms1.
Proof. exact only_calls. Qed.
Print Assumptions C84_calls_partial.

(** A complete exchange: a request without an id, two reads each way. *)
Definition ex_setup : bool -> setup := fun _ => {| su_now := 0; su_timeout := 30000; su_cap := 2097152 |}.
Definition ex_hand : handlers :=
  {| h_request := Some (fun r => HReturn {| rs_id := IdNull; rs_result := Some (JStr (rq_method r)); rs_error := None |});
     h_notification := Some (fun _ => true); h_error := false |}.
Definition ex_history : list dev :=
  [DLocal true (SBegin {| rq_id := IdNull; rq_method := bs "ping"; rq_params := None |});
   DLocal true (SRegister 0); DLocal true (SEnqueue 0);
   DLocal true (SWriter WLoop); DLocal true (SWriter WPop); DLocal true (SWriter (WPut 30));
   DRead false 10; DRead false 100; DLocal true (SWriter (WPut 38)); DRead false 50;
   DHandle false ex_hand;
   DLocal false (SWriter WLoop); DLocal false (SWriter WPop); DLocal false (SWriter (WPut 20)); DRead true 9;
   DLocal false (SWriter (WPut 48)); DRead true 999; DHandle true ex_hand].

Example C84_ex :
  let s := peer ex_setup (duo_run ex_setup ex_history) true in
  pt_done (st_tab s) = [(0, Some {| rs_id := IdStr (bs "req-1"); rs_result := Some (JStr (bs "ping")); rs_error := None |})] /\
  keys_used s = [bs "req-1"] /\ (forall c, small (peer ex_setup (duo_run ex_setup ex_history) c)).
Proof.
  cbv zeta. split; [vm_compute; reflexivity|]. split; [vm_compute; reflexivity|].
  assert (A : forall c, exists p, w_accepted (st_wq (peer ex_setup (duo_run ex_setup ex_history) c)) = [encode p] /\ length (encode p) < 100).
  { intros [|].
    - exists (ser_request {| rq_id := IdStr (bs "req-1"); rq_method := bs "ping"; rq_params := None |}). split; [vm_compute; reflexivity|vm_compute; lia].
    - exists (ser_response {| rs_id := IdStr (bs "req-1"); rs_result := Some (JStr (bs "ping")); rs_error := None |}). split; [vm_compute; reflexivity|vm_compute; lia]. }
  intros c p I. destruct (A c) as (q & E & L). rewrite E in I. destruct I as [I|[]]. rewrite I in L.
  assert (length p <= length (encode p)) by (unfold encode; rewrite !app_length; lia). lia.
Qed.
Example C84_ex_proper : Forall proper ex_history.
Proof.
  assert (R : replies_ok ex_hand).
  { intros f r E (A & B & C & D & F). cbn in E. injection E as <-. cbn [reply with_id wire_ok rs_id rs_result rs_error].
    split; [exact A|]. split; [exact B|]. split; [left; discriminate|]. split; [|discriminate].
    intros v E. injection E as <-. split; [constructor|]. intro K. inversion K. }
  unfold ex_history. apply Forall_cons; [|repeat (apply Forall_cons; [cbn [proper]; first [exact Logic.I|exact R]|]); apply Forall_nil].
  split; [exact Logic.I|]. split; [discriminate|]. split; [discriminate|]. split; [now apply plainb_plain|discriminate].
Qed.

(** C84 fails for requests that share an id: the answer to the first completes the future of the
    second, and the future of the first is broken. *)
Definition ex_named (m : bstr) : request := {| rq_id := IdInt 1; rq_method := m; rq_params := None |}.
Definition ex_same : list dev :=
  [DLocal true (SBegin (ex_named (bs "one"))); DLocal true (SRegister 0); DLocal true (SEnqueue 0);
   DLocal true (SBegin (ex_named (bs "two"))); DLocal true (SRegister 0); DLocal true (SEnqueue 0);
   DLocal true (SWriter WLoop); DLocal true (SWriter WPop); DLocal true (SWriter (WPut 61)); DRead false 999; DHandle false ex_hand;
   DLocal false (SWriter WLoop); DLocal false (SWriter WPop); DLocal false (SWriter (WPut 61)); DRead true 999; DHandle true ex_hand].
Theorem C84_same_id_refuted : exists u es dl r, Forall proper es /\
  let s := peer u (duo_run u es) true in
  In (0, (ex_named (bs "one"), dl)) (st_reg s) /\ In (1, (ex_named (bs "two"), dl)) (st_reg s) /\
  (* the other side's handler returns the name of the method *)
  rs_result r = Some (JStr (bs "one")) /\ pt_done (st_tab s) = [(0, None); (1, Some r)].
Proof.
  exists ex_setup, ex_same. eexists. exists {| rs_id := IdInt 1; rs_result := Some (JStr (bs "one")); rs_error := None |}. split.
  - assert (R : replies_ok ex_hand).
    { intros f r E (A & B & C & D & F). cbn in E. injection E as <-. cbn [reply with_id wire_ok rs_id rs_result rs_error].
      split; [exact A|]. split; [exact B|]. split; [left; discriminate|]. split; [|discriminate].
      intros v E. injection E as <-. split; [constructor|]. intro K. inversion K. }
    assert (N : forall m, m = bs "one" \/ m = bs "two" -> proper (DLocal true (SBegin (ex_named m)))).
    { intros m M. split; [cbn; lia|]. split; [discriminate|]. split; [now destruct M; subst|]. split; [now destruct M; subst; apply plainb_plain|discriminate]. }
    unfold ex_same. repeat (apply Forall_cons; [first [apply N; auto | exact Logic.I | exact R]|]); apply Forall_nil.
  - cbv zeta. split; [vm_compute; left; reflexivity|]. split; [vm_compute; right; left; reflexivity|]. split; vm_compute; reflexivity.
Qed.
Print Assumptions C84_same_id_refuted.

(** C85 fails: with the default limits, a queue accepts messages that make the reader of the other side
    give up the connection. *)
Theorem C85_refuted : exists p, fst (enqueue p (wq_start 2097152)) = true /\
  forall chunks rest, concat chunks = encode p ++ rest ->
  exists r, on_reads max_content reader0 chunks = Some ([TooLarge], r) /\ rx_connected r = false.
Proof.
  assert (L : exists p, N.of_nat (length p) = 1500000%N) by (exists (repeat "x"%char (N.to_nat 1500000)); rewrite repeat_length; lia).
  destruct L as [p L]. exists p.
  assert (S : size (encode p) = 1500027%N).
  { unfold size, encode. rewrite !app_length, L.
    change (length (bs "Content-Length: ")) with 16. change (length SEP) with 4. change (length (print_N 1500000)) with 7. lia. }
  split.
  - unfold enqueue. rewrite S. reflexivity.
  - intros chunks rest E. apply (oversize_disconnects max_content p chunks rest); [|unfold size in S; unfold two64|exact E].
    + rewrite L. reflexivity.
    + rewrite S. reflexivity.
Qed.
Print Assumptions C85_refuted.

(** C85 holds for limits that fit together: a frame that a queue with a smaller cap accepts is read. *)
Theorem C85_smaller_cap_partial : forall now ms cap vs p, (cap <= 1048576)%N ->
  In (encode p) (w_accepted (st_wq (stdio_run (stdio_start now ms cap) vs))) ->
  forall chunks, concat chunks = encode p -> on_reads max_content reader0 chunks = Some ([Delivered p], reader0).
Proof.
  intros now ms cap vs p C I chunks E.
  assert (S : (size (encode p) <= N.max cap 1)%N) by (exact (accepted_bound now ms cap vs p I)).
  unfold size in S. assert (length p <= length (encode p)) by (unfold encode; rewrite !app_length; lia).
  apply (frames_any_chunking [p] max_content chunks).
  - constructor; [|constructor]. unfold max_content, two64. lia.
  - cbn [map concat]. now rewrite app_nil_r.
Qed.
Print Assumptions C85_smaller_cap_partial.
