(** C132 to C134: what arrives on standard input, how its end is noticed, and the idle timeout. *)
From Coq Require Import Ascii String List Arith NArith ZArith Bool Lia.
From Verif Require Import StrModel FramerModel PipeModel PipeSpec PipeProofs.
Import ListNotations.
Local Open Scope nat_scope.

(** C132. Whatever the kernel, the other threads and the handlers do, the messages handed over are the
    first of those sent, once each and in order. *)
Theorem C132_in_order : forall k max idle now h ps rest, fitting max ps -> concat (map encode ps) = wrote h ++ rest ->
  exists later, ps = pp_got (pp_run (pp_start k max idle now) h) ++ later.
Proof. exact in_order. Qed.
Print Assumptions C132_in_order.

(** As long as the other side is there, no system call fails and no handler leaves an errno behind, the
    connection stands and as many turns as there are bytes waiting bring in everything sent. Missing: the
    three cases below. *)
Theorem C132_received_partial : forall k max now h ps, k <> File -> fitting max ps -> undisturbed h -> wrote h = concat (map encode ps) ->
  let p := pp_run (pp_start k max 0 now) h in
  pp_conn p = true /\ pp_told p = [] /\
  forall ts, Forall healthy ts -> length (pp_in p) <= length ts ->
    pp_got (pp_run p (map PTurn ts)) = ps /\ pp_conn (pp_run p (map PTurn ts)) = true /\ pp_told (pp_run p (map PTurn ts)) = [].
Proof. exact received. Qed.
Print Assumptions C132_received_partial.

Definition demo_turn : turn := {| tn_epoll := true; tn_wait := Waited false; tn_io := IoFine; tn_size := 4096; tn_left := false; tn_read := 5; tn_now := 6 |}.
Definition small_turn : turn := {| tn_epoll := true; tn_wait := Waited false; tn_io := IoFine; tn_size := 7; tn_left := false; tn_read := 5; tn_now := 6 |}.
Definition intr_turn : turn := {| tn_epoll := true; tn_wait := Interrupted; tn_io := IoFine; tn_size := 7; tn_left := false; tn_read := 5; tn_now := 6 |}.
Definition demo_h : list pev := [PWrite (encode (bs "{}") ++ bs "Content-"); PTurn small_turn; PTurn intr_turn; PTurn demo_turn; PTurn demo_turn; PWrite (bs "Length: 3" ++ SEP ++ bs "[1]")].
Example C132_ex : undisturbed demo_h /\ wrote demo_h = concat (map encode [bs "{}"; bs "[1]"]) /\ fitting 1000 [bs "{}"; bs "[1]"] /\
  pp_got (pp_run (pp_start Pipe 1000 0 0) demo_h) = [bs "{}"] /\ pp_got (pp_run (pp_start Pipe 1000 0 0) (demo_h ++ [PTurn demo_turn])) = [bs "{}"; bs "[1]"].
Proof.
  split; [|split; [vm_compute; reflexivity|split; [|split; vm_compute; reflexivity]]].
  - intros v I. cbn [demo_h In] in I. repeat (destruct I as [<- |I]; [first [left; eexists; reflexivity|right; eexists; split; [reflexivity|repeat split; auto; discriminate]]|]). easy.
  - repeat constructor; vm_compute; congruence.
Qed.

(** A handler that leaves an errno behind (by asking for a file that is not there, say) breaks the
    connection at the next turn in which there is nothing to read: what is sent afterwards is lost. *)
Theorem C132_errno_refuted : forall max now t t' h k, k <> File -> (5 <= max)%N -> tn_epoll t = true -> tn_wait t = Waited false -> tn_io t = IoFine -> 4096 <= tn_size t ->
  tn_left t = true -> tn_epoll t' = true -> tn_wait t' = Waited false ->
  let p := pp_run (pp_start k max 0 now) (PWrite (encode (bs "hello")) :: PTurn t :: PTurn t' :: h) in
  pp_got p = [bs "hello"] /\ pp_conn p = false /\ pp_told p = [bs "StdioTransport: read error"].
Proof.
  intros max now t t' h k K M E W I S L E' W' p.
  assert (fitting max [bs "hello"]) as F. { constructor; [|constructor]. split; [exact M|vm_compute; reflexivity]. }
  set (p1 := pp_run (pp_start k max 0 now) [PWrite (encode (bs "hello"))]).
  destruct (take_coming [bs "hello"] [] t p1 F eq_refl) as (T1 & T2 & T3 & T4 & T5 & T6 & T7 & T8 & T9 & T10 & _).
  { exists [], [bs "hello"]. repeat split. cbn. lia. }
  assert (pp_turn t p1 = take_bytes t p1) as E1.
  { assert (idle_check t (take_bytes t p1) = take_bytes t p1) as X by (unfold idle_check; now rewrite T7).
    rewrite turn_open; auto. rewrite I, X. assert (pp_in p1 <> []) as NE by discriminate. now destruct (pp_in p1). }
  assert (Nat.min (Nat.max 1 (tn_size t)) 4096 = 4096) as N by (apply Nat.min_r; etransitivity; [exact S|apply Nat.le_max_r]).
  assert (pp_got (take_bytes t p1) = [bs "hello"] /\ pp_errno (take_bytes t p1) = true /\ pp_in (take_bytes t p1) = []) as (G & R & Z).
  { assert (pp_in (take_bytes t p1) = []) as Z. { rewrite T4. apply skipn_all2. rewrite N. apply Nat.leb_le. vm_compute. reflexivity. }
    assert (pp_got (take_bytes t p1) = [bs "hello"]) as G.
    { destruct T1 as (a & b & P & G & X). destruct (X T2) as [X1 X2]. rewrite Z in X1. cbn [app] in X1. rewrite app_nil_r in X1.
      destruct b as [|y b]; [now rewrite G, P, app_nil_r|]. exfalso. rewrite <- X1 in X2. cbn [map concat] in X2. rewrite app_length in X2. clear - X2. lia. }
    split; [exact G|]. split; [|exact Z]. revert G. unfold take_bytes. destruct (on_read _ _ _) as [[es r]|]; [|discriminate]. cbn [pp_got pp_errno p1 pp_run fold_left pp_step pp_start app].
    intros ->. exact L. }
  unfold p. change (pp_run _ _) with (pp_run (pp_turn t' (pp_turn t p1)) h). rewrite E1.
  rewrite (turn_open t' (take_bytes t p1) T9 T2 ltac:(now rewrite T5) E' W' T8). rewrite Z. unfold no_bytes. rewrite R.
  destruct (leave_stays (leave (tell (bs "StdioTransport: read error") (take_bytes t p1))) h eq_refl eq_refl) as (-> & -> & ->).
  cbn [leave tell pp_got pp_told]. rewrite G, T3. auto.
Qed.
Print Assumptions C132_errno_refuted.

(** Where epoll cannot be had (no file descriptors left, say), the first turn without input ends the
    connection, although the loop has a fallback for that case. *)
Theorem C132_fallback_refuted : forall k max now t h, k <> File -> tn_epoll t = false -> tn_wait t = Waited false ->
  let p := pp_run (pp_start k max 0 now) (PTurn t :: h) in
  pp_got p = [] /\ pp_conn p = false /\ pp_told p = [bs "StdioTransport: read error"].
Proof.
  intros k max now t h K E W p. unfold p. change (pp_run _ _) with (pp_run (pp_turn t (pp_start k max 0 now)) h).
  assert (pp_turn t (pp_start k max 0 now) = leave (tell (bs "StdioTransport: read error") (set_errno true (pp_start k max 0 now)))) as ->.
  { unfold pp_turn. cbn [pp_start pp_alive pp_conn negb pp_kind]. rewrite W, E. destruct k; [reflexivity..|easy]. }
  destruct (leave_stays (leave (tell (bs "StdioTransport: read error") (set_errno true (pp_start k max 0 now)))) h eq_refl eq_refl) as (-> & -> & ->). auto.
Qed.
Print Assumptions C132_fallback_refuted.

(** Standard input taken from a file is never read. *)
Theorem C132_file_refuted : forall max now b t h, healthy t ->
  let p := pp_run (pp_start File max 0 now) (PWrite b :: PTurn t :: h) in
  pp_got p = [] /\ pp_conn p = false /\ pp_told p = [bs "StdioTransport: read error"].
Proof.
  intros max now b t h (E & W & I & L) p. unfold p. set (p1 := pp_step (pp_start File max 0 now) (PWrite b)).
  change (pp_run _ _) with (pp_run (pp_turn t p1) h).
  assert (pp_turn t p1 = leave (tell (bs "StdioTransport: read error") (set_errno true p1))) as -> by (unfold pp_turn; now rewrite W, E).
  destruct (leave_stays (leave (tell (bs "StdioTransport: read error") (set_errno true p1))) h eq_refl eq_refl) as (-> & -> & ->). auto.
Qed.
Print Assumptions C132_file_refuted.

(** C133. A terminal whose input ends: everything sent is handed over, and the end is reported once. *)
Theorem C133_end_partial : forall max now h ps ts, fitting max ps -> undisturbed h -> wrote h = concat (map encode ps) -> Forall healthy ts ->
  length (pp_in (pp_run (pp_start Terminal max 0 now) h)) < length ts ->
  let p := pp_run (pp_start Terminal max 0 now) (h ++ PEnd :: map PTurn ts) in
  pp_got p = ps /\ pp_conn p = false /\ pp_told p = [bs "StdioTransport: EOF on stdin"].
Proof. exact terminal_end. Qed.
Print Assumptions C133_end_partial.

(** A pipe whose writer is gone: what was not yet read never is, the connection is held to stand for
    ever, and the error handler is called again at every turn. *)
Theorem C133_pipe_refuted : forall max now h ps ts, fitting max ps -> undisturbed h -> wrote h = concat (map encode ps) -> Forall healthy ts ->
  let before := pp_run (pp_start Pipe max 0 now) h in let p := pp_run (pp_start Pipe max 0 now) (h ++ PEnd :: map PTurn ts) in
  pp_conn p = true /\ pp_got p = pp_got before /\ pp_in p = pp_in before /\ pp_told p = repeat (bs "StdioTransport: stdin closed") (length ts).
Proof. exact pipe_end. Qed.
Print Assumptions C133_pipe_refuted.

Example C133_ex : pp_got (pp_run (pp_start Pipe 1000 0 0) (demo_h ++ PEnd :: map PTurn [demo_turn; demo_turn])) = [bs "{}"] /\
  pp_got (pp_run (pp_start Terminal 1000 0 0) (demo_h ++ PEnd :: map PTurn [demo_turn; demo_turn])) = [bs "{}"; bs "[1]"] /\
  length (pp_in (pp_run (pp_start Terminal 1000 0 0) demo_h)) = 16 /\ Forall healthy (repeat small_turn 17).
Proof. split; [vm_compute; reflexivity|]. split; [vm_compute; reflexivity|]. split; [vm_compute; reflexivity|]. cbn [repeat]. repeat (constructor; [repeat split|]). constructor. Qed.

(** C134. Idleness is reported only when no byte has come for the configured time, and it ends the connection. *)
Theorem C134_only_idle : forall k max idle now h t m,
  let before := pp_run (pp_start k max idle now) h in let p := pp_run (pp_start k max idle now) (h ++ [PTurn t]) in
  pp_told p = pp_told before ++ m -> In (bs "StdioTransport: idle read timeout") m ->
  (0 < idle)%Z /\ (idle <= tn_now t - last_heard (pp_start k max idle now) now (h ++ [PTurn t]))%Z /\ pp_conn p = false.
Proof.
  intros k max idle now h t m before p E I.
  destruct (heard (h ++ [PTurn t]) (pp_start k max idle now)) as [H _]. change (pp_last (pp_start k max idle now)) with now in H. rewrite <- H. fold p.
  destruct (heard h (pp_start k max idle now)) as [_ Hi]. fold before in Hi. change (pp_idle (pp_start k max idle now)) with idle in Hi.
  assert (p = pp_turn t before) as X by (unfold p; rewrite run_app; reflexivity). rewrite X in *.
  destruct (idle_turn t before m E I) as (A & B & C). rewrite Hi in A, B. auto.
Qed.
Print Assumptions C134_only_idle.

(** With the timeout set, no turn that waits to the end leaves a silent connection standing. *)
Theorem C134_fires : forall k max idle now h t, (0 < idle)%Z -> tn_wait t = Waited false ->
  let before := pp_run (pp_start k max idle now) h in let p := pp_run (pp_start k max idle now) (h ++ [PTurn t]) in
  pp_alive before = true -> pp_conn before = true ->
  (idle <= tn_now t - last_heard (pp_start k max idle now) now (h ++ [PTurn t]))%Z -> pp_conn p = false.
Proof.
  intros k max idle now h t P W before p A C L.
  destruct (heard (h ++ [PTurn t]) (pp_start k max idle now)) as [H _]. change (pp_last (pp_start k max idle now)) with now in H. rewrite <- H in L. fold p in L.
  destruct (heard h (pp_start k max idle now)) as [_ Hi]. fold before in Hi. change (pp_idle (pp_start k max idle now)) with idle in Hi.
  assert (p = pp_turn t before) as X by (unfold p; rewrite run_app; reflexivity). rewrite X in *.
  destruct (pp_conn (pp_turn t before)) eqn:Q; [|reflexivity]. exfalso. pose proof (idle_fires t before A C W Q) as Y. rewrite Hi in Y. specialize (Y P). lia.
Qed.
Print Assumptions C134_fires.

(** Unless it is set, silence never ends the connection: turns without input change nothing. *)
Theorem C134_off : forall k max now h t, k <> File -> undisturbed h -> (exists ps, fitting max ps /\ wrote h = concat (map encode ps)) -> healthy t ->
  let p := pp_run (pp_start k max 0 now) h in pp_in p = [] -> pp_turn t p = p.
Proof.
  intros k max now h t K U (ps & F & E) (A & B & C & D) p I.
  destruct (undisturbed_fine h k max [] ps (pp_start k max 0 now) K F U) as [H O]; [apply fine_start; now rewrite app_nil_r|reflexivity|]. fold p in H, O.
  destruct H as [Hk Hm Hi Ha Hc He Ht Hcm]. rewrite turn_open; auto; [|now rewrite Hk]. rewrite I. now apply no_bytes_fine.
Qed.
Print Assumptions C134_off.

Definition late_turn : turn := {| tn_epoll := true; tn_wait := Waited false; tn_io := IoFine; tn_size := 7; tn_left := false; tn_read := 50; tn_now := 106 |}.
Example C134_ex : pp_told (pp_run (pp_start Pipe 1000 100 0) (demo_h ++ [PTurn demo_turn; PTurn late_turn])) = [bs "StdioTransport: idle read timeout"] /\
  pp_told (pp_run (pp_start Pipe 1000 100 0) (demo_h ++ [PTurn demo_turn])) = [] /\
  last_heard (pp_start Pipe 1000 100 0) 0 (demo_h ++ [PTurn demo_turn; PTurn late_turn]) = 5%Z.
Proof. split; [vm_compute; reflexivity|]. split; vm_compute; reflexivity. Qed.
