(** The thread of the HTTP client transport that keeps the event stream open. *)
From Coq Require Import Ascii String List Arith NArith ZArith Bool.
From Verif Require Import StrModel DoubleModel JsonModel RpcModel HcliModel SseModel.
Import ListNotations.
Local Open Scope nat_scope.

(** ** The head of the reply *)

(** std::getline on a text: the line without its line feed, and the rest. *)
Fixpoint getline (s : bstr) : bstr * bstr :=
  match s with
  | [] => ([], [])
  | c :: r => if Ascii.eqb c LF then ([], r) else let '(l, t) := getline r in (c :: l, t)
  end.

Fixpoint contains (p s : bstr) : bool :=
  (starts_with p s || match s with [] => false | _ :: r => contains p r end)%bool.

(** while (value.front() == space) erase, HTTPTransport.cpp:612-614 and 702-704. *)
Fixpoint chop_spaces (v : bstr) : bstr :=
  match v with c :: r => if Ascii.eqb c SPACE then chop_spaces r else v | [] => [] end.

(** One header line, HTTPTransport.cpp:604-619 and 694-709: the session as it is afterwards. *)
Fixpoint cut_colon (s : bstr) : option (bstr * bstr) :=
  match s with
  | [] => None
  | c :: r => if Ascii.eqb c COLON then Some ([], r) else match cut_colon r with Some (a, b) => Some (c :: a, b) | None => None end
  end.
Definition head_line (session line : bstr) : bstr :=
  match cut_colon (chop_cr line) with
  | Some (name, v) => if beq name SESSION_HEADER then chop_spaces v else session
  | None => session
  end.

(** The header loop, HTTPTransport.cpp:603-621 and 693-711, on what is in the buffer after the status
    line: the session, and what is left over. fuel: as long as the text. *)
Fixpoint head_lines (fuel : nat) (session s : bstr) : bstr * bstr :=
  match fuel, s with
  | O, _ | _, [] => (session, s)
  | S k, _ => let '(l, r) := getline s in
      if beq l [CR] then (session, r) else head_lines k (head_line session l) r
  end.

(** What the reply to the GET means, HTTPTransport.cpp:590-621 and 680-711: VStream: a stream, with
    the session and the text after the head; VOff: 405; VAgain: anything else. buf: all that had
    been read when the blank line arrived. *)
Inductive verdict := VStream (session rest : bstr) | VOff | VAgain.
Definition read_head (session buf : bstr) : verdict :=
  let '(status, r) := getline buf in
  if contains (bs "200") status then let '(s, rest) := head_lines (length r) session r in VStream s rest
  else if contains (bs "405") status then VOff else VAgain.

(** ** The loop *)

(** Where the thread is: at the test of the loop; connecting; waiting for the head; reading, with
    what is in the buffer; asleep until a time. *)
Inductive phase := PTop | PDial | PHead | PBody (buf : bstr) | PNap (till : N).

(** std::thread sseThread: none; running; finished but not joined. *)
Inductive thr := ThNone | ThRuns (p : phase) | ThOver.

(** Not in the code: what happened, and when, in milliseconds. GIssued: a session in the reply to a
    POST; GGet: a GET left; GHead: the head of a stream, with the session after it; GEnd: the
    connection is over, with the delay in force. *)
Inductive glog := GIssued (s : bstr) | GGet (at_ : N) (s : bstr) | GHead (s : bstr) | GEnd (at_ delay : N).

(** The members HTTPTransport.cpp:60-88 the thread uses, its own variables, and the call of Close in
    progress: 0 none, 1 waiting for the thread, 2 returned. *)
Record loop := {
  lp_now : N; lp_connected : bool; lp_enabled : bool; lp_running : bool; lp_thread : thr;
  lp_session : bstr; lp_sse : sse; lp_close : nat; lp_crashed : bool; lp_log : list glog
}.

(** opts.enableGetStream and an endpoint path; opts.sseReconnectDelayMs. *)
Record lconf := { lc_stream : bool; lc_delay : N }.

(** A transport that has been started. *)
Definition loop0 (c : lconf) : loop :=
  {| lp_now := 0; lp_connected := true; lp_enabled := true; lp_running := false; lp_thread := ThNone;
     lp_session := []; lp_sse := sse0 (lc_delay c); lp_close := 0; lp_crashed := false; lp_log := [] |}.

Definition lp_at (t : thr) (h : loop) : loop :=
  {| lp_now := lp_now h; lp_connected := lp_connected h; lp_enabled := lp_enabled h; lp_running := lp_running h; lp_thread := t;
     lp_session := lp_session h; lp_sse := lp_sse h; lp_close := lp_close h; lp_crashed := lp_crashed h; lp_log := lp_log h |}.
Definition lp_flags (e r : bool) (h : loop) : loop :=
  {| lp_now := lp_now h; lp_connected := lp_connected h; lp_enabled := e; lp_running := r; lp_thread := lp_thread h;
     lp_session := lp_session h; lp_sse := lp_sse h; lp_close := lp_close h; lp_crashed := lp_crashed h; lp_log := lp_log h |}.
Definition lp_note (g : glog) (h : loop) : loop :=
  {| lp_now := lp_now h; lp_connected := lp_connected h; lp_enabled := lp_enabled h; lp_running := lp_running h; lp_thread := lp_thread h;
     lp_session := lp_session h; lp_sse := lp_sse h; lp_close := lp_close h; lp_crashed := lp_crashed h; lp_log := lp_log h ++ [g] |}.
Definition lp_in (s : bstr) (h : loop) : loop :=
  {| lp_now := lp_now h; lp_connected := lp_connected h; lp_enabled := lp_enabled h; lp_running := lp_running h; lp_thread := lp_thread h;
     lp_session := s; lp_sse := lp_sse h; lp_close := lp_close h; lp_crashed := lp_crashed h; lp_log := lp_log h |}.
Definition lp_reads (s : sse) (h : loop) : loop :=
  {| lp_now := lp_now h; lp_connected := lp_connected h; lp_enabled := lp_enabled h; lp_running := lp_running h; lp_thread := lp_thread h;
     lp_session := lp_session h; lp_sse := s; lp_close := lp_close h; lp_crashed := lp_crashed h; lp_log := lp_log h |}.
Definition lp_closes (n : nat) (c : bool) (h : loop) : loop :=
  {| lp_now := lp_now h; lp_connected := c; lp_enabled := lp_enabled h; lp_running := lp_running h; lp_thread := lp_thread h;
     lp_session := lp_session h; lp_sse := lp_sse h; lp_close := n; lp_crashed := lp_crashed h; lp_log := lp_log h |}.
Definition lp_crash (h : loop) : loop :=
  {| lp_now := lp_now h; lp_connected := lp_connected h; lp_enabled := lp_enabled h; lp_running := lp_running h; lp_thread := lp_thread h;
     lp_session := lp_session h; lp_sse := lp_sse h; lp_close := lp_close h; lp_crashed := true; lp_log := lp_log h |}.
Definition lp_tick (d : N) (h : loop) : loop :=
  {| lp_now := (lp_now h + d)%N; lp_connected := lp_connected h; lp_enabled := lp_enabled h; lp_running := lp_running h; lp_thread := lp_thread h;
     lp_session := lp_session h; lp_sse := lp_sse h; lp_close := lp_close h; lp_crashed := lp_crashed h; lp_log := lp_log h |}.

(** The end of runSseLoop, HTTPTransport.cpp:741. *)
Definition lp_over (h : loop) : loop := lp_at ThOver (lp_flags (lp_enabled h) false h).

(** sleepForRetry, HTTPTransport.cpp:553-558: nothing to wait for once Close has begun. *)
Definition lp_nap (h : loop) : loop :=
  lp_at (ThRuns (if (lp_enabled h && lp_connected h)%bool then PNap (lp_now h + se_retry (lp_sse h)) else PTop))
    (lp_note (GEnd (lp_now h) (se_retry (lp_sse h))) h).

(** parseEventStream with handlers that may throw, ok = false: HTTPTransport.cpp:518-551. The payload
    has been handed over; the rest of the buffer is lost. *)
Fixpoint feed (ok : bstr -> bool) (ls : list bstr) (s : sse) : sse * bool :=
  match ls with
  | [] => (s, true)
  | l :: r =>
      let s' := sse_line s l in
      match skipn (length (se_out s)) (se_out s') with
      | p :: _ => if ok p then feed ok r s' else (s', false)
      | [] => feed ok r s'
      end
  end.

(** One round of the inner loop after a read, HTTPTransport.cpp:624-637 and 714-727. *)
Definition lp_parse (ok : bstr -> bool) (buf : bstr) (h : loop) : loop :=
  let '(s, fine) := feed ok (getlines [] buf) (lp_sse h) in
  let h1 := lp_reads s h in
  if (fine && lp_connected h1 && lp_enabled h1)%bool then lp_at (ThRuns (PBody [])) h1 else lp_nap h1.

(** maybeCaptureSessionId, HTTPTransport.cpp:227-233, and, for the reply to an initialize request,
    maybeStartSseLoop, 502-514: assigning to a thread that is not joined calls std::terminate. *)
Definition lp_capture (s : bstr) (h : loop) : loop := match s with [] => h | _ => lp_note (GIssued s) (lp_in s h) end.
Definition lp_start (c : lconf) (h : loop) : loop :=
  if (lc_stream c && lp_enabled h && negb (beq (lp_session h) []) && negb (lp_running h))%bool then
    match lp_thread h with
    | ThNone => lp_reads (sse0 (lc_delay c)) (lp_at (ThRuns PTop) (lp_flags (lp_enabled h) true h))
    | _ => lp_crash h
    end
  else h.

(** Steps.
    - LTick: time passes
    - LReply: the reply to a POST; init: to an initialize request
    - LTest: the thread tests the loop condition, 563 and 653
    - LConnect: connected; the session is looked at and the GET sent, 569-588 and 662-678
    - LFail: connecting, sending or reading fails, or the server closes the connection
    - LHead: the head has arrived; the text so far
    - LBytes: a read returns
    - LWake: the sleep is over
    - LClose, LJoin: Close, 769-792: stopSseLoop's store; its join and the rest
    Simplifications: one call of Close; connecting, sending and the authorization of the GET are
    one step. Reads have no time limit: expires_after is for asynchronous operations only. *)
Inductive lact :=
| LTick (d : N)
| LReply (init : bool) (session : bstr)
| LTest
| LConnect
| LFail
| LHead (text : bstr) (ok : bstr -> bool)
| LBytes (piece : bstr) (ok : bstr -> bool)
| LWake
| LClose
| LJoin.

Definition lstep (c : lconf) (h : loop) (a : lact) : loop :=
  if lp_crashed h then h else
  match a, lp_thread h with
  | LTick d, _ => lp_tick d h
  | LReply init s, _ => let h1 := lp_capture s h in if (init && negb (beq s []))%bool then lp_start c h1 else h1
  | LTest, ThRuns PTop => if (lp_connected h && lp_enabled h)%bool then lp_at (ThRuns PDial) h else lp_over h
  | LConnect, ThRuns PDial =>
      match lp_session h with
      | [] => lp_over h
      | s => lp_at (ThRuns PHead) (lp_note (GGet (lp_now h) s) h)
      end
  | LFail, ThRuns PDial | LFail, ThRuns PHead | LFail, ThRuns (PBody _) => lp_nap h
  | LHead text ok, ThRuns PHead =>
      match read_head (lp_session h) text with
      | VOff => lp_over (lp_flags false (lp_running h) h)
      | VAgain => lp_nap h
      | VStream s rest =>
          let h1 := lp_note (GHead s) (lp_in s h) in
          let h2 := lp_reads {| se_pending := []; se_retry := se_retry (lp_sse h1); se_out := se_out (lp_sse h1) |} h1 in
          if (lp_connected h2 && lp_enabled h2)%bool then lp_parse ok rest h2 else lp_nap h2
      end
  | LBytes piece ok, ThRuns (PBody buf) =>
      let b := buf ++ piece in
      if has_lf b then
        if (lp_connected h && lp_enabled h)%bool then lp_parse ok b h else lp_nap h
      else lp_at (ThRuns (PBody b)) h
  | LWake, ThRuns (PNap till) => if N.leb till (lp_now h) then lp_at (ThRuns PTop) h else h
  | LClose, _ => match lp_close h with O => lp_closes 1 (lp_connected h) (lp_flags false (lp_running h) h) | _ => h end
  | LJoin, ThNone | LJoin, ThOver =>
      match lp_close h with 1 => lp_in [] (lp_closes 2 false (lp_at ThNone (lp_flags (lp_enabled h) false h))) | _ => h end
  | _, _ => h
  end.
Definition lrun (c : lconf) (h : loop) (vs : list lact) : loop := fold_left (lstep c) vs h.
