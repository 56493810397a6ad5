(** What is expected of the event stream of an HTTP client transport. *)
From Coq Require Import Ascii String List Arith NArith ZArith Bool.
From Verif Require Import StrModel DoubleModel JsonModel RpcModel HcliModel SseModel LoopModel.
Import ListNotations.
Local Open Scope nat_scope.

(** ** Replies *)
Definition CRLF : bstr := [ascii_of_nat 13; ascii_of_nat 10].
(** A status line, fields and the blank line, then what follows. *)
Definition field_line (f : bstr * bstr) : bstr := fst f ++ bs ": " ++ snd f ++ CRLF.
Definition reply_text (code reason : bstr) (fields : list (bstr * bstr)) (rest : bstr) : bstr :=
  bs "HTTP/1.1 " ++ code ++ bs " " ++ reason ++ CRLF ++ flat_map field_line fields ++ CRLF ++ rest.
Definition status_code (code : bstr) : Prop := length code = 3 /\ ~ In " "%char code /\ ~ In (ascii_of_nat 10) code.
Definition reason_ok (r : bstr) : Prop := ~ In (ascii_of_nat 10) r.
Definition field_ok (f : bstr * bstr) : Prop :=
  fst f <> [] /\ ~ In ":"%char (fst f) /\ ~ In (ascii_of_nat 10) (fst f) /\
  ~ In (ascii_of_nat 10) (snd f) /\ ~ In (ascii_of_nat 13) (snd f) /\ (forall r, snd f <> " "%char :: r).
Definition mentions (p s : bstr) : Prop := exists a b, s = a ++ p ++ b.
(** The session after a reply with these fields: the last one issued, or the one before. *)
Definition session_after (old : bstr) (fields : list (bstr * bstr)) (s : bstr) : Prop :=
  (exists a b, fields = a ++ (bs "Mcp-Session-Id", s) :: b /\ forall f, In f b -> fst f <> bs "Mcp-Session-Id") \/
  ((forall f, In f fields -> fst f <> bs "Mcp-Session-Id") /\ s = old).

(** ** The stream *)
(** The session last issued, in a reply to a POST or at the head of a stream. *)
Definition issue (g : glog) : option bstr := match g with GIssued s | GHead s => Some s | _ => None end.
Definition current_session (l : list glog) (s : bstr) : Prop :=
  (exists a g b, l = a ++ g :: b /\ issue g = Some s /\ forall x, In x b -> issue x = None) \/
  ((forall x, In x l -> issue x = None) /\ s = []).

(** An initialize request has been given a session, the stream is wanted, Close has not been called,
    no stream was answered 405 and none took the session away. *)
Definition wanted (c : lconf) (vs : list lact) : Prop :=
  lc_stream c = true /\ (exists s, s <> [] /\ In (LReply true s) vs) /\ ~ In LClose vs /\
  (forall text ok, In (LHead text ok) vs -> read_head [] text <> VOff) /\
  (forall s, In (GHead s) (lp_log (lrun c (loop0 c) vs)) -> s <> []).

Definition streaming (h : loop) : Prop := exists p, lp_thread h = ThRuns p.
Definition in_connection (h : loop) : Prop := lp_thread h = ThRuns PHead \/ exists b, lp_thread h = ThRuns (PBody b).
(** The delay in force: the one configured, or the last one a server asked for. *)
Definition delay_of (h : loop) : N := se_retry (lp_sse h).
Definition received (h : loop) : list bstr := se_out (lp_sse h).
Definition close_pending (h : loop) : Prop := lp_close h = 1.
Definition close_done (h : loop) : Prop := lp_close h = 2.
Definition total_ticks (vs : list lact) : N := fold_right (fun a n => match a with LTick d => (d + n)%N | _ => n end) 0%N vs.
(** Steps in which the network does nothing: time, the thread's own steps, and Close's. *)
Definition silent (a : lact) : Prop :=
  match a with LTick _ | LTest | LConnect | LWake | LClose | LJoin => True | _ => False end.
