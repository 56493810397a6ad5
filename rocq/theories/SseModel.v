(** The event stream from the HTTP server to the HTTP client transport. *)
From Coq Require Import Ascii String List Arith NArith ZArith Bool.
From Verif Require Import StrModel.
Import ListNotations.
Local Open Scope nat_scope.

(** One event as the server writes it, src/mcp/HTTPServer.cpp:463-465 (plain) and 559-561 (TLS):
    the event id and the payload. *)
Definition event_text (e : bstr * bstr) : bstr :=
  bs "id: " ++ fst e ++ [LF] ++ bs "data: " ++ snd e ++ [LF; LF].
Definition stream_text (es : list (bstr * bstr)) : bstr := flat_map event_text es.

(** What the client keeps while it reads a stream, src/mcp/HTTPTransport.cpp:518, 561, 623: the data
    collected for the current event, the reconnect delay, and the payloads handed to
    handleIncomingJson so far. *)
Record sse := { se_pending : bstr; se_retry : N; se_out : list bstr }.
Definition sse0 (retry : N) : sse := {| se_pending := []; se_retry := retry; se_out := [] |}.

(** line.back() == CR: pop_back, HTTPTransport.cpp:521-523. *)
Definition chop_cr (l : bstr) : bstr :=
  match rev l with c :: r => if Ascii.eqb c CR then rev r else l | [] => [] end.

(** value.front() == space: erase, HTTPTransport.cpp:533-535 and 542-544. *)
Definition chop_space (v : bstr) : bstr :=
  match v with c :: r => if Ascii.eqb c SPACE then r else v | [] => [] end.

(** The body of the loop in parseEventStream, HTTPTransport.cpp:521-550. stoul is 64 bits wide, the
    cast keeps 32. *)
Definition sse_line (s : sse) (line : bstr) : sse :=
  let line := chop_cr line in
  match line with
  | [] =>
      match se_pending s with
      | [] => s
      | p => {| se_pending := []; se_retry := se_retry s; se_out := se_out s ++ [p] |}
      end
  | _ =>
      if starts_with (bs "data:") line then
        let v := chop_space (skipn 5 line) in
        {| se_pending := match se_pending s with [] => v | p => p ++ LF :: v end;
           se_retry := se_retry s; se_out := se_out s |}
      else if starts_with (bs "retry:") line then
        {| se_pending := se_pending s;
           se_retry := match stoull (chop_space (skipn 6 line)) with
                       | Some n => N.modulo n (2 ^ 32)
                       | None => se_retry s
                       end;
           se_out := se_out s |}
      else s
  end.

(** The lines that repeated std::getline yields from a buffer: what follows the last line break is a
    line too, unless it is empty. cur: the part of the current line already read, reversed. *)
Fixpoint getlines (cur : bstr) (s : bstr) : list bstr :=
  match s with
  | [] => match cur with [] => [] | _ => [rev cur] end
  | c :: r => if Ascii.eqb c LF then rev cur :: getlines [] r else getlines (c :: cur) r
  end.

(** parseEventStream on all that is in the buffer, HTTPTransport.cpp:518-551. *)
Definition parse_events (buf : bstr) (s : sse) : sse := fold_left sse_line (getlines [] buf) s.

Definition has_lf (s : bstr) : bool := existsb (fun c => Ascii.eqb c LF) s.

(** The read loop, HTTPTransport.cpp:624-637 (TLS: 714-727). reads: the pieces the socket returns.
    read_until appends to the buffer until it holds a line break; then everything in the buffer is
    parsed. Simplification: the handler of a payload does not throw, and the connection stays up; a
    read that fails or times out ends the loop at that point, which a shorter list of reads covers. *)
Fixpoint sse_reads (buf : bstr) (reads : list bstr) (s : sse) : sse :=
  match reads with
  | [] => s
  | r :: rs => let b := buf ++ r in if has_lf b then sse_reads [] rs (parse_events b s) else sse_reads b rs s
  end.

(** A whole connection: extra is what the read of the headers (HTTPTransport.cpp:590) took in beyond
    them; it is parsed first. *)
Definition sse_connection (retry : N) (extra : bstr) (reads : list bstr) : sse :=
  sse_reads [] reads (parse_events extra (sse0 retry)).
