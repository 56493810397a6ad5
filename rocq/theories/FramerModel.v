(** Content-Length framing and the stdio reader loop. *)
From Coq Require Import Ascii String List Arith NArith ZArith Bool.
From Verif Require Import StrModel.
Import ListNotations.
Local Open Scope nat_scope.

Definition SEP : bstr := [CR; LF; CR; LF].

(** ContentLengthFramer::encode, src/mcp/ContentLengthFramer.cpp:24-30. *)
Definition encode (payload : bstr) : bstr :=
  bs "Content-Length: " ++ print_N (N.of_nat (length payload)) ++ SEP ++ payload.

(** DecodeResult, include/mcp/ContentFramer.h. [Diverged] does not exist in the code: it
    is the outcome of running out of fuel in the header loop, excluded by a theorem. *)
Inductive decode_result :=
| Incomplete
| Ok (payload : bstr) (consumed : nat)
| InvalidHeader (consumed : nat)
| BodyTooLarge (consumed : nat)
| Diverged.

(** What one header line does, ContentLengthFramer.cpp:47-68. *)
Inductive line_result := LSkip | LBad | LLen (n : N).

Definition header_line (line : bstr) : line_result :=
  match find_char (chr 58) line with            (* line.find(':')  48 *)
  | None => LSkip
  | Some colon =>
      let name := lower (substr line 0 colon) in           (* 50-51 *)
      let value := drop_while is_space (skipn (colon + 1) line) in  (* 52-53 *)
      if beq name (bs "content-length") then
        match stoull value with                 (* 56 *)
        | None => LBad                          (* catch (...) 63-65 *)
        | Some v => LLen v
        end
      else LSkip
  end.

Inductive loop_result := HLen (cl : option N) | HTooLarge | HInvalid | HFuel.

(** The header loop, ContentLengthFramer.cpp:39-70. size_t is 64 bits, so the second
    disjunct of line 57 never holds for a value that stoull returned. *)
Fixpoint header_loop (fuel : nat) (max : N) (buffer : bstr) (headerEnd pos : nat)
    (cl : option N) : loop_result :=
  match fuel with
  | O => HFuel
  | S f =>
      if Nat.ltb pos headerEnd then
        match find_from CRLF buffer pos with
        | None => HLen cl                       (* break, 44 *)
        | Some eol =>
            if Nat.ltb headerEnd eol then HLen cl   (* break, 44 *)
            else
              match header_line (substr buffer pos (eol - pos)) with
              | LSkip => header_loop f max buffer headerEnd (eol + 2) cl
              | LBad => HInvalid
              | LLen v =>
                  if N.ltb max v then HTooLarge
                  else header_loop f max buffer headerEnd (eol + 2) (Some v)
              end
        end
      else HLen cl
  end.

(** ContentLengthFramer::tryDecodeEx, ContentLengthFramer.cpp:32-89. *)
Definition decode (max : N) (buffer : bstr) : decode_result :=
  match find_sub SEP buffer with
  | None => Incomplete
  | Some headerEnd =>
      let headerAndSep := headerEnd + 4 in
      match header_loop (S headerEnd) max buffer headerEnd 0 None with
      | HFuel => Diverged
      | HTooLarge => BodyTooLarge headerAndSep
      | HInvalid => InvalidHeader headerAndSep
      | HLen None => InvalidHeader headerAndSep                       (* 72-75 *)
      | HLen (Some len) =>
          if N.ltb (two64 - 1 - N.of_nat headerAndSep) len then InvalidHeader headerAndSep (* 78-81 *)
          else if N.ltb (N.of_nat (length buffer)) (N.of_nat headerAndSep + len)
          then Incomplete                                             (* 83-85 *)
          else let n := N.to_nat len in
               Ok (substr buffer headerAndSep n) (headerAndSep + n)   (* 87-88 *)
      end
  end.

(** ContentLengthFramer::tryDecode, ContentLengthFramer.cpp:91-100: payload and the
    buffer afterwards. *)
Definition try_decode (max : N) (buffer : bstr) : option bstr * bstr :=
  match decode max buffer with
  | Ok p n =>
      (Some p, if (Nat.ltb 0 n && Nat.leb n (length buffer))%bool then skipn n buffer else buffer)
  | _ => (None, buffer)
  end.

(** What the reader does with the stream, in order. *)
Inductive rx_event :=
| Delivered (payload : bstr)      (* processMessage(payload) *)
| SkippedHeader                   (* LOG_WARN "invalid frame header" *)
| TooLarge.                       (* errorHandler "body too large"; disconnect *)

Record reader := { rx_connected : bool; rx_buffer : bstr }.

Definition erase_prefix (n : nat) (b : bstr) : bstr := skipn n b.

(** StdioTransport drainFrames, src/mcp/StdioTransport.cpp:255-288.
    Simplification: the transport is not closed by another thread while draining.
    None: out of fuel (excluded by a theorem). *)
Fixpoint drain (fuel : nat) (max : N) (conn : bool) (b : bstr)
  : option (list rx_event * reader) :=
  match fuel with
  | O => None
  | S f =>
      if conn then
        match decode max b with
        | Ok p n =>
            let b' := if (Nat.ltb 0 n && Nat.leb n (length b))%bool then skipn n b else b in
            match drain f max true b' with
            | None => None
            | Some (evs, r) => Some (Delivered p :: evs, r)
            end
        | Incomplete => Some ([], {| rx_connected := true; rx_buffer := b |})
        | InvalidHeader n =>
            let b' := if (Nat.ltb 0 n && Nat.leb n (length b))%bool then skipn n b
                      else tl b in
            match drain f max true b' with
            | None => None
            | Some (evs, r) => Some (SkippedHeader :: evs, r)
            end
        | BodyTooLarge _ => Some ([TooLarge], {| rx_connected := false; rx_buffer := b |})
        | Diverged => None
        end
      else Some ([], {| rx_connected := false; rx_buffer := b |})
  end.

(** One pass of the POSIX read loop: append what read() returned, then drain;
    StdioTransport.cpp:418-572 (Linux loop, lines 540-541 append, 559 drains). A
    disconnected transport reads no more. Simplification: only the effect of a
    successful read() is modelled here; epoll results are in StdioModel.v. *)
Definition on_read (max : N) (r : reader) (chunk : bstr) : option (list rx_event * reader) :=
  if rx_connected r then
    let b := rx_buffer r ++ chunk in
    drain (S (length b)) max true b
  else Some ([], r).

Fixpoint on_reads (max : N) (r : reader) (chunks : list bstr) : option (list rx_event * reader) :=
  match chunks with
  | [] => Some ([], r)
  | c :: cs =>
      match on_read max r c with
      | None => None
      | Some (e1, r1) =>
          match on_reads max r1 cs with
          | None => None
          | Some (e2, r2) => Some (e1 ++ e2, r2)
          end
      end
  end.

Definition reader0 : reader := {| rx_connected := true; rx_buffer := [] |}.
