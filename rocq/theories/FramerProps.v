(** Properties C01-C04: Content-Length framing and the stdio reader. *)
From Coq Require Import Ascii String List Arith NArith ZArith Bool Lia ZifyBool ZifyNat ZifyN.
From Verif Require Import StrModel FramerModel FramerSpec FramerProofs.
Import ListNotations.
Local Open Scope nat_scope.

(** C01. The only size hypothesis besides the cap is that the frame fits in memory
    (its length is a size_t). *)
Theorem C01_frame_roundtrip : forall (max : N) (payload rest : bstr),
  (N.of_nat (length payload) <= max)%N ->
  (N.of_nat (length (encode payload)) < 2 ^ 64)%N ->
  decode max (encode payload ++ rest) = Ok payload (length (encode payload)).
Proof. exact decode_encode. Qed.
Print Assumptions C01_frame_roundtrip.

(** Hypotheses met by a payload that itself contains a frame. *)
Example C01_ex :
  let p := bs "{}" ++ [CR; LF; CR; LF] ++ bs "Content-Length: 99" ++ [CR; LF; CR; LF] in
  (N.of_nat (length p) <= 64)%N /\ (N.of_nat (length (encode p)) < 2 ^ 64)%N /\
  decode 64 (encode p ++ bs "tail") = Ok p (length (encode p)).
Proof. vm_compute. repeat split; discriminate. Qed.

(** C01, via the erasing entry point: the buffer keeps exactly what followed. *)
Theorem C01_try_decode_roundtrip : forall (max : N) (payload rest : bstr),
  (N.of_nat (length payload) <= max)%N ->
  (N.of_nat (length (encode payload)) < 2 ^ 64)%N ->
  try_decode max (encode payload ++ rest) = (Some payload, rest).
Proof. exact try_decode_encode. Qed.
Print Assumptions C01_try_decode_roundtrip.

(** C02, any stream: the sequence of reader actions does not depend on the chunking,
    nor does the connection state, nor the bytes left over while connected. *)
Theorem C02_chunking_independent : forall (max : N) (chunks1 chunks2 : list bstr),
  concat chunks1 = concat chunks2 ->
  exists events r1 r2,
    on_reads max reader0 chunks1 = Some (events, r1) /\
    on_reads max reader0 chunks2 = Some (events, r2) /\
    rx_connected r1 = rx_connected r2 /\
    (rx_connected r1 = true -> rx_buffer r1 = rx_buffer r2).
Proof. exact chunking_same. Qed.
Print Assumptions C02_chunking_independent.

(** C02, well-formed stream: exactly the payloads, in order, nothing left over. *)
Theorem C02_frames_delivered : forall (payloads : list bstr) (max : N) (chunks : list bstr),
  Forall (fun p => (N.of_nat (length p) <= max)%N /\ (N.of_nat (length (encode p)) < 2 ^ 64)%N) payloads ->
  concat chunks = concat (map encode payloads) ->
  on_reads max reader0 chunks = Some (map Delivered payloads, reader0).
Proof. exact frames_any_chunking. Qed.
Print Assumptions C02_frames_delivered.

Example C02_ex :
  on_reads 64 reader0
    [bs "Content-Len"; bs "gth: 5" ++ [CR]; [LF; CR]; [LF] ++ bs "hel"; bs "loContent-Length: 2" ++ [CR; LF; CR; LF] ++ bs "{}"]
  = Some ([Delivered (bs "hello"); Delivered (bs "{}")], reader0).
Proof. reflexivity. Qed.

(** C03, soundness: what is delivered is the slice designated by the header block before
    the first blank line, within the buffer and within the cap. *)
Theorem C03_decode_sound : forall (max : N) (buffer payload : bstr) (consumed : nat),
  decode max buffer = Ok payload consumed ->
  exists h rest,
    buffer = h ++ [CR; LF; CR; LF] ++ payload ++ rest /\
    ~ occurs [CR; LF; CR; LF] (h ++ [CR; LF; CR]) /\
    consumed = length (h ++ [CR; LF; CR; LF] ++ payload) /\
    designates h (N.of_nat (length payload)) /\
    (N.of_nat (length payload) <= max)%N.
Proof. exact decode_sound. Qed.
Print Assumptions C03_decode_sound.

Example C03_sound_ex :
  decode 64 (bs "X-Id: 7" ++ CRLF ++ bs "content-LENGTH:   +3;x" ++ [CR; LF; CR; LF] ++ bs "abcdef") = Ok (bs "abc") 38.
Proof. reflexivity. Qed.

(** C03, bounds on what any outcome reports as consumed. *)
Theorem C03_consumes_within_buffer : forall (max : N) (buffer : bstr),
  match decode max buffer with
  | Ok _ n | InvalidHeader n | BodyTooLarge n => 0 < n <= length buffer
  | Incomplete => True
  | Diverged => False
  end.
Proof. exact decode_bounds. Qed.
Print Assumptions C03_consumes_within_buffer.

(** C03, completeness: a complete frame, with any other headers, whose Content-Length
    values are numerals within the cap is delivered; the last one decides. *)
Theorem C03_decode_complete : forall (max : N) (h : bstr) (ls : list bstr) (payload rest : bstr),
  (max < 2 ^ 64)%N -> (N.of_nat (length (h ++ [CR; LF; CR; LF] ++ payload)) < 2 ^ 64)%N ->
  header_lines h ls ->
  ~ occurs [CR; LF; CR; LF] (h ++ [CR; LF; CR]) ->
  (forall l v, In l ls -> content_length_line l v -> exists m, stoull v = Some m /\ (m <= max)%N) ->
  (exists before line after v, ls = before ++ line :: after /\ content_length_line line v /\
      stoull v = Some (N.of_nat (length payload)) /\
      Forall (fun l => ~ is_content_length_line l) after) ->
  decode max (h ++ [CR; LF; CR; LF] ++ payload ++ rest)
  = Ok payload (length (h ++ [CR; LF; CR; LF] ++ payload)).
Proof. exact decode_complete. Qed.
Print Assumptions C03_decode_complete.

(** C03, cap: a frame for a payload above the cap is never delivered: the reader reports
    it and disconnects. *)
Theorem C03_oversize_disconnects : forall (max : N) (payload : bstr) (chunks : list bstr) (rest : bstr),
  (max < N.of_nat (length payload))%N ->
  (N.of_nat (length (encode payload)) < 2 ^ 64)%N ->
  concat chunks = encode payload ++ rest ->
  exists r, on_reads max reader0 chunks = Some ([TooLarge], r) /\ rx_connected r = false.
Proof. exact oversize_disconnects. Qed.
Print Assumptions C03_oversize_disconnects.

Example C03_oversize_ex :
  exists r, on_reads 3 reader0 [bs "Content-Length: 4" ++ [CR; LF]; [CR; LF] ++ bs "ab"; bs "cd"] = Some ([TooLarge], r)
            /\ rx_connected r = false.
Proof. eexists. split; reflexivity. Qed.

(** A negative Content-Length is read by stoull as a huge number and so rejected. *)
Example C03_negative_ex :
  decode (2 ^ 20) (bs "Content-Length: -1" ++ [CR; LF; CR; LF] ++ bs "ab") = BodyTooLarge 22.
Proof. reflexivity. Qed.

(** C04. The reader terminates on every sequence of reads: the number of loop
    iterations is bounded by the buffer length plus one (the fuel given in the model). *)
Theorem C04_reader_terminates : forall (chunks : list bstr) (max : N) (r : reader),
  exists res, on_reads max r chunks = Some res.
Proof. exact on_reads_total. Qed.
Print Assumptions C04_reader_terminates.

(** C04. Every iteration that does not stop the loop removes at least four bytes. *)
Theorem C04_progress : forall (max : N) (b : bstr) n,
  (exists p, decode max b = Ok p n) \/ decode max b = InvalidHeader n ->
  length (skipn n b) + 4 <= length b.
Proof. exact decode_progress. Qed.
Print Assumptions C04_progress.

Example C04_ex : decode 64 ([CR; LF; CR; LF] ++ bs "x") = InvalidHeader 4.
Proof. reflexivity. Qed.
