(** Reading resources: the server's windows and the client's loop. *)
From Coq Require Import Ascii String List Arith NArith ZArith Bool.
From Verif Require Import StrModel DoubleModel JsonModel RpcModel MapModel TaskModel DescModel RegModel ValModel TmplModel.
Import ListNotations.
Local Open Scope nat_scope.

(** What a resource handler does: a result or an exception with its text. *)
Inductive produced := POkay (contents : list json) | PThrow (what : bstr).

(** The registered handlers, by number. They run user code. *)
Record readers := {
  rd_direct : nat -> bstr -> produced;
  rd_template : nat -> bstr -> vars -> produced
}.

(** The settings that matter: validation mode, ui extension of the client, and
    capabilities.experimental. *)
Record read_cfg := { rc_strict : bool; rc_ui : bool; rc_exp : obj }.

Definition CHUNKING : bstr := bs "resourceReadChunking".
Definition MAXBYTES : bstr := bs "maxChunkBytes".

(** The clamp, src/mcp/Server.cpp:405-418; 0 means none. *)
Definition clamp_of (exp : obj) : N :=
  match obj_get CHUNKING exp with
  | Some (JObj o) => match obj_get MAXBYTES o with Some (JInt z) => if Z.ltb 0 z then Z.to_N z else 0%N | _ => 0%N end
  | _ => 0%N
  end.

(** SetResourceReadChunkingMaxBytes, Server.cpp:3318-3338. size_t to int64_t wraps. *)
Definition to_i64 (n : N) : Z := let z := Z.of_N (N.modulo n two64) in if Z.ltb z (2 ^ 63) then z else (z - 2 ^ 64)%Z.
Definition obj_del (k : bstr) (o : obj) : obj := filter (fun e => negb (beq k (fst e))) o.
Definition set_clamp (m : option N) (exp : obj) : obj :=
  let rrc := match obj_get CHUNKING exp with Some (JObj o) => o | _ => [] end in
  let rrc := obj_set (bs "enabled") (JBool true) rrc in
  let rrc := match m with
             | Some n => if N.ltb 0 n then obj_set MAXBYTES (JInt (to_i64 n)) rrc else obj_del MAXBYTES rrc
             | None => obj_del MAXBYTES rrc
             end in
  obj_set CHUNKING (JObj rrc) exp.

(** The flattened text, Server.cpp:380-397; None: an item is not text (an exception). *)
Definition item_text (v : json) : option bstr :=
  match v with
  | JObj o =>
      match obj_get (bs "type") o, obj_get (bs "text") o with
      | Some (JStr ty), Some (JStr t) => if beq ty (bs "text") then Some t else None
      | _, _ => None
      end
  | _ => None
  end.
Fixpoint flatten (l : list json) : option bstr :=
  match l with
  | [] => Some []
  | v :: r => match item_text v, flatten r with Some t, Some s => Some (t ++ s) | _, _ => None end
  end.

(** The first _meta among the items, Server.cpp:359-372. *)
Fixpoint meta_candidate (l : list json) : option json :=
  match l with
  | [] => None
  | JObj o :: r => match obj_get META o with Some m => Some m | None => meta_candidate r end
  | _ :: r => meta_candidate r
  end.

(** The _meta of the result, Server.cpp:430-446. *)
Definition meta_shown (ui : bool) (m : json) : option json :=
  match m with
  | JObj o => if ui then Some m else match obj_del (bs "ui") o with [] => None | o' => Some (JObj o') end
  | _ => Some m
  end.

(** The window, Server.cpp:399-427. offset and length have been checked to be not negative and
    positive. *)
Definition window (clamp : N) (text : bstr) (offset length_ : option Z) : list json :=
  let start := match offset with Some z => Z.to_N z | None => 0%N end in
  let size := N.of_nat (length text) in
  if N.ltb start size then
    let take := match length_ with Some z => Z.to_N z | None => (size - start)%N end in
    let take := N.min take (size - start) in
    let take := if (N.ltb 0 clamp && N.ltb clamp take)%bool then clamp else take in
    [JObj (obj_set (bs "text") (JStr (firstn (N.to_nat take) (skipn (N.to_nat start) text)))
             (obj_set (bs "type") (JStr (bs "text")) []))]
  else [].

(** buildReadResourceResultJson, Server.cpp:356-457. inl: the exception's text. *)
Definition build_read (c : read_cfg) (contents : list json) (offset length_ : option Z) : bstr + json :=
  let finish items :=
    let o := obj_set (bs "contents") (JArr items) [] in
    let o := match meta_candidate contents with
             | Some m => match meta_shown (rc_ui c) m with Some m' => obj_set META m' o | None => o end
             | None => o
             end in
    if (rc_strict c && negb (valid_read (JObj o)))%bool then inl (bs "Invalid resource read result shape") else inr (JObj o) in
  match offset, length_ with
  | None, None => finish contents
  | _, _ =>
      match flatten contents with
      | None => inl (bs "Chunking requires text content")
      | Some text => finish (window (clamp_of (rc_exp c)) text offset length_)
      end
  end.

(** What the request is answered with: an error or a result. *)
Inductive answer := AError (code : Z) (msg : bstr) | AResult (v : json).

Definition INVALID_PARAMS : Z := (-32602)%Z.
Definition INTERNAL : Z := (-32603)%Z.
Definition RESOURCE_NOT_FOUND : Z := (-32002)%Z.

(** handleResourcesRead, Server.cpp:946-1018. cancelled: the request's token was cancelled while
    the handler ran. *)
Definition handle_read (c : read_cfg) (g : registry) (rd : readers) (cancelled : bool) (params : option json) : answer :=
  let '(uri, offset, length_) :=
    match params with
    | Some (JObj o) => (or_empty (get_str (bs "uri") o), get_int (bs "offset") o, get_int (bs "length") o)
    | _ => ([], None, None)
    end in
  match uri with
  | [] => AError INVALID_PARAMS (bs "Invalid params")
  | _ :: _ =>
      if (match offset with Some z => Z.ltb z 0 | None => false end) then AError INVALID_PARAMS (bs "Invalid offset/length")
      else if (match length_ with Some z => Z.leb z 0 | None => false end) then AError INVALID_PARAMS (bs "Invalid offset/length")
      else
        let run (p : produced) :=
          match p with
          | PThrow what => AError INTERNAL what
          | POkay contents =>
              if cancelled then AError INTERNAL (bs "Cancelled")
              else match build_read c contents offset length_ with
                   | inl what => AError INTERNAL what
                   | inr v => AResult v
                   end
          end in
        match resolve g uri with
        | RAmbiguous => AError INTERNAL (bs "Ambiguous resource template match")
        | RNone | RDirect None => AError RESOURCE_NOT_FOUND (bs "Resource not found")
        | RDirect (Some h) => run (rd_direct rd h uri)
        | RTemplate h vs => run (rd_template rd h uri vs)
        end
  end.

(** The parameters sent by coReadResource, src/mcp/Client.cpp:2003-2036. *)
Definition read_params (uri : bstr) (offset length_ : option Z) : json :=
  JObj (opt_set (bs "length") JInt length_ (opt_set (bs "offset") JInt offset (obj_set (bs "uri") (JStr uri) []))).

(** The value coReadResource hands to its caller, Client.cpp:2038-2052: result or error object. *)
Definition answer_value (a : answer) : json :=
  match a with AError code msg => error_object code msg None | AResult v => v end.

(** isErrorObject, include/mcp/typed/ClientTyped.h:29-35. *)
Definition is_error_object (v : json) : bool :=
  match v with
  | JObj o => match obj_get (bs "code") o, obj_get (bs "message") o with Some _, Some _ => true | _, _ => false end
  | _ => false
  end.

(** The message thrown for it, ClientTyped.h:63-69 with mcpErrorFromErrorValue, Errors.h:72-104. *)
Definition error_text (v : json) (default : bstr) : bstr :=
  match v with
  | JObj o => match obj_get (bs "code") o, obj_get (bs "message") o with Some (JInt _), Some (JStr m) => m | _, _ => default end
  | _ => default
  end.

(** doReadResourceRange, ClientTyped.h:57-78, and readResource, 306-326, with
    parseReadResourceResult, 253-264. inl: the exception's text. *)
Definition read_value_typed (strict : bool) (what bad : bstr) (v : json) : bstr + list json :=
  if is_error_object v then inl (error_text v what)
  else if (strict && negb (valid_read v))%bool then inl bad
  else inr match v with
           | JObj o => match obj_get (bs "contents") o with Some (JArr l) => l | _ => [] end
           | _ => []
           end.
Definition read_range (strict : bool) (ask : json -> json) (uri : bstr) (offset length_ : option Z) : bstr + list json :=
  read_value_typed strict (bs "resources/read (range) error") (bs "Validation failed: resources/read (range) result shape")
    (ask (read_params uri offset length_)).
Definition read_whole (strict : bool) (ask : json -> json) (uri : bstr) : bstr + list json :=
  read_value_typed strict (bs "resources/read error") (bs "Validation failed: resources/read result shape")
    (ask (read_params uri None None)).

(** The bytes of text among the items, ClientTyped.h:101-113. *)
Definition text_bytes (l : list json) : nat :=
  fold_right (fun v n => match item_text v with Some t => length t + n | None => n end) 0 l.

Inductive collected := CFuel | CThrow (what : bstr) | CDone (contents : list json).

(** The loop of doReadAllResourceInChunks, ClientTyped.h:94-123; offset and chunkSize are size_t. *)
Fixpoint read_loop (strict : bool) (ask : json -> json) (uri : bstr) (chunk : N) (fuel : nat) (offset : N) (agg : list json) : collected :=
  match fuel with
  | 0 => CFuel
  | S f =>
      match read_range strict ask uri (Some (to_i64 offset)) (Some (to_i64 chunk)) with
      | inl what => CThrow what
      | inr [] => CDone agg
      | inr part =>
          match text_bytes part with
          | 0 => CDone (agg ++ part)
          | n => read_loop strict ask uri chunk f (N.modulo (offset + N.of_nat n) two64) (agg ++ part)
          end
      end
  end.

(** doReadAllResourceInChunks, ClientTyped.h:88-124. *)
Definition read_all (strict : bool) (ask : json -> json) (uri : bstr) (chunk : N) (fuel : nat) : collected :=
  if N.eqb chunk 0 then CThrow (bs "chunkSize must be > 0") else read_loop strict ask uri chunk fuel 0 [].

(** The clamp-aware overload, ClientTyped.h:180-192, and extractResourceReadClamp, 40-51. *)
Definition clamp_hint (exp : obj) : option N :=
  match obj_get CHUNKING exp with
  | Some (JObj o) => match obj_get MAXBYTES o with Some (JInt z) => if Z.leb z 0 then None else Some (Z.to_N z) | _ => None end
  | _ => None
  end.
Definition effective_chunk (preferred : N) (hint : option N) : N :=
  match hint with Some h => if N.ltb 0 h then N.min preferred h else preferred | None => preferred end.
Definition read_all_clamped (strict : bool) (ask : json -> json) (uri : bstr) (preferred : N) (hint : option N) (fuel : nat) : collected :=
  read_all strict ask uri (effective_chunk preferred hint) fuel.

(** The client's call reaching the server and coming back: parameters and reply cross a connection
    that may reorder the members of objects. *)
Definition read_call (net : json -> json) (c : read_cfg) (g : registry) (rd : readers) (params : json) : json :=
  net (answer_value (handle_read c g rd false (Some (net params)))).
