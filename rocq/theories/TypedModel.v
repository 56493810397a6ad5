(** The typed calls of the client: results as structures, errors as exceptions, and the chunked
    read that can be stopped. *)
From Coq Require Import Ascii String List Arith NArith ZArith Bool.
From Verif Require Import StrModel DoubleModel JsonModel RpcModel MapModel TaskModel DescModel RegModel ValModel TmplModel ReadModel SubModel LogModel ErrModel ServModel.
Import ListNotations.
Local Open Scope nat_scope.

(** What CallTool, ReadResource and GetPrompt of the client yield, src/mcp/Client.cpp:1383-1397,
    2011-2023, 2040-2052, 2064-2078: the result, else the error; a null value if there was neither,
    no response, or the transport's future threw (None). *)
Definition reply_value (resp : option response) : json := match resp with Some r => value_or_error r | None => JNull end.

(** An array member and its items, include/mcp/typed/ClientTyped.h:232-237, 257-262, 274-279. *)
Definition array_member (k : bstr) (v : json) : list json :=
  match v with JObj o => match obj_get k o with Some (JArr l) => l | _ => [] end | _ => [] end.

(** parseCallToolResult, ClientTyped.h:228-251; CallToolResult, include/mcp/typed/Content.h. *)
Definition parse_call (v : json) : tool_out :=
  match v with
  | JObj o =>
      {| to_content := array_member (bs "content") v;
         to_struct := obj_get (bs "structuredContent") o;
         to_meta := obj_get META o;
         to_error := match obj_get (bs "isError") o with Some (JBool b) => b | _ => false end |}
  | _ => {| to_content := []; to_struct := None; to_meta := None; to_error := false |}
  end.

(** parseGetPromptResult, ClientTyped.h:266-281. *)
Definition parse_prompt_result (v : json) : bstr * list json :=
  match v with
  | JObj o => (or_empty (get_str (bs "description") o), array_member (bs "messages") v)
  | _ => ([], [])
  end.

(** callTool, ClientTyped.h:284-304. *)
Definition typed_call (strict : bool) (resp : option response) : ret tool_out :=
  let v := reply_value resp in
  if is_error_object v then Threw (error_text v (bs "tools/call error"))
  else if (strict && negb (valid_call_tool v))%bool then Threw (bs "Validation failed: tools/call result shape")
  else Ret (parse_call v).

(** getPrompt, ClientTyped.h:328-348. *)
Definition typed_prompt (strict : bool) (resp : option response) : ret (bstr * list json) :=
  let v := reply_value resp in
  if is_error_object v then Threw (error_text v (bs "prompts/get error"))
  else if (strict && negb (valid_get_prompt v))%bool then Threw (bs "Validation failed: prompts/get result shape")
  else Ret (parse_prompt_result v).

(** readResource, ClientTyped.h:306-326, with parseReadResourceResult, 253-264. *)
Definition typed_read (strict : bool) (resp : option response) : ret (list json) :=
  match read_value_typed strict (bs "resources/read error") (bs "Validation failed: resources/read result shape") (reply_value resp) with
  | inl what => Threw what
  | inr items => Ret items
  end.

(** The loop of doReadAllResourceInChunksCancelable, ClientTyped.h:134-163. stop i: the token is
    given and a stop has been requested when the loop looks for the i-th time. *)
Fixpoint stop_loop (stop : nat -> bool) (strict : bool) (ask : json -> json) (uri : bstr) (chunk : N) (fuel i : nat) (offset : N) (agg : list json) : collected :=
  match fuel with
  | 0 => CFuel
  | S f =>
      if stop i then CDone agg
      else match read_range strict ask uri (Some (to_i64 offset)) (Some (to_i64 chunk)) with
           | inl what => CThrow what
           | inr [] => CDone agg
           | inr part =>
               match text_bytes part with
               | 0 => CDone (agg ++ part)
               | n => stop_loop stop strict ask uri chunk f (S i) (N.modulo (offset + N.of_nat n) two64) (agg ++ part)
               end
           end
  end.

(** doReadAllResourceInChunksCancelable, ClientTyped.h:127-164, and its overload, 173-178. *)
Definition read_all_stop (stop : nat -> bool) (strict : bool) (ask : json -> json) (uri : bstr) (chunk : N) (fuel : nat) : collected :=
  if N.eqb chunk 0 then CThrow (bs "chunkSize must be > 0") else stop_loop stop strict ask uri chunk fuel 0 0 [].

(** The overload with a hint, ClientTyped.h:195-207, and the one that takes the server's
    capabilities, 219-226 (and 210-216 without a token). *)
Definition read_all_stop_clamped (stop : nat -> bool) (strict : bool) (ask : json -> json) (uri : bstr) (preferred : N) (hint : option N) (fuel : nat) : collected :=
  read_all_stop stop strict ask uri (effective_chunk preferred hint) fuel.
Definition read_all_caps (strict : bool) (ask : json -> json) (uri : bstr) (preferred : N) (exp : obj) (fuel : nat) : collected :=
  read_all_clamped strict ask uri preferred (clamp_hint exp) fuel.
Definition read_all_stop_caps (stop : nat -> bool) (strict : bool) (ask : json -> json) (uri : bstr) (preferred : N) (exp : obj) (fuel : nat) : collected :=
  read_all_stop_clamped stop strict ask uri preferred (clamp_hint exp) fuel.
