(** JSON-RPC message objects: serialization by concatenation, deserialization by textual
    search. *)
From Coq Require Import Ascii String List Arith NArith ZArith Bool.
From Verif Require Import StrModel DoubleModel JsonModel.
Import ListNotations.
Local Open Scope nat_scope.

(** JSONRPCId, include/mcp/JSONRPCTypes.h:73 (variant of string, int64_t, nullptr). *)
Inductive rpcid := IdStr (s : bstr) | IdInt (z : Z) | IdNull.

(** JSONRPCRequest, JSONRPCResponse, JSONRPCNotification, include/mcp/JSONRPCTypes.h:83-180.
    Simplification: the jsonrpc member is its default 2.0, which nothing in the library
    changes. *)
Record request := { rq_id : rpcid; rq_method : bstr; rq_params : option json }.
Record response := { rs_id : rpcid; rs_result : option json; rs_error : option json }.
Record notification := { nt_method : bstr; nt_params : option json }.

(** Freshly constructed objects (the id variant holds its first alternative). *)
Definition request0 : request := {| rq_id := IdStr []; rq_method := []; rq_params := None |}.
Definition response0 : response := {| rs_id := IdStr []; rs_result := None; rs_error := None |}.
Definition notification0 : notification := {| nt_method := []; nt_params := None |}.

(** The id as written, JSONParser.cpp:312-321 and 398-407: strings are not escaped. *)
Definition ser_id (i : rpcid) : bstr :=
  match i with
  | IdStr s => QUOTE :: s ++ [QUOTE]
  | IdInt z => print_Z z
  | IdNull => bs "null"
  end.

Definition HEAD : bstr := bs "{""jsonrpc"":""2.0""".

Definition opt_member (key : bstr) (v : option json) : bstr :=
  match v with
  | None => []
  | Some x => COMMA :: QUOTE :: key ++ [QUOTE; COLON] ++ ser x
  end.

(** JSONRPCRequest::Serialize, JSONParser.cpp:305-331. *)
Definition ser_request (r : request) : bstr :=
  HEAD ++ bs ",""id"":" ++ ser_id (rq_id r) ++
  bs ",""method"":""" ++ rq_method r ++ [QUOTE] ++ opt_member (bs "params") (rq_params r) ++ [RBRACE].

(** JSONRPCResponse::Serialize, JSONParser.cpp:391-419. *)
Definition ser_response (r : response) : bstr :=
  HEAD ++ bs ",""id"":" ++ ser_id (rs_id r) ++
  opt_member (bs "result") (rs_result r) ++ opt_member (bs "error") (rs_error r) ++ [RBRACE].

(** JSONRPCNotification::Serialize, JSONParser.cpp:538-550. *)
Definition ser_notification (n : notification) : bstr :=
  HEAD ++ bs ",""method"":""" ++ nt_method n ++ [QUOTE] ++
  opt_member (bs "params") (nt_params n) ++ [RBRACE].

(** json.find(p) followed by skipping p: the text after the first occurrence. *)
Definition after (p s : bstr) : option bstr :=
  option_map (fun k => skipn (k + length p) s) (find_sub p s).

(** The text up to the next quote, if there is one. *)
Definition until_quote (s : bstr) : option bstr :=
  option_map (fun e => firstn e s) (find_char QUOTE s).

(** The method, JSONParser.cpp:337-344 and 557-564. If no quote follows, find returns npos
    and npos + 1 is 0, so the method is what precedes the first quote of the text. *)
Definition read_method (cur : bstr) (s : bstr) : bstr :=
  match after (bs """method"":") s with
  | None => cur
  | Some t =>
      let from := match find_char QUOTE t with
                  | Some q => skipn (q + 1) t
                  | None => s
                  end in
      match until_quote from with
      | Some m => m
      | None => cur
      end
  end.

Definition is_num_char (c : ascii) : bool := (Ascii.eqb c (chr 45) || is_digit c)%bool.

(** The id, JSONParser.cpp:347-370 and 425-448. *)
Definition read_id (cur : rpcid) (s : bstr) : rpcid :=
  match after (bs """id"":") s with
  | None => cur
  | Some t =>
      match drop_while is_ws t with
      | [] => cur
      | c :: r =>
          if Ascii.eqb c QUOTE then
            match until_quote r with Some x => IdStr x | None => cur end
          else if is_num_char c then
            match stoll (fst (span is_num_char (c :: r))) with
            | Some z => IdInt z
            | None => IdNull
            end
          else if starts_with (bs "null") (c :: r) then IdNull
          else cur
      end
  end.

(** The value of a member found by its quoted key: None when the key is absent or only
    white space follows it. The result [PFuel] does not happen (C08). *)
Definition read_value (key : bstr) (s : bstr) : option (pres json) :=
  match after (QUOTE :: key ++ [QUOTE; COLON]) s with
  | None => None
  | Some t =>
      match drop_while is_ws t with
      | [] => None
      | t' => Some (parse_json t')
      end
  end.

Definition nonempty (s : bstr) : bool := match s with [] => false | _ => true end.

(** JSONRPCRequest::Deserialize, JSONParser.cpp:333-388: the returned flag and the object
    afterwards. *)
Definition deser_request (r : request) (s : bstr) : bool * request :=
  let m := read_method (rq_method r) s in
  let i := read_id (rq_id r) s in
  match read_value (bs "params") s with
  | None => (nonempty m, {| rq_id := i; rq_method := m; rq_params := rq_params r |})
  | Some (POk v _) => (nonempty m, {| rq_id := i; rq_method := m; rq_params := Some v |})
  | Some _ => (false, {| rq_id := i; rq_method := m; rq_params := rq_params r |})
  end.

(** JSONRPCNotification::Deserialize, JSONParser.cpp:552-581. *)
Definition deser_notification (n : notification) (s : bstr) : bool * notification :=
  let m := read_method (nt_method n) s in
  match read_value (bs "params") s with
  | None => (nonempty m, {| nt_method := m; nt_params := nt_params n |})
  | Some (POk v _) => (nonempty m, {| nt_method := m; nt_params := Some v |})
  | Some _ => (false, {| nt_method := m; nt_params := nt_params n |})
  end.

(** CreateErrorObject, JSONParser.cpp:584-596. *)
Definition error_object (code : Z) (msg : bstr) (data : option json) : json :=
  JObj ([(bs "code", JInt code); (bs "message", JStr msg)] ++
        match data with Some d => [(bs "data", d)] | None => [] end).

(** CreateErrorResponse, JSONParser.cpp:598-607. *)
Definition error_response (i : rpcid) (code : Z) (msg : bstr) (data : option json) : response :=
  {| rs_id := i; rs_result := None; rs_error := Some (error_object code msg data) |}.

(** The placeholder for an unparsable result, JSONParser.cpp:460-472. *)
Definition result_placeholder (t : bstr) : json :=
  match t with
  | c :: _ =>
      if Ascii.eqb c LBRACE then JObj []
      else if Ascii.eqb c LBRACK then JArr []
      else if Ascii.eqb c QUOTE then JStr []
      else JNull
  | [] => JNull
  end.

(** The text after the first colon at or after the first occurrence of p. *)
Definition after_colon (p : bstr) (t : bstr) : option bstr :=
  match find_sub p t with
  | None => None
  | Some k => match find_char COLON (skipn k t) with
              | None => None
              | Some c => Some (skipn (c + 1) (skipn k t))
              end
  end.

(** The fallback for an unparsable error, JSONParser.cpp:484-524; t is the text from
    valStart on. *)
Definition error_fallback (t : bstr) : json :=
  let code :=
    match after_colon (bs """code""") t with
    | None => []
    | Some u =>
        match drop_while is_ws u with
        | [] => []
        | u' => match stoll (fst (span is_num_char u')) with
                | Some z => [(bs "code", JInt z)]
                | None => []
                end
        end
    end in
  let msg :=
    match after_colon (bs """message""") t with
    | None => []
    | Some u =>
        match find_char QUOTE u with
        | None => []
        | Some q => match until_quote (skipn (q + 1) u) with
                    | Some m => [(bs "message", JStr m)]
                    | None => []
                    end
        end
    end in
  match code ++ msg with
  | [] => error_object (-32603) (bs "Malformed error payload") None
  | o => JObj o
  end.

(** The member text from its first non-blank byte on. *)
Definition value_text (key : bstr) (s : bstr) : bstr :=
  match after (QUOTE :: key ++ [QUOTE; COLON]) s with
  | None => []
  | Some t => drop_while is_ws t
  end.

(** JSONRPCResponse::Deserialize, JSONParser.cpp:421-535. It always returns true. *)
Definition deser_response (r : response) (s : bstr) : bool * response :=
  (true,
   {| rs_id := read_id (rs_id r) s;
      rs_result :=
        match read_value (bs "result") s with
        | None => rs_result r
        | Some (POk v _) => Some v
        | Some _ => Some (result_placeholder (value_text (bs "result") s))
        end;
      rs_error :=
        match read_value (bs "error") s with
        | None => rs_error r
        | Some (POk v _) => Some v
        | Some _ => Some (error_fallback (value_text (bs "error") s))
        end |}).
