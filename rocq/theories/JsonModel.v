(** The JSON value type, its serializer and its recursive-descent parser. *)
From Coq Require Import Ascii String List Arith NArith ZArith Bool.
From Verif Require Import StrModel DoubleModel.
Import ListNotations.
Local Open Scope nat_scope.

(** JSONValue, include/mcp/JSONRPCTypes.h (struct JSONValue, the variant of null, bool,
    int64_t, double, string, Array, Object). An object is an association list standing
    for an unordered_map: distinct keys, in some iteration order. Simplification: the
    shared_ptr members are never null. *)
Inductive json :=
| JNull
| JBool (b : bool)
| JInt (z : Z)
| JDbl (d : dbl)
| JStr (s : bstr)
| JArr (l : list json)
| JObj (l : list (bstr * json)).

Definition obj := list (bstr * json).

(** unordered_map::find. *)
Fixpoint obj_get (k : bstr) (o : obj) : option json :=
  match o with
  | [] => None
  | (k', v) :: o' => if beq k k' then Some v else obj_get k o'
  end.

(** obj[key] = value. *)
Fixpoint obj_set (k : bstr) (v : json) (o : obj) : obj :=
  match o with
  | [] => [(k, v)]
  | (k', v') :: o' => if beq k k' then (k, v) :: o' else (k', v') :: obj_set k v o'
  end.

(** unordered_map::erase(key). *)
Fixpoint obj_del (k : bstr) (o : obj) : obj :=
  match o with
  | [] => []
  | (k', v') :: o' => if beq k k' then obj_del k o' else (k', v') :: obj_del k o'
  end.

Definition hex_digit (n : N) : ascii := if N.ltb n 10 then chr (48 + n) else chr (87 + n).

(** One character of a string value, JSONParser.cpp:232-249. char is signed, so bytes
    of 128 and more fail c >= 0 and are copied. *)
Definition esc_char (c : ascii) : bstr :=
  let n := code c in
  if N.eqb n 34 then [BACKSLASH; QUOTE]
  else if N.eqb n 92 then [BACKSLASH; BACKSLASH]
  else if N.eqb n 8 then [BACKSLASH; chr 98]
  else if N.eqb n 12 then [BACKSLASH; chr 102]
  else if N.eqb n 10 then [BACKSLASH; chr 110]
  else if N.eqb n 13 then [BACKSLASH; chr 114]
  else if N.eqb n 9 then [BACKSLASH; chr 116]
  else if N.ltb n 32 then
    [BACKSLASH; chr 117; chr 48; chr 48; hex_digit (n / 16); hex_digit (n mod 16)]
  else [c].

Definition esc (s : bstr) : bstr := flat_map esc_char s.

Definition ser_str (s : bstr) : bstr := QUOTE :: esc s ++ [QUOTE].

Definition COMMA : ascii := chr 44.
Definition COLON : ascii := chr 58.
Definition LBRACE : ascii := chr 123.
Definition RBRACE : ascii := chr 125.
Definition LBRACK : ascii := chr 91.
Definition RBRACK : ascii := chr 93.

(** An object member, JSONParser.cpp:268: the key is written without escaping. *)
Definition ser_member (k : bstr) (text : bstr) : bstr :=
  QUOTE :: k ++ [QUOTE; COLON] ++ text.

(** serializeJSONValue, JSONParser.cpp:217-277. *)
Fixpoint ser (v : json) : bstr :=
  match v with
  | JNull => bs "null"
  | JBool true => bs "true"
  | JBool false => bs "false"
  | JInt z => print_Z z
  | JDbl d => print_double d
  | JStr s => ser_str s
  | JArr l => LBRACK :: join [COMMA] (map ser l) ++ [RBRACK]
  | JObj l => LBRACE :: join [COMMA] (map (fun kv => ser_member (fst kv) (ser (snd kv))) l) ++ [RBRACE]
  end.

(** Outcome of a parsing function: value and remaining input, a thrown exception, or
    (excluded by a theorem) fuel exhausted. The parser's index i is represented by the
    suffix of the input that starts there. *)
Inductive pres (A : Type) :=
| POk (a : A) (rest : bstr)
| PThrow
| PFuel.
Arguments POk {A}. Arguments PThrow {A}. Arguments PFuel {A}.

(** JsonParser::skipWs, JSONParser.cpp:52-57. *)
Definition skip_ws (s : bstr) : bstr := drop_while is_ws s.

(** JsonParser::match, JSONParser.cpp:59-63. *)
Definition match_char (c : ascii) (s : bstr) : option bstr :=
  match skip_ws s with
  | x :: r => if Ascii.eqb x c then Some r else None
  | [] => None
  end.

(** A hexadecimal digit, JSONParser.cpp:100-103. *)
Definition hex_val (c : ascii) : option N :=
  let n := code c in
  if (N.leb 48 n && N.leb n 57)%bool then Some (n - 48)%N
  else if (N.leb 97 n && N.leb n 102)%bool then Some (n - 87)%N
  else if (N.leb 65 n && N.leb n 70)%bool then Some (n - 55)%N
  else None.

(** Code point to bytes, JSONParser.cpp:105-120. *)
Definition utf8 (cp : N) : bstr :=
  if N.leb cp 127 then [chr (N.land cp 127)]
  else if N.leb cp 2047 then
    [chr (N.lor 192 (N.land (N.shiftr cp 6) 31)); chr (N.lor 128 (N.land cp 63))]
  else
    [chr (N.lor 224 (N.land (N.shiftr cp 12) 15));
     chr (N.lor 128 (N.land (N.shiftr cp 6) 63));
     chr (N.lor 128 (N.land cp 63))].

Definition hex4 (a b c d : ascii) : option N :=
  match hex_val a, hex_val b, hex_val c, hex_val d with
  | Some x, Some y, Some z, Some w => Some (((x * 16 + y) * 16 + z) * 16 + w)%N
  | _, _, _, _ => None
  end.

(** A single-character escape, JSONParser.cpp:82-90, 123. *)
Definition simple_escape (e : ascii) : option ascii :=
  let n := code e in
  if N.eqb n 34 then Some QUOTE
  else if N.eqb n 92 then Some BACKSLASH
  else if N.eqb n 47 then Some (chr 47)
  else if N.eqb n 98 then Some (chr 8)
  else if N.eqb n 102 then Some (chr 12)
  else if N.eqb n 110 then Some (chr 10)
  else if N.eqb n 114 then Some (chr 13)
  else if N.eqb n 116 then Some (chr 9)
  else None.

(** The loop of JsonParser::parseString after the opening quote, JSONParser.cpp:72-129.
    The end of input closes the string (line 72). The accumulator is the reversed output. *)
Fixpoint str_body (s : bstr) (acc : bstr) : pres bstr :=
  match s with
  | [] => POk (rev acc) []
  | c :: r =>
      if Ascii.eqb c QUOTE then POk (rev acc) r
      else if Ascii.eqb c BACKSLASH then
        match r with
        | [] => PThrow
        | e :: r1 =>
            if Ascii.eqb e (chr 117) then
              match r1 with
              | h1 :: h2 :: h3 :: h4 :: r5 =>
                  match hex4 h1 h2 h3 h4 with
                  | Some cp => str_body r5 (rev (utf8 cp) ++ acc)
                  | None => PThrow
                  end
              | _ => PThrow
              end
            else match simple_escape e with
                 | Some x => str_body r1 (x :: acc)
                 | None => PThrow
                 end
        end
      else str_body r (c :: acc)
  end.

(** JsonParser::parseString, JSONParser.cpp:67-130. *)
Definition parse_string (s : bstr) : pres bstr :=
  match skip_ws s with
  | c :: r => if Ascii.eqb c QUOTE then str_body r [] else PThrow
  | [] => PThrow
  end.

Definition is_sign (c : ascii) : bool := (Ascii.eqb c (chr 45) || Ascii.eqb c (chr 43))%bool.

(** Take one leading byte if it satisfies p. *)
Definition take1 (p : ascii -> bool) (s : bstr) : bstr * bstr :=
  match s with
  | c :: r => if p c then ([c], r) else ([], s)
  | [] => ([], [])
  end.

(** The text parseNumber scans, JSONParser.cpp:133-147: the numeral, whether it is a
    float, the rest. *)
Definition scan_number (s : bstr) : bstr * bool * bstr :=
  let (sg, s1) := take1 is_sign s in
  let (ip, s2) := span is_digit s1 in
  let (dot, s3) := take1 (fun c => Ascii.eqb c (chr 46)) s2 in
  let (fp, s4) := match dot with [] => ([], s3) | _ => span is_digit s3 end in
  let (ee, s5) := take1 is_e s4 in
  let (es, s6) := match ee with [] => ([], s5) | _ => take1 is_sign s5 end in
  let (ed, s7) := match ee with [] => ([], s6) | _ => span is_digit s6 end in
  (sg ++ ip ++ dot ++ fp ++ ee ++ es ++ ed,
   match dot, ee with [], [] => false | _, _ => true end,
   s7).

(** JsonParser::parseNumber, JSONParser.cpp:132-159. It never throws: a failed
    conversion yields null, possibly without consuming anything. *)
Definition parse_number (s : bstr) : json * bstr :=
  let '(num, isFloat, rest) := scan_number (skip_ws s) in
  if isFloat then
    (match stod num with Some d => JDbl d | None => JNull end, rest)
  else
    (match stoll num with Some z => JInt z | None => JNull end, rest).

Definition number_or (s : bstr) : pres json :=
  let (v, r) := parse_number s in POk v r.

(** JsonParser::parseValue 194-212, parseArray 161-174 and parseObject 176-192.
    [arr_loop] and [obj_loop] are the while(true) loops. *)
Fixpoint parse_value (fuel : nat) (s : bstr) : pres json :=
  match fuel with
  | O => PFuel
  | S f =>
      let s1 := skip_ws s in
      match s1 with
      | [] => PThrow
      | c :: r =>
          if Ascii.eqb c QUOTE then
            match parse_string s1 with
            | POk x r' => POk (JStr x) r'
            | PThrow => PThrow
            | PFuel => PFuel
            end
          else if Ascii.eqb c LBRACE then
            match match_char RBRACE r with
            | Some r' => POk (JObj []) r'
            | None => obj_loop f r []
            end
          else if Ascii.eqb c LBRACK then
            match match_char RBRACK r with
            | Some r' => POk (JArr []) r'
            | None => arr_loop f r []
            end
          else if starts_with (bs "true") s1 then POk (JBool true) (skipn 4 s1)
          else if starts_with (bs "false") s1 then POk (JBool false) (skipn 5 s1)
          else if starts_with (bs "null") s1 then POk JNull (skipn 4 s1)
          else number_or s1
      end
  end
with arr_loop (fuel : nat) (s : bstr) (acc : list json) : pres json :=
  match fuel with
  | O => PFuel
  | S f =>
      match parse_value f s with
      | PThrow => PThrow
      | PFuel => PFuel
      | POk v r =>
          match match_char RBRACK r with
          | Some r' => POk (JArr (acc ++ [v])) r'
          | None =>
              match match_char COMMA r with
              | Some r' => arr_loop f r' (acc ++ [v])
              | None => PThrow
              end
          end
      end
  end
with obj_loop (fuel : nat) (s : bstr) (acc : obj) : pres json :=
  match fuel with
  | O => PFuel
  | S f =>
      match parse_string s with
      | PThrow => PThrow
      | PFuel => PFuel
      | POk key r0 =>
          match match_char COLON r0 with
          | None => PThrow
          | Some r1 =>
              match parse_value f r1 with
              | PThrow => PThrow
              | PFuel => PFuel
              | POk v r =>
                  match match_char RBRACE r with
                  | Some r' => POk (JObj (obj_set key v acc)) r'
                  | None =>
                      match match_char COMMA r with
                      | Some r' => obj_loop f r' (obj_set key v acc)
                      | None => PThrow
                      end
                  end
              end
          end
      end
  end.

(** JsonParser(json, start).parseValue() with the suffix at start. The fuel is the
    bound proved sufficient. *)
Definition parse_json (s : bstr) : pres json := parse_value (2 * length s + 1) s.

(** parseSimpleJSON, JSONParser.cpp:280-302. None is undefined behaviour: front() and
    back() of an empty string (line 289). A one-byte string consisting of a quote makes
    the length of substr wrap to 2^64-1, which substr clamps. Simplification: stod is
    called on arbitrary text here; texts with inf/nan/hex spellings are outside [stod]. *)
Definition parse_simple (s : bstr) : option json :=
  if beq s (bs "null") then Some JNull
  else if beq s (bs "true") then Some (JBool true)
  else if beq s (bs "false") then Some (JBool false)
  else match s with
       | [] => None
       | c :: r =>
           if (Ascii.eqb c QUOTE && Ascii.eqb (last s c) QUOTE)%bool then
             Some (JStr (match r with [] => [] | _ => removelast r end))
           else match find_char (chr 46) s with
                | Some _ => Some (match stod s with Some d => JDbl d | None => JNull end)
                | None => Some (match stoll s with Some z => JInt z | None => JNull end)
                end
       end.
