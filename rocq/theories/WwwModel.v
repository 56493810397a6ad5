(** The client's WWW-Authenticate parser and the server's challenge. *)
From Coq Require Import Ascii String List Arith NArith ZArith Bool.
From Verif Require Import StrModel MapModel AuthModel.
Import ListNotations.
Local Open Scope nat_scope.

Definition COMMA_ : ascii := chr 44.
Definition EQUALS : ascii := chr 61.

(** Space or tab. *)
Definition is_ht (c : ascii) : bool := (Ascii.eqb c SPACE || Ascii.eqb c TAB)%bool.

(** skipSpaces, WwwAuthenticate.cpp:21-25. A position in the header is modelled by the rest
    of the header from there. *)
Definition skip_ht (s : bstr) : bstr := drop_while is_ht s.

(** The bytes that end a token, WwwAuthenticate.cpp:32. *)
Definition stops (c : ascii) : bool :=
  (is_ht c || Ascii.eqb c EQUALS || Ascii.eqb c COMMA_ || Ascii.eqb c QUOTE)%bool.

(** parseToken, WwwAuthenticate.cpp:27-42. None: false. *)
Definition parse_token (s : bstr) : option (bstr * bstr) :=
  match span (fun c => negb (stops c)) s with
  | ([], _) => None
  | (t, r) => Some (t, r)
  end.

(** The loop of parseQuotedString, WwwAuthenticate.cpp:50-67, after the opening quote. *)
Fixpoint parse_quoted (s : bstr) : option (bstr * bstr) :=
  match s with
  | [] => None
  | c :: r =>
      if Ascii.eqb c BACKSLASH then
        match r with
        | [] => None
        | d :: r' => option_map (fun p => (d :: fst p, snd p)) (parse_quoted r')
        end
      else if Ascii.eqb c QUOTE then Some ([], r)
      else option_map (fun p => (c :: fst p, snd p)) (parse_quoted r)
  end.

(** Trailing spaces off, then leading ones, WwwAuthenticate.cpp:139-149. *)
Definition trim_ht (s : bstr) : bstr := skip_ht (rev (skip_ht (rev s))).

(** How the parser ends: the loop of the model ran out of steps (shown impossible), false, or
    true with the parameters. *)
Inductive www := WwwStuck | WwwFalse | WwwTrue (params : list (bstr * bstr)).

(** A value after the equals sign, WwwAuthenticate.cpp:126-150. None: return false. *)
Definition parse_value (s : bstr) : option (bstr * bstr) :=
  match s with
  | c :: r =>
      if Ascii.eqb c QUOTE then parse_quoted r
      else let '(v, r') := span (fun c => negb (Ascii.eqb c COMMA_)) s in Some (trim_ht v, r')
  | [] => Some ([], [])
  end.

(** The parameter loop, WwwAuthenticate.cpp:91-157. *)
Fixpoint params_loop (fuel : nat) (s : bstr) (acc : list (bstr * bstr)) : www :=
  match fuel with
  | 0 => WwwStuck
  | S n =>
    match s with
    | [] => WwwTrue acc
    | c :: r =>
      let s1 := skip_ht (if Ascii.eqb c COMMA_ then skip_ht r else s) in
      match s1 with
      | [] => WwwTrue acc
      | _ =>
        match parse_token s1 with
        | None => WwwTrue acc
        | Some (k, s2) =>
          let key := lower k in
          match skip_ht s2 with
          | e :: s3 =>
              if Ascii.eqb e EQUALS then
                match parse_value (skip_ht s3) with
                | None => WwwFalse
                | Some (v, s4) => params_loop n (skip_ht s4) (aset key v acc)
                end
              else params_loop n (e :: s3) (aset key [] acc)
          | [] => params_loop n [] (aset key [] acc)
          end
        end
      end
    end
  end.

(** parseWwwAuthenticate, WwwAuthenticate.cpp:70-160. The scheme of an accepted header is
    bearer. *)
Definition parse_www (header : bstr) : www :=
  match parse_token (skip_ht header) with
  | None => WwwFalse
  | Some (scheme, r) =>
      if beq (lower scheme) (bs "bearer") then params_loop (S (length r)) (skip_ht r) []
      else WwwFalse
  end.

(** The quote lambda, HTTPServer.cpp:666-676. *)
Definition quote (s : bstr) : bstr :=
  QUOTE :: flat_map (fun c => if (Ascii.eqb c BACKSLASH || Ascii.eqb c QUOTE)%bool
                              then [BACKSLASH; c] else [c]) s ++ [QUOTE].

(** The WWW-Authenticate value of a refused request, HTTPServer.cpp:678-691. None: no such
    header. *)
Definition challenge (o : bearer_opts) (r : bearer_result) : option bstr :=
  match br_challenge r, bo_metadata_url o with
  | true, u :: url =>
      let scope := match bo_required o with
                   | [] => []
                   | l => bs ", scope=" ++ quote (join [SPACE] l)
                   end in
      Some (bs "Bearer resource_metadata=" ++ (u :: url) ++
            (if N.eqb (br_status r) 403 then
               bs ", error=" ++ quote (bs "insufficient_scope") ++ scope ++
               match br_message r with
               | [] => []
               | m => bs ", error_description=" ++ quote m
               end
             else scope))
  | _, _ => None
  end.
