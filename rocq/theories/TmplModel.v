(** URI templates: matching, and choosing what serves a read. *)
From Coq Require Import Ascii String List Arith NArith ZArith Bool.
From Verif Require Import StrModel DoubleModel JsonModel MapModel TaskModel DescModel RegModel.
Import ListNotations.
Local Open Scope nat_scope.

(** struct Token, src/mcp/Server.cpp:259-262. *)
Inductive token := TLit (s : bstr) | TVar (n : bstr).

Definition LBRACE : ascii := "{"%char.
Definition RBRACE : ascii := "}"%char.

Inductive tokens := TokFuel | TokBad | TokOk (l : list token).

(** The tokenizer loop, Server.cpp:264-282; s is the template from cursor on. TokBad: the
    function returns nullopt. TokFuel is never reached with enough fuel (TmplProofs). *)
Fixpoint tokenize (fuel : nat) (s : bstr) : tokens :=
  match fuel with
  | 0 => TokFuel
  | S f =>
      match s with
      | [] => TokOk []
      | _ :: _ =>
          match find_char LBRACE s with
          | None => TokOk [TLit s]
          | Some i =>
              let lit := match i with 0 => [] | S _ => [TLit (firstn i s)] end in
              let r := skipn (S i) s in
              match find_char RBRACE r with
              | None => TokBad
              | Some 0 => TokBad
              | Some j =>
                  match tokenize f (skipn (S j) r) with
                  | TokOk l => TokOk (lit ++ TVar (firstn j r) :: l)
                  | x => x
                  end
              end
          end
      end
  end.

(** ResourceTemplateVariables. *)
Definition vars := list (bstr * bstr).

(** The recursive lambda match, Server.cpp:285-318; u is the URI from uriIndex on. The variables
    are threaded through because the lambda writes to them. *)
Fixpoint tmatch (ts : list token) (u : bstr) (vs : vars) {struct ts} : bool * vars :=
  match ts with
  | [] => (match u with [] => true | _ :: _ => false end, vs)
  | TLit s :: r => if starts_with s u then tmatch r (skipn (length s) u) vs else (false, vs)
  | TVar n :: r =>
      let previous := aget n vs in
      (fix loop (m k : nat) (vs : vars) {struct m} : bool * vars :=
         match m with
         | 0 => (false, match previous with Some x => aset n x vs | None => adel n vs end)
         | S m' =>
             match tmatch r (skipn k u) (aset n (firstn k u) vs) with
             | (true, vs') => (true, vs')
             | (false, vs') => loop m' (S k) vs'
             end
         end) (S (length u)) 0 vs
  end.

(** matchResourceTemplate, Server.cpp:257-323. *)
Definition match_template (t u : bstr) : option vars :=
  match tokenize (S (length t)) t with
  | TokOk ts => match tmatch ts u [] with (true, vs) => Some vs | (false, _) => None end
  | _ => None
  end.

(** ResolvedResourceRead, src/mcp/Server.cpp:165-171. *)
Inductive resolved :=
| RDirect (h : callable)
| RTemplate (h : nat) (vs : vars)
| RAmbiguous
| RNone.

(** The loop over the templates, Server.cpp:335-352; acc is what has been found so far. *)
Fixpoint resolve_templates (l : list (template * callable)) (u : bstr) (acc : option (nat * vars)) : resolved :=
  match l with
  | [] => match acc with Some (h, vs) => RTemplate h vs | None => RNone end
  | (t, None) :: r => resolve_templates r u acc
  | (t, Some h) :: r =>
      match match_template (tp_uri t) u with
      | None => resolve_templates r u acc
      | Some vs => match acc with Some _ => RAmbiguous | None => resolve_templates r u (Some (h, vs)) end
      end
  end.

(** resolveResourceRead, Server.cpp:325-354. *)
Definition resolve (g : registry) (u : bstr) : resolved :=
  match aget u (rg_rh g) with
  | Some h => RDirect h
  | None => resolve_templates (rg_rt g) u None
  end.
