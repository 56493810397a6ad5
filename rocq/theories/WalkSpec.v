(** What a client may expect of a walk through the pages of a list. *)
From Coq Require Import Ascii String List Arith NArith ZArith Bool.
From Verif Require Import StrModel DoubleModel JsonModel MapModel RpcModel TaskModel DescModel RegModel ValModel CacheModel CacheSpec WalkModel.
Import ListNotations.
Local Open Scope nat_scope.

(** The parameters of a request for the page at a cursor: the cursor and the limit, if there are
    any, and nothing else. *)
Definition wanted (limit : option Z) : option json :=
  match limit with Some n => if Z.ltb 0 n then Some (JInt n) else None | None => None end.
Definition asked_for (cursor : option bstr) (limit : option Z) (p : option json) : Prop :=
  (p = None /\ cursor = None /\ wanted limit = None) \/
  exists o, p = Some (JObj o) /\ obj_get (bs "cursor") o = option_map JStr cursor /\ obj_get (bs "limit") o = wanted limit /\
    forall m, m <> bs "cursor" -> m <> bs "limit" -> obj_get m o = None.

(** The cursor of a page: a string, or an integer, which is sent back in decimal. *)
Definition cursor_in (o : obj) (next : option bstr) : Prop :=
  match next with
  | None => obj_get (bs "nextCursor") o = None
  | Some c => obj_get (bs "nextCursor") o = Some (JStr c) \/ exists z, obj_get (bs "nextCursor") o = Some (JInt z) /\ c = print_Z z
  end.

(** The reply is a page with these entries. *)
Definition shows (k : lkind) (r : reply) (os : list obj) (next : option bstr) : Prop :=
  exists o, is_result r (JObj o) /\ obj_get (list_key k) o = Some (JArr (map JObj os)) /\ cursor_in o next.

(** The reply is an error, or no reply at all, or has no result. *)
Definition refuses (r : reply) : Prop := (exists q, r = RResponse q) /\ forall v, ~ is_result r v.

(** These are all the entries of the server's pages, from the first to one without a cursor, each
    page asked for with the cursor of the one before. before: the requests so far; all: all of them
    in the end. *)
Inductive whole (srv : pager) (k : lkind) (limit : option Z) : list (option json) -> option bstr -> list (option json) -> list entry -> Prop :=
| whole_last before cur p os :
    asked_for cur limit p -> shows k (srv before p) os None -> whole srv k limit before cur (before ++ [p]) (map (item k) os)
| whole_more before cur p os c all l :
    asked_for cur limit p -> shows k (srv before p) os (Some c) -> whole srv k limit (before ++ [p]) (Some c) all l ->
    whole srv k limit before cur all (map (item k) os ++ l).

(** The full property: a list that is returned is whole, and one is returned or an exception is
    thrown. *)
Definition whole_or_fails : Prop :=
  forall strict srv k limit pages l asked, list_everything strict k srv limit pages = (WDone l, asked) -> whole srv k limit [] None asked l.
Definition comes_back : Prop := forall strict srv k limit, exists pages, fst (list_everything strict k srv limit pages) <> WAsking.

(** A reply was given in the walk that sent these requests. *)
Definition given (srv : pager) (asked : list (option json)) (r : reply) : Prop :=
  exists before p more, asked = before ++ p :: more /\ r = srv before p.
