(** The helpers that walk through the pages of a list, with a server that may answer anything. *)
From Coq Require Import Ascii String List Arith NArith ZArith Bool.
From Verif Require Import StrModel DoubleModel JsonModel MapModel RpcModel TaskModel DescModel RegModel ValModel CacheModel.
Import ListNotations.
Local Open Scope nat_scope.

(** One item of a page: PopulateToolFromListItem and its siblings as called in
    src/mcp/Client.cpp:1570-1572, 1706-1708, 1842-1844, 1984-1986. *)
Definition item (k : lkind) (o : obj) : entry :=
  match k with
  | KTools => ETool (parse_tool o) | KResources => EResource (parse_resource o)
  | KTemplates => ETemplate (parse_template o) | KPrompts => EPrompt (parse_prompt o)
  end.

(** coListToolsPaged, coListResourcesPaged, coListResourceTemplatesPaged and coListPromptsPaged once
    the future of the request is ready, Client.cpp:1536-1587, 1672-1723, 1808-1862, 1950-2001: the
    entries and the cursor they return. None: they throw. *)
Definition paged_reply (strict : bool) (k : lkind) (r : reply) : option (list entry * option bstr) :=
  match r with
  | RException => None
  | RResponse None => Some ([], None)
  | RResponse (Some p) =>
      match rs_error p, rs_result p with
      | None, Some v => if (strict && negb (CacheModel.valid_list k v))%bool then None else Some (parse_page (list_key k) (item k) v)
      | _, _ => Some ([], None)
      end
  end.

(** A server: its reply to a request for a page depends on the requests it had before. *)
Definition pager := list (option json) -> option json -> reply.

(** listAllTools, listAllResources, listAllResourceTemplates and listAllPrompts,
    include/mcp/typed/ClientTyped.h:351-406, and the parameters of all requests sent. WDone: the
    list is returned; WThrew: the exception of a page leaves the helper through its future;
    WAsking: it is still asking after so many pages. *)
Inductive walked := WDone (l : list entry) | WThrew | WAsking.
Fixpoint walk (strict : bool) (k : lkind) (srv : pager) (limit : option Z) (pages : nat) (cursor : option bstr)
  (asked : list (option json)) (all : list entry) : walked * list (option json) :=
  match pages with
  | 0 => (WAsking, asked)
  | S n =>
      let p := page_params cursor limit in
      match paged_reply strict k (srv asked p) with
      | None => (WThrew, asked ++ [p])
      | Some (l, None) => (WDone (all ++ l), asked ++ [p])
      | Some (l, Some c) => walk strict k srv limit n (Some c) (asked ++ [p]) (all ++ l)
      end
  end.
Definition list_everything (strict : bool) (k : lkind) (srv : pager) (limit : option Z) (pages : nat) : walked * list (option json) :=
  walk strict k srv limit pages None [] [].
