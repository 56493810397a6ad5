(** The helpers that put together the arguments and messages of prompts. *)
From Coq Require Import Ascii String List Arith ZArith Bool.
From Verif Require Import StrModel DoubleModel JsonModel MapModel TaskModel DescModel ValModel.
Import ListNotations.
Local Open Scope nat_scope.

(** typed::prompts::ArgsBuilder, include/mcp/typed/Prompts.h:21-49: the calls made on it. *)
Inductive args_call := GAdd (k : bstr) (v : json) | GString (k v : bstr) | GInt (k : bstr) (n : Z) | GBool (k : bstr) (b : bool).
Definition args_step (o : obj) (c : args_call) : obj :=
  match c with
  | GAdd k v => obj_set k v o
  | GString k v => obj_set k (JStr v) o
  | GInt k n => obj_set k (JInt n) o
  | GBool k b => obj_set k (JBool b) o
  end.
Definition args_build (cs : list args_call) : json := JObj (fold_left args_step cs []).

(** makeTextMessages, Prompts.h:52-59. *)
Definition text_messages (ts : list bstr) : list json :=
  map (fun t => JObj (obj_set (bs "text") (JStr t) (obj_set (bs "type") (JStr (bs "text")) []))) ts.

(** makeTextPromptResult, Prompts.h:86-88: the description and the messages. *)
Definition text_prompt (d : bstr) (ts : list bstr) : bstr * list json := prompt_build (PDescribe d :: map PText ts).
