(** Reading a resource in pieces while its text changes between them. *)
From Coq Require Import Ascii String List Arith NArith ZArith Bool.
From Verif Require Import StrModel DoubleModel JsonModel MapModel TaskModel DescModel RegModel TmplModel ReadModel.
Import ListNotations.
Local Open Scope nat_scope.

(** The loop of doReadAllResourceInChunks, include/mcp/typed/ClientTyped.h:94-123, as read_loop of
    ReadModel, with ask i for the server as it is when it gets the i-th request; and the number of
    requests sent. *)
Fixpoint read_loop_at (strict : bool) (ask : nat -> json -> json) (uri : bstr) (chunk : N) (fuel : nat) (i : nat) (offset : N)
  (agg : list json) : collected * nat :=
  match fuel with
  | 0 => (CFuel, i)
  | S f =>
      match read_range strict (ask i) uri (Some (to_i64 offset)) (Some (to_i64 chunk)) with
      | inl what => (CThrow what, S i)
      | inr [] => (CDone agg, S i)
      | inr part =>
          match text_bytes part with
          | 0 => (CDone (agg ++ part), S i)
          | n => read_loop_at strict ask uri chunk f (S i) (N.modulo (offset + N.of_nat n) two64) (agg ++ part)
          end
      end
  end.

(** doReadAllResourceInChunks, ClientTyped.h:88-124. *)
Definition read_all_at (strict : bool) (ask : nat -> json -> json) (uri : bstr) (chunk : N) (fuel : nat) : collected * nat :=
  if N.eqb chunk 0 then (CThrow (bs "chunkSize must be > 0"), 0) else read_loop_at strict ask uri chunk fuel 0 0 [].
