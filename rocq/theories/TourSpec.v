(** Following the cursors of a list while entries are registered and unregistered between the
    pages. There is no model file: each page is answered by the handlers of RegModel from what is
    registered at that moment. *)
From Coq Require Import Ascii String List Sorted Arith NArith ZArith Bool.
From Verif Require Import StrModel JsonModel MapModel TaskModel TaskSpec DescModel RegModel RegSpec.
Import ListNotations.
Local Open Scope nat_scope.

(** A client follows the cursors, asking for n items at a time, until there is no next one. Each
    request is answered by the next of the servers, which are one server at successive moments. *)
Inductive tour (key : bstr) (n : Z) : option bstr -> list (option json -> json) -> list (list json) -> Prop :=
| tour_last c ask params items :
    asks n c params -> page key (ask params) items None -> tour key n c [ask] [items]
| tour_more c ask params items c' more rest :
    asks n c params -> page key (ask params) items (Some c') -> tour key n (Some c') more rest ->
    tour key n c (ask :: more) (items :: rest).

(** What is to be shown of a history of calls, as a relation between the two: tools_of and the
    like. An entry of the given name is there. *)
Definition there {A : Type} (shows : list reg_op -> list A -> Prop) (name : A -> bstr) (m : bstr) (ops : list reg_op) : Prop :=
  exists l x, shows ops l /\ In x l /\ name x = m.

(** From one moment to the next, no name that comes before m is lost, or none is new. *)
Fixpoint successive (R : list reg_op -> list reg_op -> Prop) (moments : list (list reg_op)) : Prop :=
  match moments with
  | a :: ((b :: _) as r) => R a b /\ successive R r
  | _ => True
  end.
Definition none_lost {A : Type} (shows : list reg_op -> list A -> Prop) (name : A -> bstr) (m : bstr) : list (list reg_op) -> Prop :=
  successive (fun a b => forall k, before k m -> there shows name k a -> there shows name k b).
Definition none_new {A : Type} (shows : list reg_op -> list A -> Prop) (name : A -> bstr) (m : bstr) : list (list reg_op) -> Prop :=
  successive (fun a b => forall k, before k m -> there shows name k b -> there shows name k a).

(** How often a name is among entries. *)
Definition times {A : Type} (name : A -> bstr) (m : bstr) (l : list A) : nat := length (filter (fun x => beq (name x) m) l).

(** The part of C205 that holds, for one of the lists. ask: the answers of the server that has
    been through these calls. *)
Definition tour_good {A : Type} (shows : list reg_op -> list A -> Prop) (name : A -> bstr) (js : A -> json) (key : bstr)
  (ask : list reg_op -> option json -> json) : Prop :=
  forall n moments pages, (0 < n < 2 ^ 63)%Z -> Forall (fun ops => (N.of_nat (length ops) < 2 ^ 63)%N) moments ->
  tour key n None (map ask moments) pages ->
  exists found : list (list A), pages = map (map js) found /\
    (** every page shows entries of its moment, at most n of them *)
    Forall2 (fun ops p => length p <= Z.to_nat n /\ exists l, shows ops l /\ incl p l) moments found /\
    (** what is there throughout is found, if nothing before it is lost on the way *)
    (forall m, Forall (there shows name m) moments -> none_lost shows name m moments -> 1 <= times name m (concat found)) /\
    (** nothing is found twice, if nothing before it is new on the way *)
    (forall m, none_new shows name m moments -> times name m (concat found) <= 1).

(** The walk comes to an end, whatever is registered meanwhile, as long as no more than size
    entries are there at any time: it asks for no more than size / n + 1 pages. *)
Definition tour_ends {A : Type} (shows : list reg_op -> list A -> Prop) (key : bstr) (ask : list reg_op -> option json -> json) : Prop :=
  forall n size (moment : nat -> list reg_op), (0 < n < 2 ^ 63)%Z -> (forall i, (N.of_nat (length (moment i)) < 2 ^ 63)%N) ->
  (forall i l, shows (moment i) l -> length l <= size) ->
  exists k pages, tour key n None (map (fun i => ask (moment i)) (seq 0 (S k))) pages /\ k * Z.to_nat n <= size.

(** The full property, for tools. *)
Definition tools_toured : Prop :=
  forall n moments pages, (0 < n < 2 ^ 63)%Z -> Forall (fun ops => (N.of_nat (length ops) < 2 ^ 63)%N) moments ->
  successive (fun a b => exists more, b = a ++ more) moments ->
  tour (bs "tools") n None (map (fun ops => tools_list (reg_run ops)) moments) pages ->
  forall t, Forall (fun ops => exists h, tool_now (tl_name t) (rev ops) = Some (t, h)) moments ->
  exists a b, concat pages = a ++ tool_json t :: b /\ ~ In (tool_json t) (a ++ b).
