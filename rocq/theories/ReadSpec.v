(** Texts and windows. *)
From Coq Require Import Ascii String List Permutation Arith NArith ZArith Bool.
From Verif Require Import StrModel DoubleModel JsonModel JsonSpec ObjSpec MapModel TaskModel DescModel RegModel TmplModel ReadModel.
Import ListNotations.
Local Open Scope nat_scope.

(** A content item that is text. *)
Definition text_item (v : json) (t : bstr) : Prop :=
  exists o, v = JObj o /\ obj_get (bs "type") o = Some (JStr (bs "text")) /\ obj_get (bs "text") o = Some (JStr t).

(** Contents that are all text, and the text. *)
Definition text_of (contents : list json) (text : bstr) : Prop := exists ts, Forall2 text_item contents ts /\ text = concat ts.

(** The server's handler for a URI yields these contents. *)
Definition yields (g : registry) (rd : readers) (u : bstr) (contents : list json) : Prop :=
  (exists h, resolve g u = RDirect (Some h) /\ rd_direct rd h u = POkay contents) \/
  (exists h vs, resolve g u = RTemplate h vs /\ rd_template rd h u vs = POkay contents).

(** A read request with these parameters. *)
Definition wants (u : bstr) (offset len : option Z) (params : option json) : Prop :=
  exists o, params = Some (JObj o) /\ obj_get (bs "uri") o = Some (JStr u) /\ obj_get (bs "offset") o = option_map JInt offset /\
    obj_get (bs "length") o = option_map JInt len.

(** Offsets are not negative and lengths are positive. *)
Definition sensible (offset len : option Z) : Prop :=
  (forall z, offset = Some z -> (0 <= z)%Z) /\ (forall z, len = Some z -> (0 < z)%Z).

(** A result carrying one piece of text, none if it is empty. *)
Definition carries (a : answer) (t : bstr) : Prop :=
  exists o items, a = AResult (JObj o) /\ obj_get (bs "contents") o = Some (JArr items) /\
    ((t = [] /\ items = []) \/ (t <> [] /\ exists v, items = [v] /\ text_item v t)).

(** The longest piece allowed by a clamp; 0 means no clamp. *)
Definition within (clamp : N) (n : nat) : Prop := clamp = 0%N \/ (N.of_nat n <= clamp)%N.

(** The largest window the server advertises in capabilities.experimental; 0 for none. *)
Definition advertises (exp : obj) (n : N) : Prop :=
  let positive z := exists o, obj_get (bs "resourceReadChunking") exp = Some (JObj o) /\
                              obj_get (bs "maxChunkBytes") o = Some (JInt z) /\ (0 < z)%Z in
  (exists z, positive z /\ n = Z.to_N z) \/ ((forall z, ~ positive z) /\ n = 0%N).

(** Successive windows: each starts where the text received so far ends; window sizes may vary. *)
Inductive tiles (serve : option json -> answer) (u : bstr) : nat -> list bstr -> Prop :=
| tiles_end off len params a : (0 < len)%Z -> wants u (Some (Z.of_nat off)) (Some len) params -> serve params = a -> carries a [] ->
    tiles serve u off []
| tiles_next off len params a t ts : (0 < len)%Z -> wants u (Some (Z.of_nat off)) (Some len) params -> serve params = a -> carries a t ->
    t <> [] -> tiles serve u (off + length t) ts -> tiles serve u off (t :: ts).

(** A text cut to a limit, if there is one. *)
Definition upto (limit : option N) (t : bstr) : bstr := match limit with Some n => firstn (N.to_nat n) t | None => t end.

(** The part of a text a request gets: what follows the offset, cut to the length and the clamp. *)
Definition part (clamp : N) (offset len : option Z) (text : bstr) : bstr :=
  upto (if N.eqb clamp 0 then None else Some clamp)
    (upto (option_map Z.to_N len) (skipn (match offset with Some z => Z.to_nat z | None => 0 end) text)).

(** The first metadata object among some contents. *)
Definition first_meta (contents : list json) (m : json) : Prop :=
  exists before o after, contents = before ++ JObj o :: after /\ obj_get (bs "_meta") o = Some m /\
    Forall (fun v => forall o', v = JObj o' -> obj_get (bs "_meta") o' = None) before.
