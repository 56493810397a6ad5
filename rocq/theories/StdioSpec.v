(** Independent specification for the stdio transport. *)
From Coq Require Import Ascii String List Arith NArith ZArith Bool.
From Verif Require Import StrModel FramerModel DoubleModel JsonModel RpcModel RouterModel PendModel WqModel StdioModel MemModel.
Import ListNotations.
Local Open Scope nat_scope.

(** Total length of a list of frames. *)
Definition total (l : list bstr) : N := fold_right (fun f n => (size f + n)%N) 0%N l.

(** The frames taken from callers and not yet completely written: the one being written and
    those behind it. *)
Definition held (w : wq) : list bstr :=
  match w_writer w with WFrame f _ => [f] | _ => [] end ++ w_queue w.

(** How much of the frame being written has gone out. *)
Definition partial (w : wq) : N :=
  match w_writer w with WFrame _ t => N.of_nat t | _ => 0%N end.

(** The error every failed request receives. *)
Definition failure (k msg : bstr) : response := error_response (IdStr k) (-32603) msg None.

(** Why ticket t, registered under id string k, may complete with response r after the
    history vs from state s0. *)
Definition stdio_cause (s0 : stdio) (vs : list sev) (t : nat) (k : bstr) (r : response) : Prop :=
  (id_key (rs_id r) = k /\
     exists h m, In (SMessage h m) vs /\ classify m = KResponse /\ deser_response response0 m = (true, r)) \/
  (r = failure k (bs "Request timeout") /\
     exists vs1 vs2 rq d, vs = vs1 ++ SSweep :: vs2 /\ In (t, (rq, d)) (st_reg (stdio_run s0 vs1)) /\
       (d <= st_now (stdio_run s0 vs1))%Z) \/
  (r = failure k (bs "Transport closed") /\ In SFailAll vs) \/
  (r = failure k (bs "Transport not connected") /\
     exists vs1 rq vs2, vs = vs1 ++ SBegin rq :: vs2 /\ st_connected (stdio_run s0 vs1) = false).

(** The id strings under which requests were registered. *)
Definition keys_used (s : stdio) : list bstr := map snd (pt_keys (st_tab s)).

(** The configured timeout is never changed. *)
Definition fixed_timeout (v : sev) : Prop := match v with SSetTimeout _ => False | _ => True end.
