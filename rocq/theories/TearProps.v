(** C209: reading a changing resource in pieces. *)
From Coq Require Import Ascii String List Arith NArith ZArith Bool Lia.
From Verif Require Import StrModel DoubleModel JsonModel ObjSpec MapModel TaskModel DescModel RegModel TmplModel ValModel ReadModel ObjProofs ReadSpec ReadProofs TearModel TearSpec TearProofs.
Import ListNotations.
Local Open Scope nat_scope.

(** Whatever the text does meanwhile: every piece returned is from the text of its own moment, begins
    where the pieces before it end and is not empty, and the read stops at the first moment whose
    text is no longer than what it has. *)
Theorem C209_pieces : forall net strict c h u chunk fuel items n, (forall v, same v (net v)) -> u <> [] -> follows h u -> (0 < chunk < 2 ^ 63)%N ->
  read_all_at strict (asked_at net c h) u chunk fuel = (CDone items, n) ->
  exists ts, Forall2 text_item items ts /\ pieced (hi_text h) ts /\ n = S (length ts) /\ length (hi_text h (length ts)) <= length (concat ts).
Proof. intros net strict c h u chunk fuel items n A B C D. exact (all_pieces net A strict c h u B C chunk D fuel items n). Qed.
Print Assumptions C209_pieces.

(** The part that holds: of a text that only grows at its end, as a log does, the read returns the text of its last moment.
    Missing: texts that change otherwise. *)
Theorem C209_growing_partial : forall net strict c h u chunk fuel items n, (forall v, same v (net v)) -> u <> [] -> follows h u -> (0 < chunk < 2 ^ 63)%N ->
  grows (hi_text h) -> read_all_at strict (asked_at net c h) u chunk fuel = (CDone items, S n) -> text_of items (hi_text h n).
Proof.
  intros net strict c h u chunk fuel items n A B C D G H. destruct (C209_pieces _ _ _ _ _ _ _ _ _ A B C D H) as (ts & F & P & E & L).
  injection E as ->. exists ts. split; [exact F|]. exact (grown_all _ G ts P L).
Qed.
Print Assumptions C209_growing_partial.

(** It never fails, and it ends if the text stays within some size, after at most one request more
    than that many bytes. *)
Theorem C209_ends : forall net strict c h u chunk size, (forall v, same v (net v)) -> u <> [] -> follows h u -> (0 < chunk < 2 ^ 63)%N ->
  (N.of_nat size < 2 ^ 63)%N -> (forall i, length (hi_text h i) <= size) ->
  exists items n, read_all_at strict (asked_at net c h) u chunk (S size) = (CDone items, n) /\ n <= S size.
Proof.
  intros net strict c h u chunk size A B C D E F. unfold read_all_at. destruct (N.eqb_spec chunk 0) as [Z|Z]; [lia|].
  destruct (loop_ends net A strict c h u B C chunk D size E F (S size) 0 0 [] (Nat.le_0_l _) ltac:(lia)) as (items & n & R & L). exists items, n. split; [exact R|lia].
Qed.
Print Assumptions C209_ends.

(** With a server that does not change, this is the read of C35. *)
Theorem C209_steady : forall strict ask u chunk fuel, fst (read_all_at strict (fun _ => ask) u chunk fuel) = read_all strict ask u chunk fuel.
Proof. exact steady. Qed.
Print Assumptions C209_steady.

(** A text that is replaced. *)
Definition one_text (t : bstr) : readers := {| rd_direct := fun _ _ => POkay [make_text t]; rd_template := fun _ _ _ => PThrow (bs "no") |}.
Definition of_texts (texts : nat -> bstr) : history :=
  {| hi_reg := fun _ => reg_run [RegResourceUri (bs "a") (Some 3)]; hi_read := fun i => one_text (texts i); hi_text := texts |}.
Lemma of_texts_follows : forall texts, (forall i, (N.of_nat (length (texts i)) < 2 ^ 63)%N) -> follows (of_texts texts) (bs "a").
Proof.
  intros texts L i. split; [apply L|]. exists [make_text (texts i)]. split; [left; exists 3; split; reflexivity|].
  exists [texts i]. split; [constructor; [apply make_text_item|constructor]|]. cbn [concat]. symmetry. apply app_nil_r.
Qed.
Definition plain_cfg : read_cfg := {| rc_strict := true; rc_ui := false; rc_exp := [] |}.
Definition replaced : nat -> bstr := fun i => match i with 0 => bs "old" | _ => bs "new" end.

(** Half of the old text and half of the new one. *)
Theorem C209_torn_refuted : read_all_at true (asked_at (fun v => v) plain_cfg (of_texts replaced)) (bs "a") 2 9
  = (CDone [make_text (bs "ol"); make_text (bs "w")], 3).
Proof. vm_compute. reflexivity. Qed.
Print Assumptions C209_torn_refuted.

Theorem C209_refuted : ~ untorn.
Proof.
  intro H. destruct (H (fun v => v) true plain_cfg (of_texts replaced) (bs "a") 2%N 9 _ _ same_refl ltac:(discriminate)
    (of_texts_follows replaced ltac:(intros [|i]; vm_compute; reflexivity)) ltac:(split; vm_compute; reflexivity) C209_torn_refuted) as (i & _ & ts & F & E).
  inversion F as [|a t1 l l1 T1 F1]; subst. inversion F1 as [|b t2 l' l2 T2 F2]; subst. inversion F2; subst.
  destruct T1 as (o1 & O1 & _ & G1). injection O1 as <-. vm_compute in G1. injection G1 as <-.
  destruct T2 as (o2 & O2 & _ & G2). injection O2 as <-. vm_compute in G2. injection G2 as <-. destruct i as [|i]; vm_compute in E; discriminate E.
Qed.
Print Assumptions C209_refuted.

(** A log that is written to while it is read. *)
Definition logged : nat -> bstr := fun i => match i with 0 => bs "one" | _ => bs "one two" end.
Example C209_log : follows (of_texts logged) (bs "a") /\ grows logged /\ (forall i, length (logged i) <= 7) /\
  read_all_at true (asked_at (fun v => v) plain_cfg (of_texts logged)) (bs "a") 2 9
  = (CDone [make_text (bs "on"); make_text (bs "e "); make_text (bs "tw"); make_text (bs "o")], 5).
Proof.
  split; [apply of_texts_follows; intros [|i]; vm_compute; reflexivity|]. split; [intros [|i]; [exists (bs " two")|exists []]; vm_compute; reflexivity|].
  split; [intros [|i]; vm_compute; lia|]. vm_compute. reflexivity.
Qed.
